From Verif Require Import Prelude ListFacts H52np H52np_spec H52np_proofs Np2h5 Np2h5_proofs ExtSort ExtSort_spec.

(* ---------------------------------------------------------------- *)
(** ** Two readers in lockstep *)

Definition same_ix {A B} (s : rbuf A) (t : rbuf B) : Prop :=
  r_nrows s = r_nrows t /\ r_dsetix s = r_dsetix t /\
  r_buflen s = r_buflen t /\ r_bufix s = r_bufix t.

Lemma refill_same_ix A B num den (s s' : rbuf A) (t t' : rbuf B) :
  same_ix s t -> refill_buffer num den s = Ok s' -> refill_buffer num den t = Ok t' -> same_ix s' t'.
Proof.
  intros (H1 & H2 & H3 & H4). unfold refill_buffer. rewrite H1, H2, H3, H4.
  destruct (negb _).
  - destruct (r_buflen t =? 0); [discriminate|]. destruct (_ <? _).
    + destruct (_ =? _); [|discriminate]. destruct (_ =? _); [|discriminate].
      intros E1 E2. inversion E1; inversion E2; subst. unfold same_ix; cbn. auto.
    + intros E1 E2. inversion E1; inversion E2; subst. unfold same_ix. auto.
  - intros E1 E2. inversion E1; inversion E2; subst. unfold same_ix. auto.
Qed.

Lemma isempty_same_ix A B (s : rbuf A) (t : rbuf B) : same_ix s t -> isempty s = isempty t.
Proof. intros (H1 & H2 & H3 & H4). unfold isempty. now rewrite H1, H2, H3, H4. Qed.

Lemma read_loop_same_ix A B num den fuel (s s' : rbuf A) (t t' : rbuf B) amount found d1 d2 l1 l2 :
  same_ix s t ->
  read_loop num den fuel s amount found d1 = Ok (l1, s') ->
  read_loop num den fuel t amount found d2 = Ok (l2, t') -> same_ix s' t'.
Proof.
  revert s t found d1 d2. induction fuel as [|fuel IH]; intros s t found d1 d2 Hix E1 E2; [discriminate|].
  cbn [read_loop] in E1, E2. rewrite (isempty_same_ix A B s t Hix) in E1.
  destruct ((found <? amount) && negb (isempty t)).
  2:{ inversion E1; inversion E2; subst. exact Hix. }
  pose proof Hix as (H1 & H2 & H3 & H4). rewrite H3, H4 in E1.
  destruct (amount - found <? r_buflen t - r_bufix t);
    apply bind_ok in E1 as (s1 & R1 & E1); apply bind_ok in E2 as (t1 & R2 & E2);
    (eapply IH; [|exact E1|exact E2]; eapply refill_same_ix; [|exact R1|exact R2];
     unfold same_ix; cbn; auto).
Qed.

Lemma sread_same_ix A B (s s' : rbuf A) (t t' : rbuf B) amount l1 l2 :
  same_ix s t -> sread s amount = Ok (l1, s') -> sread t amount = Ok (l2, t') -> same_ix s' t'.
Proof.
  intros Hix E1 E2. unfold sread, rbuf_read in *.
  rewrite (isempty_same_ix A B s t Hix) in E1. pose proof Hix as (H1 & H2 & H3 & H4).
  destruct amount as [[|n]|]; [discriminate| |];
    (destruct (isempty t); [discriminate|];
     apply bind_ok in E1 as (r1 & E1 & F1); apply bind_ok in E1 as ([l s1] & E1 & G1);
     apply bind_ok in E2 as (r2 & E2 & F2); apply bind_ok in E2 as ([m t1] & E2 & G2);
     inversion G1; inversion G2; subst; cbn in F1, F2; inversion F1; inversion F2; subst).
  - eapply read_loop_same_ix; eassumption.
  - rewrite H3, H4 in E1. eapply read_loop_same_ix; eassumption.
Qed.

(* ---------------------------------------------------------------- *)
(** ** Reading from several buffers, at the level of row numbers *)

Fixpoint zipw {A B C} (f : A -> B -> C) (l : list A) (m : list B) : list C :=
  match l, m with a :: l', b :: m' => f a b :: zipw f l' m' | _, _ => [] end.

Definition bufok {A} (f : nat -> A) (b : rbuf A) (r : list nat) : Prop :=
  rinv A 1 4 b /\ rem A b = map f r.

Lemma sread_spec A (f : nat -> A) b r a :
  bufok f b r -> 0 < a -> r <> [] ->
  exists b', sread b (Some a) = Ok (map f (firstn a r), b') /\ bufok f b' (skipn a r).
Proof.
  intros [I R] Ha Hr. unfold sread.
  destruct (read_amount_spec A 1 4 ltac:(lia) ltac:(lia) b a I Ha) as (b' & E & I' & R' & _).
  { rewrite R. destruct r; [congruence|discriminate]. }
  rewrite E. cbn [bind]. exists b'. rewrite R, firstn_map. split; [reflexivity|].
  split; [exact I'|]. rewrite R', R. apply skipn_map.
Qed.

Lemma read_each_spec A (f : nat -> A) bufs rs amounts :
  Forall2 (bufok f) bufs rs -> Forall2 (fun a r => a <= length r) amounts rs ->
  exists blocks bufs', read_each bufs amounts = Ok (blocks, bufs') /\
    concat blocks = map f (concat (zipw (@firstn nat) amounts rs)) /\
    (blocks = [] -> Forall (fun a => a = 0) amounts) /\
    Forall2 (bufok f) bufs' (zipw (@skipn nat) amounts rs).
Proof.
  intros H. revert amounts. induction H as [|b r bufs rs Hb H IH]; intros amounts Ha.
  - inversion Ha; subst. exists [], []. cbn. auto.
  - inversion Ha as [|a r' amounts' rs' Har Ha']; subst. cbn [read_each].
    destruct (IH amounts' Ha') as (blocks & bufs' & E & C & Z & F).
    destruct (Nat.ltb_spec 0 a) as [Hlt|Hge].
    + destruct (sread_spec A f b r a Hb Hlt) as (b' & Eb & Ib).
      { destruct r; [cbn in Har; lia|discriminate]. }
      rewrite Eb. cbn [bind fst snd]. rewrite E. cbn [bind fst snd app].
      eexists _, _. split; [reflexivity|]. cbn [concat zipw]. rewrite C, map_app.
      split; [reflexivity|]. split; [discriminate|]. constructor; assumption.
    + assert (a = 0) by lia. subst a. cbn [bind fst snd]. rewrite E. cbn [bind fst snd app].
      eexists _, _. split; [reflexivity|]. cbn [zipw concat firstn skipn app].
      split; [exact C|]. split; [intros Hb0; constructor; auto|]. constructor; assumption.
Qed.

Lemma read_each_same_ix A B (bufs bufs' : list (rbuf A)) (cufs cufs' : list (rbuf B)) amounts l1 l2 :
  Forall2 same_ix bufs cufs ->
  read_each bufs amounts = Ok (l1, bufs') -> read_each cufs amounts = Ok (l2, cufs') ->
  Forall2 same_ix bufs' cufs'.
Proof.
  intros H. revert amounts bufs' cufs' l1 l2.
  induction H as [|b c bufs cufs Hb H IH]; intros amounts bufs' cufs' l1 l2 E1 E2.
  - cbn in *. inversion E1; inversion E2; subst. constructor.
  - destruct amounts as [|a amounts]; cbn [read_each] in E1, E2.
    { inversion E1; inversion E2; subst; constructor. }
    apply bind_ok in E1 as ([p1 p2] & P1 & E1). apply bind_ok in E1 as ([q1 q2] & Q1 & E1).
    apply bind_ok in E2 as ([p3 p4] & P2 & E2). apply bind_ok in E2 as ([q3 q4] & Q2 & E2).
    cbn [fst snd] in *. inversion E1; inversion E2; subst.
    constructor; [|eapply IH; eassumption].
    destruct (0 <? a).
    + apply bind_ok in P1 as ([u1 u2] & P1 & X1). apply bind_ok in P2 as ([u3 u4] & P2 & X2).
      cbn in X1, X2. inversion X1; inversion X2; subst. eapply sread_same_ix; eassumption.
    + inversion P1; inversion P2; subst. exact Hb.
Qed.

Lemma sread_all A (f : nat -> A) b r :
  bufok f b r -> dataset_empty b = true -> r <> [] ->
  exists b', sread b None = Ok (map f r, b').
Proof.
  intros [I R] Hd Hr. unfold sread, rbuf_read.
  assert (Hne : rem A b <> []) by (rewrite R; destruct r; [congruence|discriminate]).
  destruct (isempty b) eqn:He.
  { exfalso. apply Hne. apply (isempty_rem A 1 4 ltac:(lia) ltac:(lia)); assumption. }
  set (n := r_buflen b - r_bufix b).
  destruct (read_loop_spec A 1 4 ltac:(lia) ltac:(lia) (S n) b n 0 [] I) as (b' & E & I' & R' & _);
    [lia|lia|].
  rewrite E. cbn [bind fst snd app]. rewrite Nat.sub_0_r. exists b'. f_equal. f_equal.
  rewrite <- R. apply firstn_all2. unfold rem. unfold dataset_empty in Hd. apply Nat.eqb_eq in Hd.
  rewrite app_length, skipn_length, slice_length, Hd, (ri_len _ _ (ri_0 _ _ _ _ I)). unfold n. lia.
Qed.

Lemma buffer_empty_rem A (f : nat -> A) b r :
  bufok f b r -> dataset_empty b = true -> buffer_empty b = true <-> r = [].
Proof.
  intros [I R] Hd.
  assert (isempty b = true <-> buffer_empty b = true).
  { unfold isempty, buffer_empty, dataset_empty in *. rewrite Hd. cbn. tauto. }
  rewrite <- H. rewrite (isempty_rem A 1 4 ltac:(lia) ltac:(lia) b I), R. split; [apply map_eq_nil|now intros ->].
Qed.

Lemma read_rest_spec A (f : nat -> A) bufs rs :
  Forall2 (bufok f) bufs rs -> forallb (@dataset_empty A) bufs = true ->
  exists blocks, read_rest bufs = Ok blocks /\ concat blocks = map f (concat rs) /\
                 (blocks = [] <-> concat rs = []).
Proof.
  induction 1 as [|b r bufs rs Hb H IH]; intros Hd.
  - exists []. cbn. tauto.
  - cbn [forallb] in Hd. apply andb_true_iff in Hd as [Hd1 Hd2].
    destruct (IH Hd2) as (blocks & E & C & N). cbn [read_rest].
    destruct (buffer_empty b) eqn:He.
    + apply (proj1 (buffer_empty_rem A f b r Hb Hd1)) in He. subst r. cbn [negb bind].
      rewrite E. cbn [bind app concat]. exists blocks. auto.
    + assert (Hr : r <> []).
      { intros ->. rewrite (proj2 (buffer_empty_rem A f b [] Hb Hd1) eq_refl) in He. discriminate. }
      destruct (sread_all A f b r Hb Hd1 Hr) as (b' & Eb). cbn [negb]. rewrite Eb.
      cbn [bind fst]. rewrite E. cbn [bind app]. exists (map f r :: blocks).
      split; [reflexivity|]. cbn [concat]. rewrite C, map_app. split; [reflexivity|].
      split; [discriminate|]. intros X. apply app_eq_nil in X as [X _]. contradiction.
Qed.

(* ---------------------------------------------------------------- *)
(** ** Orders *)

Lemma gather_order A (f : nat -> A) blk order :
  Permutation order (seq 0 (length blk)) ->
  gather (map f blk) order = Ok (map f (map (fun i => nth i blk 0) order)) /\
  Permutation (map (fun i => nth i blk 0) order) blk.
Proof.
  intros P. split.
  - rewrite gather_map, gather_ok with (d := 0); [reflexivity|].
    intros i Hi. apply (Permutation_in _ P) in Hi. apply in_seq in Hi. lia.
  - eapply Permutation_trans; [apply Permutation_map; exact P|]. now rewrite map_nth_seq.
Qed.

Lemma map_nth_map_lt (f : nat -> Z) blk order d :
  (forall i, In i order -> i < length blk) ->
  map (fun i => nth i (map f blk) d) order = map f (map (fun i => nth i blk 0) order).
Proof.
  intros H. rewrite map_map. apply map_ext_in. intros i Hi. specialize (H i Hi).
  rewrite nth_indep with (d' := f 0) by (rewrite map_length; exact H). apply map_nth.
Qed.

Definition ksorted (f : nat -> Z) (l : list nat) : Prop := StronglySorted Z.le (map f l).

Lemma ksorted_skipn f n l : ksorted f l -> ksorted f (skipn n l).
Proof.
  unfold ksorted. rewrite <- skipn_map. generalize (map f l). clear.
  intros l H. revert n. induction H as [|x l H IH Hf]; intros n; [rewrite skipn_nil; constructor|].
  destruct n; [constructor; assumption|]. apply IH.
Qed.

Lemma ksorted_app f l1 l2 :
  ksorted f l1 -> ksorted f l2 -> (forall i j, In i l1 -> In j l2 -> (f i <= f j)%Z) ->
  ksorted f (l1 ++ l2).
Proof.
  unfold ksorted. intros H1 H2 H. rewrite map_app.
  induction l1 as [|x l1 IH]; cbn; [exact H2|].
  inversion H1 as [|? ? H1' Hf]; subst. constructor.
  - apply IH; [exact H1'|]. intros i j Hi Hj. apply H; [right; exact Hi|exact Hj].
  - apply Forall_app. split; [exact Hf|]. apply Forall_forall. intros y Hy.
    apply in_map_iff in Hy as (j & <- & Hj). apply H; [left; reflexivity|exact Hj].
Qed.

Lemma min_list_spec l t : min_list l = Ok t -> In t l /\ forall x, In x l -> (t <= x)%Z.
Proof.
  destruct l as [|x l]; cbn; [discriminate|]. intros H. inversion H; subst; clear H.
  revert x. induction l as [|y l IH]; intros x; cbn.
  - split; [now left|]. intros z [->|[]]. lia.
  - destruct (IH (Z.min x y)) as [H1 H2]. split.
    + destruct H1 as [H1|H1]; [|now right; right].
      destruct (Z.min_spec x y) as [[_ E]|[_ E]]; rewrite E in *; auto.
    + assert (fold_left Z.min l (Z.min x y) <= Z.min x y)%Z as H3 by (apply H2; now left).
      intros z Hz. destruct Hz as [Hz|[Hz|Hz]]; [subst; lia|subst; lia|].
      apply H2. now right.
Qed.

Lemma bisect_right_pos l t : StronglySorted Z.le l -> In t l -> 0 < bisect_right l t.
Proof.
  intros H Hin. destruct H as [|x l H Hf]; [contradiction|]. cbn.
  assert (x <= t)%Z.
  { destruct Hin as [->|Hin]; [lia|]. rewrite Forall_forall in Hf. auto. }
  destruct (Z.leb_spec x t); lia.
Qed.

Lemma zipw_perm amounts (rs : list (list nat)) :
  length amounts = length rs ->
  Permutation (concat (zipw (@firstn nat) amounts rs) ++ concat (zipw (@skipn nat) amounts rs)) (concat rs).
Proof.
  revert rs. induction amounts as [|a amounts IH]; intros [|r rs] H; cbn in *; try discriminate.
  - constructor.
  - rewrite <- (firstn_skipn a r) at 3. rewrite <- !app_assoc. apply Permutation_app_head.
    rewrite Permutation_app_swap_app. apply Permutation_app_head. apply IH. lia.
Qed.

Lemma in_zipw_l A B C (f : A -> B -> list C) l m c :
  In c (concat (zipw f l m)) -> exists a b, In (a, b) (combine l m) /\ In c (f a b).
Proof.
  revert m. induction l as [|a l IH]; intros [|b m]; cbn; try tauto.
  rewrite in_app_iff. intros [H|H]; [exists a, b; auto|].
  destruct (IH m H) as (a' & b' & H1 & H2). exists a', b'. auto.
Qed.

Lemma Forall_zipw A B C (P : C -> Prop) (f : A -> B -> C) l m :
  (forall a b, In (a, b) (combine l m) -> P (f a b)) -> Forall P (zipw f l m).
Proof.
  revert m. induction l as [|a l IH]; intros [|b m] H; cbn; try constructor.
  - apply H. now left.
  - apply IH. intros. apply H. now right.
Qed.

(* ---------------------------------------------------------------- *)
(** ** The merge *)

Section Merge.
Variable argsort : list Z -> list nat.
Hypothesis Hargsort : argsort_spec argsort.
Variable V : Type.
Variable vz : V.
Variable keys : list Z.
Variable vals : list (list V).
Let n := length keys.
Let kf (i : nat) : Z := nth i keys 0%Z.
Let vf (v : list V) (i : nat) : V := nth i v vz.

Record minv (rs : list (list nat)) (out : list nat) (m : merge V) : Prop := {
  mi_keys : Forall2 (bufok kf) (m_ikeys m) rs;
  mi_okey : winv Z 0%Z n keys (m_okey m) (map kf out) /\ w_fixed (m_okey m) = true;
  mi_comp : Forall2 (fun v io => Forall2 (bufok (vf v)) (fst io) rs /\
                                 Forall2 same_ix (m_ikeys m) (fst io) /\
                                 winv V vz n v (snd io) (map (vf v) out) /\
                                 w_fixed (snd io) = true) vals (m_comp m);
  mi_perm : Permutation (out ++ concat rs) (seq 0 n);
  mi_sorted : Forall (ksorted kf) rs;
  mi_out : ksorted kf out;
  mi_le : forall i j, In i out -> In j (concat rs) -> (kf i <= kf j)%Z
}.

Lemma buf_tail (b : rbuf Z) r :
  bufok kf b r -> isempty b = false -> ksorted kf r ->
  exists x B D, current_tail b = Ok x /\ skipn (r_bufix b) (r_buf b) = B ++ [x] /\
                rem Z b = (B ++ [x]) ++ D.
Proof.
  intros [I R] He Hs. pose proof (nonempty_buffer Z 1 4 ltac:(lia) ltac:(lia) b I He) as Hlt.
  pose proof (ri_len _ _ (ri_0 _ _ _ _ I)) as Hlen.
  set (B := skipn (r_bufix b) (r_buf b)) in *.
  assert (HB : length B = r_buflen b - r_bufix b) by (unfold B; rewrite skipn_length; lia).
  destruct (exists_last (l := B)) as (B' & x & EB).
  { intros E. rewrite E in HB. cbn in HB. lia. }
  exists x, B', (slice (r_dsetix b) (r_nrows b) (r_dset b)).
  split; [|split; [exact EB|]].
  - unfold current_tail. apply nth_res_ok.
    rewrite <- (firstn_skipn (r_bufix b) (r_buf b)).
    fold B. rewrite EB. rewrite EB, app_length in HB. cbn in HB.
    rewrite nth_error_app2; rewrite firstn_length_le by lia.
    2:{ rewrite !app_length, firstn_length_le by lia. cbn. lia. }
    rewrite !app_length, firstn_length_le by lia. cbn [length].
    rewrite nth_error_app2 by lia.
    replace (r_bufix b + (length B' + 1) - 1 - r_bufix b - length B') with 0 by lia. reflexivity.
  - unfold rem. fold B. now rewrite EB.
Qed.

(** What the amounts computed for a chunk mean. *)
Lemma amount_spec (b : rbuf Z) r t :
  bufok kf b r -> ksorted kf r ->
  (isempty b = false -> exists x, current_tail b = Ok x /\ (t <= x)%Z) ->
  let a := nb_lower_than b t in
  a <= length r /\
  (forall i, In i (firstn a r) -> (kf i <= t)%Z) /\
  (forall j, In j (skipn a r) -> (t <= kf j)%Z) /\
  (isempty b = false -> current_tail b = Ok t -> 0 < a).
Proof.
  intros Hb Hs Ht a.
  destruct (isempty b) eqn:He.
  - destruct Hb as [I R]. rewrite (proj1 (isempty_rem Z 1 4 ltac:(lia) ltac:(lia) b I) He) in R.
    symmetry in R. apply map_eq_nil in R. subst r.
    assert (a = 0) as ->.
    { unfold a, nb_lower_than. unfold isempty in He. apply andb_true_iff in He as [_ He].
      apply Nat.eqb_eq in He. rewrite He, skipn_all2; [reflexivity|].
      rewrite (ri_len _ _ (ri_0 _ _ _ _ I)). lia. }
    cbn. split; [lia|]. split; [tauto|]. split; [tauto|]. discriminate.
  - destruct (Ht eq_refl) as (x & Hx & Htx).
    destruct (buf_tail b r Hb He Hs) as (x' & B & D & Hx' & HB & HR).
    assert (x' = x) by congruence. subst x'.
    assert (Ea : a = bisect_right (B ++ [x]) t) by (unfold a, nb_lower_than; rewrite HB; reflexivity).
    assert (Hle : a <= length (B ++ [x])) by (rewrite Ea; apply bisect_right_le).
    destruct Hb as [I R]. rewrite HR in R.
    assert (Hlen : length r = length (B ++ [x]) + length D).
    { rewrite <- (map_length kf r), <- R, app_length. reflexivity. }
    unfold ksorted in Hs. rewrite <- R in Hs.
    apply ssorted_app_inv in Hs as (Hs1 & Hs2 & Hs3).
    assert (F1 : map kf (firstn a r) = firstn a (B ++ [x])).
    { rewrite <- firstn_map, <- R, firstn_app.
      replace (a - length (B ++ [x])) with 0 by lia. cbn. apply app_nil_r. }
    assert (F2 : map kf (skipn a r) = skipn a (B ++ [x]) ++ D).
    { rewrite <- skipn_map, <- R, skipn_app.
      replace (a - length (B ++ [x])) with 0 by lia. reflexivity. }
    split; [lia|]. split; [|split].
    + intros i Hi. apply (in_map kf) in Hi. rewrite F1, Ea in Hi.
      pose proof (bisect_right_firstn (B ++ [x]) t) as H. rewrite Forall_forall in H. auto.
    + intros j Hj. apply (in_map kf) in Hj. rewrite F2 in Hj. apply in_app_iff in Hj as [Hj|Hj].
      * rewrite Ea in Hj. pose proof (@bisect_right_skipn (B ++ [x]) t Hs1) as H.
        rewrite Forall_forall in H. specialize (H _ Hj). lia.
      * assert (x <= kf j)%Z; [|lia]. apply Hs3; [|exact Hj]. apply in_app_iff. right. now left.
    + intros _ E. assert (x = t) by congruence. subst x. rewrite Ea.
      apply bisect_right_pos; [exact Hs1|]. apply in_app_iff. right. now left.
Qed.

Lemma tails_spec bufs rs :
  Forall2 (bufok kf) bufs rs -> Forall (ksorted kf) rs ->
  exists tails, mapM current_tail (filter (fun b => negb (isempty b)) bufs) = Ok tails /\
    (forall x, In x tails -> exists b, In b bufs /\ isempty b = false /\ current_tail b = Ok x) /\
    (forall b, In b bufs -> isempty b = false -> exists x, In x tails /\ current_tail b = Ok x).
Proof.
  intros H Hs. revert Hs. induction H as [|b r bufs rs Hb H IH]; intros Hs.
  - exists []. cbn. split; [reflexivity|]. split; intros ? [].
  - inversion Hs as [|? ? Hs1 Hs2]; subst. destruct (IH Hs2) as (tails & E & T1 & T2).
    cbn [filter]. destruct (isempty b) eqn:He; cbn [negb].
    + exists tails. split; [exact E|]. split.
      * intros x Hx. destruct (T1 x Hx) as (b' & ? & ?). exists b'. cbn. auto.
      * intros b' [<-|Hb'] He'; [congruence|auto].
    + destruct (buf_tail b r Hb He Hs1) as (x & B & D & Hx & _).
      cbn [mapM]. rewrite Hx. cbn [bind]. rewrite E. cbn [bind]. exists (x :: tails).
      split; [reflexivity|]. split.
      * intros y [<-|Hy]; [exists b; cbn; auto|]. destruct (T1 y Hy) as (b' & ? & ?).
        exists b'. cbn. auto.
      * intros b' [<-|Hb'] He'; [exists x; cbn; auto|].
        destruct (T2 b' Hb' He') as (y & ? & ?). exists y. cbn. auto.
Qed.

Lemma merge_step_inv rs out m :
  minv rs out m -> forallb (@dataset_empty Z) (m_ikeys m) = false ->
  exists m' rs' out', merge_step argsort vz m = Ok m' /\ minv rs' out' m' /\
                      length (concat rs') < length (concat rs).
Proof.
  intros [Hk [Hok Hfix] Hc Hp Hs Ho Hle] Hne. unfold merge_step.
  destruct (tails_spec _ _ Hk Hs) as (tails & Et & T1 & T2). rewrite Et. cbn [bind].
  (* some buffer is not empty *)
  assert (exists b, In b (m_ikeys m) /\ isempty b = false) as (b0 & Hb0 & Hb0e).
  { clear - Hne. induction (m_ikeys m) as [|b l IH]; [discriminate|]. cbn in Hne.
    destruct (dataset_empty b) eqn:E.
    - destruct (IH Hne) as (b' & ? & ?). exists b'. cbn. auto.
    - exists b. split; [now left|]. unfold isempty. unfold dataset_empty in E. rewrite E. reflexivity. }
  destruct (T2 b0 Hb0 Hb0e) as (x0 & Hx0 & _).
  destruct (min_list tails) as [t|e] eqn:Emin.
  2:{ destruct tails; [destruct Hx0|discriminate]. }
  cbn [bind]. apply min_list_spec in Emin as [Htin Htmin].
  set (amounts := map (fun b => nb_lower_than b t) (m_ikeys m)).
  assert (Hlen : length (m_ikeys m) = length rs) by (apply Forall2_combine in Hk; tauto).
  assert (Hspec : forall b r, In (b, r) (combine (m_ikeys m) rs) ->
      nb_lower_than b t <= length r /\
      (forall i, In i (firstn (nb_lower_than b t) r) -> (kf i <= t)%Z) /\
      (forall j, In j (skipn (nb_lower_than b t) r) -> (t <= kf j)%Z) /\
      (isempty b = false -> current_tail b = Ok t -> 0 < nb_lower_than b t)).
  { intros b r Hin. apply amount_spec.
    - apply Forall2_combine in Hk as [_ Hk]. auto.
    - rewrite Forall_forall in Hs. apply Hs. eapply in_combine_r; exact Hin.
    - intros He. destruct (T2 b (in_combine_l _ _ _ _ Hin) He) as (x & Hx & Hxt). exists x. auto. }
  assert (Hal : Forall2 (fun a r => a <= length r) amounts rs).
  { apply Forall2_combine. split; [unfold amounts; rewrite map_length; exact Hlen|].
    intros a r Hin. apply combine_map_in in Hin as (b & Hin & ->). apply (Hspec b r Hin). }
  destruct (read_each_spec Z kf _ _ amounts Hk Hal) as (blocks & bufs' & Er & Cr & Zr & Fr).
  rewrite Er. cbn [bind fst snd].
  assert (Hpos : exists a, In a amounts /\ 0 < a).
  { destruct (T1 t Htin) as (b & Hb & Hbe & Hbt).
    destruct (Forall2_in_l _ _ _ _ _ _ Hk Hb) as (r & _ & _).
    assert (exists r, In (b, r) (combine (m_ikeys m) rs)) as (r' & Hr').
    { clear - Hb Hlen. revert rs Hlen. induction (m_ikeys m) as [|c l IH]; intros [|r rs] Hl; cbn in *;
        try discriminate; [contradiction|]. destruct Hb as [->|Hb]; [eauto|].
      destruct (IH Hb rs) as (r' & ?); [lia|]. eauto. }
    exists (nb_lower_than b t). split; [unfold amounts; now apply (in_map (fun b => nb_lower_than b t))|].
    apply (Hspec b r' Hr'); assumption. }
  assert (Hbl : blocks <> []).
  { intros ->. specialize (Zr eq_refl). destruct Hpos as (a & Ha & Ha0).
    rewrite Forall_forall in Zr. specialize (Zr a Ha). lia. }
  set (blk := concat (zipw (@firstn nat) amounts rs)) in *.
  assert (Ec : np_concat blocks = Ok (map kf blk)).
  { rewrite <- Cr. destruct blocks; [congruence|reflexivity]. }
  rewrite Ec. cbn [bind].
  destruct (Hargsort (map kf blk)) as [Pord Sord]. rewrite map_length in Pord.
  set (order := argsort (map kf blk)) in *.
  set (sblk := map (fun i => nth i blk 0) order).
  destruct (gather_order Z kf blk order Pord) as [Eg Pg]. fold sblk in Eg, Pg.
  rewrite Eg. cbn [bind].
  assert (Hperm : Permutation (blk ++ concat (zipw (@skipn nat) amounts rs)) (concat rs)).
  { apply zipw_perm. unfold amounts. rewrite map_length. exact Hlen. }
  set (rs' := zipw (@skipn nat) amounts rs) in *.
  assert (Hcount : length out + length blk + length (concat rs') = n).
  { apply Permutation_length in Hp. rewrite app_length, seq_length in Hp.
    apply Permutation_length in Hperm. rewrite app_length in Hperm. lia. }
  assert (Hsl : length sblk = length blk) by (apply Permutation_length; exact Pg).
  destruct (winv_write Z 0%Z n keys (m_okey m) (map kf out) (map kf sblk) Hok) as (okey' & Ew & Iw & Fw & _).
  { intros _. rewrite !map_length. lia. }
  rewrite Ew. cbn [bind].
  assert (Hcomp : exists comp, mapM (merge_companion vz order amounts) (m_comp m) = Ok comp /\
     Forall2 (fun v io => Forall2 (bufok (vf v)) (fst io) rs' /\ Forall2 same_ix bufs' (fst io) /\
                winv V vz n v (snd io) (map (vf v) (out ++ sblk)) /\ w_fixed (snd io) = true) vals comp).
  { clear - Hc Hal Er Hbl Zr Hpos Pord Hcount Hsl Pg.
    revert Hc. generalize (m_comp m). intros l Hc.
    induction Hc as [|v [ib ob] vals' l (H1 & H2 & H3 & H4) Hc IH].
    - exists []. split; [reflexivity|constructor].
    - cbn [fst snd] in *. destruct IH as (comp & E & F).
      cbn [mapM]. unfold merge_companion at 1. cbn [fst snd].
      destruct (read_each_spec V (vf v) _ _ amounts H1 Hal) as (bl2 & ib' & Er2 & Cr2 & Zr2 & Fr2).
      rewrite Er2. cbn [bind fst snd]. fold blk in Cr2.
      assert (bl2 <> []).
      { intros ->. specialize (Zr2 eq_refl). destruct Hpos as (a & Ha & Ha0).
        rewrite Forall_forall in Zr2. specialize (Zr2 a Ha). lia. }
      assert (np_concat bl2 = Ok (map (vf v) blk)) as ->.
      { rewrite <- Cr2. destruct bl2; [congruence|reflexivity]. }
      cbn [bind]. destruct (gather_order V (vf v) blk order Pord) as [Eg2 _]. fold sblk in Eg2.
      rewrite Eg2. cbn [bind].
      destruct (winv_write V vz n v ob (map (vf v) out) (map (vf v) sblk) H3) as (ob' & Ew2 & Iw2 & Fw2 & _).
      { intros _. rewrite !map_length. lia. }
      rewrite Ew2. cbn [bind]. rewrite E. cbn [bind]. eexists. split; [reflexivity|].
      constructor; [|exact F]. cbn [fst snd].
      split; [exact Fr2|]. split; [eapply read_each_same_ix; eassumption|].
      split; [rewrite map_app; exact Iw2|congruence]. }
  destruct Hcomp as (comp & Ecomp & Fcomp). rewrite Ecomp. cbn [bind].
  eexists _, rs', (out ++ sblk). split; [reflexivity|].
  assert (Hblk_le : forall i, In i blk -> (kf i <= t)%Z).
  { intros i Hi. apply in_zipw_l in Hi as (a & r & Hin & Hi).
    apply combine_map_in in Hin as (b & Hin & ->). apply (Hspec b r Hin). exact Hi. }
  assert (Hrs_ge : forall j, In j (concat rs') -> (t <= kf j)%Z).
  { intros j Hj. apply in_zipw_l in Hj as (a & r & Hin & Hj).
    apply combine_map_in in Hin as (b & Hin & ->). apply (Hspec b r Hin). exact Hj. }
  assert (Hsub : forall j, In j (concat rs') -> In j (concat rs)).
  { intros j Hj. eapply Permutation_in; [exact Hperm|]. apply in_app_iff. now right. }
  assert (Hsub2 : forall j, In j sblk -> In j (concat rs)).
  { intros j Hj. eapply Permutation_in; [exact Hperm|]. apply in_app_iff. left.
    eapply Permutation_in; [exact Pg|exact Hj]. }
  split.
  - constructor; cbn [m_ikeys m_okey m_comp m_order].
    + exact Fr.
    + split; [rewrite map_app; exact Iw|congruence].
    + exact Fcomp.
    + rewrite <- app_assoc. eapply Permutation_trans; [|exact Hp]. apply Permutation_app_head.
      eapply Permutation_trans; [|exact Hperm]. apply Permutation_app_tail. exact Pg.
    + unfold rs'. apply Forall_zipw. intros a r Hin. apply ksorted_skipn.
      rewrite Forall_forall in Hs. apply Hs. eapply in_combine_r; exact Hin.
    + apply ksorted_app; [exact Ho| |].
      * unfold ksorted, sblk. rewrite <- map_nth_map_lt with (d := 0%Z); [exact Sord|].
        intros i Hi. apply (Permutation_in _ Pord) in Hi. apply in_seq in Hi. lia.
      * intros i j Hi Hj. apply Hle; [exact Hi|]. apply Hsub2. exact Hj.
    + intros i j Hi Hj. apply in_app_iff in Hi as [Hi|Hi]; [apply Hle; [exact Hi|auto]|].
      apply Z.le_trans with t; [|auto]. apply Hblk_le. eapply Permutation_in; [exact Pg|exact Hi].
  - apply Permutation_length in Hperm. rewrite app_length in Hperm.
    assert (length blk > 0); [|lia].
    destruct blocks as [|b1 blocks]; [congruence|].
    destruct Hpos as (a & Ha & Ha0).
    assert (exists r, In (a, r) (combine amounts rs)) as (r & Hr).
    { assert (length amounts = length rs) as HL by (unfold amounts; rewrite map_length; exact Hlen).
      clear - Ha HL. revert rs HL. induction amounts as [|c l IH]; intros [|r rs] Hl; cbn in *;
        try discriminate; [contradiction|]. destruct Ha as [->|Ha]; [eauto|].
      destruct (IH Ha rs) as (r' & ?); [lia|]. eauto. }
    assert (Har : a <= length r) by (apply Forall2_combine in Hal; apply Hal; exact Hr).
    unfold blk. clear - Hr Ha0 Har. revert rs Hr. induction amounts as [|c l IH]; intros [|r' rs] Hr; cbn in *;
      try contradiction. rewrite app_length. destruct Hr as [E|Hr]; [inversion E; subst|].
    + rewrite firstn_length_le by lia. lia.
    + specialize (IH rs Hr). lia.
Qed.

Lemma merge_loop_inv fuel rs out m :
  minv rs out m -> length (concat rs) < fuel ->
  exists m' rs' out', merge_loop argsort vz fuel m = Ok m' /\ minv rs' out' m' /\
                      forallb (@dataset_empty Z) (m_ikeys m') = true.
Proof.
  revert rs out m. induction fuel as [|fuel IH]; intros rs out m I Hf; [lia|]. cbn [merge_loop].
  destruct (forallb (@dataset_empty Z) (m_ikeys m)) eqn:E; [eauto 10|].
  destruct (merge_step_inv rs out m I E) as (m1 & rs1 & out1 & E1 & I1 & L1). rewrite E1. cbn [bind].
  apply (IH rs1 out1 m1 I1). lia.
Qed.

Lemma flush_close rs out m :
  minv rs out m -> forallb (@dataset_empty Z) (m_ikeys m) = true ->
  exists idx, (f <- flush_all argsort vz m ;; close_outputs vz (fst f) (snd f))
              = Ok (map kf idx, map (fun v => map (vf v) idx) vals) /\
              Permutation idx (seq 0 n) /\ ksorted kf idx.
Proof.
  intros [Hk [Hok Hfix] Hc Hp Hs Ho Hle] Hd. unfold flush_all.
  destruct (read_rest_spec Z kf _ _ Hk Hd) as (blocks & Er & Cr & Nr). rewrite Er. cbn [bind].
  set (blk := concat rs) in *.
  destruct (Hargsort (map kf blk)) as [Pord Sord]. rewrite map_length in Pord.
  set (order := argsort (map kf blk)) in *.
  set (sblk := map (fun i => nth i blk 0) order).
  destruct (gather_order Z kf blk order Pord) as [Eg Pg]. fold sblk in Eg, Pg.
  assert (Hsl : length sblk = length blk) by (apply Permutation_length; exact Pg).
  assert (Hcount : length out + length blk = n).
  { apply Permutation_length in Hp. rewrite app_length, seq_length in Hp. exact Hp. }
  (* the key output *)
  assert (exists okey ord, 
    (match blocks with
     | [] => Ok (m_okey m, m_order m)
     | _ => sorted <- gather (concat blocks) (argsort (concat blocks)) ;;
            okey <- wbuf_write 0%Z (m_okey m) sorted ;; Ok (okey, Some (argsort (concat blocks)))
     end = Ok (okey, ord)) /\ winv Z 0%Z n keys okey (map kf (out ++ sblk)) /\ w_fixed okey = true /\
     (blk <> [] -> ord = Some order)) as (okey & ord & Ek & Ik & Fk & Ok').
  { destruct blocks as [|b0 blocks].
    - assert (blk = []) as Eb by (apply Nr; reflexivity).
      exists (m_okey m), (m_order m). split; [reflexivity|].
      assert (sblk = []) as -> by (apply length_zero_iff_nil; rewrite Hsl, Eb; reflexivity).
      rewrite app_nil_r. split; [exact Hok|]. split; [exact Hfix|]. congruence.
    - rewrite Cr. fold order. rewrite Eg. cbn [bind].
      destruct (winv_write Z 0%Z n keys (m_okey m) (map kf out) (map kf sblk) Hok) as (okey' & Ew & Iw & Fw & _).
      { intros _. rewrite !map_length. lia. }
      rewrite Ew. cbn [bind]. exists okey', (Some order). split; [reflexivity|].
      split; [rewrite map_app; exact Iw|]. split; [congruence|]. reflexivity. }
  rewrite Ek. cbn [bind fst snd].
  assert (Hcomp : exists comp, mapM (flush_companion vz ord) (m_comp m) = Ok comp /\
     Forall2 (fun v o => winv V vz n v o (map (vf v) (out ++ sblk)) /\ w_fixed o = true) vals comp).
  { clear - Hc Hd Ok' Hcount Hsl Pord Pg.
    revert Hc. generalize (m_comp m). intros l Hc.
    induction Hc as [|v [ib ob] vals' l (H1 & H2 & H3 & H4) Hc IH].
    - exists []. split; [reflexivity|constructor].
    - cbn [fst snd] in *. destruct IH as (comp & E & F). cbn [mapM].
      unfold flush_companion at 1. cbn [fst snd].
      assert (Hd2 : forallb (@dataset_empty V) ib = true).
      { clear - H2 Hd. revert Hd. induction H2 as [|b c bs cs (A1 & A2 & A3 & A4) H IH]; intros Hd; [reflexivity|].
        cbn in *. apply andb_true_iff in Hd as [D1 D2]. rewrite (IH D2), andb_true_r.
        unfold dataset_empty in *. now rewrite <- A1, <- A2. }
      destruct (read_rest_spec V (vf v) _ _ H1 Hd2) as (bl2 & Er2 & Cr2 & Nr2). rewrite Er2. cbn [bind].
      fold blk in Cr2, Nr2.
      assert (exists ob', (match bl2 with
        | [] => Ok ob
        | _ => match ord with None => Err NameError
               | Some order => sorted <- gather (concat bl2) order ;; wbuf_write vz ob sorted end
        end = Ok ob') /\ winv V vz n v ob' (map (vf v) (out ++ sblk)) /\ w_fixed ob' = true)
        as (ob' & Eo & Io & Fo).
      { destruct bl2 as [|c0 bl2].
        - assert (blk = []) as Eb by (apply Nr2; reflexivity).
          assert (sblk = []) as -> by (apply length_zero_iff_nil; rewrite Hsl, Eb; reflexivity).
          exists ob. rewrite app_nil_r. auto.
        - assert (blk <> []) as Hb by (intros X; apply Nr2 in X; discriminate).
          rewrite (Ok' Hb), Cr2.
          destruct (gather_order V (vf v) blk order Pord) as [Eg2 _]. fold sblk in Eg2.
          rewrite Eg2. cbn [bind].
          destruct (winv_write V vz n v ob (map (vf v) out) (map (vf v) sblk) H3) as (ob' & Ew2 & Iw2 & Fw2 & _).
          { intros _. rewrite !map_length. lia. }
          exists ob'. rewrite map_app. split; [exact Ew2|]. split; [exact Iw2|congruence]. }
      rewrite Eo. cbn [bind]. rewrite E. cbn [bind]. eexists. split; [reflexivity|].
      constructor; auto. }
  destruct Hcomp as (comp & Ec & Fc). rewrite Ec. cbn [bind fst snd].
  set (idx := out ++ sblk) in *.
  assert (Hidx : length idx = n) by (unfold idx; rewrite app_length; lia).
  assert (Hflush : forall A (z : A) d0 (s : wbuf A) (f : nat -> A),
             winv A z n d0 s (map f idx) -> w_fixed s = true ->
             exists s', wbuf_flush z s = Ok s' /\ wbuf_iscomplete s' = true /\ w_dset s' = map f idx).
  { intros A z d0 s f I F.
    destruct (winv_flush A z n d0 s _ I) as (s' & E & I' & Z' & F' & _).
    { intros _. rewrite map_length. lia. }
    exists s'. split; [exact E|]. destruct (winv_complete A z n d0 s' _ I' Z') as [D1 D2].
    rewrite map_length in D2. unfold wbuf_iscomplete.
    rewrite F', F, D2, (wi_fixed _ _ _ _ _ _ I') by congruence. rewrite Hidx, Nat.eqb_refl.
    split; [reflexivity|]. rewrite D1, map_length, skipn_all2, app_nil_r; [reflexivity|].
    rewrite (wi_d0 _ _ _ _ _ _ I'). lia. }
  unfold close_outputs.
  destruct (Hflush Z 0%Z keys okey kf Ik Fk) as (okey' & E1 & C1 & D1). rewrite E1. cbn [bind].
  assert (exists comp', mapM (wbuf_flush vz) comp = Ok comp' /\
            forallb (@wbuf_iscomplete V) comp' = true /\
            map (@w_dset V) comp' = map (fun v => map (vf v) idx) vals) as (comp' & E2 & C2 & D2).
  { clear - Fc Hflush. induction Fc as [|v o vals' comp [I F] H IH].
    - exists []. cbn. auto.
    - destruct IH as (comp' & E & C & D). destruct (Hflush V vz v o (vf v) I F) as (o' & E' & C' & D').
      exists (o' :: comp'). cbn [mapM]. rewrite E'. cbn [bind]. rewrite E. cbn [bind forallb map].
      rewrite C, C', D, D'. auto. }
  rewrite E2. cbn [bind]. rewrite C1, C2. cbn [andb]. exists idx. rewrite D1, D2.
  split; [reflexivity|]. split.
  - eapply Permutation_trans; [|exact Hp]. unfold idx. apply Permutation_app_head. exact Pg.
  - unfold idx. apply ksorted_app; [exact Ho| |].
    + unfold ksorted, sblk. rewrite <- map_nth_map_lt with (d := 0%Z); [exact Sord|].
      intros i Hi. apply (Permutation_in _ Pord) in Hi. apply in_seq in Hi. lia.
    + intros i j Hi Hj. apply Hle; [exact Hi|]. eapply Permutation_in; [exact Pg|exact Hj].
Qed.

End Merge.

(* ---------------------------------------------------------------- *)
(** ** The chunks and the whole sort *)

Lemma open_chunk A (z : A) (f : nat -> A) buflen r :
  0 < buflen -> exists b, rbuf_open z 1 4 buflen None (map f r) = Ok b /\ bufok f b r.
Proof.
  intros Hb. destruct (open_spec A z 1 4 ltac:(lia) ltac:(lia) buflen None (map f r) Hb) as (b & E & I & R & _).
  { discriminate. }
  exists b. split; [exact E|]. split; assumption.
Qed.

Lemma open_same_ix A B (z : A) (w : B) (f : nat -> A) (g : nat -> B) buflen r b c :
  rbuf_open z 1 4 buflen None (map f r) = Ok b -> rbuf_open w 1 4 buflen None (map g r) = Ok c ->
  same_ix b c.
Proof.
  unfold rbuf_open. intros E1 E2. eapply refill_same_ix; [|exact E1|exact E2].
  unfold same_ix. cbn. rewrite !map_length. auto.
Qed.

Lemma rearranged_map A (l : list A) d idx :
  (forall i, In i idx -> i < length l) -> rearranged idx l (map (fun i => nth i l d) idx).
Proof.
  intros H. unfold rearranged. rewrite map_map. apply map_ext_in. intros i Hi.
  symmetry. apply nth_error_nth'. auto.
Qed.

Lemma round_half a b :
  (0 <= a)%Z -> (0 < b)%Z -> Z.to_nat (round_div a b) = 0 <-> (2 * a <= b)%Z.
Proof.
  intros Ha Hb. unfold round_div.
  pose proof (Z.div_mod a b ltac:(lia)) as Hd. pose proof (Z.mod_pos_bound a b Hb) as Hm.
  assert (Hq : (0 <= a / b)%Z) by (apply Z.div_pos; lia).
  set (q := (a / b)%Z) in *. set (r := (a mod b)%Z) in *. clearbody q r.
  destruct (Z.ltb_spec (2 * r) b).
  - split; intros H0; [|nia]. assert (q = 0)%Z by lia. subst q. lia.
  - destruct (Z.ltb_spec b (2 * r)); [split; intros; nia|].
    destruct (Z.even q) eqn:Ev.
    + split; intros H1; [assert (q = 0)%Z by lia; subst q; lia|nia].
    + split; intros H1; [lia|]. assert (q = 0)%Z by nia. subst q. discriminate.
Qed.

Section Top.
Variable argsort : list Z -> list nat.
Hypothesis Hargsort : argsort_spec argsort.
Variable V : Type.
Variable vz : V.
Variable keys : list Z.
Variable vals : list (list V).
Hypothesis Hvals : forallb (fun v => length v =? length keys) vals = true.
Let n := length keys.
Let kf (i : nat) : Z := nth i keys 0%Z.
Let vf (v : list V) (i : nat) : V := nth i v vz.
Let mk (r : list nat) : chunk V := (map kf r, map (fun v => map (vf v) r) vals).

Lemma vals_length v : In v vals -> length v = n.
Proof. intros H. rewrite forallb_forall in Hvals. apply Nat.eqb_eq. auto. Qed.

Lemma extract_chunk_spec i0 i1 :
  i0 <= i1 <= n ->
  exists r, extract_chunk argsort keys vals i0 i1 = Ok (mk r) /\
            Permutation r (seq i0 (i1 - i0)) /\ ksorted kf r.
Proof.
  intros H. unfold extract_chunk.
  destruct (Hargsort (slice i0 i1 keys)) as [P S].
  assert (Hl : length (slice i0 i1 keys) = i1 - i0) by (rewrite slice_length; fold n; lia).
  rewrite Hl in P. set (order := argsort (slice i0 i1 keys)) in *.
  exists (map (fun k => i0 + k) order).
  rewrite (gather_slice Z keys 0%Z i0 i1 order H P). cbn [bind].
  rewrite (mapM_ok_map _ (fun v => map (vf v) (map (fun k => i0 + k) order))).
  2:{ intros v Hv. apply gather_slice; [|exact P]. rewrite (vals_length v Hv). exact H. }
  cbn [bind]. split; [reflexivity|]. split.
  - replace (seq i0 (i1 - i0)) with (map (fun k => i0 + k) (seq 0 (i1 - i0))).
    + apply Permutation_map. exact P.
    + clear. generalize (i1 - i0) as m. intros m.
      assert (forall s, map (fun k => i0 + k) (seq s m) = seq (i0 + s) m) as G.
      { induction m as [|m IH]; intros s; cbn; [reflexivity|]. rewrite IH. f_equal. f_equal. lia. }
      rewrite G. f_equal. lia.
  - unfold ksorted. pose proof (gather_slice Z keys 0%Z i0 i1 order H P) as G.
    rewrite gather_ok with (d := 0%Z) in G.
    + inversion G as [G']. rewrite G' in S. exact S.
    + intros k Hk. apply (Permutation_in _ P) in Hk. apply in_seq in Hk. lia.
Qed.

Lemma chunk_loop_spec fuel buf_rows row :
  0 < buf_rows -> row <= n -> n - row < fuel ->
  exists rs, chunk_loop argsort fuel keys vals n buf_rows row = Ok (map mk rs) /\
             Permutation (concat rs) (seq row (n - row)) /\ Forall (ksorted kf) rs /\
             n - row <= buf_rows * length rs < n - row + buf_rows.
Proof.
  intros Hb. revert row. induction fuel as [|fuel IH]; intros row Hr Hf; [lia|]. cbn [chunk_loop].
  destruct (Nat.leb_spec (row + buf_rows) n) as [Hle|Hgt].
  - destruct (extract_chunk_spec row (row + buf_rows)) as (r & Er & Pr & Sr); [lia|].
    rewrite Er. cbn [bind]. destruct (IH (row + buf_rows)) as (rs & Ers & Prs & Srs & Lrs); [lia|lia|].
    rewrite Ers. cbn [bind]. exists (r :: rs). split; [reflexivity|]. cbn [concat length].
    split; [|split; [constructor; assumption|nia]].
    replace (n - row) with (buf_rows + (n - (row + buf_rows))) by lia. rewrite seq_app.
    apply Permutation_app; [|exact Prs]. now replace (row + buf_rows - row) with buf_rows in Pr by lia.
  - destruct (Nat.ltb_spec row n) as [Hlt|Hge].
    + destruct (extract_chunk_spec row n) as (r & Er & Pr & Sr); [lia|].
      rewrite Er. cbn [bind]. exists [r]. split; [reflexivity|]. cbn [concat length]. rewrite app_nil_r.
      split; [exact Pr|]. split; [constructor; [exact Sr|constructor]|lia].
    + exists []. cbn. replace (n - row) with 0 by lia. cbn.
      split; [reflexivity|]. split; [constructor|]. split; [constructor|lia].
Qed.

Lemma merge_chunks_spec i_buf_rows o_buf_rows rs :
  0 < n -> 0 < i_buf_rows -> 0 < o_buf_rows ->
  Permutation (concat rs) (seq 0 n) -> Forall (ksorted kf) rs ->
  exists idx, merge_chunks argsort vz n i_buf_rows o_buf_rows keys vals (map mk rs)
              = Ok (map kf idx, map (fun v => map (vf v) idx) vals) /\
              Permutation idx (seq 0 n) /\ ksorted kf idx.
Proof.
  intros Hn Hi Ho Hp Hs. unfold merge_chunks.
  destruct (Nat.eqb_spec i_buf_rows 0); [lia|].
  (* key readers *)
  destruct (mapM_exists _ _ (fun c => rbuf_open 0%Z 1 4 i_buf_rows None (fst c))
             (fun c b => exists r, c = mk r /\ rbuf_open 0%Z 1 4 i_buf_rows None (map kf r) = Ok b)
             (map mk rs)) as (ikeys & Ek & Fk0).
  { intros c Hc. apply in_map_iff in Hc as (r & <- & Hr).
    destruct (open_chunk Z 0%Z kf i_buf_rows r Hi) as (b & E & I). exists b.
    split; [exact E|]. exists r. auto. }
  clear Fk0.
  assert (Fk : Forall2 (fun r b => rbuf_open 0%Z 1 4 i_buf_rows None (map kf r) = Ok b) rs ikeys).
  { apply mapM_forall2 in Ek. apply Forall2_map_l_inv in Ek. exact Ek. }
  rewrite Ek. cbn [bind].
  (* companion readers *)
  destruct (mapM_exists _ _
     (fun d => mapM (fun c => v <- nth_res (snd c) d ;; rbuf_open vz 1 4 i_buf_rows None v) (map mk rs))
     (fun d bufs => Forall2 (fun r b => rbuf_open vz 1 4 i_buf_rows None (map (vf (nth d vals [])) r) = Ok b)
                            rs bufs)
     (seq 0 (length vals))) as (ivals & Ev & Fv).
  { intros d Hd. apply in_seq in Hd.
    destruct (mapM_exists _ _ (fun c => v <- nth_res (snd c) d ;; rbuf_open vz 1 4 i_buf_rows None v)
               (fun c b => True) (map mk rs)) as (bufs & E & _).
    { intros c Hc. apply in_map_iff in Hc as (r & <- & Hr).
      destruct (open_chunk V vz (vf (nth d vals [])) i_buf_rows r Hi) as (b & E & I).
      exists b. split; [|trivial]. cbn [snd mk].
      rewrite nth_res_lt with (d := map (vf []) r) by (unfold mk; cbn; rewrite map_length; lia).
      cbn [bind snd mk]. unfold mk; cbn [snd].
      rewrite (map_nth (fun v => map (vf v) r)). exact E. }
    exists bufs. split; [exact E|]. apply mapM_forall2 in E. apply Forall2_map_l_inv in E.
    clear - E Hd. induction E as [|r b rs' bufs H E IH]; constructor; [|exact IH].
    rewrite nth_res_lt with (d := map (vf []) r) in H by (unfold mk; cbn; rewrite map_length; lia).
    cbn [bind] in H. unfold mk in H; cbn [snd] in H. rewrite (map_nth (fun v => map (vf v) r)) in H. exact H. }
  rewrite Ev. cbn [bind].
  destruct (Nat.eqb_spec o_buf_rows 0); [lia|].
  (* writers *)
  assert (Hnew : forall A (z : A) d, length d = n ->
     exists s, wbuf_new z true true o_buf_rows 0 n (Some d) = Ok s /\ winv A z n d s [] /\ w_fixed s = true).
  { intros A z d Hd.
    destruct (wbuf_new z true true o_buf_rows 0 n (Some d)) as [s|e] eqn:E.
    - exists s. split; [reflexivity|].
      apply (winv_new A z true true o_buf_rows 0 n (Some d) s Ho) in E as (d0 & I & F & _ & _ & Ed).
      rewrite (Ed d eq_refl) in I. auto.
    - exfalso. unfold wbuf_new in E. cbn in E. rewrite andb_true_r in E.
      destruct (Nat.eqb_spec n 0); [lia|]. destruct (Nat.eqb_spec (length d) n); [discriminate|lia]. }
  destruct (Hnew Z 0%Z keys eq_refl) as (okey & Eo & Io & Fo). rewrite Eo. cbn [bind].
  destruct (mapM_exists _ _ (fun v => wbuf_new vz true true o_buf_rows 0 n (Some v))
     (fun v s => winv V vz n v s [] /\ w_fixed s = true) vals) as (ovals & Ew & Fw).
  { intros v Hv. apply Hnew. apply vals_length. exact Hv. }
  rewrite Ew. cbn [bind].
  set (m0 := {| m_ikeys := ikeys; m_okey := okey; m_comp := combine ivals ovals; m_order := None |}).
  assert (Hk2 : Forall2 (bufok kf) ikeys rs).
  { apply Forall2_flip. clear - Fk Hi. induction Fk as [|r b rs' bufs H E IH]; constructor; [|exact IH].
    destruct (open_chunk Z 0%Z kf i_buf_rows r Hi) as (b' & E' & I). congruence. }
  assert (I0 : minv V vz keys vals rs [] m0).
  { constructor; cbn [m_ikeys m_okey m_comp m0].
    - exact Hk2.
    - split; assumption.
    - apply (Forall2_seq_nth _ _ (fun v bufs => Forall2 (fun r b =>
               rbuf_open vz 1 4 i_buf_rows None (map (vf v) r) = Ok b) rs bufs) vals ivals []) in Fv.
      assert (Fv2 : Forall2 (fun v bufs => Forall2 (bufok (vf v)) bufs rs /\ Forall2 same_ix ikeys bufs) vals ivals).
      { clear - Fv Fk Hi. induction Fv as [|v bufs vals' ivals H Fv IH]; constructor; [|exact IH]. split.
        - apply Forall2_flip. clear - H Hi. induction H as [|r b rs' bufs H E IH]; constructor; [|exact IH].
          destruct (open_chunk V vz (vf v) i_buf_rows r Hi) as (b' & E' & I). congruence.
        - apply Forall2_flip in H. apply Forall2_flip in Fk.
          eapply Forall2_trans_same; [|exact Fk|exact H]. intros a b c E1 E2. cbv beta in E1, E2.
          eapply open_same_ix; eassumption. }
      pose proof (Forall2_combine_r _ _ _ _ _ _ _ _ Fv2 Fw) as F.
      eapply Forall2_impl; [|exact F]. cbn. intros v io ((A1 & A2) & A3 & A4). cbn. auto.
    - cbn. exact Hp.
    - exact Hs.
    - constructor.
    - intros i j []. }
  destruct (merge_loop_inv argsort Hargsort V vz keys vals (S n) rs [] m0 I0) as (m1 & rs1 & out1 & E1 & I1 & D1).
  { apply Permutation_length in Hp. rewrite seq_length in Hp. lia. }
  fold n in E1. rewrite E1. cbn [bind].
  exact (flush_close argsort Hargsort V vz keys vals rs1 out1 m1 I1 D1).
Qed.

Lemma sorted_together_idx idx :
  Permutation idx (seq 0 n) -> ksorted kf idx ->
  sorted_together keys vals (map kf idx) (map (fun v => map (vf v) idx) vals).
Proof.
  intros P S. split; [exact S|]. exists idx. split; [exact P|].
  assert (Hb : forall i, In i idx -> i < n).
  { intros i Hi. apply (Permutation_in _ P) in Hi. apply in_seq in Hi. lia. }
  split; [apply rearranged_map; exact Hb|].
  assert (G : forall l, (forall v, In v l -> length v = n) ->
              Forall2 (rearranged idx) l (map (fun v => map (vf v) idx) l)).
  { induction l as [|v l IH]; intros Hl; cbn; constructor.
    - apply rearranged_map. rewrite (Hl v) by now left. exact Hb.
    - apply IH. intros; apply Hl; now right. }
  apply G. exact vals_length.
Qed.

(** The outcome of the sort, for every non-zero chunk size. *)
Lemma h5sort_spec fuel buffer_b o_buffer_b line_weight :
  (0 < line_weight)%Z -> (0 <= buffer_b)%Z -> (0 <= o_buffer_b)%Z ->
  let buf_rows := Z.to_nat (round_div buffer_b line_weight) in
  let n_chunks := (n + buf_rows - 1) / buf_rows in
  (line_weight < 2 * buffer_b)%Z -> n < fuel ->
  if (n =? 0) then h5sort_fuel argsort vz fuel buffer_b o_buffer_b line_weight keys vals = Err ZeroDivisionError
  else if (2 * buf_rows <=? n_chunks) || (2 * o_buffer_b <=? line_weight)%Z
  then h5sort_fuel argsort vz fuel buffer_b o_buffer_b line_weight keys vals = Err AssertionError
  else exists keys' vals',
    h5sort_fuel argsort vz fuel buffer_b o_buffer_b line_weight keys vals = Ok (keys', vals') /\
    sorted_together keys vals keys' vals'.
Proof.
  intros Hw Hb Ho buf_rows n_chunks Hpos Hfuel. unfold h5sort_fuel. rewrite Hvals.
  destruct (Z.eqb_spec line_weight 0); [lia|]. fold buf_rows. fold n.
  assert (Hbr : 0 < buf_rows).
  { destruct (Nat.eq_dec buf_rows 0) as [E|E]; [|lia]. apply round_half in E; lia. }
  destruct (chunk_loop_spec fuel buf_rows 0 Hbr) as (rs & Ec & Pc & Sc & Lc); [lia|lia|].
  rewrite Nat.sub_0_r in Pc, Lc. rewrite Ec. cbn [bind]. rewrite map_length.
  assert (Hnc : length rs = n_chunks).
  { unfold n_chunks. apply Nat.le_antisymm.
    - apply Nat.div_le_lower_bound; lia.
    - apply Nat.lt_succ_r. apply Nat.div_lt_upper_bound; nia. }
  destruct (Nat.eqb_spec n 0) as [Hn0|Hn0].
  { destruct (Nat.eqb_spec (length rs) 0); [reflexivity|nia]. }
  destruct (Nat.eqb_spec (length rs) 0) as [Hl|Hl]; [nia|].
  rewrite Hnc in *.
  assert (Hi : Z.to_nat (round_div (Z.of_nat buf_rows) (Z.of_nat n_chunks)) = 0 <-> 2 * buf_rows <= n_chunks).
  { rewrite round_half; lia. }
  assert (Ho' : Z.to_nat (round_div o_buffer_b line_weight) = 0 <-> (2 * o_buffer_b <= line_weight)%Z).
  { apply round_half; lia. }
  destruct (Nat.leb_spec (2 * buf_rows) n_chunks) as [Hc|Hc]; cbn [orb].
  { unfold merge_chunks. rewrite (proj2 Hi Hc). reflexivity. }
  destruct (Z.leb_spec (2 * o_buffer_b) line_weight) as [Hoo|Hoo].
  { unfold merge_chunks.
    destruct (Nat.eqb_spec (Z.to_nat (round_div (Z.of_nat buf_rows) (Z.of_nat n_chunks))) 0) as [X|X];
      [apply Hi in X; lia|].
    rewrite (proj2 Ho' Hoo).
    destruct (mapM_exists _ _ (fun c => rbuf_open 0%Z 1 4 (Z.to_nat (round_div (Z.of_nat buf_rows) (Z.of_nat n_chunks))) None (fst c))
               (fun _ _ => True) (map mk rs)) as (ikeys & Ek & _).
    { intros c Hc'. apply in_map_iff in Hc' as (r & <- & Hr).
      destruct (open_chunk Z 0%Z kf (Z.to_nat (round_div (Z.of_nat buf_rows) (Z.of_nat n_chunks))) r) as (b & E & I); [lia|].
      exists b. auto. }
    rewrite Ek. cbn [bind].
    destruct (mapM_exists _ _
     (fun d => mapM (fun c => v <- nth_res (snd c) d ;; rbuf_open vz 1 4 (Z.to_nat (round_div (Z.of_nat buf_rows) (Z.of_nat n_chunks))) None v) (map mk rs))
     (fun _ _ => True) (seq 0 (length vals))) as (ivals & Ev & _).
    { intros d Hd. apply in_seq in Hd.
      destruct (mapM_exists _ _ (fun c => v <- nth_res (snd c) d ;; rbuf_open vz 1 4 (Z.to_nat (round_div (Z.of_nat buf_rows) (Z.of_nat n_chunks))) None v)
               (fun c b => True) (map mk rs)) as (bufs & E & _); [|eauto].
      intros c Hc'. apply in_map_iff in Hc' as (r & <- & Hr).
      destruct (open_chunk V vz (vf (nth d vals [])) (Z.to_nat (round_div (Z.of_nat buf_rows) (Z.of_nat n_chunks))) r) as (b & E & I); [lia|].
      exists b. split; [|trivial].
      rewrite nth_res_lt with (d := map (vf []) r) by (unfold mk; cbn; rewrite map_length; lia).
      cbn [bind]. unfold mk; cbn [snd]. rewrite (map_nth (fun v => map (vf v) r)). exact E. }
    rewrite Ev. reflexivity. }
  destruct (merge_chunks_spec (Z.to_nat (round_div (Z.of_nat buf_rows) (Z.of_nat n_chunks)))
              (Z.to_nat (round_div o_buffer_b line_weight)) rs) as (idx & Em & Pm & Sm);
    [lia| | |exact Pc|exact Sc|].
  { destruct (Z.to_nat (round_div (Z.of_nat buf_rows) (Z.of_nat n_chunks))) eqn:X; [|lia].
    assert (2 * buf_rows <= n_chunks) by (apply Hi; reflexivity). lia. }
  { destruct (Z.to_nat (round_div o_buffer_b line_weight)) eqn:X; [|lia].
    assert (2 * o_buffer_b <= line_weight)%Z by (apply Ho'; reflexivity). lia. }
  eexists _, _. split; [exact Em|]. apply sorted_together_idx; assumption.
Qed.

(** With an empty chunk the chunk loop never ends. *)
Lemma h5sort_loops fuel buffer_b o_buffer_b line_weight :
  (0 < line_weight)%Z -> (0 <= buffer_b)%Z -> (2 * buffer_b <= line_weight)%Z ->
  h5sort_fuel argsort vz fuel buffer_b o_buffer_b line_weight keys vals = Err OutOfFuel.
Proof.
  intros Hw Hb H. unfold h5sort_fuel. rewrite Hvals.
  destruct (Z.eqb_spec line_weight 0); [lia|].
  assert (E : Z.to_nat (round_div buffer_b line_weight) = 0) by (apply round_half; lia).
  rewrite E. fold n.
  assert (G : forall f, chunk_loop argsort f keys vals n 0 0 = Err OutOfFuel).
  { induction f as [|f IH]; [reflexivity|]. cbn [chunk_loop].
    destruct (Nat.leb_spec (0 + 0) n); [|lia].
    destruct (extract_chunk_spec 0 0) as (r & Er & _); [lia|].
    cbn [Nat.add]. rewrite Er. cbn [bind]. rewrite IH. reflexivity. }
  rewrite G. reflexivity.
Qed.

End Top.

Lemma h5sort_sound argsort V (vz : V) fuel buffer_b o_buffer_b line_weight keys vals keys' vals' :
  argsort_spec argsort -> (0 < line_weight)%Z -> (0 <= buffer_b)%Z -> (0 <= o_buffer_b)%Z ->
  length keys < fuel ->
  h5sort_fuel argsort vz fuel buffer_b o_buffer_b line_weight keys vals = Ok (keys', vals') ->
  sorted_together keys vals keys' vals'.
Proof.
  intros Ha Hw Hb Ho Hf E.
  destruct (forallb (fun v => length v =? length keys) vals) eqn:Hv.
  2:{ unfold h5sort_fuel in E. rewrite Hv in E. discriminate. }
  destruct (Z.le_gt_cases (2 * buffer_b) line_weight) as [Hle|Hgt].
  { rewrite h5sort_loops in E by assumption. discriminate. }
  pose proof (h5sort_spec argsort Ha V vz keys vals Hv fuel buffer_b o_buffer_b line_weight Hw Hb Ho ltac:(lia) Hf) as S.
  cbv zeta in S. destruct (length keys =? 0); [congruence|].
  destruct (orb _ _); [congruence|]. destruct S as (k & v & E' & S). congruence.
Qed.

(** Every output row is an input row, and every input row occurs, as often. *)
Lemma sorted_together_rows V (keys : list Z) (vals : list (list V)) keys' vals' :
  sorted_together keys vals keys' vals' ->
  Permutation (map (row keys' vals') (seq 0 (length keys'))) (map (row keys vals) (seq 0 (length keys))).
Proof.
  intros (_ & idx & P & R & F).
  assert (Hl : length keys' = length idx).
  { rewrite <- (map_length Some keys'), R, map_length. reflexivity. }
  assert (E : map (row keys' vals') (seq 0 (length keys')) = map (row keys vals) idx).
  { rewrite Hl. apply nth_error_ext. intros k. rewrite !nth_error_map.
    destruct (nth_error idx k) as [i|] eqn:Ei.
    - assert (Hk : k < length idx) by (apply nth_error_Some; congruence).
      assert (Hs : nth_error (seq 0 (length idx)) k = Some k).
      { rewrite nth_error_nth' with (d := 0) by (rewrite seq_length; exact Hk). now rewrite seq_nth. }
      rewrite Hs. cbn. f_equal.
      assert (G : forall A (b a : list A), rearranged idx b a -> nth_error a k = nth_error b i).
      { intros A b a Hr. unfold rearranged in Hr.
        assert (X : nth_error (map Some a) k = Some (nth_error b i)).
        { rewrite Hr, nth_error_map, Ei. reflexivity. }
        rewrite nth_error_map in X. destruct (nth_error a k); cbn in X; congruence. }
      unfold row. f_equal; [apply G; exact R|].
      clear - F G. induction F as [|v v' l l' Hv F IH]; cbn; [reflexivity|].
      f_equal; [apply G; exact Hv|exact IH].
    - assert (Hk : length idx <= k) by (apply nth_error_None; exact Ei).
      assert (Hs : nth_error (seq 0 (length idx)) k = None).
      { apply nth_error_None. rewrite seq_length. exact Hk. }
      rewrite Hs. reflexivity. }
  rewrite E. apply Permutation_map. exact P.
Qed.

Lemma sorted_together_perm V (keys : list Z) (vals : list (list V)) keys' vals' :
  sorted_together keys vals keys' vals' -> Permutation keys' keys /\ StronglySorted Z.le keys'.
Proof.
  intros H. pose proof (sorted_together_rows _ _ _ _ _ H) as P. destruct H as [S _]. split; [|exact S].
  apply (Permutation_map fst) in P. rewrite !map_map in P. cbn in P.
  assert (G : forall l : list Z, map (fun i => nth_error l i) (seq 0 (length l)) = map Some l).
  { intros l. transitivity (map Some (map (fun i => nth i l 0%Z) (seq 0 (length l)))); [|now rewrite map_nth_seq].
    rewrite map_map. apply map_ext_in.
    intros i Hi. apply in_seq in Hi. apply nth_error_nth'. lia. }
  rewrite !G in P. apply (Permutation_map (fun o => match o with Some x => x | None => 0%Z end)) in P.
  rewrite !map_map, !map_id in P. exact P.
Qed.

(** The result is determined for the keys: it is the sorted list. *)
Lemma h5sort_keys argsort V (vz : V) fuel buffer_b o_buffer_b line_weight keys vals keys' vals' :
  argsort_spec argsort -> (0 < line_weight)%Z -> (0 <= buffer_b)%Z -> (0 <= o_buffer_b)%Z ->
  length keys < fuel ->
  h5sort_fuel argsort vz fuel buffer_b o_buffer_b line_weight keys vals = Ok (keys', vals') ->
  StronglySorted Z.le keys' /\ Permutation keys' keys.
Proof.
  intros Ha Hw Hb Ho Hf E. pose proof (h5sort_sound _ _ _ _ _ _ _ _ _ _ _ Ha Hw Hb Ho Hf E) as S.
  apply sorted_together_perm in S. tauto.
Qed.

Lemma h5sort_top argsort V (vz : V) buffer_b o_buffer_b line_weight keys vals :
  argsort_spec argsort -> (0 < line_weight)%Z -> (0 <= buffer_b)%Z -> (0 <= o_buffer_b)%Z ->
  Forall (fun v => length v = length keys) vals ->
  let buf_rows := Z.to_nat (round_div buffer_b line_weight) in
  let n_chunks := (length keys + buf_rows - 1) / buf_rows in
  (line_weight < 2 * buffer_b)%Z ->
  if (length keys =? 0) then h5sort argsort vz buffer_b o_buffer_b line_weight keys vals = Err ZeroDivisionError
  else if (2 * buf_rows <=? n_chunks) || (2 * o_buffer_b <=? line_weight)%Z
  then h5sort argsort vz buffer_b o_buffer_b line_weight keys vals = Err AssertionError
  else exists keys' vals',
    h5sort argsort vz buffer_b o_buffer_b line_weight keys vals = Ok (keys', vals') /\
    sorted_together keys vals keys' vals'.
Proof.
  intros Ha Hw Hb Ho Hv buf_rows n_chunks Hpos. unfold h5sort.
  apply h5sort_spec; try assumption; [|lia].
  apply forallb_forall. intros v Hin. apply Nat.eqb_eq. rewrite Forall_forall in Hv. auto.
Qed.

Lemma h5sort_loops_top argsort V (vz : V) fuel buffer_b o_buffer_b line_weight keys vals :
  argsort_spec argsort -> (0 < line_weight)%Z -> (0 <= buffer_b)%Z ->
  Forall (fun v => length v = length keys) vals -> (2 * buffer_b <= line_weight)%Z ->
  h5sort_fuel argsort vz fuel buffer_b o_buffer_b line_weight keys vals = Err OutOfFuel.
Proof.
  intros Ha Hw Hb Hv H. apply h5sort_loops; try assumption.
  apply forallb_forall. intros v Hin. apply Nat.eqb_eq. rewrite Forall_forall in Hv. auto.
Qed.

Lemma h5sort_mismatch argsort V (vz : V) fuel buffer_b o_buffer_b line_weight keys vals :
  ~ Forall (fun v => length v = length keys) vals ->
  h5sort_fuel argsort vz fuel buffer_b o_buffer_b line_weight keys vals = Err IOError.
Proof.
  intros H. unfold h5sort_fuel. destruct (forallb _ vals) eqn:E; [|reflexivity].
  exfalso. apply H. apply Forall_forall. intros v Hin. rewrite forallb_forall in E.
  apply Nat.eqb_eq. auto.
Qed.
