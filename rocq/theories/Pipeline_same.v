(** Two evaluations with the same items in another order, with other distances in the same order
    or with other bys. *)
From Coq Require Import String.
From Coq Require Import List ZArith QArith Sorted Permutation FinFun Lia.
From Verif Require Import Prelude Sampler Sampler_spec Sampler_proofs Task Task_spec Task_sort Task_main Task_reg_spec Distances Distances_spec
  Score Score_spec Analyze Analyze_spec Rounding H5io Pipeline Pipeline_spec Pipeline_proofs Pipeline_same_spec.
Import ListNotations.
Local Open Scope Z_scope.
Local Open Scope list_scope.
Set Implicit Arguments.

(** ** Lists *)

Lemma lex_irrefl r : ~ lex r r.
Proof. induction r as [|x r IH]; cbn; [tauto|]. intros [H|[_ H]]; [lia|auto]. Qed.

Lemma lex_trans r s t : lex r s -> lex s t -> lex r t.
Proof.
  revert s t. induction r as [|x r IH]; intros [|y s] [|z t]; cbn; try tauto.
  intros [H|[-> H]] [H'|[-> H']]; try (left; lia). right. split; [reflexivity|]. eapply IH; eauto.
Qed.

Lemma sorted_unique l : forall m, StronglySorted lex l -> StronglySorted lex m -> (forall r, In r l <-> In r m) -> l = m.
Proof.
  induction l as [|x l IH]; intros [|y m] Hl Hm E.
  - reflexivity.
  - destruct (proj2 (E y) (or_introl eq_refl)).
  - destruct (proj1 (E x) (or_introl eq_refl)).
  - apply StronglySorted_inv in Hl as [Hl Fl]. apply StronglySorted_inv in Hm as [Hm Fm].
    rewrite Forall_forall in Fl, Fm.
    assert (x = y) as <-.
    { destruct (proj1 (E x) (or_introl eq_refl)) as [->|Hx]; [reflexivity|].
      destruct (proj2 (E y) (or_introl eq_refl)) as [->|Hy]; [reflexivity|].
      destruct (@lex_irrefl x (lex_trans x y x (Fl _ Hy) (Fm _ Hx))). }
    f_equal. apply IH; auto. intros r. split; intros Hr.
    + destruct (proj1 (E r) (or_intror Hr)) as [->|]; [|assumption]. exact (False_ind _ (@lex_irrefl _ (Fl _ Hr))).
    + destruct (proj2 (E r) (or_intror Hr)) as [->|]; [|assumption]. exact (False_ind _ (@lex_irrefl _ (Fm _ Hr))).
Qed.

Lemma howmany_perm v l l' : Permutation l l' -> howmany v l = howmany v l'.
Proof.
  intros P. unfold howmany. f_equal. induction P as [|x l l' P IH|x y l|l l' l'' P IH P' IH']; cbn; auto.
  - destruct (v =? x); cbn; auto.
  - destruct (v =? x), (v =? y); cbn; auto.
  - congruence.
Qed.

Lemma proportion_perm l l' : Permutation l l' -> proportion l = proportion l'.
Proof.
  intros P. unfold proportion. rewrite (howmany_perm 1 P), (howmany_perm 0 P), (Permutation_length P). reflexivity.
Qed.

Lemma Forall2_fun A B (P P' : A -> B -> Prop) l : forall m m',
  (forall x y y', In x l -> P x y -> P' x y' -> y = y') -> Forall2 P l m -> Forall2 P' l m' -> m = m'.
Proof.
  induction l as [|x l IH]; intros m m' H F F'; inversion F; inversion F'; subst; [reflexivity|].
  f_equal; [eapply H; eauto; left; reflexivity|]. apply IH; auto. intros z ? ? Hz. apply H. right. exact Hz.
Qed.

Lemma Forall2_of_map A B C D (f : A -> B) (g : C -> D) (P : B -> D -> Prop) l m :
  Forall2 (fun x y => P (f x) (g y)) l m -> Forall2 P (map f l) (map g m).
Proof. induction 1; cbn; constructor; auto. Qed.

Lemma Forall2_map_l A B C (f : A -> B) (P : B -> C -> Prop) l : forall m,
  Forall2 P (map f l) m <-> Forall2 (fun x y => P (f x) y) l m.
Proof.
  induction l as [|x l IH]; intros m; split; intros F; inversion F; subst; constructor; auto; apply IH; auto.
Qed.

Lemma nodup_map A B (f : A -> B) l : (forall x y, In x l -> In y l -> f x = f y -> x = y) -> NoDup l -> NoDup (map f l).
Proof.
  induction l as [|x l IH]; intros H N; cbn; [constructor|]. inversion N as [|? ? Hx N']; subst. constructor.
  - rewrite in_map_iff. intros (y & E & Hy). apply H in E; [subst; auto|right; exact Hy|left; reflexivity].
  - apply IH; [|exact N']. intros y z Hy Hz. apply H; right; assumption.
Qed.

Lemma nodup_in_fst A B (l : list (A * B)) k v v' : NoDup (map fst l) -> In (k, v) l -> In (k, v') l -> v = v'.
Proof.
  induction l as [|[k1 v1] l IH]; cbn; [tauto|]. intros N [E|H] [E'|H']; inversion N as [|? ? Hk N']; subst.
  - congruence.
  - destruct Hk. injection E as -> ->. apply (in_map fst) in H'. exact H'.
  - destruct Hk. injection E' as -> ->. apply (in_map fst) in H. exact H.
  - auto.
Qed.

Lemma Forall2_fst A B (P : A * B -> A * B -> Prop) l : forall m,
  map fst l = map fst m -> (forall k v w, In (k, v) l -> In (k, w) m -> P (k, v) (k, w)) -> Forall2 P l m.
Proof.
  induction l as [|[k v] l IH]; intros [|[k' w] m] E H; cbn in E; try discriminate; constructor.
  - injection E as <- E. apply H; left; reflexivity.
  - injection E as <- E. apply IH; [exact E|]. intros k' v' w' Hv Hw. apply H; right; assumption.
Qed.

(** ** The items of a by *)

Section Items.
Variable tm : Type.
Variable T : task.

Lemma by_rows_items (db : list row) (places : list (Distances.item tm)) k :
  length places = length db -> by_rows T db k = map fst (items_of T db places k).
Proof.
  unfold by_rows, items_of. intros E.
  assert (map fst (combine db places) = db) as Ec.
  { revert places E. induction db as [|r db IH]; intros [|p places] E; try discriminate; [reflexivity|].
    cbn. f_equal. apply IH. cbn in E. lia. }
  assert (forall (f : row -> bool) (l : list (row * Distances.item tm)),
    filter f (map fst l) = map fst (filter (fun rp => f (fst rp)) l)) as Ef.
  { intros f l. induction l as [|[r p] l IH]; [reflexivity|]. cbn. destruct (f r); cbn; rewrite IH; reflexivity. }
  destruct (t_by T) as [|c cs].
  - destruct (key_dec k [0]).
    + assert (forall l : list (row * Distances.item tm), filter (fun _ => true) l = l) as Et by (induction l; cbn; congruence).
      rewrite Et. symmetry. exact Ec.
    + clear. induction (combine db places); cbn; auto.
  - rewrite <- Ec at 1. apply Ef.
Qed.

(** A wanted triplet in terms of the items. *)
Definition at_ (items : list (row * Distances.item tm)) (i : Z) (rp : row * Distances.item tm) : Prop :=
  0 <= i /\ nth_error items (Z.to_nat i) = Some rp.

Lemma at_item db (places : list (Distances.item tm)) k i r : length places = length db ->
  Task_spec.item (by_rows T db k) i r <-> exists p, at_ (items_of T db places k) i (r, p).
Proof.
  intros E. unfold Task_spec.item, at_. rewrite (by_rows_items _ _ k E). rewrite nth_error_map. split.
  - intros [H0 H]. destruct (nth_error _ _) as [[r' p]|]; [|discriminate]. injection H as <-. exists p. auto.
  - intros [p [H0 H]]. rewrite H. auto.
Qed.

Lemma at_place db (places : list (Distances.item tm)) k i p :
  place T db places k i p <-> exists r, at_ (items_of T db places k) i (r, p).
Proof.
  unfold place, at_, items_of. rewrite nth_error_map. split.
  - intros [H0 H]. destruct (nth_error _ _) as [[r p']|]; [|discriminate]. injection H as <-. exists r. auto.
  - intros [r [H0 H]]. split; [exact H0|]. apply (f_equal (option_map snd)) in H. exact H.
Qed.

Lemma at_fun items i u v : at_ items i u -> at_ items i v -> u = v.
Proof. intros [_ H] [_ H']. congruence. Qed.

Lemma at_row_at db (places : list (Distances.item tm)) k i r p : length places = length db ->
  at_ (items_of T db places k) i (r, p) -> row_at (by_rows T db k) i = r.
Proof.
  intros E [H0 H]. unfold row_at. apply nth_error_nth. rewrite (by_rows_items _ _ k E), nth_error_map, H. reflexivity.
Qed.

End Items.

(** ** Two tables *)

Section Two.
Variables tm L F F' V V' : Type.
Variable name : key -> string.
Hypothesis name_inj : forall k k', name k = name k' -> k = k'.
Variables (tle : tm -> tm -> bool) (vlt : V -> V -> bool) (vlt' : V' -> V' -> bool).
Variable distance : option bool -> list F -> list F -> res V.
Variable distance' : option bool -> list F' -> list F' -> res V'.
Variables (T : task) (db db' : list row) (places places' : list (Distances.item tm)).
Variables (files : list (feature_data tm F)) (files' : list (feature_data tm F')) (normalize normalize' : option Z).
Variable indexes : list (string * list L).
Hypothesis len : length places = length db.
Hypothesis len' : length places' = length db'.

(** The judgement on three locations. *)
Definition judged (G W : Type) (lt : W -> W -> bool) (dist : option bool -> list G -> list G -> res W)
           (fs : list (feature_data tm G)) (n : option Z) (pa pb px : Distances.item tm) (s : Z) : Prop :=
  exists ma mb mx dax dbx,
    matrix_of tle fs pa ma /\ matrix_of tle fs pb mb /\ matrix_of tle fs px mx /\
    dist (meant n) ma mx = Ok dax /\ dist (meant n) mb mx = Ok dbx /\ verdict lt dax dbx s.

Hypothesis agree : forall k a b x pa pb px s s', is_wanted T db k (a, b, x) ->
  place T db places k a pa -> place T db places k b pb -> place T db places k x px ->
  judged vlt distance files normalize pa pb px s -> judged vlt' distance' files' normalize' pa pb px s' -> s = s'.

Lemma items_places k r p : In (r, p) (items_of T db places k) -> In p places.
Proof. unfold items_of. rewrite filter_In. intros [H _]. eapply in_combine_r; eauto. Qed.

Section By.
Variable k : key.
Hypothesis perm : Permutation (items_of T db places k) (items_of T db' places' k).

Lemma move : exists f : Z -> Z,
  (forall i j rp rq, at_ (items_of T db places k) i rp -> at_ (items_of T db places k) j rq -> f i = f j -> i = j) /\
  (forall i rp, at_ (items_of T db places k) i rp -> at_ (items_of T db' places' k) (f i) rp) /\
  (forall j rp, at_ (items_of T db' places' k) j rp -> exists i, at_ (items_of T db places k) i rp /\ f i = j).
Proof.
  pose proof (Permutation_length perm) as El.
  apply Permutation_sym, Permutation_nth_error in perm as (_ & f & Hf & Hn).
  exists (fun i => Z.of_nat (f (Z.to_nat i))). split; [|split].
  - intros i j rp rq [Hi _] [Hj _] E. apply Nat2Z.inj, Hf in E. lia.
  - intros i rp [Hi H]. split; [lia|]. rewrite Nat2Z.id, <- Hn. exact H.
  - intros j rp [Hj H].
    assert (bSurjective (length (items_of T db places k)) f) as Hs.
    { apply bInjective_bSurjective.
      - intros n Hlt. rewrite El. apply nth_error_Some. rewrite <- Hn. apply nth_error_Some. exact Hlt.
      - intros n m _ _ E. apply Hf, E. }
    destruct (Hs (Z.to_nat j)) as (n & Hlt & E).
    { rewrite El. apply nth_error_Some. congruence. }
    exists (Z.of_nat n). split.
    + split; [lia|]. rewrite Nat2Z.id, Hn, E. exact H.
    + rewrite Nat2Z.id, E. lia.
Qed.

Definition moved (f : Z -> Z) (t : triplet) : triplet := let '(a, b, x) := t in (f a, f b, f x).

Lemma wanted_items db0 (places0 : list (Distances.item tm)) a b x : length places0 = length db0 ->
  wanted T db0 k a b x <->
  exists ra pa rb pb rx px, at_ (items_of T db0 places0 k) a (ra, pa) /\ at_ (items_of T db0 places0 k) b (rb, pb) /\
    at_ (items_of T db0 places0 k) x (rx, px) /\ abx T a x ra rb rx /\ passes (t_filters T) ra rb rx.
Proof.
  intros E. unfold wanted. split.
  - intros (ra & rb & rx & Ha & Hb & Hx & H). apply (at_item T db0 places0 k _ _ E) in Ha, Hb, Hx.
    destruct Ha as [pa Ha], Hb as [pb Hb], Hx as [px Hx]. exists ra, pa, rb, pb, rx, px. tauto.
  - intros (ra & pa & rb & pb & rx & px & Ha & Hb & Hx & H). exists ra, rb, rx.
    repeat (split; [apply (at_item T db0 places0 k _ _ E); eauto|]). exact H.
Qed.

Section F.
Variable f : Z -> Z.
Hypothesis f_inj : forall i j rp rq, at_ (items_of T db places k) i rp -> at_ (items_of T db places k) j rq -> f i = f j -> i = j.
Hypothesis f_to : forall i rp, at_ (items_of T db places k) i rp -> at_ (items_of T db' places' k) (f i) rp.
Hypothesis f_onto : forall j rp, at_ (items_of T db' places' k) j rp -> exists i, at_ (items_of T db places k) i rp /\ f i = j.

Lemma abx_moved a x ra rb rx rp rq : at_ (items_of T db places k) a rp -> at_ (items_of T db places k) x rq ->
  abx T a x ra rb rx <-> abx T (f a) (f x) ra rb rx.
Proof.
  intros Ha Hx. unfold abx. assert (a = x <-> f a = f x) as E; [split; [congruence|eapply f_inj; eauto]|].
  destruct (t_across T); [|tauto]. split; intros H; repeat split; try tauto;
    intros N; apply H; first [symmetry; apply E; symmetry; exact N|apply E; exact N|symmetry; apply E; exact N|apply E; symmetry; exact N].
Qed.

Lemma moved_wanted t : is_wanted T db k t -> is_wanted T db' k (moved f t).
Proof.
  destruct t as [[a b] x]. cbn. rewrite (wanted_items _ _ _ _ _ len), (wanted_items _ _ _ _ _ len').
  intros (ra & pa & rb & pb & rx & px & Ha & Hb & Hx & H & Hp). exists ra, pa, rb, pb, rx, px.
  repeat (split; [apply f_to; assumption|]). split; [|assumption]. apply (abx_moved _ _ _ Ha Hx). exact H.
Qed.

Lemma wanted_moved t' : is_wanted T db' k t' -> exists t, is_wanted T db k t /\ moved f t = t'.
Proof.
  destruct t' as [[a b] x]. cbn. rewrite (wanted_items _ _ _ _ _ len').
  intros (ra & pa & rb & pb & rx & px & Ha & Hb & Hx & H & Hp).
  apply f_onto in Ha as (a0 & Ha & <-), Hb as (b0 & Hb & <-), Hx as (x0 & Hx & <-).
  exists (a0, b0, x0). split; [|reflexivity]. cbn. rewrite (wanted_items _ _ _ _ _ len).
  exists ra, pa, rb, pb, rx, px. repeat (split; [assumption|]). split; [|assumption]. eapply abx_moved; eauto.
Qed.

Lemma moved_inj t t' : is_wanted T db k t -> is_wanted T db k t' -> moved f t = moved f t' -> t = t'.
Proof.
  destruct t as [[a b] x], t' as [[a' b'] x']. cbn. rewrite !(wanted_items _ _ _ _ _ len).
  intros (ra & pa & rb & pb & rx & px & Ha & Hb & Hx & _) (ra' & pa' & rb' & pb' & rx' & px' & Ha' & Hb' & Hx' & _) E.
  injection E as Ea Eb Ex. rewrite (f_inj Ha Ha' Ea), (f_inj Hb Hb' Eb), (f_inj Hx Hx' Ex). reflexivity.
Qed.

Lemma moved_value g t : is_wanted T db k t -> value (by_rows T db' k) g (moved f t) = value (by_rows T db k) g t.
Proof.
  destruct t as [[a b] x]. cbn. rewrite (wanted_items _ _ _ _ _ len).
  intros (ra & pa & rb & pb & rx & px & Ha & Hb & Hx & _).
  rewrite (at_row_at T _ _ k len Ha), (at_row_at T _ _ k len Hb), (at_row_at T _ _ k len Hx).
  rewrite (at_row_at T _ _ k len' (f_to Ha)), (at_row_at T _ _ k len' (f_to Hb)), (at_row_at T _ _ k len' (f_to Hx)). reflexivity.
Qed.

Lemma moved_combination names t : is_wanted T db k t ->
  combination T (by_rows T db' k) names (moved f t) = combination T (by_rows T db k) names t.
Proof.
  intros H. unfold combination. apply map_ext. intros s. unfold value_of.
  destruct (find _ _) as [[s' g]|]; [|reflexivity]. apply moved_value, H.
Qed.

Lemma moved_answer t s s' : is_wanted T db k t -> answer tle vlt distance T db places files normalize k t s ->
  answer tle vlt' distance' T db' places' files' normalize' k (moved f t) s' -> s = s'.
Proof.
  destruct t as [[a b] x]. cbn. intros W (pa & pb & px & ma & mb & mx & dax & dbx & Ha & Hb & Hx & H).
  intros (pa' & pb' & px' & ma' & mb' & mx' & dax' & dbx' & Ha' & Hb' & Hx' & H').
  apply at_place in Ha, Hb, Hx, Ha', Hb', Hx'.
  destruct Ha as [ra Ha], Hb as [rb Hb], Hx as [rx Hx], Ha' as [ra' Ha'], Hb' as [rb' Hb'], Hx' as [rx' Hx'].
  pose proof (at_fun (f_to Ha) Ha') as E1. pose proof (at_fun (f_to Hb) Hb') as E2. pose proof (at_fun (f_to Hx) Hx') as E3.
  injection E1 as <- <-. injection E2 as <- <-. injection E3 as <- <-.
  apply (@agree k a b x pa pb px); [exact W|apply at_place; eauto|apply at_place; eauto|apply at_place; eauto| |].
  - exists ma, mb, mx, dax, dbx. exact H.
  - exists ma', mb', mx', dax', dbx'. exact H'.
Qed.

Lemma moved_line r ln ln' :
  line_among tle vlt distance name (is_wanted T db) T db places files normalize indexes k r ln ->
  line_among tle vlt' distance' name (is_wanted T db') T db' places' files' normalize' indexes k r ln' ->
  line_same ln ln'.
Proof.
  intros (Hl & Hb & ts & ans & [Nt Ht] & Ha & Hn & Hs) (Hl' & Hb' & ts' & ans' & [Nt' Ht'] & Ha' & Hn' & Hs').
  assert (Permutation ts' (map (moved f) ts)) as P.
  { apply NoDup_Permutation; [exact Nt'| |].
    - apply nodup_map; [|exact Nt]. intros t t' H H'. apply Ht in H as [H _]. apply Ht in H' as [H' _]. apply moved_inj; assumption.
    - intros t'. rewrite Ht', in_map_iff. split.
      + intros [H E]. destruct (wanted_moved t' H) as (t & Hw & <-). exists t. split; [reflexivity|]. apply Ht.
        split; [exact Hw|]. rewrite <- (moved_combination _ t Hw). exact E.
      + intros (t & <- & H). apply Ht in H as [Hw E]. split; [apply moved_wanted, Hw|].
        rewrite (moved_combination _ t Hw). exact E. }
  destruct (Permutation_Forall2 P Ha') as (ans2 & Pa & F2). apply (proj1 (Forall2_map_l _ _ _ _)) in F2.
  assert (ans = ans2) as <-.
  { refine (Forall2_fun _ Ha F2). intros t s s' H. apply Ht in H as [H _]. cbn. apply moved_answer, H. }
  repeat split.
  - revert Hl'. revert Hl. generalize (l_labels ln) (l_labels ln'). intros l l' Hl Hl'.
    refine (Forall2_fun _ Hl Hl'). intros i y y' _ [_ E] [_ E']. congruence.
  - congruence.
  - rewrite Hn, Hn'. rewrite (Permutation_length P), map_length. reflexivity.
  - rewrite Hs, Hs'. rewrite (proportion_perm Pa). reflexivity.
Qed.

End F.

(** The parts of a by in two results. *)
Lemma parts_same part part' :
  StronglySorted lex (map fst part) -> StronglySorted lex (map fst part') ->
  (forall r, In r (map fst part) <->
     exists t, is_wanted T db k t /\ combination T (by_rows T db k) (map fst indexes) t = r) ->
  (forall r, In r (map fst part') <->
     exists t, is_wanted T db' k t /\ combination T (by_rows T db' k) (map fst indexes) t = r) ->
  (forall r ln, In (r, ln) part ->
     line_among tle vlt distance name (is_wanted T db) T db places files normalize indexes k r ln) ->
  (forall r ln, In (r, ln) part' ->
     line_among tle vlt' distance' name (is_wanted T db') T db' places' files' normalize' indexes k r ln) ->
  Forall2 (@line_same L) (map snd part) (map snd part').
Proof.
  intros S S' E E' H H'. destruct move as (f & f_inj & f_to & f_onto).
  assert (map fst part = map fst part') as Em.
  { apply sorted_unique; auto. intros r. rewrite E, E'. split.
    - intros (t & Hw & <-). exists (moved f t). split; [apply moved_wanted; assumption|].
      apply moved_combination; assumption.
    - intros (t' & Hw & <-). destruct (wanted_moved f f_inj f_onto t' Hw) as (t & Hw' & <-).
      exists t. split; [exact Hw'|]. symmetry. apply moved_combination; assumption. }
  apply Forall2_of_map. apply Forall2_fst; [exact Em|]. intros r ln ln' Hr Hr'. cbn.
  apply (moved_line f f_inj f_to f_onto (H _ _ Hr) (H' _ _ Hr')).
Qed.

Lemma wanted_iff : (exists t, is_wanted T db k t) <-> exists t, is_wanted T db' k t.
Proof.
  destruct move as (f & f_inj & f_to & f_onto). split.
  - intros [t H]. exists (moved f t). apply moved_wanted; assumption.
  - intros [t' H]. destruct (wanted_moved f f_inj f_onto t' H) as (t & Hw & _). eauto.
Qed.

End By.

Lemma filter_none (A : Type) (g : A -> bool) l : (forall x, In x l -> g x = false) -> filter g l = [].
Proof.
  induction l as [|x l IH]; intros H; [reflexivity|]. cbn. rewrite (H x (or_introl eq_refl)).
  apply IH. intros y Hy. apply H. right. exact Hy.
Qed.

Lemma filter_all (A : Type) (g : A -> bool) l : (forall x, In x l -> g x = true) -> filter g l = l.
Proof.
  induction l as [|x l IH]; intros H; [reflexivity|]. cbn. rewrite (H x (or_introl eq_refl)). f_equal.
  apply IH. intros y Hy. apply H. right. exact Hy.
Qed.

(** The lines of a by are those of its part. *)
Lemma of_by_part k : forall parts : list (key * list (list Z * line L)),
  (forall k' part, In (k', part) parts -> forall r ln, In (r, ln) part -> l_by ln = name k') ->
  NoDup (map fst parts) ->
  (forall part, In (k, part) parts -> of_by (name k) (concat (map (fun p => map snd (snd p)) parts)) = map snd part) /\
  (~ In k (map fst parts) -> of_by (name k) (concat (map (fun p => map snd (snd p)) parts)) = []).
Proof.
  unfold of_by.
  induction parts as [|[k1 part1] parts IH]; intros H N; cbn [map fst snd concat].
  { split; [intros ? []|reflexivity]. }
  cbn in N. inversion N as [|? ? Hk N']; subst.
  destruct (IH (fun k' p Hp => H k' p (or_intror Hp)) N') as [IH1 IH2]. rewrite filter_app.
  assert (forall ln, In ln (map snd part1) -> l_by ln = name k1) as Hb.
  { intros ln Hl. apply in_map_iff in Hl as ([r ln'] & <- & Hl). cbn. apply (H k1 part1 (or_introl eq_refl) r). exact Hl. }
  assert (k1 <> k -> filter (fun ln => String.eqb (l_by ln) (name k)) (map snd part1) = []) as Hnone.
  { intros Hn. apply filter_none. intros ln Hl. apply String.eqb_neq. rewrite (Hb _ Hl). intros E. apply Hn, name_inj, E. }
  split.
  - intros part [E|Hp].
    + injection E as -> ->. rewrite IH2 by exact Hk. rewrite app_nil_r. apply filter_all. intros ln Hl.
      apply String.eqb_eq, Hb, Hl.
    + rewrite Hnone, (IH1 _ Hp); [reflexivity|]. intros ->. apply Hk. apply (in_map fst) in Hp. exact Hp.
  - intros Hn. rewrite Hnone, IH2; [reflexivity| |]; intros E; apply Hn; [right; exact E|left; exact E].
Qed.

(** The lines of one by. *)
Theorem by_same_wanted k lines lines' :
  Permutation (items_of T db places k) (items_of T db' places' k) ->
  result_of tle vlt distance name T db places files normalize indexes lines ->
  result_of tle vlt' distance' name T db' places' files' normalize' indexes lines' ->
  Forall2 (@line_same L) (of_by (name k) lines) (of_by (name k) lines').
Proof.
  intros P (parts & -> & N & Hk & H) (parts' & -> & N' & Hk' & H').
  assert (forall k' part, In (k', part) parts -> forall r ln, In (r, ln) part -> l_by ln = name k') as B
    by (intros k' part Hp r ln Hr; apply (H _ _ Hp) in Hr; apply Hr).
  assert (forall k' part, In (k', part) parts' -> forall r ln, In (r, ln) part -> l_by ln = name k') as B'
    by (intros k' part Hp r ln Hr; apply (H' _ _ Hp) in Hr; apply Hr).
  destruct (of_by_part k parts B N) as [E1 E2]. destruct (of_by_part k parts' B' N') as [E1' E2'].
  destruct (in_dec key_dec k (map fst parts)) as [Hi|Hi].
  - pose proof Hi as Hi'. rewrite Hk, (wanted_iff k P), <- Hk' in Hi'.
    apply in_map_iff in Hi as ([k1 part] & E & Hp). cbn in E. subst k1.
    apply in_map_iff in Hi' as ([k1 part'] & E & Hp'). cbn in E. subst k1.
    rewrite (E1 _ Hp), (E1' _ Hp'). apply H in Hp as (S & R & Q). apply H' in Hp' as (S' & R' & Q').
    apply (parts_same P _ _ S S' R R' Q Q').
  - rewrite (E2 Hi). assert (~ In k (map fst parts')) as Hi' by (rewrite Hk', <- (wanted_iff k P), <- Hk; exact Hi).
    rewrite (E2' Hi'). constructor.
Qed.

(** The whole result. *)
Theorem all_same_wanted lines lines' :
  (forall k, Permutation (items_of T db places k) (items_of T db' places' k)) ->
  result_of tle vlt distance name T db places files normalize indexes lines ->
  result_of tle vlt' distance' name T db' places' files' normalize' indexes lines' ->
  same_lines lines lines'.
Proof.
  intros P (parts & -> & N & Hk & H) (parts' & -> & N' & Hk' & H').
  assert (Permutation (map fst parts') (map fst parts)) as Pk.
  { apply NoDup_Permutation; auto. intros k. rewrite Hk, Hk'. symmetry. apply wanted_iff, P. }
  apply Permutation_map_inv in Pk as (parts2 & E & P2).
  exists (concat (map (fun p => map snd (snd p)) parts2)). split.
  - rewrite <- !flat_map_concat_map. apply Permutation_flat_map, P2.
  - symmetry in E. assert (forall k part, In (k, part) parts2 -> In (k, part) parts) as I
      by (intros k part; apply Permutation_in, Permutation_sym, P2).
    clear - I E H H' P len len' agree name_inj. revert parts' E H'. induction parts2 as [|[k part] parts2 IH]; intros [|[k' part'] parts'] E H';
      try discriminate; [constructor|]. cbn in E. injection E as -> E. cbn [map concat snd]. apply Forall2_app.
    + destruct (H _ _ (I _ _ (or_introl eq_refl))) as (S & R & Q). destruct (H' _ _ (or_introl eq_refl)) as (S' & R' & Q').
      apply (parts_same (P k') _ _ S S' R R' Q Q').
    + apply IH; [|exact E|].
      * intros k part0 Hp. apply I. right. exact Hp.
      * intros k part0 Hp. apply H'. right. exact Hp.
Qed.

End Two.

(** The same when the judgements agree on any three locations. *)
Section Places.
Variables tm L F F' V V' : Type.
Variable name : key -> string.
Hypothesis name_inj : forall k k', name k = name k' -> k = k'.
Variables (tle : tm -> tm -> bool) (vlt : V -> V -> bool) (vlt' : V' -> V' -> bool).
Variable distance : option bool -> list F -> list F -> res V.
Variable distance' : option bool -> list F' -> list F' -> res V'.
Variables (T : task) (db db' : list row) (places places' : list (Distances.item tm)).
Variables (files : list (feature_data tm F)) (files' : list (feature_data tm F')) (normalize normalize' : option Z).
Variable indexes : list (string * list L).
Hypothesis len : length places = length db.
Hypothesis len' : length places' = length db'.
Hypothesis agree : forall pa pb px s s', In pa places -> In pb places -> In px places ->
  judged tle vlt distance files normalize pa pb px s -> judged tle vlt' distance' files' normalize' pa pb px s' -> s = s'.

Lemma place_in k i p : place T db places k i p -> In p places.
Proof. intros H. apply at_place in H. destruct H as [r [_ H]]. eapply items_places, nth_error_In, H. Qed.

Theorem by_same k lines lines' :
  Permutation (items_of T db places k) (items_of T db' places' k) ->
  result_of tle vlt distance name T db places files normalize indexes lines ->
  result_of tle vlt' distance' name T db' places' files' normalize' indexes lines' ->
  Forall2 (@line_same L) (of_by (name k) lines) (of_by (name k) lines').
Proof.
  apply by_same_wanted; try assumption. intros k' a b x pa pb px s s' _ Ha Hb Hx.
  apply agree; eapply place_in; eassumption.
Qed.

Theorem all_same lines lines' :
  (forall k, Permutation (items_of T db places k) (items_of T db' places' k)) ->
  result_of tle vlt distance name T db places files normalize indexes lines ->
  result_of tle vlt' distance' name T db' places' files' normalize' indexes lines' ->
  same_lines lines lines'.
Proof.
  apply all_same_wanted; try assumption. intros k' a b x pa pb px s s' _ Ha Hb Hx.
  apply agree; eapply place_in; eassumption.
Qed.

End Places.
