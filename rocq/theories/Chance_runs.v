(** The threshold favours no selection of the triplets of a block. *)
From Coq Require Import Reals Lra.
From Verif Require Import Prelude ListFacts Sampler Sampler_spec Sampler_proofs Sampler_uniform Task Task_spec Task_sort Task_regs Task_file
  Chance_spec Chance_count Chance_law Chance_sample.
Open Scope Z_scope.

Definition nats_dec : forall a b : list nat, {a = b} + {a <> b} := list_eq_dec Nat.eq_dec.

Lemma app_inj_length {A} (a b c d : list A) : length a = length c -> a ++ b = c ++ d -> a = c /\ b = d.
Proof.
  revert c. induction a as [|x a IH]; intros [|y c] Hl E; try discriminate; [auto|].
  cbn in Hl, E. injection E as -> E. destruct (IH c) as [-> ->]; auto.
Qed.

Lemma map_inj_in {A B} (g : A -> B) : forall l l', (forall x y, In x l -> In y l' -> g x = g y -> x = y) -> map g l = map g l' -> l = l'.
Proof.
  induction l as [|x l IH]; intros [|y l'] H E; try discriminate; [reflexivity|]. cbn in E. injection E as E1 E2.
  f_equal; [apply H; auto using in_eq|]. apply IH; auto using in_cons.
Qed.

Lemma filter_nth {A} (keep : A -> bool) (d : A) l :
  filter keep l = map (fun i => nth i l d) (filter (fun i => keep (nth i l d)) (seq 0 (length l))).
Proof.
  rewrite <- (map_nth_seq l d) at 1. generalize (seq 0 (length l)). intros s. induction s as [|i s IH]; [reflexivity|].
  cbn. destruct (keep (nth i l d)); cbn; congruence.
Qed.

Lemma own_app (a b c d seg post : list nat) : incl a seg -> incl c seg -> incl b post -> incl d post -> (forall i, In i seg -> ~ In i post) ->
  (forall i, In i (a ++ b) <-> In i (c ++ d)) -> (forall i, In i a <-> In i c) /\ (forall i, In i b <-> In i d).
Proof.
  intros Ha Hc Hb Hd D H. split; intros i; specialize (H i); rewrite !in_app_iff in H; specialize (D i);
  specialize (Ha i); specialize (Hb i); specialize (Hc i); specialize (Hd i); tauto.
Qed.

Lemma sample_own n seg s s' : NoDup seg -> is_sample n (Z.of_nat (length seg)) s -> is_sample n (Z.of_nat (length seg)) s' ->
  (forall i, In i (map (fun x => nth (Z.to_nat x) seg 0%nat) s) <-> In i (map (fun x => nth (Z.to_nat x) seg 0%nat) s')) -> s = s'.
Proof.
  intros Hn (_ & Hs & Hr) (_ & Hs' & Hr') H. apply ssorted_lt_ext; auto.
  assert (G : forall u v, (forall x, In x u -> 0 <= x < Z.of_nat (length seg)) -> (forall x, In x v -> 0 <= x < Z.of_nat (length seg)) ->
    incl (map (fun x => nth (Z.to_nat x) seg 0%nat) u) (map (fun x => nth (Z.to_nat x) seg 0%nat) v) -> incl u v).
  { intros u v Hu Hv I x Hx. specialize (I _ (in_map _ _ _ Hx)). apply in_map_iff in I as (y & E & Hy). pose proof (Hu x Hx). pose proof (Hv y Hy).
    apply (proj1 (NoDup_nth seg 0%nat) Hn) in E; try lia. replace x with y by lia. exact Hy. }
  intros x. split; revert x; apply G; auto; intros i Hi; apply H; exact Hi.
Qed.

Section Runs.
Variable L : Z.
Hypothesis HL : 0 < L.
Variable M : Z.
Hypothesis Hdiv : forall r, 0 < r <= M -> (r | L).
Variable t : Z.
Hypothesis Ht : 0 < t.

Definition runs (permut : list nat) (ty : itype) (counts : list nat) (i : nat) : comp (list nat) :=
  fun fuel R c => threshold_runs R fuel permut ty (Some t) counts i c.

(** The selection of the run that starts at [length pre]. *)
Lemma gather_run pre seg post ty s :
  Z.of_nat (length (pre ++ seg ++ post)) - 1 <= tmax ty -> (forall x, In x s -> 0 <= x < Z.of_nat (length seg)) ->
  gather (pre ++ seg ++ post) (map (fun x => Z.to_nat (cast ty (x + Z.of_nat (length pre)))) s) = Ok (map (fun x => nth (Z.to_nat x) seg 0%nat) s).
Proof.
  intros Hty Hs. rewrite !app_length in Hty. rewrite (@gather_ok _ _ _ 0%nat).
  - f_equal. rewrite map_map. apply map_ext_in. intros x Hx. specialize (Hs x Hx). pose proof (tmin_nonpos ty). rewrite cast_id by lia.
    rewrite app_nth2 by lia. rewrite app_nth1 by lia. f_equal. lia.
  - intros j Hj. apply in_map_iff in Hj as (x & <- & Hx). specialize (Hs x Hx). pose proof (tmin_nonpos ty). rewrite cast_id by lia.
    rewrite !app_length. lia.
Qed.

Lemma kept_sample (keep : nat -> bool) seg : Z.of_nat (length (filter keep seg)) = t ->
  exists s, is_sample t (Z.of_nat (length seg)) s /\ map (fun x => nth (Z.to_nat x) seg 0%nat) s = filter keep seg.
Proof.
  intros Hk. exists (map Z.of_nat (filter (fun i => keep (nth i seg 0%nat)) (seq 0 (length seg)))).
  assert (E : map (fun x => nth (Z.to_nat x) seg 0%nat) (map Z.of_nat (filter (fun i => keep (nth i seg 0%nat)) (seq 0 (length seg)))) = filter keep seg).
  { rewrite (filter_nth keep 0%nat seg), map_map. apply map_ext. intros i. rewrite Nat2Z.id. reflexivity. }
  split; [|exact E]. split; [|split].
  - rewrite <- Hk, <- E, !map_length. reflexivity.
  - clear E Hk. generalize (length seg) as k. generalize 0%nat at 2. intros i k. revert i. induction k as [|k IH]; intros i; [constructor|]. cbn [seq filter]. destruct (keep _); [|apply IH].
    cbn. constructor; [apply IH|]. apply Forall_forall. intros x Hx. apply in_map_iff in Hx as (j & <- & Hj). apply filter_In in Hj as [Hj _].
    apply in_seq in Hj. lia.
  - intros x Hx. apply in_map_iff in Hx as (j & <- & Hj). apply filter_In in Hj as [Hj _]. apply in_seq in Hj. lia.
Qed.

Lemma runs_law permut ty (code : nat -> Z) : Z.of_nat (length permut) - 1 <= tmax ty -> Z.of_nat (length permut) <= M ->
  forall rl pre post, permut = pre ++ post -> NoDup post -> map code post = expand rl -> NoDup (map fst rl) ->
  exists l, law L nats_dec (runs permut ty (map snd rl) (length pre)) l /\ (exists k, forall a, In a l -> length a = k) /\
    (forall a, In a l -> incl a post) /\
    (forall a b, In a l -> In b l -> (forall i, In i a <-> In i b) -> a = b) /\
    forall keep : nat -> bool,
      (forall v n, In (v, n) rl -> Z.of_nat (length (filter (fun i => keep i && (code i =? v)) post)) = Z.min t (Z.of_nat n)) ->
      In (filter keep post) l.
Proof.
  intros Hty HM. induction rl as [|[v n] rl IH]; intros pre post Ep Hn Hc Hd.
  - exists [[]]. cbn in Hc. apply map_eq_nil in Hc. subst post. split; [|split; [|split; [|split]]].
    + apply (law_ext L nats_dec (fun _ _ c => Ok ([], c))); [reflexivity|]. apply law_ret. exact HL.
    + exists O. intros a [<-|[]]. reflexivity.
    + intros a [<-|[]]. apply incl_refl.
    + intros a b [<-|[]] [<-|[]] _. reflexivity.
    + intros keep _. left. reflexivity.
  - cbn [expand flat_map fst snd] in Hc. fold (expand rl) in Hc.
    assert (Hlen : length post = (n + length (expand rl))%nat).
    { rewrite <- (map_length code), Hc, app_length, repeat_length. reflexivity. }
    assert (Hex : exists seg post', post = seg ++ post' /\ length seg = n).
    { exists (firstn n post), (skipn n post). rewrite firstn_skipn, firstn_length. split; [reflexivity|lia]. }
    destruct Hex as (seg & post' & Epost & Lseg).
    assert (Cseg : map code seg = repeat v n /\ map code post' = expand rl).
    { rewrite Epost, map_app in Hc. apply app_inj_length; [rewrite map_length, repeat_length; exact Lseg|exact Hc]. }
    destruct Cseg as [Cseg Cpost]. cbn [map fst] in Hd. apply NoDup_cons_iff in Hd as [Hv Hd].
    rewrite Epost in Hn. destruct (NoDup_app_elim _ _ Hn) as (Ns & Np & Nd).
    destruct (IH (pre ++ seg) post') as (l2 & Hl2 & (k2 & Hk2) & Hi2 & Hu2 & Hkeep2); auto.
    { rewrite Ep, Epost, app_assoc. reflexivity. }
    assert (Eseg : forall i, In i seg -> code i = v).
    { intros i Hi. apply (repeat_spec n). rewrite <- Cseg. apply in_map. exact Hi. }
    assert (Epo : forall i, In i post' -> code i <> v).
    { intros i Hi E. apply Hv. pose proof (in_map code _ _ Hi) as H. rewrite E, Cpost in H. unfold expand in H. apply in_flat_map in H as ([w m] & H1 & H2).
      cbn in H2. apply repeat_spec in H2. subst w. apply (in_map fst) in H1. exact H1. }
    assert (Kseg : forall keep : nat -> bool, (forall w m, In (w, m) ((v, n) :: rl) -> Z.of_nat (length (filter (fun i => keep i && (code i =? w)) post)) = Z.min t (Z.of_nat m)) ->
       Z.of_nat (length (filter keep seg)) = Z.min t (Z.of_nat n) /\ In (filter keep post') l2).
    { intros keep Hk. split.
      - rewrite <- (Hk v n (or_introl eq_refl)). rewrite Epost, filter_app, app_length.
        rewrite (filter_ext_in (fun i => keep i && (code i =? v)) keep seg) by (intros i Hi; rewrite (Eseg i Hi), Z.eqb_refl; apply andb_true_r).
        rewrite (@filter_none _ (fun i => keep i && (code i =? v)) post'); [cbn; lia|]. intros i Hi. rewrite (proj2 (Z.eqb_neq _ _) (Epo i Hi)). apply andb_false_r.
      - apply Hkeep2. intros w m Hin. rewrite <- (Hk w m (or_intror Hin)). rewrite Epost, filter_app, app_length.
        rewrite (@filter_none _ (fun i => keep i && (code i =? w)) seg); [cbn; lia|]. intros i Hi. rewrite (Eseg i Hi).
        destruct (Z.eqb_spec v w) as [->|]; [|apply andb_false_r]. exfalso. apply Hv. apply (in_map fst) in Hin. exact Hin. }
    rewrite app_length, Lseg in Hl2. cbn [map snd].
    destruct (negb (t =? 0) && (t <? Z.of_nat n)) eqn:Es.
    + assert (Htn : t < Z.of_nat n) by lia.
      assert (HN : Z.of_nat n <= Z.of_nat (length permut)) by (rewrite Ep, app_length, Hlen; lia).
      assert (Hsw : law L zlist_dec (swr t (Z.of_nat n) ty) (samples t (Z.of_nat n))).
      { apply swr_law; [exact HL| |lia|lia]. intros r Hr. apply Hdiv. lia. }
      assert (Hsr : forall s, In s (samples t (Z.of_nat n)) -> forall x, In x s -> 0 <= x < Z.of_nat (length seg)).
      { intros s Hs. apply samples_In in Hs; [|lia]. rewrite Lseg. apply Hs. }
      set (pick := fun s : list Z => map (fun x => nth (Z.to_nat x) seg 0%nat) s).
      exists (flat_map (fun s => map (fun r => pick s ++ r) l2) (samples t (Z.of_nat n))). split; [|split; [|split; [|split]]].
      * eapply law_ext_ok; [|apply (law_pair L HL zlist_dec nats_dec nats_dec (swr t (Z.of_nat n) ty) (runs permut ty (map snd rl) (length pre + n))
          (fun s r => p <- gather permut (map (fun x => Z.to_nat (cast ty (x + Z.of_nat (length pre)))) s) ;; Ok (p ++ r)) (fun s r => pick s ++ r) _ _ Hsw Hl2)].
        -- intros fuel R c x. unfold runs. cbn [threshold_runs]. rewrite Es. unfold swr.
           destruct (sample_without_replacement R fuel c t (Z.of_nat n) ty) as [[s c1]|e] eqn:E; [|reflexivity]. cbn [bind fst snd].
           destruct (gather permut _) as [p|e] eqn:Eg; cbn [bind fst snd];
             destruct (threshold_runs R fuel permut ty (Some t) (map snd rl) (length pre + n) c1) as [[r c2]|e2]; cbn [bind fst snd];
             split; intros H; (exact H || discriminate H).
        -- intros s r Hs _. rewrite Ep, Epost, gather_run; [reflexivity| |apply Hsr; exact Hs]. rewrite Ep, Epost in Hty. exact Hty.
        -- intros s s' r r' Hs Hs' Hr Hr' E. apply app_inj_length in E as [E ->].
           ++ split; [|reflexivity]. unfold pick in E. apply map_inj_in in E; [exact E|]. intros x y Hx Hy Exy.
              pose proof (Hsr s Hs x Hx). pose proof (Hsr s' Hs' y Hy). apply (proj1 (NoDup_nth seg 0%nat) Ns) in Exy; lia.
           ++ unfold pick. rewrite !map_length. apply samples_In in Hs as [Hs _]; [|lia]. apply samples_In in Hs' as [Hs' _]; lia.
      * exists (Z.to_nat t + k2)%nat. intros a Ha. apply in_flat_map in Ha as (s & Hs & Ha). apply in_map_iff in Ha as (r & <- & Hr).
        rewrite app_length, (Hk2 r Hr). unfold pick. rewrite map_length. apply samples_In in Hs as [Hs _]; lia.
      * intros a Ha. apply in_flat_map in Ha as (s & Hs & Ha). apply in_map_iff in Ha as (r & <- & Hr). rewrite Epost. apply incl_app.
        -- apply incl_appl. intros i Hi. apply in_map_iff in Hi as (x & <- & Hx). apply nth_In. pose proof (Hsr s Hs x Hx). lia.
        -- apply incl_appr. apply Hi2. exact Hr.
      * intros a b Ha Hb H. apply in_flat_map in Ha as (s & Hs & Ha). apply in_map_iff in Ha as (r & <- & Hr).
        apply in_flat_map in Hb as (s' & Hs' & Hb). apply in_map_iff in Hb as (r' & <- & Hr').
        assert (Ip : forall u, In u (samples t (Z.of_nat n)) -> incl (pick u) seg).
        { intros u Hu i Hi. apply in_map_iff in Hi as (x & <- & Hx). apply nth_In. pose proof (Hsr u Hu x Hx). lia. }
        destruct (own_app _ _ _ _ _ _ (Ip s Hs) (Ip s' Hs') (Hi2 r Hr) (Hi2 r' Hr') Nd H) as [H1 H2].
        f_equal; [|apply Hu2; auto]. f_equal. apply (sample_own t seg); auto; rewrite Lseg; apply samples_In; auto; lia.
      * intros keep Hk. destruct (Kseg keep Hk) as [K1 K2]. rewrite Z.min_l in K1 by lia.
        destruct (kept_sample keep seg K1) as (s & Hs & E). rewrite Lseg in Hs. apply in_flat_map. exists s.
        split; [apply samples_In; [lia|exact Hs]|]. apply in_map_iff. exists (filter keep post'). split; [|exact K2].
        unfold pick. rewrite E, Epost, filter_app. reflexivity.
    + assert (Htn : Z.of_nat n <= t) by lia.
      assert (Esl : slice (length pre) (length pre + n) permut = seg).
      { unfold slice. rewrite Ep, skipn_app, skipn_all, Nat.sub_diag. cbn.
        replace (length pre + n - length pre)%nat with (length seg + 0)%nat by lia.
        rewrite Epost, firstn_app_2. apply app_nil_r. }
      exists (map (app seg) l2). split; [|split; [|split; [|split]]].
      * eapply law_ext; [|apply (law_map L HL nats_dec nats_dec (runs permut ty (map snd rl) (length pre + n)) (fun r => Ok (seg ++ r)) (app seg) l2 Hl2)].
        -- intros fuel R c. unfold runs. cbn [threshold_runs]. rewrite Es. cbn [bind fst snd]. rewrite Esl.
           destruct (threshold_runs R fuel permut ty (Some t) (map snd rl) (length pre + n) c) as [[r c2]|e]; reflexivity.
        -- reflexivity.
        -- intros a b _ _ E. apply app_inv_head in E. exact E.
      * exists (n + k2)%nat. intros a Ha. apply in_map_iff in Ha as (r & <- & Hr). rewrite app_length, (Hk2 r Hr). lia.
      * intros a Ha. apply in_map_iff in Ha as (r & <- & Hr). rewrite Epost. apply incl_app; [apply incl_appl, incl_refl|apply incl_appr, Hi2, Hr].
      * intros a b Ha Hb H. apply in_map_iff in Ha as (r & <- & Hr). apply in_map_iff in Hb as (r' & <- & Hr').
        destruct (own_app _ _ _ _ _ _ (incl_refl seg) (incl_refl seg) (Hi2 r Hr) (Hi2 r' Hr') Nd H) as [H1 H2]. f_equal. apply Hu2; auto.
      * intros keep Hk. destruct (Kseg keep Hk) as [K1 K2]. apply in_map_iff. exists (filter keep post'). split; [|exact K2].
        rewrite Epost, filter_app. f_equal. symmetry.
        assert (G : forall l : list nat, (length l <= length (filter keep l))%nat -> filter keep l = l).
        { clear. induction l as [|x l IHl]; [reflexivity|]. cbn. destruct (keep x); cbn; intros H.
          - f_equal. apply IHl. lia.
          - exfalso. pose proof (Task_file.filter_length_le keep l). lia. }
        apply G. lia.
Qed.
End Runs.
