(** Making a task and generating its triplets does not raise; generating twice. *)
From Coq Require Import Ascii String.
From Verif Require Import Prelude ListFacts TypeFitting TypeFitting_proofs
  Sampler Sampler_spec Sampler_proofs Task Task_spec Task_blocks Task_sort Task_regs Task_gen Task_file
  Task_proofs Task_main.
Set Implicit Arguments.
Open Scope Z_scope.

Lemma groups_sum (key_of : row -> key) (db : list row) (ks : list key) : NoDup ks ->
  sumZ (map (fun k => Zlen (filter (fun r => key_eqb (key_of r) k) db)) ks) <= Zlen db.
Proof.
  intros HN. induction db as [|r db IH].
  - cbn. clear HN. induction ks as [|k ks IH]; unfold sumZ, Zlen in *; cbn in *; lia.
  - assert (E : sumZ (map (fun k => Zlen (filter (fun r => key_eqb (key_of r) k) (r :: db))) ks) =
       (if existsb (fun k => key_eqb (key_of r) k) ks then 1 else 0) +
       sumZ (map (fun k => Zlen (filter (fun r => key_eqb (key_of r) k) db)) ks)).
    { clear IH. induction ks as [|k ks IHk]; [reflexivity|]. apply NoDup_cons_iff in HN as [H1 H2].
      specialize (IHk H2). unfold sumZ in *. cbn [map fold_right existsb]. rewrite IHk.
      cbn [filter]. destruct (key_eqb (key_of r) k) eqn:E.
      - assert (E2 : existsb (fun k => key_eqb (key_of r) k) ks = false).
        { apply Bool.not_true_iff_false. intros Hx. apply existsb_exists in Hx as (k' & Hk & E').
          apply key_eqb_spec in E, E'. apply H1. congruence. }
        rewrite E2. cbn [orb].
        replace (Zlen (r :: filter (fun r => key_eqb (key_of r) k) db)) with
          (1 + Zlen (filter (fun r => key_eqb (key_of r) k) db)) by (unfold Zlen; cbn [length]; lia). lia.
      - cbn [orb]. lia. }
    rewrite E. replace (Zlen (r :: db)) with (1 + Zlen db) by (unfold Zlen; cbn [length]; lia).
    destruct (existsb _ ks); lia.
Qed.

Lemma cube_le x n : 0 <= x <= n -> x * x * x <= n * n * n.
Proof.
  intros H. apply Z.mul_le_mono_nonneg; [nia|apply Z.mul_le_mono_nonneg; lia|lia|lia].
Qed.

Lemma cube_ge n : 0 <= n -> n <= n * n * n.
Proof. intros H. destruct (Z.eq_dec n 0) as [->|]; [lia|]. assert (1 <= n * n) by nia. nia. Qed.

Lemma sum_cubes l : (forall x, In x l -> 0 <= x) -> 0 <= sumZ l /\ sumZ (map (fun x => x * x * x) l) <= sumZ l * sumZ l * sumZ l.
Proof.
  induction l as [|x l IH]; intros H; [cbn; lia|].
  destruct IH as [I1 I2]; [intros y Hy; apply H; right; exact Hy|].
  pose proof (H x (or_introl eq_refl)) as Hx. unfold sumZ in *. cbn [map fold_right].
  revert I1 I2. generalize (fold_right Z.add 0 (map (fun x => x * x * x) l)). generalize (fold_right Z.add 0 l).
  intros s q I1 I2. split; [lia|].
  assert (0 <= x * s) by nia. assert (0 <= x * x * s) by nia. assert (0 <= x * s * s) by nia. nia.
Qed.

Lemma sumZ_le {A} (f g : A -> Z) l : (forall a, In a l -> f a <= g a) -> sumZ (map f l) <= sumZ (map g l).
Proof.
  induction l as [|a l IH]; intros H; [cbn; lia|]. unfold sumZ in *. cbn [map fold_right].
  pose proof (H a (or_introl eq_refl)). assert (forall b, In b l -> f b <= g b) by (intros b Hb; apply H; right; exact Hb).
  specialize (IH H1). lia.
Qed.

Lemma prod3_bound {A} (l : list A) (ts : list (A * A * A)) :
  NoDup ts -> (forall a b x, In (a, b, x) ts -> In a l /\ In b l /\ In x l) ->
  Zlen ts <= Zlen l * Zlen l * Zlen l.
Proof.
  intros HN HI.
  assert (H : (length ts <= length (list_prod (list_prod l l) l))%nat).
  { apply NoDup_incl_length; [exact HN|]. intros [[a b] x] H. destruct (HI _ _ _ H) as (H1 & H2 & H3).
    apply in_prod; [apply in_prod|]; assumption. }
  rewrite !prod_length in H. unfold Zlen. rewrite <- !Nat2Z.inj_mul. lia.
Qed.

Section Total.
Variable korder : list key -> list key.
Variable enum : list Z -> list Z.
Variable argsort : list Z -> list nat.
Variable R : rng.
Variable fuel : nat.
Hypothesis korder_ok : lists_keys korder.
Hypothesis enum_ok : lists_set enum.
Hypothesis argsort_ok : argsort_spec argsort.
Variable T : task.
Variable cols : list string.
Variable db : list row.
Hypothesis rd : reads cols (t_filters T).
Hypothesis dt : determined T db.
Hypothesis kf : kept_first T db.

Lemma db'_length : Zlen (snd (with_dummies T db)) = Zlen db.
Proof.
  unfold with_dummies, Zlen. cbn [snd]. destruct (t_across T), (t_by T); rewrite ?map_length; try reflexivity;
  unfold reset_index; rewrite combine_length, !map_length, seq_length, ?map_length; f_equal; apply Nat.min_id.
Qed.

Lemma kept_frame_length T1 db1 k : Zlen (kept_frame T1 db1 k) <= Zlen (grp T1 db1 k).
Proof.
  unfold kept_frame. destruct (grp T1 db1 k) as [|r0 g] eqn:E; [unfold Zlen; cbn; lia|].
  unfold Zlen. apply inj_le. etransitivity; [apply filter_length_le|].
  unfold reset_index. rewrite combine_length, map_length, seq_length, Nat.min_id. reflexivity.
Qed.

Lemma frames_sum T1 db1 bs :
  prepare_database korder T1 db1 = Ok bs -> sumZ (map (fun b => Zlen (b_frame b)) bs) <= Zlen db1.
Proof.
  intros H. apply (prepare_ok korder_ok) in H as [E F]. rewrite Forall_forall in F.
  etransitivity; [|apply (groups_sum (proj (t_by T1)) db1 (ks := map b_key bs))].
  - rewrite map_map. apply sumZ_le. intros b Hb. destruct (F b Hb) as (_ & -> & _). apply kept_frame_length.
  - rewrite E. apply kept_keys_NoDup. exact korder_ok.
Qed.

Lemma frame_le T1 db1 bs b :
  prepare_database korder T1 db1 = Ok bs -> In b bs -> Zlen (b_frame b) <= Zlen db1.
Proof.
  intros H Hb. apply (prepare_ok korder_ok) in H as [E F]. rewrite Forall_forall in F.
  destruct (F b Hb) as (_ & -> & _). etransitivity; [apply kept_frame_length|].
  unfold grp, Zlen. apply inj_le, filter_length_le.
Qed.

Theorem init_succeeds :
  check_database cols (t_on T) (t_across T) (t_by T) = Ok tt ->
  Zlen db * Zlen db * Zlen db < 2 ^ 63 -> none_emptied T db ->
  exists T' bs st, task_init korder enum T cols db = Ok (T', bs, st).
Proof.
  intros Hc Hsz Hne. unfold task_init. rewrite Hc. cbn [bind].
  set (T' := fst (with_dummies T db)). set (db' := snd (with_dummies T db)).
  rewrite (surjective_pairing (with_dummies T db)). fold T' db'.
  assert (Hn : Zlen db < 2 ^ 63).
  { pose proof (cube_ge (Zlen_nonneg db)). lia. }
  destruct (prepare_total korder_ok T' db') as (bs & Hbs).
  - unfold db'. rewrite db'_length. lia.
  - intros k Hk Hb E. unfold T', db' in *.
    apply In_keys in Hk as (r & Hr & Ek).
    assert (Hg : In r (grp (fst (with_dummies T db)) (snd (with_dummies T db)) k)) by (apply In_grp; auto).
    rewrite (grp_ig _ _ _ Hc) in Hg. apply in_map_iff in Hg as ([g r1] & E1 & Hg).
    apply In_nth_error in Hg as (i & Hi).
    destruct (Hne k (Z.of_nat i) r1) as (j & rj & Hj & Fj).
    + apply (item_ig _ _ _ Hc). rewrite Nat2Z.id. split; [lia|eauto].
    + rewrite <- (by_kept_iff Hc rd dt _ _ Hi). exact Hb.
    + apply (item_ig _ _ _ Hc) in Hj as (Lj & gj & Nj).
      assert (H : In (j, ext T (gj, rj)) (kept_frame (fst (with_dummies T db)) (snd (with_dummies T db)) k)).
      { apply (kept_frame_In Hc rd dt). exists gj, rj. auto. }
      rewrite E in H. destruct H.
  - rewrite Hbs. cbn [bind]. unfold compute_statistics.
    destruct (@mapM_total _ _ (stats_by korder enum T' false) bs) as (sts & ->); [|cbn [bind]; eauto].
    intros b Hb. pose proof (frame_le _ _ _ Hbs Hb) as Hle. unfold db' in Hle. rewrite db'_length in Hle.
    pose proof (prepare_ok korder_ok _ _ Hbs) as [E F]. rewrite Forall_forall in F.
    destruct (F b Hb) as (Hw & Ef & _).
    apply stats_total; auto.
    + apply (T'_across_ne T cols db Hc).
    + apply (frame_aligned Hc rd dt _ _ Ef kf).
    + pose proof (Zlen_nonneg (b_frame b)). pose proof (cube_le (conj H Hle)). lia.
Qed.

Section Gen.
Variable T' : task.
Variable bs : list by_block.
Variable st : stats.
Hypothesis init : task_init korder enum T cols db = Ok (T', bs, st).

Lemma sizes_small :
  Zlen db * Zlen db * Zlen db < 2 ^ 63 ->
  (forall b, In b bs -> Zlen (b_frame b) <= Zlen db) /\
  s_nb_triplets st < 2 ^ 63 /\ s_nb_blocks st < 2 ^ 63.
Proof.
  intros Hsz. destruct (init_inv _ _ _ _ _ init) as (Hc & ET & Hp & Hst).
  assert (Hfl : forall b, In b bs -> Zlen (b_frame b) <= Zlen db).
  { intros b Hb. rewrite <- db'_length. apply (frame_le _ _ _ Hp Hb). }
  pose proof (Zlen_nonneg db) as H0.
  assert (Hn : s_nb_triplets st < 2 ^ 63).
  { rewrite (nb_triplets_sum korder_ok enum_ok _ _ _ init). eapply Z.le_lt_trans; [|exact Hsz].
    transitivity (sumZ (map (fun x => x * x * x) (map (fun b => Zlen (b_frame b)) bs))).
    - rewrite map_map. apply sumZ_le. intros b Hb.
      replace (Zlen (b_frame b)) with (Zlen (labels (b_frame b))) by (unfold Zlen, labels; rewrite map_length; reflexivity).
      apply prod3_bound.
      + apply (blist_NoDup korder_ok enum_ok _ _ _ init _ Hb).
      + intros a b' x H. pose proof (proj2 (bs_inv _ korder_ok rd dt kf init) b Hb) as (Hw & Ha & _ & Ef & _ & Hd).
        apply (by_list_In korder_ok enum_ok (T'_ne _ _ _ _ _ init) Hw Ha a b' x Hd) in H.
        destruct H as (ra & rb & rx & I1 & I2 & I3 & _). repeat split; apply In_labels; eauto.
    - destruct (@sum_cubes (map (fun b => Zlen (b_frame b)) bs)) as [S1 S2].
      + intros x Hx. apply in_map_iff in Hx as (b & <- & _). apply Zlen_nonneg.
      + etransitivity; [exact S2|]. pose proof (frames_sum _ _ Hp) as Hs. rewrite db'_length in Hs.
        revert S1 Hs. generalize (sumZ (map (fun b => Zlen (b_frame b)) bs)). intros s S1 Hs. apply cube_le. lia. }
  assert (Hb : s_nb_blocks st < 2 ^ 63).
  { destruct (stats_inv _ _ _ _ _ init) as (sts & Hm & E & _ & _ & Eb & _). rewrite Eb.
    assert (H1 : sumZ (map st_nb_on_across_levels sts) <= sumZ (map (fun b => Zlen (b_frame b)) bs)).
    { pose proof (sts_inv _ _ _ _ _ init) as F. rewrite E in F.
      assert (Hw : forall b, In b bs -> wf_block b) by (intros b Hb; apply (proj2 (bs_inv _ korder_ok rd dt kf init) b Hb)).
      pose proof (T'_ne _ _ _ _ _ init) as Hne. clear -F Hw Hne korder_ok enum_ok.
      induction F as [|b s bs sts H F IH]; [cbn; lia|]. unfold sumZ in *. cbn [map fold_right].
      destruct (stats_by_ok korder_ok enum_ok _ Hne (Hw b (or_introl eq_refl)) H) as (_ & _ & _ & _ & _ & ->).
      assert (Zlen (korder (keys (t_on T' :: t_across T') (map snd (b_frame b)))) <= Zlen (b_frame b)).
      { unfold Zlen. apply inj_le. rewrite (Permutation_length (korder_ok _)). unfold keys.
        etransitivity; [apply NoDup_incl_length; [apply NoDup_nodup|intros k Hk; apply nodup_In in Hk; exact Hk]|].
        rewrite !map_length. reflexivity. }
      assert (forall b, In b bs -> wf_block b) by (intros b' Hb'; apply Hw; right; exact Hb').
      specialize (IH H1). lia. }
    pose proof (frames_sum _ _ Hp) as Hs. rewrite db'_length in Hs.
    pose proof (cube_ge H0). lia. }
  split; [exact Hfl|]. split; [exact Hn|exact Hb].
Qed.

Theorem generate_succeeds thr c :
  Zlen db * Zlen db * Zlen db < 2 ^ 63 ->
  no_threshold thr -> r_ABX (t_regressors T) = false ->
  exists bs' of, generate_triplets korder enum argsort R fuel T' thr bs st c = Ok (bs', of) /\
    (of = None <-> forall k a b x, ~ wanted T db k a b x).
Proof.
  intros Hsz Hthr HG. destruct (sizes_small Hsz) as (Hfl & Hn & Hb).
  destruct (generation_succeeds R fuel korder_ok enum_ok argsort_ok rd dt kf init (thr := thr) c Hthr HG) as (bs' & of & Hg & Hof); auto.
  - intros b Hb'. pose proof (cube_le (conj (Zlen_nonneg (b_frame b)) (Hfl b Hb'))). lia.
  - exists bs', of. split; [exact Hg|]. rewrite Hof.
    rewrite <- (tagged_length korder_ok enum_ok _ _ _ init). split.
    + intros E k a b x H. apply (tagged_In korder_ok enum_ok rd dt kf init) in H.
      destruct (tagged korder enum T' bs); [destruct H|]. unfold Zlen in E. cbn [length] in E. lia.
    + intros Hno. destruct (tagged korder enum T' bs) as [|[k [[a b] x]] l] eqn:E; [reflexivity|].
      exfalso. apply (Hno k a b x), (tagged_In korder_ok enum_ok rd dt kf init). rewrite E. left. reflexivity.
Qed.

(** Without threshold, generating again with what remains in the Task object. *)
Theorem generate_twice thr c bs1 f1 c2 :
  no_threshold thr ->
  generate_triplets korder enum argsort R fuel T' thr bs st c = Ok (bs1, Some f1) ->
  exists bs2 f2, generate_triplets korder enum argsort R fuel T' thr bs1 st c2 = Ok (bs2, Some f2) /\
    bs2 = bs1 /\ fl_triplets f2 = fl_triplets f1 /\ fl_by_index f2 = fl_by_index f1 /\ fl_bys f2 = fl_bys f1.
Proof.
  intros Hthr H1.
  assert (HND : NoDup (map b_key bs)) by (apply (keys_NoDup _ korder_ok _ _ _ init)).
  destruct (generate_ok _ _ _ _ _ _ _ _ _ _ H1) as (Hnz & outss & c' & Hch & Hfo & Ebs1).
  (* what the second run computes *)
  assert (Hsel : forall outss2 c2', chain_by korder enum argsort R fuel T' thr bs1 c2 outss2 c2' ->
            named bs1 outss2 = filter full (named bs outss)).
  { intros outss2 c2' Hch2. apply chain_by_each in Hch. apply chain_by_each in Hch2. subst bs1.
    assert (G : forall E, incl (map fst (filter (fun p => negb (full p)) (named bs outss))) E ->
        (forall p, In p (named bs outss) -> full p = true -> ~ In (fst p) E) ->
        Forall2 (fun b outs => exists c0 c1, compute_triplets korder enum argsort R fuel T' thr b c0 = Ok (outs, c1))
           (filter (fun b => negb (mem_key E (b_key b))) bs) outss2 ->
        named (filter (fun b => negb (mem_key E (b_key b))) bs) outss2 = filter full (named bs outss)).
    { clear -Hch Hthr. intros E. revert outss2. induction Hch as [|b o bs os Hb F IH]; intros outss2 HE HF; cbn [filter].
      - intros H. inversion H; subst. reflexivity.
      - unfold named in *. cbn [map combine] in HE, HF |- *. cbn [filter].
        destruct (full (b_key b, o)) eqn:Ef.
        + assert (Em : mem_key E (b_key b) = false).
          { apply Bool.not_true_iff_false. intros Hm. unfold mem_key in Hm. apply existsb_exists in Hm as (k & Hk & Ek).
            apply key_eqb_spec in Ek. subst k. apply (HF (b_key b, o)); [left; reflexivity|exact Ef|exact Hk]. }
          rewrite Em. cbn [negb]. intros H. inversion H as [|b1 o1 l1 l2 Hb1 F1]; subst. cbn [map combine].
          f_equal.
          * destruct Hb as (c0 & c1 & Hb). destruct Hb1 as (c3 & c4 & Hb1).
            apply (compute_shift _ _ _ _ _ Hthr _ _ _ c3) in Hb. congruence.
          * apply IH; [|intros p Hp; apply HF; right; exact Hp|exact F1].
            cbn [filter] in HE. rewrite Ef in HE. cbn [negb] in HE. exact HE.
        + assert (Em : mem_key E (b_key b) = true).
          { unfold mem_key. apply existsb_exists. exists (b_key b). split; [|apply key_eqb_spec; reflexivity].
            apply HE. cbn [filter]. rewrite Ef. left. reflexivity. }
          rewrite Em. cbn [negb]. intros H. apply IH; [|intros p Hp; apply HF; right; exact Hp|exact H].
          intros k Hk. apply HE. cbn [filter]. rewrite Ef. right. exact Hk. }
    apply G; [apply incl_refl| |exact Hch2].
    intros p Hp Hf Hin. apply in_map_iff in Hin as (q & Eq & Hq). apply filter_In in Hq as [Hq Hqf].
    assert (HL : length bs = length outss) by (apply Forall2_len in Hch; exact Hch).
    assert (HN2 : NoDup (map fst (named bs outss))).
    { assert (E : map fst (named bs outss) = map b_key bs).
      { unfold named. clear -HL. revert outss HL. induction bs as [|b bs0 IH]; intros [|o outss]; cbn; try discriminate; auto.
        intros HL. f_equal. apply IH. lia. }
      rewrite E. exact HND. }
    assert (p = q).
    { clear -HN2 Hp Hq Eq. induction (named bs outss) as [|z l IH]; [destruct Hp|]. cbn in HN2.
      apply NoDup_cons_iff in HN2 as [N1 N2].
      destruct Hp as [->|Hp], Hq as [->|Hq]; [reflexivity| | |auto].
      - exfalso. apply N1. rewrite <- Eq. apply in_map. exact Hq.
      - exfalso. apply N1. rewrite Eq. apply in_map. exact Hp. }
    subst q. rewrite Hf in Hqf. discriminate. }
  destruct Hfo as [(t1 & Ht1 & Ft1) Fb1 Fi1 _ (t2 & Ht2 & _) (t3 & Ht3)].
  assert (Hcomp : forall b c0, In b bs1 -> exists r, compute_triplets korder enum argsort R fuel T' thr b c0 = Ok r).
  { intros b c0 Hb. subst bs1. apply filter_In in Hb as [Hb _]. apply chain_by_each in Hch.
    destruct (Forall2_in_l _ _ _ _ _ _ Hch Hb) as (outs & _ & c3 & c4 & Hcc).
    exists (outs, c0). eapply compute_shift; eassumption. }
  destruct (@generate_total korder enum argsort R fuel T' thr bs1 st c2 Hcomp) as (bs2 & of & Hg & Hof).
  - eauto.
  - eauto.
  - intros outss2 c2' Hch2. rewrite (Hsel _ _ Hch2). rewrite <- concat_full. eauto.
  - destruct of as [f2|]; [|exfalso; apply Hnz, Hof; reflexivity].
    exists bs2, f2. split; [exact Hg|].
    destruct (generate_ok _ _ _ _ _ _ _ _ _ _ Hg) as (_ & outss2 & c2' & Hch2 & [(t4 & Ht4 & Ft4) Fb4 Fi4 _ _ _] & Ebs2).
    pose proof (Hsel _ _ Hch2) as En. rewrite En in *.
    assert (Eff : filter full (filter full (named bs outss)) = filter full (named bs outss)).
    { rewrite filter_filter. apply filter_ext. intros p. apply Bool.andb_diag. }
    rewrite Eff in *. split; [|split; [|split]].
    + rewrite Ebs2.
      assert (Ee : filter (fun p => negb (full p)) (filter full (named bs outss)) = []).
      { rewrite filter_filter. apply filter_none. intros p _. destruct (full p); reflexivity. }
      rewrite Ee. apply filter_all. intros b Hb. reflexivity.
    + rewrite Ft1, Ft4. congruence.
    + congruence.
    + congruence.
Qed.

End Gen.
End Total.
