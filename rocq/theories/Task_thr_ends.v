(** Generating triplets with a threshold: when it ends. *)
From Coq Require Import Ascii String.
From Verif Require Import Prelude ListFacts TypeFitting TypeFitting_proofs
  Sampler Sampler_spec Sampler_proofs Task Task_spec Task_blocks Task_sort Task_regs Task_gen Task_file
  Task_proofs Task_main Task_total Task_reg_spec Task_align TaskIndex_spec Task_thr_total Task_thr_spec.
Set Implicit Arguments.
Open Scope Z_scope.

(** With enough fuel, always the same result. *)
Definition ends {A} (f : nat -> res A) : Prop :=
  exists n r, forall fuel, (n <= fuel)%nat -> f fuel = Ok r.

Lemma tmax_unsigned_pos ty : signed ty = false -> 0 < tmax ty.
Proof. destruct ty; intros H; try discriminate; reflexivity. Qed.

Lemma cast_unsigned_range ty x : signed ty = false -> 0 <= cast ty x <= tmax ty.
Proof. intros H. pose proof (cast_range ty x) as [A B]. split; [|exact B]. destruct ty; try discriminate; exact A. Qed.

Section Sample.
Variable R : rng.
Hypothesis R_ok : rng_ok R.
Variable ty : itype.
Hypothesis Hty : signed ty = false.

Lemma rejection_mono n N : forall fuel c sample rem r,
  rejection_loop R fuel c ty n N sample rem = Ok r ->
  forall fuel', (fuel <= fuel')%nat -> rejection_loop R fuel' c ty n N sample rem = Ok r.
Proof.
  induction fuel as [|fuel IH]; intros c sample rem r H fuel' Hf; [discriminate|].
  destruct fuel' as [|fuel']; [lia|]. cbn [rejection_loop] in *. destruct (0 <? rem); [|exact H].
  cbv zeta in *. eapply IH; [exact H|lia].
Qed.

(** More values asked for than the type has. *)
Lemma rejection_stuck n N : tmax ty + 1 < n -> forall fuel c sample rem,
  NoDup sample -> (forall x, In x sample -> 0 <= x <= tmax ty) -> 0 < rem ->
  rejection_loop R fuel c ty n N sample rem = Err OutOfFuel.
Proof.
  intros Hn. induction fuel as [|fuel IH]; intros c sample rem Hs Hi Hr; [reflexivity|].
  cbn [rejection_loop]. destruct (Z.ltb_spec 0 rem); [|lia]. cbv zeta.
  set (s' := np_unique _).
  assert (Hi' : forall x, In x s' -> 0 <= x <= tmax ty).
  { intros x Hx. unfold s' in Hx. rewrite np_unique_In, in_app_iff, np_unique_In in Hx.
    destruct Hx as [Hx|Hx]; [auto|]. apply in_map_iff in Hx as (y & <- & _). apply cast_unsigned_range, Hty. }
  apply IH; [apply np_unique_NoDup|exact Hi'|].
  assert (length s' <= length (zrange (tmax ty + 1)))%nat.
  { apply NoDup_incl_length; [apply np_unique_NoDup|]. intros x Hx. specialize (Hi' x Hx).
    unfold zrange. apply in_map_iff. exists (Z.to_nat x). split; [lia|]. apply in_seq. lia. }
  unfold zrange in H0. rewrite map_length, seq_length in H0. pose proof (tmax_unsigned_pos ty Hty). lia.
Qed.

Lemma swr_stuck fuel c n N r :
  sample_without_replacement R fuel c n N ty = Ok r -> 100 < N -> 5 * n < 3 * N -> n <= tmax ty + 1.
Proof.
  intros H H1 H2. destruct (Z.le_gt_cases n (tmax ty + 1)) as [|Hn]; [assumption|exfalso].
  unfold sample_without_replacement in H. destruct (Z.ltb_spec 100 N); [|lia]. destruct (Z.ltb_spec (5 * n) (3 * N)); [|lia].
  cbn [andb] in H. unfold rejection_sampling in H. pose proof (tmax_unsigned_pos ty Hty).
  rewrite rejection_stuck in H; try discriminate; try lia; [constructor|intros x []].
Qed.

Lemma rejection_ends n N : 0 <= n <= N -> 0 < N -> n <= tmax ty + 1 -> fair R N ->
  forall k c sample, StronglySorted Z.lt sample -> (forall x, In x sample -> 0 <= x < N) ->
  Z.of_nat (length sample) + Z.of_nat k = n ->
  exists fuel0, exists r, rejection_loop R fuel0 c ty n N sample (n - Z.of_nat (length sample)) = Ok r.
Proof.
  intros Hn HN HT HF. induction k as [k IHk] using lt_wf_ind. intros c sample Hs Hi Hk.
  destruct k as [|k].
  - exists 1%nat. cbn [rejection_loop].
    destruct (0 <? n - Z.of_nat (length sample)) eqn:E; [lia|]. eexists; reflexivity.
  - destruct (@missing_value n (Z.min N (tmax ty + 1)) sample ltac:(lia)) as [v [Hv HnI]]; [lia|].
    destruct (HF c v ltac:(lia)) as [c' [Hc Hd]].
    assert (Hcv : cast ty v = v) by (apply cast_id; pose proof (tmin_nonpos ty); lia).
    remember (c' - c)%nat as d eqn:Hd'.
    assert (Hgoal : forall d c, (c <= c')%nat -> (c' - c)%nat = d ->
      exists fuel0, exists r, rejection_loop R fuel0 c ty n N sample (n - Z.of_nat (length sample)) = Ok r).
    { clear d Hd' c Hc. induction d as [d IHd] using lt_wf_ind. intros c Hc Hd'.
      set (rem := n - Z.of_nat (length sample)).
      set (sample' := np_unique (sample ++ np_unique (map (cast ty) (randints R c N rem)))).
      assert (D : forall x, In x sample' <-> In x sample \/ In x (map (cast ty) (randints R c N rem))).
      { intros x. unfold sample'. rewrite np_unique_In, in_app_iff, np_unique_In. tauto. }
      assert (A : StronglySorted Z.lt sample') by apply np_unique_sorted.
      assert (B : forall x, In x sample' -> 0 <= x < N).
      { intros x Hx. apply D in Hx as [Hx|Hx]; [auto|]. apply in_map_iff in Hx as (y & <- & Hy).
        apply (@randints_in R R_ok) in Hy; [|exact HN]. pose proof (@cast_unsigned_le ty y Hty (proj1 Hy)). lia. }
      assert (C : Z.of_nat (length sample') <= n).
      { assert (length sample' <= length sample + length (map (cast ty) (randints R c N rem)))%nat.
        { apply NoDup_incl_app_length; [apply np_unique_NoDup|]. intros x Hx. apply in_app_iff, D, Hx. }
        rewrite map_length, randints_length in H. unfold rem in H. lia. }
      assert (Hge : (length sample <= length sample')%nat).
      { apply NoDup_incl_length; [apply StronglySorted_Zlt_NoDup; assumption|].
        intros x Hx. apply D. auto. }
      destruct (Nat.eq_dec (length sample') (length sample)) as [He|He].
      + assert (sample' = sample).
        { apply ssorted_lt_ext; auto. intros x. split; [|intros Hx; apply D; auto].
          assert (incl sample' sample).
          { apply NoDup_length_incl; [apply StronglySorted_Zlt_NoDup; assumption|lia|].
            intros y Hy. apply D. auto. }
          apply H. }
        assert (Hfar : (c + Z.to_nat rem <= c')%nat).
        { destruct (le_lt_dec (c + Z.to_nat rem) c') as [|Hlt]; [assumption|]. exfalso.
          apply HnI. rewrite <- H. apply D. right. apply in_map_iff. exists v. split; [exact Hcv|].
          unfold randints. apply in_map_iff. exists c'. split; [assumption|]. apply in_seq. lia. }
        destruct (IHd (c' - (c + Z.to_nat rem))%nat) with (c := (c + Z.to_nat rem)%nat)
          as [fuel0 Hf0]; [unfold rem in *; lia|lia|reflexivity|].
        exists (S fuel0). cbn [rejection_loop]. replace (0 <? rem) with true by (unfold rem; lia).
        fold sample'. rewrite H. exact Hf0.
      + destruct (IHk (Z.to_nat (n - Z.of_nat (length sample'))) ) with (c := (c + Z.to_nat rem)%nat) (sample := sample')
          as [fuel0 Hf0]; auto; [lia|lia|].
        exists (S fuel0). cbn [rejection_loop]. replace (0 <? rem) with true by (unfold rem; lia).
        fold sample'. exact Hf0. }
    apply (Hgoal d c Hc). auto.
Qed.

Lemma knuth_ok n N : forall fuel c t m,
  0 <= t -> m <= n -> n - m <= N - t -> (Z.to_nat (N - t) < fuel)%nat ->
  exists r, knuth_loop R fuel c ty n N t m = Ok r.
Proof.
  destruct R_ok as [HD [Hu _]].
  induction fuel as [|fuel IH]; intros c t m Ht Hm Hn Hf; [lia|].
  cbn [knuth_loop]. destruct (m <? n) eqn:E; [|eauto].
  apply Z.ltb_lt in E. destruct ((N - t) * rnd_unit R c <? (n - m) * rnd_den R) eqn:E2.
  - destruct (IH (S c) (t + 1) (m + 1)) as (r & ->); try lia. cbn [bind]. eauto.
  - apply Z.ltb_ge in E2. assert (N - t <> n - m).
    { intros HE. rewrite HE in E2. specialize (Hu c). nia. }
    apply IH; lia.
Qed.

Lemma swr_ends c n N : 0 <= n <= N -> (100 < N -> 5 * n < 3 * N -> n <= tmax ty + 1) -> (0 < N -> fair R N) ->
  ends (fun fuel => sample_without_replacement R fuel c n N ty).
Proof.
  intros Hn Hb HF. unfold sample_without_replacement.
  destruct (Z.ltb_spec 100 N) as [H1|H1]; cbn [andb].
  - destruct (Z.ltb_spec (5 * n) (3 * N)) as [H2|H2].
    + destruct (@rejection_ends n N Hn ltac:(lia) (Hb H1 H2) (HF ltac:(lia)) (Z.to_nat n) c []) as (f0 & r & H);
        [constructor|intros x []|cbn; lia|].
      cbn in H. rewrite Z.sub_0_r in H. exists f0, r. intros fuel Hf. eapply rejection_mono; eauto.
    + unfold knuth_sampling. destruct (n <? 0) eqn:E0; [lia|].
      destruct (@knuth_ok n N (S (Z.to_nat N) + Z.to_nat n) c 0 0) as (r & Hr); try lia.
      exists 0%nat, r. intros _ _. exact Hr.
  - unfold knuth_sampling. destruct (n <? 0) eqn:E0; [lia|].
    destruct (@knuth_ok n N (S (Z.to_nat N) + Z.to_nat n) c 0 0) as (r & Hr); try lia.
    exists 0%nat, r. intros _ _. exact Hr.
Qed.

End Sample.

Lemma In_rle_count s v n : StronglySorted Z.le s -> In (v, n) (rle s) -> In v s /\ n = countZ v s.
Proof.
  intros Hs Hin. split; [apply (@In_rle s v n Hin)|].
  pose proof (StronglySorted_Zlt_NoDup (rle_distinct Hs)) as HN. rewrite <- (expand_rle s) at 1.
  revert Hin HN. generalize (rle s). intros rl. clear. induction rl as [|[w m] rl IH]; intros Hin HN; [destruct Hin|].
  cbn [map fst] in HN. apply NoDup_cons_iff in HN as [H1 H2]. rewrite expand_cons, countZ_app, countZ_repeat.
  destruct Hin as [E|Hin].
  - inversion E; subst. rewrite Z.eqb_refl, countZ_expand_none by exact H1. lia.
  - destruct (Z.eqb_spec v w) as [->|Hne]; [|cbn; auto].
    exfalso. apply H1. apply (in_map fst) in Hin. exact Hin.
Qed.

Lemma rle_In s v : In v s -> exists n, In (v, n) (rle s).
Proof.
  rewrite <- (expand_rle s) at 1. generalize (rle s). intros rl H. apply in_flat_map in H as ([w n] & Hin & H).
  apply repeat_spec in H. cbn in H. subst. eauto.
Qed.

Section Runs.
Variable R : rng.
Hypothesis R_ok : rng_ok R.
Variable ty : itype.
Hypothesis Hty : signed ty = false.
Variable t : Z.
Hypothesis Ht : 0 < t.

Lemma threshold_runs_stuck fuel permut counts : forall i c r n,
  threshold_runs R fuel permut ty (Some t) counts i c = Ok r -> In n counts ->
  100 < Z.of_nat n -> 5 * t < 3 * Z.of_nat n -> t <= tmax ty + 1.
Proof.
  induction counts as [|m counts IH]; intros i c r n H Hn H1 H2; [destruct Hn|].
  cbn [threshold_runs] in H. apply bind_ok in H as (r1 & E1 & H). apply bind_ok in H as (r2 & E2 & _).
  destruct Hn as [<-|Hn]; [|eapply IH; eauto].
  destruct (negb (t =? 0) && (t <? Z.of_nat m)) eqn:E; [|lia].
  apply bind_ok in E1 as (s & Es & _). exact (@swr_stuck R ty Hty _ _ _ _ _ Es H1 H2).
Qed.

Lemma threshold_runs_ends permut counts :
  (forall n, In n counts -> 100 < Z.of_nat n -> 5 * t < 3 * Z.of_nat n -> t <= tmax ty + 1) ->
  (forall N, 0 < N -> fair R N) ->
  forall i c, (i + sumn counts <= length permut)%nat ->
  ends (fun fuel => threshold_runs R fuel permut ty (Some t) counts i c).
Proof.
  intros Hb HF. induction counts as [|n counts IH]; intros i c Hi.
  { exists 0%nat, ([], c). reflexivity. }
  cbn [sumn fold_right] in Hi. fold (sumn counts) in Hi. cbn [threshold_runs].
  assert (IH' := IH (fun m Hm => Hb m (or_intror Hm))). clear IH.
  destruct (negb (t =? 0) && (t <? Z.of_nat n)) eqn:Es.
  - destruct (@swr_ends R R_ok ty Hty c t (Z.of_nat n)) as (n1 & [s cs] & H1);
      [lia|apply Hb; left; reflexivity|auto|].
    pose proof (@swr_unsigned R R_ok ty Hty n1 c t (Z.of_nat n) ltac:(lia)) as Hu.
    rewrite H1 in Hu by lia. destruct Hu as [Ls Is]. cbn [fst] in Ls, Is.
    assert (HB : forall j, In j (map (fun x => Z.to_nat (cast ty (x + Z.of_nat i))) s) -> (j < length permut)%nat).
    { intros j Hj. apply in_map_iff in Hj as (x & <- & Hx). specialize (Is x Hx).
      pose proof (@cast_unsigned_le ty (x + Z.of_nat i) Hty). lia. }
    destruct (IH' (i + n)%nat cs ltac:(lia)) as (n2 & r2 & H2).
    exists (Nat.max n1 n2). eexists. intros fuel Hf. rewrite H1 by lia. cbn [bind fst snd].
    rewrite (@gather_ok _ permut _ 0%nat) by exact HB. cbn [bind fst snd]. rewrite H2 by lia. cbn [bind]. reflexivity.
  - destruct (IH' (i + n)%nat c ltac:(lia)) as (n2 & r2 & H2).
    exists n2. eexists. intros fuel Hf. cbn [bind fst snd]. rewrite H2 by lia. cbn [bind]. reflexivity.
Qed.

Variable permut : list nat.
Variable idx : list Z.
Hypothesis Hne : idx <> [].
Hypothesis Hp : Permutation permut (seq 0 (length idx)).
Hypothesis Hsort : StronglySorted Z.le (map (fun i => nth i idx 0) permut).

Lemma sorted_perm : Permutation (map (fun i => nth i idx 0) permut) idx.
Proof.
  transitivity (map (fun i => nth i idx 0) (seq 0 (length idx))); [apply Permutation_map; exact Hp|rewrite map_nth_seq; reflexivity].
Qed.

Lemma countZ_perm v l l' : Permutation l l' -> countZ v l = countZ v l'.
Proof. intros H. unfold countZ. apply Permutation_length, Permutation_filter. exact H. Qed.

Lemma sort_and_threshold_stuck fuel c r v :
  sort_and_threshold R fuel permut idx ty (Some t) c = Ok r -> In v idx ->
  100 < Z.of_nat (countZ v idx) -> 5 * t < 3 * Z.of_nat (countZ v idx) -> t <= tmax ty + 1.
Proof.
  intros H Hv H1 H2. unfold sort_and_threshold in H. rewrite (@gather_ok _ idx permut 0) in H.
  2:{ intros i Hi. apply (Permutation_in _ Hp), in_seq in Hi. lia. }
  cbn [bind] in H. pose proof sorted_perm as HP. set (s := map (fun i => nth i idx 0) permut) in *.
  assert (Hs : s <> []).
  { intros E. rewrite E in HP. apply Permutation_nil in HP. auto. }
  rewrite run_lengths in H by exact Hs. apply bind_ok in H as (r1 & H & _).
  apply (Permutation_in _ (Permutation_sym HP)) in Hv. destruct (rle_In _ _ Hv) as (n & Hn).
  destruct (@In_rle_count s v n Hsort Hn) as (_ & En). rewrite (countZ_perm v HP) in En. subst n.
  eapply threshold_runs_stuck; eauto. apply (in_map snd) in Hn. exact Hn.
Qed.

Lemma sort_and_threshold_ends c :
  (forall v, In v idx -> 100 < Z.of_nat (countZ v idx) -> 5 * t < 3 * Z.of_nat (countZ v idx) -> t <= tmax ty + 1) ->
  (forall N, 0 < N -> fair R N) ->
  ends (fun fuel => sort_and_threshold R fuel permut idx ty (Some t) c).
Proof.
  intros Hb HF. unfold sort_and_threshold. rewrite (@gather_ok _ idx permut 0).
  2:{ intros i Hi. apply (Permutation_in _ Hp), in_seq in Hi. lia. }
  cbn [bind]. pose proof sorted_perm as HP. set (s := map (fun i => nth i idx 0) permut) in *.
  assert (Hs : s <> []).
  { intros E. rewrite E in HP. apply Permutation_nil in HP. auto. }
  rewrite run_lengths by exact Hs.
  assert (Esum : sumn (map snd (rle s)) = length permut).
  { rewrite <- length_expand, expand_rle. apply map_length. }
  destruct (@threshold_runs_ends permut (map snd (rle s))) with (i := 0%nat) (c := c) as (n & r & H).
  - intros m Hm. apply in_map_iff in Hm as ([v m'] & E & Hm). cbn in E. subst m'.
    destruct (@In_rle_count s v m Hsort Hm) as (Hv & En). rewrite (countZ_perm v HP) in En. subst m.
    apply Hb. apply (Permutation_in _ HP), Hv.
  - exact HF.
  - lia.
  - exists n. eexists. intros fuel Hf. rewrite H by exact Hf. cbn [bind]. reflexivity.
Qed.

End Runs.

Section Core.
Variable argsort : list Z -> list nat.
Variable R : rng.
Hypothesis argsort_ok : argsort_spec argsort.
Hypothesis R_ok : rng_ok R.
Variable t : Z.
Hypothesis Ht : 0 < t.
Variable ts : list triplet.
Variable gs : list (triplet -> Z).
Hypothesis Hgs : gs <> [].
Hypothesis Hpos : forall g s, In g gs -> In s ts -> 0 <= g s.
Hypothesis HP : prodZ (map (fun g => maxZ (map g ts) + 1) gs) < 2 ^ 63.

Local Notation P := (prodZ (map (fun g => maxZ (map g ts) + 1) gs)).

Lemma ucapacity_eq n ty : fit_integer_type n false = Ok ty -> ucapacity n = tmax ty.
Proof.
  unfold fit_integer_type, ucapacity. cbn.
  destruct (Z.ltb_spec n 256); [|destruct (Z.ltb_spec n 65536); [|destruct (Z.ltb_spec n 4294967296);
    [|destruct (Z.ltb_spec n 18446744073709551616)]]]; intros E; inversion E; subst; cbn;
  destruct (Z.leb_spec n 255); try lia; destruct (Z.leb_spec n 65535); try lia;
  destruct (Z.leb_spec n 4294967295); lia.
Qed.

Lemma core_codes : exists ty, ind_ty gs ts = Ok ty /\ signed ty = false /\ ucapacity P = tmax ty /\
  forall s, In s ts ->
    countZ (icode ty (bounds_of gs ts) s) (map (icode ty (bounds_of gs ts)) ts) = count_profile gs (profile gs s) ts.
Proof.
  assert (HP0 : 0 < P).
  { apply prodZ_pos. intros x Hx. apply in_map_iff in Hx as (g & <- & _). pose proof (maxZ_nonneg (map g ts)). lia. }
  assert (Ei : ind_ty gs ts = fit_integer_type P false).
  { unfold ind_ty. rewrite (@cast_id I64 P); [reflexivity|]. change (tmin I64) with (- 2 ^ 63); change (tmax I64) with (2 ^ 63 - 1); lia. }
  destruct (fit_ok_unsigned P ltac:(lia)) as (ty & Hf). exists ty. rewrite Ei. split; [exact Hf|].
  split; [apply (fit_unsigned _ Hf)|]. split; [apply ucapacity_eq, Hf|].
  pose proof (@icode_inj _ ty gs ts Hgs Hpos HP Hf) as Hinj. intros s Hs. unfold count_profile, countZ.
  set (ic := icode ty (bounds_of gs ts)) in *.
  assert (Q : forall l, incl l ts ->
        length (filter (Z.eqb (ic s)) (map ic l)) = length (filter (fun t1 => prof_eqb (profile gs t1) (profile gs s)) l)).
  { intros l Hl. clear -Hinj Hl Hs. induction l as [|x l IHl]; [reflexivity|].
    cbn [filter map]. assert (Hx : In x ts) by (apply Hl; left; reflexivity).
    assert (Hl' : incl l ts) by (intros y Hy; apply Hl; right; exact Hy).
    unfold prof_eqb at 1. destruct (list_eq_dec Z.eq_dec (profile gs x) (profile gs s)) as [E|E].
    - apply Hinj in E; auto. rewrite E, Z.eqb_refl. cbn. rewrite IHl by exact Hl'. reflexivity.
    - destruct (Z.eqb_spec (ic s) (ic x)) as [E'|E']; [|apply IHl; exact Hl'].
      exfalso. apply E. apply Hinj; auto. }
  apply Q, incl_refl.
Qed.

Lemma core_stuck fuel c r s :
  core argsort R fuel (Some t) ts gs c = Ok r -> In s ts ->
  100 < Z.of_nat (count_profile gs (profile gs s) ts) -> 5 * t < 3 * Z.of_nat (count_profile gs (profile gs s) ts) ->
  t <= ucapacity P + 1.
Proof.
  intros H Hs H1 H2. destruct core_codes as (ty & Ei & Hty & -> & Hc).
  unfold core in H. destruct gs as [|g0 gs0] eqn:Egs; [congruence|]. rewrite <- Egs in *.
  destruct ts as [|t0 ts0] eqn:Ets; [destruct Hs|]. rewrite <- Ets in *.
  rewrite Egs in H at 1. rewrite <- Egs in H. rewrite Ei in H. cbn [bind] in H.
  apply bind_ok in H as ([[p i] c'] & H & _).
  destruct (argsort_ok (map (icode ty (bounds_of gs ts)) ts)) as [Hp Hsort].
  eapply sort_and_threshold_stuck in H; eauto; rewrite ?Hc by exact Hs; auto.
  - rewrite Ets. discriminate.
  - apply in_map. exact Hs.
Qed.

Lemma core_ends c :
  (forall s, In s ts -> 100 < Z.of_nat (count_profile gs (profile gs s) ts) ->
     5 * t < 3 * Z.of_nat (count_profile gs (profile gs s) ts) -> t <= ucapacity P + 1) ->
  (forall N, 0 < N -> fair R N) ->
  ends (fun fuel => core argsort R fuel (Some t) ts gs c).
Proof.
  intros Hb HF. destruct core_codes as (ty & Ei & Hty & Eu & Hc). rewrite Eu in Hb.
  unfold core. destruct gs as [|g0 gs0] eqn:Egs; [congruence|]. rewrite <- Egs in *.
  destruct ts as [|t0 ts0] eqn:Ets.
  { exists 0%nat. eexists. reflexivity. }
  rewrite <- Ets in *. rewrite Ei. cbn [bind].
  set (idx := map (icode ty (bounds_of gs ts)) ts) in *.
  destruct (argsort_ok idx) as [Hp Hsort].
  assert (Hne : idx <> []) by (unfold idx; rewrite Ets; discriminate).
  destruct (@sort_and_threshold_ends R R_ok ty Hty t Ht (argsort idx) idx Hne Hp Hsort c) as (n & [[p i] c'] & H).
  - intros v Hv. unfold idx in Hv. apply in_map_iff in Hv as (s & <- & Hs). rewrite (Hc s Hs). apply Hb, Hs.
  - exact HF.
  - exists n. pose proof (@sort_and_threshold_unsigned R R_ok ty Hty n (argsort idx) idx t c Ht Hne Hp) as Hu.
    rewrite H in Hu by lia. destruct Hu as [_ Hi]. cbn [fst] in Hi.
    assert (Li : length idx = length ts) by apply map_length.
    eexists. intros fuel Hf. rewrite H by exact Hf. cbn [bind]. rewrite (@gather_ok _ ts _ t0).
    + cbn [bind]. reflexivity.
    + intros j Hj. apply Hi, in_seq in Hj. lia.
Qed.

End Core.

Lemma maxZ_perm l l' : Permutation l l' -> maxZ l = maxZ l'.
Proof.
  intros H. induction H; unfold maxZ in *; cbn [fold_right] in *; try lia.
Qed.

Lemma fit_err n sg e : fit_integer_type n sg = Err e -> e = ValueError.
Proof.
  unfold fit_integer_type. cbv zeta. repeat match goal with |- context [if _ <? _ then _ else _] => destruct (_ <? _); [discriminate|] end.
  intros E. inversion E. reflexivity.
Qed.

Section Main.
Variable korder : list key -> list key.
Variable enum : list Z -> list Z.
Variable argsort : list Z -> list nat.
Variable R : rng.
Hypothesis korder_ok : lists_keys korder.
Hypothesis enum_ok : lists_set enum.
Hypothesis argsort_ok : argsort_spec argsort.
Hypothesis R_ok : rng_ok R.
Variable T : task.
Variable cols : list string.
Variable db : list row.
Variable T' : task.
Variable bs : list by_block.
Variable st : stats.
Hypothesis rd : reads cols (t_filters T).
Hypothesis dt : determined T db.
Hypothesis kf : kept_first T db.
Hypothesis rr : reg_reads cols (t_regressors T).
Hypothesis rt : reg_determined T db.
Hypothesis init : task_init korder enum T cols db = Ok (T', bs, st).
Hypothesis cod : coded T db.
Variable t : Z.
Hypothesis Ht : 0 < t.

Local Notation G := (t_regressors T).
Local Notation rows k := (by_rows T db k).
Local Notation combos k l := (prodZ (map (fun ng => maxZ (map (value (rows k) (snd ng)) l) + 1) (of_BX G))).

Section By.
Variable b : by_block.
Hypothesis Hb : In b bs.
Local Notation bcols := (t_on T' :: t_across T').
Local Notation bl k := (block_list enum T' b k).

Lemma wf_b : wf_block b.
Proof. exact (proj1 (proj2 (bs_wf _ korder_ok _ _ _ init) b Hb)). Qed.

Lemma block_facts k v lv s0 : In k (keys bcols (map snd (b_frame b))) -> block_val T' b k = Ok v ->
  In (lv, v) (b_frame b) -> proj bcols v = k -> In s0 (bl k) ->
  (of_BX G <> [] -> gs_of T' b v <> []) /\
  (forall g s, In g (gs_of T' b v) -> In s (bl k) -> 0 <= g s) /\
  prodZ (map (fun g => maxZ (map g (bl k)) + 1) (gs_of T' b v)) = combos (b_key b) (bl k) /\
  combos (b_key b) (bl k) < 2 ^ 63 /\
  (forall s, In s (bl k) -> count_profile (gs_of T' b v) (profile (gs_of T' b v) s) (bl k) =
     length (filter (same_vals T db b s) (bl k))).
Proof.
  intros Hk Hv Hvin Ev H0.
  pose proof (block_lists korder_ok enum_ok rd dt kf init b Hb _ _ Hk H0) as HL.
  assert (Hw : is_wanted T db (b_key b) s0) by (apply (proj2 HL) in H0; tauto).
  destruct (@cod _ _ _ HL Hw) as (Hpos & Hprod).
  assert (Egs : forall A (h : list Z -> A) l, incl l (bl k) ->
     map (fun g => h (map g l)) (gs_of T' b v) = map (fun ng => h (map (value (rows (b_key b)) (snd ng)) l)) (of_BX G)).
  { intros A h l Hl. exact (gs_map korder_ok enum_ok rd dt kf rr rt init b Hb lv Hk Hv Hvin Ev Hl h). }
  pose proof (Egs _ (fun c => maxZ c + 1) _ (incl_refl _)) as Em. cbn beta in Em.
  split; [|split; [|split; [|split]]].
  - intros Hne E. apply (f_equal (@length _)) in Em. rewrite !map_length, E in Em. destruct (of_BX G); [congruence|discriminate].
  - intros g s Hg Hs. pose proof (Egs _ (fun c => 0 <= hd 0 c) [s]) as Ep. cbn beta in Ep.
    assert (Hs' : incl [s] (bl k)) by (intros y [<-|[]]; exact Hs).
    specialize (Ep Hs'). assert (HI : In (0 <= g s) (map (fun g => 0 <= hd 0 (map g [s])) (gs_of T' b v))).
    { apply in_map_iff. exists g. auto. }
    rewrite Ep in HI. apply in_map_iff in HI as (ng & E & Hng). rewrite <- E. cbn. apply Hpos; assumption.
  - rewrite Em. reflexivity.
  - exact Hprod.
  - intros s Hs. unfold count_profile. f_equal. apply filter_ext_in. intros x Hx. unfold same_vals.
    rewrite !(vals_profile korder_ok enum_ok rd dt kf rr rt init b Hb lv _ Hk Hv Hvin Ev) by assumption. reflexivity.
Qed.

Lemma same_vals_iff t0 s : same_vals T db b t0 s = true <->
  forall ng, In ng (of_BX G) -> value (rows (b_key b)) (snd ng) s = value (rows (b_key b)) (snd ng) t0.
Proof.
  clear. unfold same_vals, prof_eqb, vals. destruct (list_eq_dec _ _ _) as [e|e]; split; try discriminate; try reflexivity.
  - intros _. revert e. generalize (of_BX G). intros l. induction l as [|y l IH]; cbn; intros e ng [].
    + subst. injection e as e _. exact e.
    + injection e as _ e. apply IH; assumption.
  - intros H. exfalso. apply e. apply map_ext_in. exact H.
Qed.

Lemma group_perm k t0 : In k (keys bcols (map snd (b_frame b))) -> In t0 (bl k) ->
  lists_that (fun s => is_wanted T db (b_key b) s /\ same_group T (rows (b_key b)) s t0) (filter (same_vals T db b t0) (bl k)).
Proof.
  intros Hk H0. destruct (block_lists korder_ok enum_ok rd dt kf init b Hb _ _ Hk H0) as [HN HL].
  split; [apply NoDup_filter, HN|]. intros s. rewrite filter_In, HL, same_vals_iff. unfold same_group. tauto.
Qed.

Lemma block_stuck fuel byr k c0 os c1 t0 : of_BX G <> [] ->
  In k (keys bcols (map snd (b_frame b))) ->
  block_result enum argsort R fuel T' b (Some t) byr k c0 os c1 -> In t0 (bl k) ->
  100 < Zlen (filter (same_vals T db b t0) (bl k)) -> 5 * t < 3 * Zlen (filter (same_vals T db b t0) (bl k)) ->
  t <= ucapacity (combos (b_key b) (bl k)) + 1.
Proof.
  intros Hne Hk H H0 H1 H2. destruct H as (v & Hv & H).
  destruct (block_val_ok T' b (proj1 (proj2 (proj2 (bs_inv _ korder_ok rd dt kf init) b Hb))) k Hk) as (lv & v' & Hv' & Hvin & Ev).
  assert (v' = v) by congruence. subst v'.
  destruct (block_facts _ _ Hk Hv Hvin Ev H0) as (F1 & F2 & F3 & F4 & F5).
  destruct H as [(Eo & _)|(Eo & o & -> & Ho)].
  { unfold block_list in H0. rewrite Hv, Eo in H0. destruct H0. }
  apply (on_across_triplets_ok _ _ _ enum_ok _ (T'_ne _ _ _ _ _ init) wf_b) in Ho; [|exact Hk].
  destruct Ho as (_ & p & Hc & _).
  assert (Hbl : bl k = plist enum T' b v k) by (unfold block_list; rewrite Hv, Eo; reflexivity).
  rewrite <- Hbl in Hc. rewrite <- F3.
  unfold Zlen in H1, H2. rewrite <- F5 in H1, H2 by exact H0.
  eapply core_stuck; [exact argsort_ok|exact Ht|exact (F1 Hne)|exact F2|rewrite F3; exact F4|exact Hc|exact H0|exact H1|exact H2].
Qed.

Hypothesis small : Zlen (b_frame b) * Zlen (b_frame b) * Zlen (b_frame b) < 2 ^ 64.
Hypothesis HG : r_ABX (t_regressors T') = false.
Hypothesis fairR : forall N, 0 < N -> fair R N.
Hypothesis fits : forall k t0, In k (keys bcols (map snd (b_frame b))) -> In t0 (bl k) ->
  100 < Zlen (filter (same_vals T db b t0) (bl k)) -> 5 * t < 3 * Zlen (filter (same_vals T db b t0) (bl k)) ->
  t <= ucapacity (combos (b_key b) (bl k)) + 1.

Lemma compute_ends c : ends (fun fuel => compute_triplets korder enum argsort R fuel T' (Some t) b c).
Proof.
  destruct (proj2 (bs_inv _ korder_ok rd dt kf init) b Hb) as (Hw & al & Hne & _).
  pose proof (T'_ne _ _ _ _ _ init) as Hac.
  unfold compute_triplets, groups.
  assert (exists bv, iloc (b_frame b) 0 = Ok bv) as (bv & ->).
  { unfold iloc. cbn. destruct (b_frame b) as [|p fr]; [congruence|]. cbn. eauto. }
  cbn [bind].
  assert (Hks : incl (korder (keys bcols (map snd (b_frame b)))) (keys bcols (map snd (b_frame b)))).
  { intros k. apply Permutation_in, korder_ok. }
  revert Hks. generalize (@nil block_out). generalize (korder (keys bcols (map snd (b_frame b)))).
  intros ks. revert c. induction ks as [|k ks IH]; intros c acc Hks; cbn [map foldM].
  { exists 0%nat. eexists. reflexivity. }
  assert (Hk : In k (keys bcols (map snd (b_frame b)))) by (apply Hks; left; reflexivity).
  assert (HS : ends (fun fuel => block_step enum argsort R fuel T' (Some t) b (scalar_regressors (r_by (t_regressors T')) bv) (acc, c)
                  (k, group bcols (b_frame b) k))).
  { unfold block_step. destruct (block_val_ok _ _ al _ Hk) as (l & v & Hv & Hvin & Ev).
    assert (Hv' := Hv). unfold block_val in Hv'.
    apply bind_ok in Hv' as (l0 & -> & Hv'). cbn [bind]. rewrite Hv'. cbn [bind].
    destruct (f_oab (t_filters T') v) eqn:Eo; [|exists 0%nat; eexists; reflexivity]. unfold on_across_triplets.
    destruct (block_design_total _ enum_ok _ Hw v _ Hac Hk small) as (d & Hd). rewrite Hd. cbn [bind].
    destruct (block_design_ok _ enum_ok _ Hw _ _ Hac Hk Hd) as (Hts & A & B & X & Hdk & IA & IB & IX).
    rewrite (dk_A Hdk), (dk_B Hdk), (dk_X Hdk). rewrite !(item_regressors_ok Hw) by assumption. cbn [bind].
    assert (Hbl : bl k = d_triplets d) by (unfold block_list; rewrite Hv, Eo; symmetry; exact Hts).
    assert (HC : ends (fun fuel => core argsort R fuel (Some t) (d_triplets d)
       (gB b v (r_B (t_regressors T')) ++ gX b v (r_X (t_regressors T'))) c)).
    { change (gB b v (r_B (t_regressors T')) ++ gX b v (r_X (t_regressors T'))) with (gs_of T' b v).
      rewrite <- Hbl. destruct (bl k) as [|s0 bl0] eqn:Ebl.
      { exists 0%nat. eexists. unfold core. intros fuel _. destruct (gs_of T' b v); reflexivity. }
      rewrite <- Ebl. assert (H0 : In s0 (bl k)) by (rewrite Ebl; left; reflexivity).
      destruct (block_facts _ _ Hk Hv Hvin Ev H0) as (F1 & F2 & F3 & F4 & F5).
      destruct (gs_of T' b v) as [|g0 gs0] eqn:Egs.
      { exists 0%nat. eexists. reflexivity. }
      rewrite <- Egs in *. apply core_ends; auto.
      - rewrite Egs. discriminate.
      - rewrite F3. exact F4.
      - intros s Hs. rewrite F3, F5 by exact Hs. apply fits; assumption. }
    destruct HC as (n & [[[p idx] ts'] c2] & HC).
    pose proof (core_applied _ _ _ _ _ _ _ (HC n (le_n n))) as Ha.
    destruct (compute_regressors_ok (length ts') (scalar_regressors (r_by (t_regressors T')) bv ++ scalar_regressors (r_oab (t_regressors T')) v)
       (r_A (t_regressors T')) (r_B (t_regressors T')) (r_X (t_regressors T')) Hdk Ha) as (As & E1 & E2).
    exists n. eexists. intros fuel Hf. rewrite (sort_design_core argsort R fuel (Some t) _ _ c Hdk), (HC fuel Hf).
    cbn [bind]. rewrite HG, E1. cbn [bind fst snd]. reflexivity. }
  destruct HS as (n1 & [acc1 c1] & H1).
  destruct (IH c1 acc1) as (n2 & r & H2); [intros x Hx; apply Hks; right; exact Hx|].
  exists (Nat.max n1 n2), r. intros fuel Hf. rewrite H1 by lia. cbn [bind]. apply H2. lia.
Qed.

End By.

Lemma overfull_block b k t0 : In b bs -> In k (keys (t_on T' :: t_across T') (map snd (b_frame b))) ->
  In t0 (block_list enum T' b k) ->
  100 < Zlen (filter (same_vals T db b t0) (block_list enum T' b k)) ->
  5 * t < 3 * Zlen (filter (same_vals T db b t0) (block_list enum T' b k)) ->
  ucapacity (combos (b_key b) (block_list enum T' b k)) + 1 < t ->
  overfull T db t.
Proof.
  intros Hb Hk H0 H1 H2 H3.
  pose proof (block_lists korder_ok enum_ok rd dt kf init b Hb _ _ Hk H0) as HL.
  exists (b_key b), t0, (block_list enum T' b k), (filter (same_vals T db b t0) (block_list enum T' b k)).
  split; [apply (proj2 HL) in H0; tauto|]. split; [exact HL|]. split; [exact (group_perm b Hb _ _ Hk H0)|]. tauto.
Qed.

Lemma overfull_inv : overfull T db t -> exists b k t0, In b bs /\
  In k (keys (t_on T' :: t_across T') (map snd (b_frame b))) /\ In t0 (block_list enum T' b k) /\
  100 < Zlen (filter (same_vals T db b t0) (block_list enum T' b k)) /\
  5 * t < 3 * Zlen (filter (same_vals T db b t0) (block_list enum T' b k)) /\
  ucapacity (combos (b_key b) (block_list enum T' b k)) + 1 < t.
Proof.
  intros (k0 & t0 & l & all & Hw & Hl & Hall & H1 & H2 & H3).
  destruct t0 as [[a b'] x]. cbn in Hw. destruct (wanted_key _ korder_ok rd dt kf init Hw) as (b & Hb & E). subst k0.
  pose proof Hw as Hw'. apply (blist_In korder_ok enum_ok rd dt kf init _ _ _ _ Hb) in Hw'.
  unfold by_list in Hw'. apply in_flat_map in Hw' as (k & Hk & H0).
  assert (Hk' : In k (keys (t_on T' :: t_across T') (map snd (b_frame b)))) by (revert Hk; apply Permutation_in, korder_ok).
  exists b, k, (a, b', x). split; [exact Hb|]. split; [exact Hk'|]. split; [exact H0|].
  destruct (group_perm b Hb _ _ Hk' H0) as [N1 N2]. destruct Hall as [A1 A2].
  assert (PA : Permutation all (filter (same_vals T db b (a, b', x)) (block_list enum T' b k))).
  { apply NoDup_Permutation; auto. intros s. rewrite A2, N2. reflexivity. }
  destruct (block_lists korder_ok enum_ok rd dt kf init b Hb _ _ Hk' H0) as [B1 B2]. destruct Hl as [L1 L2].
  assert (PB : Permutation l (block_list enum T' b k)).
  { apply NoDup_Permutation; auto. intros s. rewrite L2, B2. reflexivity. }
  unfold Zlen in *. rewrite <- (Permutation_length PA). split; [exact H1|]. split; [exact H2|].
  replace (combos (b_key b) (block_list enum T' b k)) with (combos (b_key b) l); [exact H3|].
  f_equal. apply map_ext. intros ng. f_equal. apply maxZ_perm, Permutation_map, PB.
Qed.

Lemma overfull_not_ok fuel c r : of_BX G <> [] -> overfull T db t ->
  generate_triplets korder enum argsort R fuel T' (Some t) bs st c <> Ok r.
Proof.
  intros Hne Ho H. assert (Hw : exists k0 t0, is_wanted T db k0 t0) by (destruct Ho as (k0 & t0 & _ & _ & Hw & _); eauto).
  apply overfull_inv in Ho as (b & k & t0 & Hb & Hk & H0 & H1 & H2 & H3).
  destruct r as [bs' [f|]].
  - destruct (file_inv _ _ _ _ korder_ok _ _ _ init _ _ H) as (outss & c2 & ty & Hch & _).
    assert (HL : length bs = length outss) by (apply chain_by_each, Forall2_len in Hch; exact Hch).
    assert (exists outs, In (b, outs) (combine bs outss)) as (outs & Hin).
    { clear -HL Hb. revert outss HL. induction bs as [|b0 bs0 IH]; intros [|o outss] HL; cbn in *; try discriminate; [destruct Hb|].
      destruct Hb as [->|Hb]; [eauto|]. destruct (IH Hb outss) as (outs & Ho); [lia|eauto]. }
    destruct (combine_compute _ _ _ _ _ _ _ _ _ _ _ _ _ Hch Hin) as (_ & c0 & c1 & Hc).
    apply compute_triplets_ok in Hc as (bv & _ & Hc). apply chain_each in Hc as (outss2 & _ & F).
    apply (Permutation_in _ (Permutation_sym (korder_ok _))) in Hk as Hk'.
    destruct (Forall2_in_l _ _ _ _ _ _ F Hk') as (os & _ & c3 & c4 & Hr).
    pose proof (block_stuck Hb _ Hne Hk Hr H0 H1 H2). lia.
  - unfold generate_triplets in H. destruct (s_nb_triplets st =? 0) eqn:E.
    + apply Z.eqb_eq in E. rewrite <- (tagged_length korder_ok enum_ok _ _ _ init) in E.
      destruct Hw as (k0 & [[a b'] x] & Hw). apply (tagged_In korder_ok enum_ok rd dt kf init) in Hw.
      destruct (tagged korder enum T' bs); [destruct Hw|]. unfold Zlen in E. cbn [length] in E. lia.
    + apply bind_ok in H as (? & _ & H). apply bind_ok in H as (? & _ & H). apply bind_ok in H as (? & _ & H).
      apply bind_ok in H as (? & _ & H). cbv zeta in H. inversion H.
Qed.

Hypothesis Hsz : Zlen db * Zlen db * Zlen db < 2 ^ 63.
Hypothesis HG : r_ABX G = false.

Lemma generate_ends c : (forall N, 0 < N -> fair R N) -> ~ overfull T db t ->
  ends (fun fuel => generate_triplets korder enum argsort R fuel T' (Some t) bs st c).
Proof.
  intros HF Ho. destruct (sizes_small korder_ok enum_ok rd dt kf init Hsz) as (Hfl & _).
  assert (HC : forall b c, In b bs -> ends (fun fuel => compute_triplets korder enum argsort R fuel T' (Some t) b c)).
  { intros b c0 Hb. apply compute_ends; auto.
    - pose proof (cube_le (conj (Zlen_nonneg (b_frame b)) (Hfl b Hb))). lia.
    - destruct (init_inv _ _ _ _ _ init) as (_ & -> & _). exact HG.
    - intros k t0 Hk H0 H1 H2. destruct (Z.le_gt_cases t (ucapacity (combos (b_key b) (block_list enum T' b k)) + 1)) as [|Hgt]; [assumption|].
      exfalso. apply Ho. eapply overfull_block; eauto; lia. }
  assert (HL : forall l g, incl l bs -> ends (fun fuel => foldM (by_step korder enum argsort R fuel T' (Some t)) l g)).
  { clear -HC. induction l as [|b l IH]; intros g Hl; cbn [foldM]; [exists 0%nat; eexists; reflexivity|].
    destruct (HC b (g_rng g)) as (n1 & [outs c1] & H1); [apply Hl; left; reflexivity|].
    assert (HS : ends (fun fuel => by_step korder enum argsort R fuel T' (Some t) g b)).
    { exists n1. unfold by_step.
      destruct (Zlen (g_triplets g ++ concat (map o_triplets outs)) =? hd 0 (g_bounds g)) eqn:E;
        eexists; intros fuel Hf; rewrite H1 by exact Hf; cbn [bind]; cbv zeta; rewrite E; reflexivity. }
    destruct HS as (n2 & g1 & H2). destruct (IH g1) as (n3 & r & H3); [intros x Hx; apply Hl; right; exact Hx|].
    exists (Nat.max n2 n3), r. intros fuel Hf. rewrite H2 by lia. cbn [bind]. apply H3. lia. }
  destruct (HL bs (mk_gen [] [] [] [0] [] [] c) (incl_refl _)) as (n & g & Hg).
  pose proof (@generate_fine korder enum argsort R n korder_ok enum_ok argsort_ok R_ok t Ht T cols db rd dt kf T' bs st init c Hsz HG) as Hf.
  assert (HI : forall fuel, (n <= fuel)%nat -> generate_triplets korder enum argsort R fuel T' (Some t) bs st c =
                      generate_triplets korder enum argsort R n T' (Some t) bs st c).
  { intros fuel Hn. unfold generate_triplets. destruct (s_nb_triplets st =? 0); [reflexivity|].
    rewrite (Hg fuel Hn), (Hg n (le_n n)). reflexivity. }
  destruct (generate_triplets korder enum argsort R n T' (Some t) bs st c) as [r|e] eqn:E.
  - exists n, r. exact HI.
  - cbn in Hf. subst e. exfalso. revert E. unfold generate_triplets. destruct (s_nb_triplets st =? 0); [discriminate|].
    rewrite (Hg n (le_n n)). destruct (fit_integer_type (s_nb_triplets st) true) as [?|e1] eqn:E1; cbn [bind].
    + destruct (fit_integer_type (s_nb_blocks st) true) as [?|e2] eqn:E2; cbn [bind].
      * destruct (fit_integer_type (hd 0 (g_bounds g)) true) as [?|e3] eqn:E3; cbn [bind]; [discriminate|].
        intros E. inversion E; subst. apply fit_err in E3. discriminate.
      * intros E. inversion E; subst. apply fit_err in E2. discriminate.
    + intros E. inversion E; subst. apply fit_err in E1. discriminate.
Qed.

End Main.

(** A threshold that no type can hold: the generation goes on for ever. *)
Theorem overfull_never_ends :
  forall korder enum argsort (R : rng),
    lists_keys korder -> lists_set enum -> argsort_spec argsort -> rng_ok R ->
  forall T cols db T' bs st,
    reads cols (t_filters T) -> determined T db -> kept_first T db ->
    reg_reads cols (t_regressors T) -> reg_determined T db ->
    task_init korder enum T cols db = Ok (T', bs, st) ->
    Zlen db * Zlen db * Zlen db < 2 ^ 63 -> r_ABX (t_regressors T) = false ->
  forall t, 0 < t -> coded T db -> of_BX (t_regressors T) <> [] -> overfull T db t ->
  forall fuel c, generate_triplets korder enum argsort R fuel T' (Some t) bs st c = Err OutOfFuel.
Proof.
  intros korder enum argsort R ko eo ao ro T cols db T' bs st rd dt kf rr rt init Hsz HG t Ht cod Hne Ho fuel c.
  pose proof (@generate_fine korder enum argsort R fuel ko eo ao ro t Ht T cols db rd dt kf T' bs st init c Hsz HG) as Hf.
  destruct (generate_triplets korder enum argsort R fuel T' (Some t) bs st c) as [r|e] eqn:E; [|cbn in Hf; subst; reflexivity].
  exfalso. eapply overfull_not_ok; eauto.
Qed.

Theorem otherwise_ends :
  forall korder enum argsort (R : rng),
    lists_keys korder -> lists_set enum -> argsort_spec argsort -> rng_ok R -> (forall N, 0 < N -> fair R N) ->
  forall T cols db T' bs st,
    reads cols (t_filters T) -> determined T db -> kept_first T db ->
    reg_reads cols (t_regressors T) -> reg_determined T db ->
    task_init korder enum T cols db = Ok (T', bs, st) ->
    Zlen db * Zlen db * Zlen db < 2 ^ 63 -> r_ABX (t_regressors T) = false ->
  forall t, 0 < t -> coded T db -> ~ overfull T db t ->
  forall c, exists n r, forall fuel, (n <= fuel)%nat ->
    generate_triplets korder enum argsort R fuel T' (Some t) bs st c = Ok r.
Proof.
  intros korder enum argsort R ko eo ao ro HF T cols db T' bs st rd dt kf rr rt init Hsz HG t Ht cod Ho c.
  exact (@generate_ends korder enum argsort R ko eo ao ro T cols db T' bs st rd dt kf rr rt init cod t Ht Hsz HG c HF Ho).
Qed.
