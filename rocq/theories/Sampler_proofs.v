(** Proofs about the samplers. *)
From Verif Require Import Prelude ListFacts Sampler Sampler_spec.
Open Scope Z_scope.

Lemma ssorted_lt_app (l1 l2 : list Z) :
  StronglySorted Z.lt l1 -> StronglySorted Z.lt l2 ->
  (forall x y, In x l1 -> In y l2 -> x < y) -> StronglySorted Z.lt (l1 ++ l2).
Proof.
  induction l1 as [|a l1 IH]; cbn; intros H1 H2 H; [assumption|].
  inversion H1; subst. constructor.
  - apply IH; auto.
  - apply Forall_app; split; [assumption|]. apply Forall_forall. intros y Hy. apply H; auto.
Qed.

Lemma ssorted_lt_shift (d : Z) (l : list Z) :
  StronglySorted Z.lt l -> StronglySorted Z.lt (map (fun x => x + d) l).
Proof.
  induction l as [|a l IH]; cbn; intros H; [constructor|].
  inversion H as [|? ? HS HF]; subst. constructor; [auto|].
  apply Forall_forall. intros y Hy. apply in_map_iff in Hy. destruct Hy as [x [<- Hx]].
  rewrite Forall_forall in HF. specialize (HF _ Hx). lia.
Qed.

Lemma tmin_nonpos t : tmin t <= 0.
Proof. destruct t; vm_compute; discriminate. Qed.

Section S.
Variable R : rng.
Hypothesis HR : rng_ok R.

Lemma knuth_loop_spec dtype n N : forall fuel c t m,
  0 <= t -> m <= n -> n - m <= N - t -> N - 1 <= tmax dtype ->
  (Z.to_nat (N - t) < fuel)%nat ->
  exists l c', knuth_loop R fuel c dtype n N t m = Ok (l, c') /\
    Z.of_nat (length l) = n - m /\ StronglySorted Z.lt l /\ (forall x, In x l -> t <= x < N).
Proof.
  destruct HR as [HD [Hu _]].
  induction fuel as [|fuel IH]; intros c t m Ht Hm Hn HT Hf; [lia|].
  cbn [knuth_loop]. destruct (m <? n) eqn:E.
  - apply Z.ltb_lt in E. destruct ((N - t) * rnd_unit R c <? (n - m) * rnd_den R) eqn:E2.
    + destruct (IH (S c) (t + 1) (m + 1)) as (l & c' & -> & Hl & Hs & Hi); try lia.
      cbn [bind fst snd]. exists (cast dtype t :: l), c'. split; [reflexivity|].
      rewrite cast_id by (pose proof (tmin_nonpos dtype); lia).
      split; [cbn [length]; lia|]. split.
      * constructor; [assumption|]. apply Forall_forall. intros x Hx. specialize (Hi x Hx). lia.
      * intros x [<-|Hx]; [lia|]. specialize (Hi x Hx). lia.
    + apply Z.ltb_ge in E2.
      assert (N - t <> n - m).
      { intros HE. rewrite HE in E2. specialize (Hu c). nia. }
      destruct (IH (S c) (t + 1) m) as (l & c' & -> & Hl & Hs & Hi); try lia.
      exists l, c'. split; [reflexivity|]. split; [lia|]. split; [assumption|].
      intros x Hx. specialize (Hi x Hx). lia.
  - apply Z.ltb_ge in E. exists [], c. split; [reflexivity|]. cbn.
    split; [lia|]. split; [constructor|]. tauto.
Qed.

Lemma knuth_sampling_spec dtype n N c :
  0 <= n <= N -> N - 1 <= tmax dtype ->
  exists l c', knuth_sampling R c n N dtype = Ok (l, c') /\ is_sample n N l.
Proof.
  intros Hn HT. unfold knuth_sampling. destruct (n <? 0) eqn:E; [lia|].
  destruct (@knuth_loop_spec dtype n N (S (Z.to_nat N) + Z.to_nat n) c 0 0)
    as (l & c' & H & Hl & Hs & Hi); try lia.
  exists l, c'. split; [assumption|]. split; [lia|]. split; assumption.
Qed.

Lemma randints_length c N k : length (randints R c N k) = Z.to_nat k.
Proof. unfold randints. rewrite map_length, seq_length. reflexivity. Qed.

Lemma randints_in c N k x : 0 < N -> In x (randints R c N k) -> 0 <= x < N.
Proof.
  destruct HR as [_ [_ Hi]]. intros HN H. unfold randints in H. apply in_map_iff in H.
  destruct H as [i [<- _]]. apply Hi, HN.
Qed.

Lemma randints_cast dtype c N k : 0 < N -> N - 1 <= tmax dtype ->
  map (cast dtype) (randints R c N k) = randints R c N k.
Proof.
  intros HN HT. rewrite <- (map_id (randints R c N k)) at 2. apply map_ext_in. intros x Hx.
  apply randints_in in Hx; [|assumption]. apply cast_id. pose proof (tmin_nonpos dtype). lia.
Qed.

Lemma NoDup_incl_app_length (l l1 l2 : list Z) :
  NoDup l -> incl l (l1 ++ l2) -> (length l <= length l1 + length l2)%nat.
Proof. intros H1 H2. rewrite <- app_length. apply NoDup_incl_length; assumption. Qed.

(** One round of the rejection loop. *)
Lemma round_spec dtype n N c sample remaining :
  0 <= n <= N -> 0 < N -> N - 1 <= tmax dtype ->
  StronglySorted Z.lt sample -> (forall x, In x sample -> 0 <= x < N) ->
  remaining = n - Z.of_nat (length sample) -> 0 < remaining ->
  let sample' := np_unique (sample ++ np_unique (map (cast dtype) (randints R c N remaining))) in
  StronglySorted Z.lt sample' /\ (forall x, In x sample' -> 0 <= x < N) /\
  Z.of_nat (length sample') <= n /\
  (forall x, In x sample' <-> In x sample \/ In x (randints R c N remaining)).
Proof.
  intros Hn HN HT Hs Hi Hr Hp sample'.
  assert (HI : forall x, In x sample' <-> In x sample \/ In x (randints R c N remaining)).
  { intros x. unfold sample'. rewrite np_unique_In, in_app_iff, np_unique_In, randints_cast
      by assumption. tauto. }
  split; [apply np_unique_sorted|]. split.
  - intros x Hx. apply HI in Hx. destruct Hx as [Hx|Hx]; [auto|]. eapply randints_in; eauto.
  - split; [|exact HI].
    assert (length sample' <= length sample + length (randints R c N remaining))%nat.
    { apply NoDup_incl_app_length; [apply np_unique_NoDup|]. intros x Hx. apply in_app_iff.
      apply HI, Hx. }
    rewrite randints_length in H. lia.
Qed.

Lemma rejection_loop_spec dtype n N : forall fuel c sample remaining,
  0 <= n <= N -> 0 < N -> N - 1 <= tmax dtype ->
  StronglySorted Z.lt sample -> (forall x, In x sample -> 0 <= x < N) ->
  Z.of_nat (length sample) <= n ->
  remaining = n - Z.of_nat (length sample) ->
  match rejection_loop R fuel c dtype n N sample remaining with
  | Ok (l, _) => is_sample n N l
  | Err e => e = OutOfFuel
  end.
Proof.
  induction fuel as [|fuel IH]; intros c sample remaining Hn HN HT Hs Hi Hl Hr; [reflexivity|].
  cbn [rejection_loop]. destruct (0 <? remaining) eqn:E.
  - apply Z.ltb_lt in E.
    destruct (@round_spec dtype n N c sample remaining Hn HN HT Hs Hi Hr E) as (A & B & C & _).
    apply IH; auto.
  - apply Z.ltb_ge in E. split; [lia|]. split; assumption.
Qed.

Lemma missing_value n N sample :
  0 <= n <= N -> Z.of_nat (length sample) < n -> exists v, 0 <= v < N /\ ~ In v sample.
Proof.
  intros Hn Hl.
  destruct (existsb (fun v => negb (existsb (Z.eqb v) sample)) (map Z.of_nat (seq 0 (Z.to_nat N)))) eqn:E.
  - apply existsb_exists in E. destruct E as [v [Hv Hn']]. exists v. split.
    + apply in_map_iff in Hv. destruct Hv as [i [<- Hi]]. apply in_seq in Hi. lia.
    + intros HI. apply negb_true_iff in Hn'. rewrite <- not_true_iff_false in Hn'. apply Hn'.
      apply existsb_exists. exists v. split; [assumption|]. apply Z.eqb_refl.
  - exfalso.
    assert (incl (map Z.of_nat (seq 0 (Z.to_nat N))) sample).
    { intros v Hv. destruct (existsb (Z.eqb v) sample) eqn:E2.
      - apply existsb_exists in E2. destruct E2 as [w [Hw He]]. apply Z.eqb_eq in He. subst. assumption.
      - exfalso. rewrite <- not_true_iff_false in E. apply E. apply existsb_exists. exists v.
        split; [assumption|]. rewrite E2. reflexivity. }
    apply NoDup_incl_length in H.
    + rewrite map_length, seq_length in H. lia.
    + apply NoDup_map_inj; [|apply seq_NoDup]. intros; lia.
Qed.

Lemma rejection_loop_returns dtype n N :
  0 <= n <= N -> 0 < N -> N - 1 <= tmax dtype -> fair R N ->
  forall k c sample, StronglySorted Z.lt sample -> (forall x, In x sample -> 0 <= x < N) ->
  Z.of_nat (length sample) + Z.of_nat k = n ->
  exists fuel0, forall fuel, (fuel0 <= fuel)%nat ->
    exists r, rejection_loop R fuel c dtype n N sample (n - Z.of_nat (length sample)) = Ok r.
Proof.
  intros Hn HN HT HF. induction k as [k IHk] using lt_wf_ind. intros c sample Hs Hi Hk.
  destruct k as [|k].
  - exists 1%nat. intros fuel Hf. destruct fuel as [|fuel]; [lia|]. cbn [rejection_loop].
    destruct (0 <? n - Z.of_nat (length sample)) eqn:E; [lia|]. eexists; reflexivity.
  - destruct (@missing_value n N sample Hn) as [v [Hv HnI]]; [lia|].
    destruct (HF c v Hv) as [c' [Hc Hd]].
    (* induction on the distance to the draw of v *)
    remember (c' - c)%nat as d eqn:Hd'.
    assert (Hgoal : forall d c, (c <= c')%nat -> (c' - c)%nat = d ->
      exists fuel0, forall fuel, (fuel0 <= fuel)%nat ->
      exists r, rejection_loop R fuel c dtype n N sample (n - Z.of_nat (length sample)) = Ok r).
    { clear d Hd' c Hc. induction d as [d IHd] using lt_wf_ind. intros c Hc Hd'.
      set (rem := n - Z.of_nat (length sample)).
      destruct (@round_spec dtype n N c sample rem Hn HN HT Hs Hi eq_refl) as (A & B & C & D);
        [unfold rem; lia|].
      set (sample' := np_unique (sample ++ np_unique (map (cast dtype) (randints R c N rem)))) in *.
      assert (Hge : (length sample <= length sample')%nat).
      { apply NoDup_incl_length; [apply StronglySorted_Zlt_NoDup; assumption|].
        intros x Hx. apply D. auto. }
      destruct (Nat.eq_dec (length sample') (length sample)) as [He|He].
      + (* nothing new: then sample' = sample and v is still ahead *)
        assert (sample' = sample).
        { apply ssorted_lt_ext; auto. intros x. split; [|intros Hx; apply D; auto].
          assert (incl sample' sample).
          { apply NoDup_length_incl; [apply StronglySorted_Zlt_NoDup; assumption|lia|].
            intros y Hy. apply D. auto. }
          apply H. }
        assert (Hfar : (c + Z.to_nat rem <= c')%nat).
        { destruct (le_lt_dec (c + Z.to_nat rem) c') as [|Hlt]; [assumption|]. exfalso.
          apply HnI. rewrite <- H. apply D. right. unfold randints. apply in_map_iff.
          exists c'. split; [assumption|]. apply in_seq. lia. }
        destruct (IHd (c' - (c + Z.to_nat rem))%nat) with (c := (c + Z.to_nat rem)%nat)
          as [fuel0 Hf0]; [unfold rem in *; lia|lia|reflexivity|].
        exists (S fuel0). intros fuel Hf. destruct fuel as [|fuel]; [lia|].
        cbn [rejection_loop]. replace (0 <? rem) with true by (unfold rem; lia).
        fold sample'. rewrite H. apply Hf0. lia.
      + destruct (IHk (Z.to_nat (n - Z.of_nat (length sample'))) ) with (c := (c + Z.to_nat rem)%nat) (sample := sample')
          as [fuel0 Hf0]; auto; [lia|lia|].
        exists (S fuel0). intros fuel Hf. destruct fuel as [|fuel]; [lia|].
        cbn [rejection_loop]. replace (0 <? rem) with true by (unfold rem; lia).
        fold sample'. apply Hf0. lia. }
    apply (Hgoal d c Hc). auto.
Qed.

Lemma rejection_spec fuel c n N dtype :
  0 <= n <= N -> 0 < N -> N - 1 <= tmax dtype ->
  match rejection_sampling R fuel c n N dtype with
  | Ok (l, _) => is_sample n N l
  | Err e => e = OutOfFuel
  end.
Proof.
  intros. unfold rejection_sampling. apply rejection_loop_spec; auto; cbn; try lia; try tauto.
  constructor.
Qed.

Lemma rejection_returns c n N dtype :
  0 <= n <= N -> 0 < N -> N - 1 <= tmax dtype -> fair R N ->
  exists fuel0, forall fuel, (fuel0 <= fuel)%nat ->
    exists r, rejection_sampling R fuel c n N dtype = Ok r.
Proof.
  intros Hn HN HT HF. unfold rejection_sampling.
  destruct (@rejection_loop_returns dtype n N Hn HN HT HF (Z.to_nat n) c []) as [f0 Hf0].
  - constructor.
  - intros x [].
  - cbn; lia.
  - exists f0. intros fuel Hf. specialize (Hf0 fuel Hf). cbn in Hf0. rewrite Z.sub_0_r in Hf0.
    assumption.
Qed.

Lemma swr_outcome fuel c n N dtype :
  0 <= n <= N -> N - 1 <= tmax dtype ->
  match sample_without_replacement R fuel c n N dtype with
  | Ok (l, _) => is_sample n N l
  | Err e => e = OutOfFuel
  end.
Proof.
  intros Hn HT. unfold sample_without_replacement.
  destruct ((100 <? N) && (5 * n <? 3 * N)) eqn:E.
  - apply andb_true_iff in E. destruct E as [E _]. apply rejection_spec; lia.
  - destruct (@knuth_sampling_spec dtype n N c Hn HT) as (l & c' & -> & H). assumption.
Qed.

Lemma swr_spec fuel c n N dtype l c' :
  0 <= n <= N -> N - 1 <= tmax dtype ->
  sample_without_replacement R fuel c n N dtype = Ok (l, c') -> is_sample n N l.
Proof.
  intros Hn HT H. pose proof (@swr_outcome fuel c n N dtype Hn HT) as O. rewrite H in O.
  assumption.
Qed.

Lemma swr_returns c n N dtype :
  0 <= n <= N -> N - 1 <= tmax dtype -> fair R N ->
  exists fuel0, forall fuel, (fuel0 <= fuel)%nat ->
    exists l c', sample_without_replacement R fuel c n N dtype = Ok (l, c') /\ is_sample n N l.
Proof.
  intros Hn HT HF. unfold sample_without_replacement.
  destruct ((100 <? N) && (5 * n <? 3 * N)) eqn:E.
  - apply andb_true_iff in E. destruct E as [E _].
    destruct (@rejection_returns c n N dtype Hn ltac:(lia) HT HF) as [f0 Hf0].
    exists f0. intros fuel Hf. destruct (Hf0 fuel Hf) as [[l c'] Hr]. exists l, c'.
    split; [assumption|]. pose proof (@rejection_spec fuel c n N dtype Hn ltac:(lia) HT) as S.
    rewrite Hr in S. assumption.
  - exists O. intros fuel _. destruct (@knuth_sampling_spec dtype n N c Hn HT) as (l & c' & H & Hs).
    exists l, c'. auto.
Qed.

(** Every sample can be drawn by the sequential algorithm. *)

(** Hypergeometric draws. *)
Lemma hyper_loop_spec N K_eff n_eff ub :
  K_eff + n_eff <= N -> ub <= Z.min n_eff K_eff + 1 ->
  forall fuel c,
  match hyper_loop R fuel c N K_eff n_eff ub with
  | Ok (k, _) => 0 <= k < ub
  | Err e => e = OutOfFuel
  end.
Proof.
  intros HN Hub. induction fuel as [|fuel IH]; intros c; [reflexivity|].
  cbn [hyper_loop]. destruct (rnd_prop R c) as [k acc].
  destruct ((k <? 0) || (ub <=? k)) eqn:E; [apply IH|].
  apply orb_false_iff in E. destruct E as [E1 E2].
  assert (HL : forallb lgamma_ok [k + 1; K_eff - k + 1; n_eff - k + 1; N - K_eff - n_eff + k + 1] = true).
  { cbn [forallb]. unfold lgamma_ok. rewrite !andb_true_iff. lia. }
  rewrite HL. destruct acc; [lia|apply IH].
Qed.

Lemma mode_spec N K n :
  2 <= N -> 0 <= K -> 0 <= n -> 2 * K <= N -> 2 * n <= N ->
  0 <= (n + 1) * (K + 1) / (N + 2) <= Z.min n K.
Proof.
  intros HN HK Hn H1 H2. split; [apply Z.div_pos; nia|].
  apply Z.min_glb.
  - destruct (Z.eq_dec n 0) as [->|].
    + rewrite Z.div_small by nia. lia.
    + apply Z.lt_succ_r. apply Z.div_lt_upper_bound; nia.
  - destruct (Z.eq_dec K 0) as [->|].
    + rewrite Z.div_small by nia. lia.
    + apply Z.lt_succ_r. apply Z.div_lt_upper_bound; nia.
Qed.

Lemma symmetries N K n k :
  0 <= K <= N -> 0 <= n <= N ->
  let K_eff := Z.min K (N - K) in
  let n_eff := Z.min n (N - n) in
  0 <= k -> k <= n_eff -> k <= K_eff ->
  let k1 := if K_eff <? K then n_eff - k else k in
  feasible N K n (if n_eff <? n then K - k1 else k1).
Proof.
  intros HK Hn K_eff n_eff H0 H1 H2 k1.
  assert (E1 : K_eff = K /\ K <= N - K \/ K_eff = N - K /\ N - K < K) by (unfold K_eff; lia).
  assert (E2 : n_eff = n /\ n <= N - n \/ n_eff = N - n /\ N - n < n) by (unfold n_eff; lia).
  unfold feasible, k1. clearbody K_eff n_eff. clear k1.
  destruct E1 as [[-> E1]|[-> E1]]; destruct E2 as [[-> E2]|[-> E2]]; rewrite ?Z.ltb_irrefl;
    try replace (N - K <? K) with true by lia; try replace (N - n <? n) with true by lia; lia.
Qed.

Lemma hyper_outcome fuel c spread N K n :
  0 <= K <= N -> 0 <= n <= N -> ~ (N = 1 /\ K = 1 /\ n = 0) ->
  match hypergeometric_sample R fuel c spread N K n with
  | Ok (k, _) => feasible N K n k
  | Err e => e = OutOfFuel
  end.
Proof.
  intros HK Hn Hedge. unfold hypergeometric_sample.
  destruct ((N =? 0) || (N =? 1)) eqn:E.
  - apply orb_true_iff in E. unfold feasible. lia.
  - apply orb_false_iff in E. destruct E as [E0 E1].
    set (K_eff := Z.min K (N - K)). set (n_eff := Z.min n (N - n)).
    pose proof (@mode_spec N K_eff n_eff ltac:(lia) ltac:(lia) ltac:(lia) ltac:(lia) ltac:(lia))
      as HM. cbv zeta.
    set (mode := (n_eff + 1) * (K_eff + 1) / (N + 2)) in *. clearbody mode.
    assert (HL : forallb lgamma_ok [mode + 1; K_eff - mode + 1; n_eff - mode + 1; N - K_eff - n_eff + mode + 1] = true).
    { cbn [forallb]. unfold lgamma_ok. rewrite !andb_true_iff. lia. }
    rewrite HL.
    pose proof (@hyper_loop_spec N K_eff n_eff (Z.min (Z.min n_eff K_eff + 1) spread)
                  ltac:(lia) ltac:(lia) fuel c) as HS.
    destruct (hyper_loop R fuel c N K_eff n_eff (Z.min (Z.min n_eff K_eff + 1) spread))
      as [[k c']|e]; [|assumption].
    cbn [bind fst snd]. apply symmetries; clear - HK Hn HS; lia.
Qed.

Lemma hyper_spec fuel c spread N K n k c' :
  0 <= K <= N -> 0 <= n <= N -> ~ (N = 1 /\ K = 1 /\ n = 0) ->
  hypergeometric_sample R fuel c spread N K n = Ok (k, c') -> feasible N K n k.
Proof.
  intros HK Hn He H. pose proof (@hyper_outcome fuel c spread N K n HK Hn He) as O.
  rewrite H in O. assumption.
Qed.

Lemma hyper_edge fuel c spread n : hypergeometric_sample R fuel c spread 1 1 n = Ok (1, c).
Proof. reflexivity. Qed.

Lemma hyper_edge_infeasible fuel c spread :
  hypergeometric_sample R fuel c spread 1 1 0 = Ok (1, c) /\ ~ feasible 1 1 0 1.
Proof. split; [reflexivity|]. unfold feasible. lia. Qed.

(** The loop ends as soon as an acceptable proposal comes. *)
Lemma hyper_loop_returns N K_eff n_eff ub :
  K_eff + n_eff <= N -> ub <= Z.min n_eff K_eff + 1 ->
  forall c', (0 <= fst (rnd_prop R c') < ub /\ snd (rnd_prop R c') = true) ->
  forall d c, (c + d = c')%nat -> exists r, forall fuel, (d < fuel)%nat ->
    hyper_loop R fuel c N K_eff n_eff ub = Ok r.
Proof.
  intros HN Hub c' [Hk Ha]. induction d as [|d IH]; intros c Hd.
  - assert (c = c') by lia. subst c. exists (fst (rnd_prop R c'), S c'). intros fuel Hf.
    destruct fuel as [|fuel]; [lia|].
    cbn [hyper_loop]. destruct (rnd_prop R c') as [k acc]. cbn in Hk, Ha. subst acc.
    replace ((k <? 0) || (ub <=? k)) with false by lia.
    assert (HL : forallb lgamma_ok [k + 1; K_eff - k + 1; n_eff - k + 1; N - K_eff - n_eff + k + 1] = true).
    { cbn [forallb]. unfold lgamma_ok. rewrite !andb_true_iff. lia. }
    rewrite HL. reflexivity.
  - destruct (IH (S c)) as [r Hr]; [lia|].
    destruct (rnd_prop R c) as [k acc] eqn:Hp.
    destruct ((k <? 0) || (ub <=? k)) eqn:E.
    + exists r. intros fuel Hf. destruct fuel as [|fuel]; [lia|]. cbn [hyper_loop]. rewrite Hp, E.
      apply Hr. lia.
    + apply orb_false_iff in E. destruct E as [E1 E2].
      assert (HL : forallb lgamma_ok [k + 1; K_eff - k + 1; n_eff - k + 1; N - K_eff - n_eff + k + 1] = true).
      { cbn [forallb]. unfold lgamma_ok. rewrite !andb_true_iff. lia. }
      destruct acc.
      * exists (k, S c). intros fuel Hf. destruct fuel as [|fuel]; [lia|]. cbn [hyper_loop].
        rewrite Hp, E1, E2, HL. reflexivity.
      * exists r. intros fuel Hf. destruct fuel as [|fuel]; [lia|]. cbn [hyper_loop].
        rewrite Hp, E1, E2, HL. cbn [orb]. apply Hr. lia.
Qed.

Lemma hyper_returns c c' spread N K n :
  0 <= K <= N -> 0 <= n <= N -> (c <= c')%nat ->
  0 <= fst (rnd_prop R c') < spread -> fst (rnd_prop R c') <= Z.min (Z.min n (N - n)) (Z.min K (N - K)) ->
  snd (rnd_prop R c') = true ->
  exists r, forall fuel, (c' - c < fuel)%nat -> hypergeometric_sample R fuel c spread N K n = Ok r.
Proof.
  intros HK Hn Hc H1 H2 H3. unfold hypergeometric_sample.
  destruct ((N =? 0) || (N =? 1)) eqn:E.
  - eexists. reflexivity.
  - apply orb_false_iff in E. destruct E as [E0 E1].
    set (K_eff := Z.min K (N - K)) in *. set (n_eff := Z.min n (N - n)) in *.
    pose proof (@mode_spec N K_eff n_eff ltac:(lia) ltac:(lia) ltac:(lia) ltac:(lia) ltac:(lia))
      as HM. cbv zeta.
    set (mode := (n_eff + 1) * (K_eff + 1) / (N + 2)) in *. clearbody mode.
    assert (HL : forallb lgamma_ok [mode + 1; K_eff - mode + 1; n_eff - mode + 1; N - K_eff - n_eff + mode + 1] = true).
    { cbn [forallb]. unfold lgamma_ok. rewrite !andb_true_iff. lia. }
    rewrite HL.
    destruct (@hyper_loop_returns N K_eff n_eff (Z.min (Z.min n_eff K_eff + 1) spread)
                ltac:(lia) ltac:(lia) c' ltac:(split; [lia|assumption]) (c' - c)%nat c ltac:(lia))
      as [r Hr].
    eexists. intros fuel Hf. rewrite Hr by assumption. reflexivity.
Qed.

(** Incremental sampling. *)
Section Inc.
Variables (fuel : nat) (spread : Z -> Z -> Z -> Z).

Definition state_ok (s : sampler) : Prop :=
  0 <= s_K s <= s_N s /\ s_N s <= s_N0 s /\ s_N0 s <= 2 ^ 63.

Definition same_run (s s' : sampler) : Prop :=
  s_N0 s' = s_N0 s /\ s_relative s' = s_relative s /\ s_step s' = s_step s.

Lemma simple_sample_outcome c s n :
  state_ok s -> 0 <= n <= s_N s ->
  match simple_sample R fuel c spread s n with
  | Ok (l, s', _) =>
    state_ok s' /\ same_run s s' /\ s_N s' = s_N s - n /\
    s_K s' = s_K s - Z.of_nat (length l) /\ StronglySorted Z.lt l /\
    ((forall x, In x l -> 0 <= x < n) \/ (s_N s = 1 /\ s_K s = 1 /\ n = 0 /\ l = [0])) /\
    (2 <= s_N s -> s_np s' = true) /\ (s_np s = true -> s_np s' = true)
  | Err e => e = OutOfFuel
  end.
Proof.
  intros (HK & HN0 & H63) Hn. unfold simple_sample.
  assert (HC : (s_N s = 1 /\ s_K s = 1 /\ n = 0) \/ ~ (s_N s = 1 /\ s_K s = 1 /\ n = 0)) by lia.
  destruct HC as [(HN1 & HK1 & Hn0)|HC].
  - rewrite HN1, HK1, Hn0, hyper_edge. cbn [bind fst snd].
    unfold sample_without_replacement, knuth_sampling. cbn.
    destruct HR as [HD _].
    destruct (rnd_den R) eqn:ED; try lia. cbn.
    cbn [fst snd s_N s_K s_N0 s_relative s_step s_np].
    split; [unfold state_ok; cbn [s_N s_K s_N0]; lia|]. split; [repeat split|].
    split; [reflexivity|]. split; [reflexivity|]. split; [repeat constructor|]. split; [right; auto|].
    split; [lia|]. intros ->. reflexivity.
  - pose proof (@hyper_outcome fuel c (spread (s_N s) (s_K s) n) (s_N s) (s_K s) n HK Hn HC) as HO.
    destruct (hypergeometric_sample _ _ _ _ _ _ _) as [[k c']|e]; [|assumption]. cbn [bind fst snd].
    assert (Hk : 0 <= k <= n /\ n - (s_N s - s_K s) <= k <= s_K s) by (unfold feasible in HO; lia).
    pose proof (@swr_outcome fuel c' k n I64 ltac:(lia) ltac:(change (tmax I64) with (2^63-1); lia)) as HS.
    destruct (sample_without_replacement _ _ _ _ _ _) as [[l c2]|e]; [|assumption].
    destruct HS as (HL & HSo & HI). cbn [bind fst snd]. unfold state_ok, same_run.
    cbn [s_N s_K s_N0 s_relative s_step s_np].
    split; [lia|]. split; [auto|]. split; [lia|]. split; [lia|]. split; [assumption|].
    split; [left; assumption|]. split.
    + intros H2. replace ((s_N s =? 0) || (s_N s =? 1)) with false by lia. apply orb_true_r.
    + intros ->. reflexivity.
Qed.

Lemma chunk_samples_outcome cs : 1 <= cs -> forall lf c s n i,
  state_ok s -> 0 <= n <= s_N s -> 0 <= i -> (Z.to_nat n < lf)%nat ->
  match chunk_samples R lf fuel c spread s cs n i with
  | Ok (l, s', _) =>
    state_ok s' /\ same_run s s' /\ s_N s' = s_N s - n /\
    s_K s' = s_K s - Z.of_nat (length l) /\ StronglySorted Z.lt l /\
    (forall x, In x l -> i * cs <= x < i * cs + n) /\
    (2 <= s_N s -> 0 < n -> s_np s' = true) /\ (s_np s = true -> s_np s' = true)
  | Err e => e = OutOfFuel
  end.
Proof.
  intros Hcs. induction lf as [|lf IH]; intros c s n i Hs Hn Hi Hf; [lia|].
  cbn [chunk_samples]. destruct (0 <? n) eqn:E.
  - pose proof (@simple_sample_outcome c s (Z.min cs n) Hs ltac:(lia)) as H1.
    destruct (simple_sample _ _ _ _ _ _) as [[[l s'] c']|e]; [|assumption]. cbn [bind].
    destruct H1 as (A & (B1 & B2 & B3) & C & D & F & G & J & L).
    specialize (IH c' s' (n - Z.min cs n) (i + 1) A ltac:(lia) ltac:(lia) ltac:(lia)).
    destruct (chunk_samples _ _ _ _ _ _ _ _ _) as [[[l2 s2] c2]|e]; [|assumption]. cbn [bind].
    destruct IH as (A' & (B1' & B2' & B3') & C' & D' & F' & G' & J' & L').
    destruct G as [G|G]; [|lia].
    split; [assumption|]. split; [repeat split; congruence|]. split; [lia|].
    split; [rewrite app_length, map_length; lia|]. split; [|split; [|split]].
    + apply ssorted_lt_app; [apply ssorted_lt_shift; assumption|assumption|].
      intros x y Hx Hy. apply in_map_iff in Hx. destruct Hx as [x0 [<- Hx0]].
      specialize (G _ Hx0). specialize (G' _ Hy). nia.
    + intros x Hx. apply in_app_iff in Hx. destruct Hx as [Hx|Hx].
      * apply in_map_iff in Hx. destruct Hx as [x0 [<- Hx0]]. specialize (G _ Hx0). lia.
      * specialize (G' _ Hx).
        destruct (Z.eq_dec (n - Z.min cs n) 0) as [H0|H0]; [lia|nia].
    + auto.
    + auto.
  - assert (n = 0) by lia. subst n. cbn [length In].
    split; [assumption|]. split; [repeat split|]. split; [lia|]. split; [lia|].
    split; [apply SSorted_nil|]. split; [tauto|]. split; [lia|auto].
Qed.

(** Positions of the items of a piece. *)
Definition shifted (s : sampler) (l : list Z) : list Z :=
  if s_relative s then map (fun x => x + (s_N0 s - s_N s)) l else l.

Lemma sampler_sample_outcome c s n :
  state_ok s -> 0 <= n -> (s_N s = 0 -> s_np s = true) ->
  match sampler_sample R fuel c spread s n with
  | Ok (l, s', _) =>
    let n' := Z.min n (s_N s) in
    let pos := s_N0 s - s_N s in
    state_ok s' /\ same_run s s' /\ s_N s' = s_N s - n' /\
    s_K s' = s_K s - Z.of_nat (length l) /\ StronglySorted Z.lt (shifted s l) /\
    ((forall x, In x (shifted s l) -> pos <= x < pos + n') \/
     (s_N s = 1 /\ s_K s = 1 /\ n = 0 /\ shifted s l = [pos])) /\
    (2 <= s_N s -> 0 < n -> s_np s' = true) /\ (s_np s = true -> s_np s' = true)
  | Err e => e = OutOfFuel
  end.
Proof.
  intros Hs Hn Hnp. unfold sampler_sample.
  replace ((s_N s =? 0) && negb (s_np s)) with false
    by (destruct (s_N s =? 0) eqn:E; [rewrite Hnp by lia|]; reflexivity).
  set (n' := if s_N s <? n then s_N s else n).
  assert (Hn' : n' = Z.min n (s_N s)) by (unfold n'; destruct (s_N s <? n) eqn:E; lia).
  clearbody n'.
  assert (HX : match (if 10 ^ 5 * s_N s <? n' * s_K s
          then chunk_samples R (S (Z.to_nat n')) fuel c spread s (10 ^ 5 * s_N s / s_K s) n' 0
          else simple_sample R fuel c spread s n') with
    | Ok (l, s', _) =>
      state_ok s' /\ same_run s s' /\ s_N s' = s_N s - n' /\
      s_K s' = s_K s - Z.of_nat (length l) /\ StronglySorted Z.lt l /\
      ((forall x, In x l -> 0 <= x < n') \/ (s_N s = 1 /\ s_K s = 1 /\ n' = 0 /\ l = [0])) /\
      (2 <= s_N s -> 0 < n' -> s_np s' = true) /\ (s_np s = true -> s_np s' = true)
    | Err e => e = OutOfFuel
    end).
  { pose proof Hs as (HK & HN0 & H63).
    destruct (10 ^ 5 * s_N s <? n' * s_K s) eqn:E.
    - assert (0 < s_K s) by nia.
      assert (1 <= 10 ^ 5 * s_N s / s_K s) by (apply Z.div_le_lower_bound; lia).
      pose proof (@chunk_samples_outcome _ H0 (S (Z.to_nat n')) c s n' 0 Hs ltac:(lia) ltac:(lia) ltac:(lia)) as HC.
      destruct (chunk_samples _ _ _ _ _ _ _ _ _) as [[[l s'] c']|e]; [|assumption].
      rewrite Z.mul_0_l in HC. cbn [Z.add] in HC. intuition.
    - pose proof (@simple_sample_outcome c s n' Hs ltac:(lia)) as HC.
      destruct (simple_sample _ _ _ _ _ _) as [[[l s'] c']|e]; [|assumption]. intuition. }
  destruct (if 10 ^ 5 * s_N s <? n' * s_K s then _ else _) as [[[l s'] c']|e]; [|assumption].
  cbn [bind]. destruct HX as (A & B & C & D & F & G & J & L). pose proof Hs as (HK & HN0 & H63).
  assert (HS : shifted s (if s_relative s then l else map (fun x => x + (s_N0 s - s_N s)) l) =
               map (fun x => x + (s_N0 s - s_N s)) l)
    by (unfold shifted; destruct (s_relative s); reflexivity).
  cbv zeta. rewrite HS, <- Hn'.
  split; [assumption|]. split; [assumption|]. split; [assumption|]. split.
  { destruct (s_relative s); [|rewrite map_length]; assumption. }
  split; [apply ssorted_lt_shift; assumption|]. split; [|split; [|assumption]].
  - destruct G as [G|(G1 & G2 & G3 & ->)].
    + left. intros x Hx. apply in_map_iff in Hx. destruct Hx as [y [<- Hy]]. specialize (G _ Hy). lia.
    + right. cbn. repeat split; try lia.
  - intros H1 H2. apply J; lia.
Qed.

Definition pieces_items (s : sampler) (pieces : list (Z * list Z)) : list Z :=
  items (s_relative s) pieces.

Lemma items_cons rel p l pieces :
  items rel ((p, l) :: pieces) = (if rel then map (fun x => x + p) l else l) ++ items rel pieces.
Proof. unfold items, absolute. destruct rel; reflexivity. Qed.

Lemma sample_all_outcome : forall reqs c s,
  state_ok s -> Forall (fun n => 0 <= n) reqs ->
  match sample_all R fuel c spread s reqs with
  | Ok (pieces, s') =>
    let l := items (s_relative s) pieces in
    state_ok s' /\ s_N s' = Z.max 0 (s_N s - total reqs) /\
    s_K s' = s_K s - Z.of_nat (length l) /\ StronglySorted Z.lt l /\
    (forall x, In x l -> s_N0 s - s_N s <= x < s_N0 s) /\
    (Forall (fun n => 0 < n) reqs -> forall x, In x l -> x < s_N0 s - s_N s')
  | Err e => e = OutOfFuel \/ e = ZeroDivisionError
  end.
Proof.
  induction reqs as [|n reqs IH]; intros c s Hs HF; cbn [sample_all].
  - pose proof Hs as (HK & HN0 & H63). unfold total, items, absolute. cbn [fold_right map concat].
    replace (if s_relative s then [] else []) with (@nil Z) by (destruct (s_relative s); reflexivity).
    cbn. split; [assumption|]. split; [lia|]. split; [lia|]. split; [constructor|]. split; tauto.
  - inversion HF as [|? ? Hn HF']; subst. pose proof Hs as (HK & HN0 & H63).
    destruct ((s_N s =? 0) && negb (s_np s)) eqn:EZ.
    { unfold sampler_sample. rewrite EZ. cbn [bind]. auto. }
    assert (Hnp : s_N s = 0 -> s_np s = true).
    { intros H0. rewrite H0 in EZ. cbn in EZ. destruct (s_np s); auto. }
    pose proof (@sampler_sample_outcome c s n Hs Hn Hnp) as H1.
    destruct (sampler_sample _ _ _ _ _ _) as [[[l s1] c1]|e]; [|subst e; cbn; auto]. cbn [bind].
    destruct H1 as (A & (B1 & B2 & B3) & C & D & F & G & J & L).
    specialize (IH c1 s1 A HF').
    destruct (sample_all _ _ _ _ _ _) as [[pieces s2]|e]; [|cbn; auto]. cbn [bind fst snd].
    destruct IH as (A' & C' & D' & F' & G' & M'). rewrite B2, B1 in *. cbv zeta.
    rewrite items_cons. fold (shifted s l).
    assert (HLen : length (shifted s l) = length l)
      by (unfold shifted; destruct (s_relative s); [apply map_length|reflexivity]).
    assert (HT : total reqs >= 0).
    { clear - HF'. induction HF'; unfold total in *; cbn; lia. }
    change (total (n :: reqs)) with (n + total reqs).
    split; [assumption|]. split; [lia|]. split; [rewrite app_length, HLen; lia|].
    destruct G as [G|(G1 & G2 & G3 & G4)].
    + split; [|split].
      * apply ssorted_lt_app; auto. intros x y Hx Hy. specialize (G _ Hx). specialize (G' _ Hy). lia.
      * intros x Hx. apply in_app_iff in Hx. destruct Hx as [Hx|Hx]; [specialize (G _ Hx)|specialize (G' _ Hx)]; lia.
      * intros HP x Hx. inversion HP; subst. apply in_app_iff in Hx.
        destruct Hx as [Hx|Hx]; [specialize (G _ Hx); lia|apply M'; assumption].
    + assert (HN : items (s_relative s) pieces = []).
      { destruct (items (s_relative s) pieces); [reflexivity|]. exfalso.
        destruct A' as [A' _]. rewrite G4 in HLen. cbn [length] in *. lia. }
      rewrite HN, app_nil_r, G4. split; [repeat constructor|]. split; [cbn; lia|].
      intros HP. inversion HP; lia.
Qed.

Lemma sample_all_never_raises : forall reqs c s,
  state_ok s -> Forall (fun n => 0 < n) reqs -> total reqs <= s_N s ->
  (s_N s = 0 -> s_np s = true \/ reqs = []) ->
  match sample_all R fuel c spread s reqs with
  | Ok _ => True
  | Err e => e = OutOfFuel
  end.
Proof.
  induction reqs as [|n reqs IH]; intros c s Hs HF HT Hnp; cbn [sample_all]; [exact I|].
  inversion HF as [|? ? Hn HF']; subst. pose proof Hs as (HK & HN0 & H63).
  assert (HT' : 0 <= total reqs).
  { clear - HF'. induction HF'; unfold total in *; cbn; lia. }
  change (total (n :: reqs)) with (n + total reqs) in HT.
  pose proof (@sampler_sample_outcome c s n Hs ltac:(lia) ltac:(lia)) as H1.
  destruct (sampler_sample _ _ _ _ _ _) as [[[l s1] c1]|e]; [|assumption]. cbn [bind].
  destruct H1 as (A & (B1 & B2 & B3) & C & D & F & G & J & L).
  specialize (IH c1 s1 A HF' ltac:(lia)).
  destruct (sample_all _ _ _ _ _ _) as [[pieces s2]|e]; [exact I|]. cbn [bind].
  apply IH. intros H0. right. destruct reqs as [|m reqs]; [reflexivity|]. exfalso.
  inversion HF'; subst. change (total (m :: reqs)) with (m + total reqs) in *.
  assert (0 <= total reqs).
  { clear - H3. induction H3; unfold total in *; cbn; lia. }
  lia.
Qed.

Lemma sample_all_in_place : forall reqs c s pieces s',
  state_ok s -> Forall (fun n => 0 < n) reqs ->
  sample_all R fuel c spread s reqs = Ok (pieces, s') ->
  pieces_in_place (s_relative s) (s_N0 s) (s_N0 s - s_N s) reqs pieces.
Proof.
  induction reqs as [|n reqs IH]; intros c s pieces s' Hs HF; cbn [sample_all].
  - intros H. injection H as <- _. exact I.
  - inversion HF as [|? ? Hn HF']; subst. pose proof Hs as (HK & HN0 & H63).
    destruct ((s_N s =? 0) && negb (s_np s)) eqn:EZ.
    { unfold sampler_sample. rewrite EZ. discriminate. }
    assert (Hnp : s_N s = 0 -> s_np s = true).
    { intros H0. rewrite H0 in EZ. cbn in EZ. destruct (s_np s); auto. }
    pose proof (@sampler_sample_outcome c s n Hs ltac:(lia) Hnp) as H1.
    destruct (sampler_sample _ _ _ _ _ _) as [[[l s1] c1]|e]; [|discriminate]. cbn [bind].
    destruct H1 as (A & (B1 & B2 & B3) & C & D & F & G & J & L).
    destruct (sample_all R fuel c1 spread s1 reqs) as [[pieces' s2]|e] eqn:E2; [|discriminate].
    cbn [bind fst snd]. intros H. injection H as <- <-. cbn [pieces_in_place].
    split; [reflexivity|]. destruct G as [G|G]; [|lia]. split.
    + intros x Hx. unfold shifted in G. destruct (s_relative s).
      * specialize (G (x + (s_N0 s - s_N s)) (in_map _ _ _ Hx)). lia.
      * specialize (G _ Hx). lia.
    + specialize (IH _ _ _ _ A HF' E2). rewrite B1, B2, C in IH.
      replace (Z.min (s_N0 s) (s_N0 s - s_N s + n)) with (s_N0 s - (s_N s - Z.min n (s_N s))) by lia.
      assumption.
Qed.

(** Calling [next] until it stops. *)
Lemma next_all_outcome : forall rounds c s pieces s',
  state_ok s -> 0 <= s_step s -> next_all R rounds fuel c spread s = Ok (pieces, s') ->
  let l := items (s_relative s) pieces in
  Z.of_nat (length l) = s_K s /\ StronglySorted Z.lt l /\
  (forall x, In x l -> s_N0 s - s_N s <= x < s_N0 s).
Proof.
  induction rounds as [|rounds IH]; intros c s pieces s' Hs Hst; cbn [next_all]; [discriminate|].
  unfold sampler_next. pose proof Hs as (HK & HN0 & H63).
  destruct (s_N s =? 0) eqn:E0.
  - intros H. injection H as <- _. apply Z.eqb_eq in E0. unfold items, absolute. cbn.
    replace (if s_relative s then [] else []) with (@nil Z) by (destruct (s_relative s); reflexivity).
    cbn. split; [lia|]. split; [constructor|tauto].
  - apply Z.eqb_neq in E0.
    pose proof (@sampler_sample_outcome c s (s_step s) Hs Hst ltac:(lia)) as H1.
    destruct (sampler_sample _ _ _ _ _ _) as [[[l s1] c1]|e]; [|subst e; discriminate].
    destruct H1 as (A & (B1 & B2 & B3) & C & D & F & G & J & L).
    destruct (next_all R rounds fuel c1 spread s1) as [[pieces' s2]|e] eqn:E2; [|discriminate].
    cbn [bind fst snd]. intros H. injection H as <- <-. cbv zeta.
    specialize (IH c1 s1 pieces' s2 A ltac:(lia) E2). rewrite B1, B2 in IH.
    destruct IH as (D' & F' & G'). rewrite items_cons. fold (shifted s l).
    assert (HLen : length (shifted s l) = length l)
      by (unfold shifted; destruct (s_relative s); [apply map_length|reflexivity]).
    split; [rewrite app_length, HLen; lia|].
    destruct G as [G|(G1 & G2 & G3 & G4)].
    + split.
      * apply ssorted_lt_app; auto. intros x y Hx Hy. specialize (G _ Hx). specialize (G' _ Hy). lia.
      * intros x Hx. apply in_app_iff in Hx. destruct Hx as [Hx|Hx]; [specialize (G _ Hx)|specialize (G' _ Hx)]; lia.
    + assert (HN : items (s_relative s) pieces' = []).
      { destruct (items (s_relative s) pieces'); [reflexivity|]. exfalso.
        rewrite G4 in HLen. cbn [length] in *. lia. }
      rewrite HN, app_nil_r, G4. split; [repeat constructor|]. cbn. lia.
Qed.

End Inc.
End S.

Lemma sampler_new_ok N K step rel s :
  sampler_new N K step rel = Ok s ->
  s_N s = N /\ s_K s = K /\ s_N0 s = N /\ s_relative s = rel /\ s_np s = false /\ K <= N /\
  match step with Some st => s_step s = st | None => K <> 0 /\ s_step s = 10 ^ 4 * N / K end.
Proof.
  unfold sampler_new. destruct (K <=? N) eqn:E; [|discriminate].
  destruct step as [st|]; [|destruct (K =? 0) eqn:E0; [discriminate|]]; cbn [bind];
    intros H; injection H as <-; cbn [s_N s_K s_N0 s_relative s_np s_step];
    (repeat split; auto; lia).
Qed.

Lemma ssorted_range_length (a b : Z) (l : list Z) :
  StronglySorted Z.lt l -> (forall x, In x l -> a <= x < b) -> a <= b ->
  Z.of_nat (length l) <= b - a.
Proof.
  intros Hs. revert a. induction Hs as [|x l Hs IH HF]; intros a Hi Hab; [cbn; lia|].
  rewrite Forall_forall in HF. pose proof (Hi x (or_introl eq_refl)).
  specialize (IH (x + 1)). cbn [length]. assert (Z.of_nat (length l) <= b - (x + 1)); [|lia].
  apply IH; [|lia]. intros y Hy. specialize (HF y Hy). specialize (Hi y (or_intror Hy)). lia.
Qed.

Lemma sampling_total R fuel c spread N K step rel s reqs pieces s' :
  rng_ok R -> 0 <= K -> N <= 2 ^ 63 -> Forall (fun n => 0 <= n) reqs -> N <= total reqs ->
  sampler_new N K step rel = Ok s ->
  sample_all R fuel c spread s reqs = Ok (pieces, s') ->
  is_sample K N (items rel pieces).
Proof.
  intros HR HK HN HF HT Hs H. apply sampler_new_ok in Hs.
  destruct Hs as (E1 & E2 & E3 & E4 & E5 & E6 & _).
  assert (Hst : state_ok s) by (unfold state_ok; lia).
  pose proof (@sample_all_outcome R HR fuel spread reqs c s Hst HF) as HO. rewrite H in HO.
  destruct HO as ((A1 & A2 & A3) & B & C & D & F & _). rewrite E1, E2, E3, E4 in *.
  split; [lia|]. split; [assumption|]. intros x Hx. specialize (F x Hx). lia.
Qed.

Lemma sampling_prefix R fuel c spread N K step rel s reqs pieces s' :
  rng_ok R -> 0 <= K -> N <= 2 ^ 63 -> Forall (fun n => 0 < n) reqs ->
  sampler_new N K step rel = Ok s ->
  sample_all R fuel c spread s reqs = Ok (pieces, s') ->
  pieces_in_place rel N 0 reqs pieces /\
  exists k, is_sample k (Z.min N (total reqs)) (items rel pieces) /\
    feasible N K (Z.min N (total reqs)) k.
Proof.
  intros HR HK HN HF Hs H. apply sampler_new_ok in Hs.
  destruct Hs as (E1 & E2 & E3 & E4 & E5 & E6 & _).
  assert (Hst : state_ok s) by (unfold state_ok; lia).
  assert (HF0 : Forall (fun n => 0 <= n) reqs) by (eapply Forall_impl; [|exact HF]; cbn; lia).
  pose proof (@sample_all_in_place R HR fuel spread reqs c s pieces s' Hst HF H) as HP.
  pose proof (@sample_all_outcome R HR fuel spread reqs c s Hst HF0) as HO. rewrite H in HO.
  destruct HO as ((A1 & A2 & A3) & B & C & D & F & G). specialize (G HF).
  rewrite E1, E2, E3, E4 in *. rewrite Z.sub_diag in *.
  split; [assumption|].
  assert (HT : 0 <= total reqs) by (clear - HF; induction HF; unfold total in *; cbn; lia).
  assert (HI : forall x, In x (items rel pieces) -> 0 <= x < Z.min N (total reqs)).
  { intros x Hx. specialize (F x Hx). specialize (G x Hx). lia. }
  exists (Z.of_nat (length (items rel pieces))). split.
  - split; [reflexivity|]. split; assumption.
  - pose proof (@ssorted_range_length 0 (Z.min N (total reqs)) _ D HI ltac:(lia)).
    unfold feasible. lia.
Qed.

Lemma sampling_never_raises R fuel c spread N K step rel s reqs :
  rng_ok R -> 0 <= K -> N <= 2 ^ 63 -> Forall (fun n => 0 < n) reqs -> total reqs <= N ->
  sampler_new N K step rel = Ok s ->
  (exists r, sample_all R fuel c spread s reqs = Ok r) \/
  sample_all R fuel c spread s reqs = Err OutOfFuel.
Proof.
  intros HR HK HN HF HT Hs. apply sampler_new_ok in Hs.
  destruct Hs as (E1 & E2 & E3 & E4 & E5 & E6 & _).
  assert (Hst : state_ok s) by (unfold state_ok; lia).
  assert (H0 : s_N s = 0 -> s_np s = true \/ reqs = []).
  { intros H0. right. destruct reqs as [|n reqs]; [reflexivity|]. exfalso.
    inversion HF as [|? ? Hn HF']; subst. unfold total in HT. cbn in HT.
    assert (0 <= fold_right Z.add 0 reqs) by (clear - HF'; induction HF'; cbn; lia). lia. }
  pose proof (@sample_all_never_raises R HR fuel spread reqs c s Hst HF ltac:(lia) H0) as HO.
  destruct (sample_all R fuel c spread s reqs); [left; eexists; reflexivity|right; congruence].
Qed.

Lemma sampling_next R rounds fuel c spread N K step rel s pieces s' :
  rng_ok R -> 0 <= K -> N <= 2 ^ 63 -> match step with Some st => 0 <= st | None => True end ->
  sampler_new N K step rel = Ok s ->
  next_all R rounds fuel c spread s = Ok (pieces, s') ->
  is_sample K N (items rel pieces).
Proof.
  intros HR HK HN Hstep Hs H. apply sampler_new_ok in Hs.
  destruct Hs as (E1 & E2 & E3 & E4 & E5 & E6 & E7).
  assert (Hst : state_ok s) by (unfold state_ok; lia).
  assert (H0 : 0 <= s_step s).
  { destruct step; [lia|]. destruct E7 as [E7 ->]. apply Z.div_pos; lia. }
  pose proof (@next_all_outcome R HR fuel spread rounds c s pieces s' Hst H0 H) as HO.
  rewrite E1, E2, E3, E4 in HO. destruct HO as (A & B & C).
  split; [assumption|]. split; [assumption|]. intros x Hx. specialize (C x Hx). lia.
Qed.

(** Every feasible count can be drawn. *)
Definition constant_rng (k : Z) : rng :=
  {| rnd_den := 1; rnd_unit := fun _ => 0; rnd_int := fun _ _ => 0; rnd_prop := fun _ => (k, true) |}.

Lemma hyper_reachable N K n k spread :
  2 <= N -> 0 <= K <= N -> 0 <= n <= N -> feasible N K n k -> N < spread ->
  exists k0, hypergeometric_sample (constant_rng k0) 1 0 spread N K n = Ok (k, 1%nat).
Proof.
  intros HN HK Hn Hk Hsp. unfold hypergeometric_sample.
  replace ((N =? 0) || (N =? 1)) with false by lia.
  set (K_eff := Z.min K (N - K)). set (n_eff := Z.min n (N - n)). cbv zeta.
  assert (E1 : K_eff = K /\ K <= N - K \/ K_eff = N - K /\ N - K < K) by (unfold K_eff; lia).
  assert (E2 : n_eff = n /\ n <= N - n \/ n_eff = N - n /\ N - n < n) by (unfold n_eff; lia).
  pose proof (@mode_spec N K_eff n_eff HN ltac:(lia) ltac:(lia) ltac:(lia) ltac:(lia)) as HM.
  set (mode := (n_eff + 1) * (K_eff + 1) / (N + 2)) in *. clearbody mode K_eff n_eff.
  assert (HL : forallb lgamma_ok [mode + 1; K_eff - mode + 1; n_eff - mode + 1; N - K_eff - n_eff + mode + 1] = true).
  { cbn [forallb]. unfold lgamma_ok. rewrite !andb_true_iff. lia. }
  rewrite HL. clear HL HM mode.
  set (k1 := if n_eff <? n then K - k else k).
  set (k0 := if K_eff <? K then n_eff - k1 else k1).
  assert (Hk0 : 0 <= k0 <= Z.min n_eff K_eff).
  { unfold feasible in Hk. unfold k0, k1.
    destruct E1 as [[-> E1]|[-> E1]]; destruct E2 as [[-> E2]|[-> E2]]; rewrite ?Z.ltb_irrefl;
    try replace (N - K <? K) with true by lia; try replace (N - n <? n) with true by lia; lia. }
  exists k0. cbn [hyper_loop constant_rng rnd_prop].
  replace ((k0 <? 0) || (Z.min (Z.min n_eff K_eff + 1) spread <=? k0)) with false by lia.
  assert (HL : forallb lgamma_ok [k0 + 1; K_eff - k0 + 1; n_eff - k0 + 1; N - K_eff - n_eff + k0 + 1] = true).
  { cbn [forallb]. unfold lgamma_ok. rewrite !andb_true_iff. lia. }
  rewrite HL. cbn [bind fst snd]. do 2 f_equal. clear HL Hk0. unfold k0, k1.
  destruct (K_eff <? K); destruct (n_eff <? n); lia.
Qed.

(** A concrete random source, used in the examples. *)
Definition ex_rng : rng :=
  {| rnd_den := 16; rnd_unit := fun c => (7 * Z.of_nat c + 3) mod 16;
     rnd_int := fun c N => Z.of_nat c mod N;
     rnd_prop := fun c => (Z.of_nat c mod 4 - 1, negb (Z.of_nat c mod 3 =? 0)) |}.

Lemma ex_rng_ok : rng_ok ex_rng.
Proof.
  split; [reflexivity|]. split.
  - intros c. cbn [ex_rng rnd_unit rnd_den]. apply Z.mod_pos_bound. lia.
  - intros c N HN. cbn [ex_rng rnd_int]. apply Z.mod_pos_bound. assumption.
Qed.

Lemma ex_rng_fair N : fair ex_rng N.
Proof.
  intros c v Hv. exists (Z.to_nat (v + N * Z.of_nat c)). cbn [ex_rng rnd_int]. split; [nia|].
  rewrite Z2Nat.id by nia. rewrite Z.mul_comm, Z_mod_plus_full. apply Z.mod_small. assumption.
Qed.

Lemma sampler_new_outcome N K step rel :
  sampler_new N K step rel =
  if N <? K then Err AssertionError
  else match step with
       | None => if K =? 0 then Err ZeroDivisionError
                 else Ok (mk_sampler N K N rel (10 ^ 4 * N / K) false)
       | Some st => Ok (mk_sampler N K N rel st false)
       end.
Proof.
  unfold sampler_new. rewrite Z.ltb_antisym. destruct (K <=? N); cbn [negb]; [|reflexivity].
  destruct step as [st|]; [reflexivity|]. destruct (K =? 0); reflexivity.
Qed.
