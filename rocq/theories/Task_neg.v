(** Generating triplets with a negative threshold. *)
From Coq Require Import Ascii String.
From Verif Require Import Prelude ListFacts TypeFitting TypeFitting_proofs
  Sampler Sampler_spec Sampler_proofs Task Task_spec Task_reg_spec Task_blocks Task_sort Task_regs Task_gen Task_file
  Task_proofs Task_main Task_total Task_align TaskIndex_spec Task_thr_total Task_thr_ends.
Set Implicit Arguments.
Open Scope Z_scope.

(** A fold that raises as soon as one of its steps does. *)
Lemma foldM_raises {S A} (f : S -> A -> res S) (P : S -> Prop) e l :
  (forall x a, In x l -> P a -> f a x = Err e \/ exists a', f a x = Ok a' /\ P a') ->
  (exists x, In x l /\ forall a, P a -> f a x = Err e) ->
  forall a, P a -> foldM f l a = Err e.
Proof.
  induction l as [|x l IH]; intros H (y & Hy & Hr) a Pa; [destruct Hy|]. cbn [foldM].
  destruct (H x a (or_introl eq_refl) Pa) as [->|(a' & E & Pa')]; [reflexivity|]. rewrite E. cbn [bind].
  destruct Hy as [->|Hy]; [rewrite (Hr a Pa) in E; discriminate|].
  apply IH; [intros; apply H; [right|]; assumption|exists y; auto|exact Pa'].
Qed.

Lemma foldM_goes {S A} (f : S -> A -> res S) (P : S -> Prop) l :
  (forall x a, In x l -> P a -> exists a', f a x = Ok a' /\ P a') ->
  forall a, P a -> exists a', foldM f l a = Ok a' /\ P a'.
Proof.
  induction l as [|x l IH]; intros H a Pa; cbn [foldM]; [eauto|].
  destruct (H x a (or_introl eq_refl) Pa) as (a' & E & Pa'). rewrite E. cbn [bind].
  apply IH; [intros; apply H; [right|]; assumption|exact Pa'].
Qed.

Section Runs.
Variable R : rng.
Variable ty : itype.
Variable t : Z.
Hypothesis Ht : t < 0.
Variable fuel : nat.

Lemma swr_neg c n : sample_without_replacement R (S fuel) c t (Z.of_nat n) ty =
  if 100 <? Z.of_nat n then Ok ([], c) else Err ValueError.
Proof.
  unfold sample_without_replacement, rejection_sampling, knuth_sampling.
  destruct (Z.ltb_spec t 0); [|lia]. destruct (Z.ltb_spec 100 (Z.of_nat n)) as [H100|H100]; [|reflexivity].
  destruct (Z.ltb_spec (5 * t) (3 * Z.of_nat n)); [|lia]. cbn [andb rejection_loop].
  destruct (Z.ltb_spec 0 t); [lia|reflexivity].
Qed.

Lemma threshold_runs_neg permut counts : forall i c,
  threshold_runs R (S fuel) permut ty (Some t) counts i c =
  if forallb (fun n => 100 <? Z.of_nat n) counts then Ok ([], c) else Err ValueError.
Proof.
  induction counts as [|n counts IH]; intros i c; [reflexivity|]. cbn [threshold_runs forallb].
  destruct (Z.eqb_spec t 0); [lia|]. destruct (Z.ltb_spec t (Z.of_nat n)); [|lia]. cbn [negb andb]. rewrite swr_neg.
  destruct (100 <? Z.of_nat n); [|reflexivity]. cbn [bind map fst snd andb]. unfold gather. cbn [mapM bind fst snd].
  rewrite IH. destruct (forallb _ counts); reflexivity.
Qed.

Variable permut : list nat.
Variable idx : list Z.
Hypothesis Hne : idx <> [].
Hypothesis Hp : Permutation permut (seq 0 (length idx)).
Hypothesis Hsort : StronglySorted Z.le (map (fun i => nth i idx 0) permut).

Lemma sort_and_threshold_neg c :
  ((forall v, In v idx -> 100 < Z.of_nat (countZ v idx)) ->
     exists u, sort_and_threshold R (S fuel) permut idx ty (Some t) c = Ok ([], u, c)) /\
  ((exists v, In v idx /\ Z.of_nat (countZ v idx) <= 100) ->
     sort_and_threshold R (S fuel) permut idx ty (Some t) c = Err ValueError).
Proof.
  unfold sort_and_threshold. rewrite (@gather_ok _ idx permut 0).
  2:{ intros i Hi. apply (Permutation_in _ Hp), in_seq in Hi. lia. }
  cbn [bind]. pose proof (sorted_perm idx Hp) as HP. set (s := map (fun i => nth i idx 0) permut) in *.
  assert (Hs : s <> []).
  { intros E. rewrite E in HP. apply Permutation_nil in HP. auto. }
  rewrite run_lengths by exact Hs. rewrite threshold_runs_neg. split.
  - intros H. replace (forallb _ _) with true; [cbn [bind fst snd]; eauto|]. symmetry. apply forallb_forall.
    intros m Hm. apply in_map_iff in Hm as ([v m'] & E & Hm). cbn in E. subst m'.
    destruct (@In_rle_count s v m Hsort Hm) as (Hv & En). rewrite (countZ_perm v HP) in En. subst m.
    apply Z.ltb_lt, H. apply (Permutation_in _ HP), Hv.
  - intros (v & Hv & H). replace (forallb _ _) with false; [reflexivity|]. symmetry. apply not_true_is_false. intros F.
    rewrite forallb_forall in F. apply (Permutation_in _ (Permutation_sym HP)) in Hv. destruct (rle_In _ _ Hv) as (n & Hn).
    destruct (@In_rle_count s v n Hsort Hn) as (_ & En). rewrite (countZ_perm v HP) in En. subst n.
    apply (in_map snd) in Hn. specialize (F _ Hn). cbn [snd] in F. lia.
Qed.

End Runs.

Section Core.
Variable argsort : list Z -> list nat.
Variable R : rng.
Hypothesis argsort_ok : argsort_spec argsort.
Variable t : Z.
Hypothesis Ht : t < 0.
Variable ts : list triplet.
Variable gs : list (triplet -> Z).
Hypothesis Hgs : gs <> [].
Hypothesis Hpos : forall g s, In g gs -> In s ts -> 0 <= g s.
Hypothesis HP : prodZ (map (fun g => maxZ (map g ts) + 1) gs) < 2 ^ 63.
Variable fuel : nat.

Lemma core_neg c : ts <> [] ->
  ((forall s, In s ts -> 100 < Z.of_nat (count_profile gs (profile gs s) ts)) ->
     exists u, core argsort R (S fuel) (Some t) ts gs c = Ok ([], u, [], c)) /\
  ((exists s, In s ts /\ Z.of_nat (count_profile gs (profile gs s) ts) <= 100) ->
     core argsort R (S fuel) (Some t) ts gs c = Err ValueError).
Proof.
  intros Hne. destruct (core_codes ts Hgs Hpos HP) as (ty & Ei & Hty & _ & Hc).
  unfold core. destruct gs as [|g0 gs0] eqn:Egs; [congruence|]. rewrite <- Egs in *.
  destruct ts as [|t0 ts0] eqn:Ets; [congruence|]. rewrite <- Ets in *. rewrite Ei. cbn [bind].
  set (idx := map (icode ty (bounds_of gs ts)) ts) in *.
  destruct (argsort_ok idx) as [Hp Hsort].
  assert (Hni : idx <> []) by (unfold idx; rewrite Ets; discriminate).
  destruct (@sort_and_threshold_neg R ty t Ht fuel (argsort idx) idx Hni Hp Hsort c) as [S1 S2]. split.
  - intros H. destruct S1 as (u & ->); [|cbn [bind]; eexists; reflexivity].
    intros v Hv. unfold idx in Hv. apply in_map_iff in Hv as (s & <- & Hs). rewrite (Hc s Hs). apply H, Hs.
  - intros (s & Hs & H). rewrite S2; [reflexivity|]. exists (icode ty (bounds_of gs ts) s). split; [apply in_map, Hs|].
    rewrite (Hc s Hs). exact H.
Qed.

End Core.

Section Main.
Variable korder : list key -> list key.
Variable enum : list Z -> list Z.
Variable argsort : list Z -> list nat.
Variable R : rng.
Hypothesis korder_ok : lists_keys korder.
Hypothesis enum_ok : lists_set enum.
Hypothesis argsort_ok : argsort_spec argsort.
Variable T : task.
Variable cols : list string.
Variable db : list row.
Variable T' : task.
Variable bs : list by_block.
Variable st : stats.
Hypothesis rd : reads cols (t_filters T).
Hypothesis dt : determined T db.
Hypothesis kf : kept_first T db.
Hypothesis rr : reg_reads cols (t_regressors T).
Hypothesis rt : reg_determined T db.
Hypothesis init : task_init korder enum T cols db = Ok (T', bs, st).
Hypothesis cod : coded T db.
Variable t : Z.
Hypothesis Ht : t < 0.
Hypothesis Hbx : of_BX (t_regressors T) <> [].
Hypothesis Hsz : Zlen db * Zlen db * Zlen db < 2 ^ 63.
Hypothesis HG : r_ABX (t_regressors T) = false.
Variable fuel : nat.

Local Notation G := (t_regressors T).
Local Notation bcols := (t_on T' :: t_across T').

(** The size of the group of [s] in its block. *)
Local Notation size b k s := (Zlen (filter (same_vals T db b s) (block_list enum T' b k))).

Section By.
Variable b : by_block.
Hypothesis Hb : In b bs.
Local Notation bl k := (block_list enum T' b k).

Lemma small_b : Zlen (b_frame b) * Zlen (b_frame b) * Zlen (b_frame b) < 2 ^ 64.
Proof.
  destruct (sizes_small korder_ok enum_ok rd dt kf init Hsz) as (Hfl & _).
  pose proof (cube_le (conj (Zlen_nonneg (b_frame b)) (Hfl b Hb))). lia.
Qed.

Lemma block_neg byr k acc c : In k (keys bcols (map snd (b_frame b))) -> all_triplets acc = [] ->
  ((forall s, In s (bl k) -> 100 < size b k s) ->
     exists acc' c', block_step enum argsort R (S fuel) T' (Some t) b byr (acc, c) (k, group bcols (b_frame b) k) = Ok (acc', c') /\ all_triplets acc' = []) /\
  ((exists s, In s (bl k) /\ size b k s <= 100) ->
     block_step enum argsort R (S fuel) T' (Some t) b byr (acc, c) (k, group bcols (b_frame b) k) = Err ValueError).
Proof.
  intros Hk Hacc.
  destruct (proj2 (bs_inv _ korder_ok rd dt kf init) b Hb) as (Hw & al & Hne & _).
  pose proof (T'_ne _ _ _ _ _ init) as Hac.
  unfold block_step. destruct (block_val_ok _ _ al _ Hk) as (l & v & Hv & Hvin & Ev).
  assert (Hv' := Hv). unfold block_val in Hv'.
  apply bind_ok in Hv' as (l0 & -> & Hv'). cbn [bind]. rewrite Hv'. cbn [bind].
  destruct (f_oab (t_filters T') v) eqn:Eo.
  2:{ split; [intros _; eauto|]. intros (s & Hs & _). unfold block_list in Hs. rewrite Hv, Eo in Hs. destruct Hs. }
  unfold on_across_triplets.
  destruct (block_design_total _ enum_ok _ Hw v _ Hac Hk small_b) as (d & Hd). rewrite Hd. cbn [bind].
  destruct (block_design_ok _ enum_ok _ Hw _ _ Hac Hk Hd) as (Hts & A & B & X & Hdk & IA & IB & IX).
  rewrite (dk_A Hdk), (dk_B Hdk), (dk_X Hdk). rewrite !(item_regressors_ok Hw) by assumption. cbn [bind].
  assert (Hbl : bl k = d_triplets d) by (unfold block_list; rewrite Hv, Eo; symmetry; exact Hts).
  rewrite (sort_design_core argsort R (S fuel) (Some t) _ _ c Hdk).
  change (gB b v (r_B (t_regressors T')) ++ gX b v (r_X (t_regressors T'))) with (gs_of T' b v).
  rewrite <- Hbl.
  assert (HGT : r_ABX (t_regressors T') = false) by (destruct (init_inv _ _ _ _ _ init) as (_ & -> & _); exact HG).
  destruct (bl k) as [|s0 bl0] eqn:Ebl.
  { split; [|intros (s & [] & _)]. intros _.
    assert (Hc : core argsort R (S fuel) (Some t) [] (gs_of T' b v) c = Ok ([], [0%nat], [], c)) by (unfold core; destruct (gs_of T' b v); reflexivity).
    rewrite Hc. cbn [bind]. rewrite HGT. rewrite Hbl in Hc.
    destruct (compute_regressors_ok (length (@nil triplet)) (byr ++ scalar_regressors (r_oab (t_regressors T')) v)
       (r_A (t_regressors T')) (r_B (t_regressors T')) (r_X (t_regressors T')) Hdk (core_applied _ _ _ _ _ _ _ Hc)) as (As & E1 & E2).
    rewrite E1. cbn [bind fst snd]. do 2 eexists. split; [reflexivity|].
    unfold all_triplets in *. rewrite map_app, concat_app, Hacc. reflexivity. }
  rewrite <- Ebl in *. assert (H0 : In s0 (bl k)) by (rewrite Ebl; left; reflexivity).
  destruct (block_facts korder_ok enum_ok rd dt kf rr rt init cod b Hb _ _ Hk Hv Hvin Ev H0) as (F1 & F2 & F3 & F4 & F5).
  destruct (@core_neg argsort R argsort_ok t Ht (bl k) (gs_of T' b v) (F1 Hbx) F2 ltac:(rewrite F3; exact F4) fuel c ltac:(rewrite Ebl; discriminate)) as [C1 C2].
  split.
  - intros H. destruct C1 as (u & Hc); [intros s Hs; rewrite F5 by exact Hs; apply H, Hs|].
    rewrite Hc. cbn [bind]. rewrite HGT. rewrite Hbl in Hc.
    destruct (compute_regressors_ok (length (@nil triplet)) (byr ++ scalar_regressors (r_oab (t_regressors T')) v)
       (r_A (t_regressors T')) (r_B (t_regressors T')) (r_X (t_regressors T')) Hdk (core_applied _ _ _ _ _ _ _ Hc)) as (As & E1 & E2).
    rewrite E1. cbn [bind fst snd]. do 2 eexists. split; [reflexivity|].
    unfold all_triplets in *. rewrite map_app, concat_app, Hacc. reflexivity.
  - intros (s & Hs & H). rewrite C2; [reflexivity|]. exists s. split; [exact Hs|]. rewrite F5 by exact Hs. exact H.
Qed.

Lemma block_dec k : (forall s, In s (bl k) -> 100 < size b k s) \/ (exists s, In s (bl k) /\ size b k s <= 100).
Proof.
  destruct (forallb (fun s => 100 <? size b k s) (bl k)) eqn:E; [left|right].
  - intros s Hs. rewrite forallb_forall in E. apply Z.ltb_lt, E, Hs.
  - apply not_true_iff_false in E. destruct (existsb (fun s => size b k s <=? 100) (bl k)) eqn:E2.
    + apply existsb_exists in E2 as (s & Hs & H). exists s. split; [exact Hs|lia].
    + exfalso. apply E. apply forallb_forall. intros s Hs. apply Z.ltb_lt.
      destruct (Z.lt_ge_cases 100 (size b k s)) as [|Hle]; [assumption|exfalso].
      apply not_true_iff_false in E2. apply E2. apply existsb_exists. exists s. split; [exact Hs|lia].
Qed.

Lemma compute_neg c :
  ((forall k s, In k (keys bcols (map snd (b_frame b))) -> In s (bl k) -> 100 < size b k s) ->
     exists outs c', compute_triplets korder enum argsort R (S fuel) T' (Some t) b c = Ok (outs, c') /\ all_triplets outs = []) /\
  ((exists k s, In k (keys bcols (map snd (b_frame b))) /\ In s (bl k) /\ size b k s <= 100) ->
     compute_triplets korder enum argsort R (S fuel) T' (Some t) b c = Err ValueError).
Proof.
  destruct (proj2 (bs_inv _ korder_ok rd dt kf init) b Hb) as (Hw & al & Hne & _).
  unfold compute_triplets, groups.
  assert (exists bv, iloc (b_frame b) 0 = Ok bv) as (bv & ->).
  { unfold iloc. cbn. destruct (b_frame b) as [|p fr]; [congruence|]. cbn. eauto. }
  cbn [bind].
  assert (Hks : forall k, In k (korder (keys bcols (map snd (b_frame b)))) <-> In k (keys bcols (map snd (b_frame b)))).
  { intros k. split; apply Permutation_in; [|apply Permutation_sym]; apply korder_ok. }
  set (f := block_step enum argsort R (S fuel) T' (Some t) b (scalar_regressors (r_by (t_regressors T')) bv)).
  assert (Hf : forall kb (a : list block_out * nat), In kb (map (fun k => (k, group bcols (b_frame b) k)) (korder (keys bcols (map snd (b_frame b))))) -> all_triplets (fst a) = [] ->
    exists k, kb = (k, group bcols (b_frame b) k) /\ In k (keys bcols (map snd (b_frame b)))).
  { intros kb a H _. apply in_map_iff in H as (k & <- & Hk). exists k. split; [reflexivity|apply Hks, Hk]. }
  split.
  - intros H. destruct (@foldM_goes _ _ f (fun a => all_triplets (fst a) = []) (map (fun k => (k, group bcols (b_frame b) k)) (korder (keys bcols (map snd (b_frame b)))))) with (a := (@nil block_out, c)) as ([outs c'] & E & Ho).
    + intros kb [acc c0] Hin Ha. destruct (Hf kb (acc, c0) Hin Ha) as (k & -> & Hk). cbn [fst] in Ha.
      destruct (proj1 (block_neg (scalar_regressors (r_by (t_regressors T')) bv) k acc c0 Hk Ha) (fun s => H k s Hk)) as (acc' & c' & E & E'). exists (acc', c'). split; [exact E|exact E'].
    + reflexivity.
    + exists outs, c'. split; [exact E|exact Ho].
  - intros (k0 & s0 & Hk0 & Hs0 & Hle). apply foldM_raises with (P := fun a => all_triplets (fst a) = []).
    + intros kb [acc c0] Hin Ha. destruct (Hf kb (acc, c0) Hin Ha) as (k & -> & Hk). cbn [fst] in Ha.
      destruct (block_neg (scalar_regressors (r_by (t_regressors T')) bv) k acc c0 Hk Ha) as [B1 B2].
      destruct (block_dec k) as [D|D]; [right|left; apply B2, D]. destruct (B1 D) as (acc' & c' & E & E'). exists (acc', c'). split; [exact E|exact E'].
    + exists (k0, group bcols (b_frame b) k0). split; [apply in_map_iff; exists k0; split; [reflexivity|apply Hks, Hk0]|].
      intros [acc c0] Ha. apply (proj2 (block_neg (scalar_regressors (r_by (t_regressors T')) bv) k0 acc c0 Hk0 Ha)). eauto.
    + reflexivity.
Qed.

Lemma by_dec : (forall k s, In k (keys bcols (map snd (b_frame b))) -> In s (bl k) -> 100 < size b k s) \/
  (exists k s, In k (keys bcols (map snd (b_frame b))) /\ In s (bl k) /\ size b k s <= 100).
Proof.
  generalize (keys bcols (map snd (b_frame b))). induction l as [|k l IH]; [left; intros k s []|].
  destruct (block_dec k) as [D|(s & Hs & D)]; [|right; exists k, s; cbn; auto].
  destruct IH as [IH|(k' & s & Hk & Hs & IH)]; [|right; exists k', s; cbn; auto].
  left. intros k' s [<-|Hk] Hs; auto.
Qed.

End By.

(** No row, no by: what the loop over the by groups keeps. *)
Definition nothing (g : gen_state) : Prop := g_triplets g = [] /\ g_bounds g = [0] /\ g_bys g = [].

Lemma by_neg b g : In b bs -> nothing g ->
  ((forall k s, In k (keys bcols (map snd (b_frame b))) -> In s (block_list enum T' b k) -> 100 < size b k s) ->
     exists g', by_step korder enum argsort R (S fuel) T' (Some t) g b = Ok g' /\ nothing g' /\ g_empty g' = g_empty g ++ [b_key b]) /\
  ((exists k s, In k (keys bcols (map snd (b_frame b))) /\ In s (block_list enum T' b k) /\ size b k s <= 100) ->
     by_step korder enum argsort R (S fuel) T' (Some t) g b = Err ValueError).
Proof.
  intros Hb (N1 & N2 & N3). destruct (compute_neg b Hb (g_rng g)) as [C1 C2]. unfold by_step. split.
  - intros H. destruct (C1 H) as (outs & c' & -> & Ho). cbn [bind]. cbv zeta. unfold all_triplets in Ho. rewrite Ho, N1, N2. cbn [app hd]. change (Zlen [] =? 0) with true. cbn [negb].
    eexists. split; [reflexivity|]. split; [split; [reflexivity|split; [reflexivity|exact N3]]|reflexivity].
  - intros H. rewrite (C2 H). reflexivity.
Qed.

Definition tiny := exists b k s, In b bs /\ In k (keys bcols (map snd (b_frame b))) /\ In s (block_list enum T' b k) /\ size b k s <= 100.

Lemma loop_raises g : nothing g -> tiny -> foldM (by_step korder enum argsort R (S fuel) T' (Some t)) bs g = Err ValueError.
Proof.
  intros Hg (b0 & k0 & s0 & Hb0 & Hk0 & Hs0 & Hle). apply foldM_raises with (P := nothing); [| |exact Hg].
  - intros b a Hb Ha. destruct (by_neg b Hb Ha) as [B1 B2]. destruct (by_dec b) as [D|D]; [right|left; apply B2, D].
    destruct (B1 D) as (g' & E & E' & _). exists g'. auto.
  - exists b0. split; [exact Hb0|]. intros a Ha. apply (proj2 (by_neg b0 Hb0 Ha)). eauto.
Qed.

Lemma loop_goes : ~ tiny -> forall l g, incl l bs -> nothing g ->
  exists g', foldM (by_step korder enum argsort R (S fuel) T' (Some t)) l g = Ok g' /\ nothing g' /\ g_empty g' = g_empty g ++ map b_key l.
Proof.
  intros Hn. induction l as [|b l IH]; intros g Hl Hg; cbn [foldM map].
  { exists g. rewrite app_nil_r. auto. }
  assert (Hb : In b bs) by (apply Hl; left; reflexivity).
  destruct (by_dec b) as [D|(k & s & D)]; [|exfalso; apply Hn; exists b, k, s; tauto].
  destruct (proj1 (by_neg b Hb Hg) D) as (g1 & -> & Hg1 & E1). cbn [bind].
  destruct (IH g1) as (g' & -> & Hg' & E'); [intros x Hx; apply Hl; right; exact Hx|exact Hg1|].
  exists g'. split; [reflexivity|]. split; [exact Hg'|]. rewrite E', E1, <- app_assoc. reflexivity.
Qed.

Lemma tiny_iff : tiny <-> exists k s grp, is_wanted T db k s /\
  lists_that (fun u => is_wanted T db k u /\ same_group T (by_rows T db k) u s) grp /\ Zlen grp <= 100.
Proof.
  split.
  - intros (b & k & s & Hb & Hk & Hs & Hle). exists (b_key b), s, (filter (same_vals T db b s) (block_list enum T' b k)).
    split; [|split; [exact (group_perm korder_ok enum_ok rd dt kf init b Hb _ _ Hk Hs)|exact Hle]].
    pose proof (block_lists korder_ok enum_ok rd dt kf init b Hb _ _ Hk Hs) as HL. apply (proj2 HL) in Hs. tauto.
  - intros (k0 & s & grp & Hw & Hall & Hle).
    destruct s as [[a b'] x]. cbn in Hw. destruct (wanted_key _ korder_ok rd dt kf init Hw) as (b & Hb & E). subst k0.
    pose proof Hw as Hw'. apply (blist_In korder_ok enum_ok rd dt kf init _ _ _ _ Hb) in Hw'.
    unfold by_list in Hw'. apply in_flat_map in Hw' as (k & Hk & H0).
    assert (Hk' : In k (keys bcols (map snd (b_frame b)))) by (revert Hk; apply Permutation_in, korder_ok).
    exists b, k, (a, b', x). split; [exact Hb|]. split; [exact Hk'|]. split; [exact H0|].
    destruct (group_perm korder_ok enum_ok rd dt kf init b Hb _ _ Hk' H0) as [N1 N2]. destruct Hall as [A1 A2].
    assert (PA : Permutation grp (filter (same_vals T db b (a, b', x)) (block_list enum T' b k))).
    { apply NoDup_Permutation; auto. intros u. rewrite A2, N2. reflexivity. }
    unfold Zlen in *. rewrite <- (Permutation_length PA). exact Hle.
Qed.

Lemma wanted_some : (exists k s, is_wanted T db k s) <-> s_nb_triplets st <> 0.
Proof.
  rewrite <- (tagged_length korder_ok enum_ok _ _ _ init). split.
  - intros (k0 & [[a b'] x] & Hw) E. apply (tagged_In korder_ok enum_ok rd dt kf init) in Hw.
    destruct (tagged korder enum T' bs); [destruct Hw|]. unfold Zlen in E. cbn [length] in E. lia.
  - intros H. destruct (tagged korder enum T' bs) as [|[k [[a b'] x]] l] eqn:E; [cbn in H; congruence|].
    exists k, (a, b', x). apply (tagged_In korder_ok enum_ok rd dt kf init). rewrite E. left. reflexivity.
Qed.

Theorem generate_neg c :
  ((exists k s grp, is_wanted T db k s /\
      lists_that (fun u => is_wanted T db k u /\ same_group T (by_rows T db k) u s) grp /\ Zlen grp <= 100) ->
     generate_triplets korder enum argsort R (S fuel) T' (Some t) bs st c = Err ValueError) /\
  (~ (exists k s grp, is_wanted T db k s /\
      lists_that (fun u => is_wanted T db k u /\ same_group T (by_rows T db k) u s) grp /\ Zlen grp <= 100) ->
   (exists k s, is_wanted T db k s) ->
     exists f, generate_triplets korder enum argsort R (S fuel) T' (Some t) bs st c = Ok ([], Some f) /\
       fl_triplets f = [] /\ fl_by_index f = [] /\ fl_bys f = []).
Proof.
  rewrite <- tiny_iff. unfold generate_triplets. split.
  - intros Hs. destruct (Z.eqb_spec (s_nb_triplets st) 0) as [E|_].
    { exfalso. revert E. apply wanted_some. apply tiny_iff in Hs as (k & s & grp & H & _). eauto. }
    destruct (fit_integer_type (s_nb_triplets st) true) as [?|e] eqn:E1; cbn [bind]; [|apply fit_err in E1; congruence].
    destruct (fit_integer_type (s_nb_blocks st) true) as [?|e] eqn:E2; cbn [bind]; [|apply fit_err in E2; congruence].
    rewrite loop_raises; [reflexivity|repeat split|exact Hs].
  - intros Hs Hw. apply wanted_some in Hw. destruct (Z.eqb_spec (s_nb_triplets st) 0) as [E|_]; [contradiction|].
    destruct (sizes_small korder_ok enum_ok rd dt kf init Hsz) as (_ & H1 & H2).
    destruct (fit_ok_signed _ H1) as (t1 & ->). destruct (fit_ok_signed _ H2) as (t2 & ->). cbn [bind].
    destruct (@loop_goes Hs bs (mk_gen [] [] [] [0] [] [] c) (incl_refl _)) as (g & -> & (N1 & N2 & N3) & N4); [repeat split|].
    cbn [bind]. rewrite N1, N2, N3, N4. cbn [hd]. destruct (fit_ok_signed 0 ltac:(lia)) as (t3 & ->). cbn [bind g_empty app rev map pairs_of_bounds].
    match goal with |- exists f, Ok (_, Some ?g) = _ /\ _ => exists g end. split; [|split; [reflexivity|split; reflexivity]]. f_equal. f_equal.
    apply filter_none. intros b Hb. apply negb_false_iff. unfold mem_key. apply existsb_exists. exists (b_key b).
    split; [apply in_map, Hb|]. unfold key_eqb. destruct (key_dec _ _); [reflexivity|congruence].
Qed.

End Main.

Theorem negative_raises :
  forall korder enum argsort, lists_keys korder -> lists_set enum -> argsort_spec argsort ->
  forall T cols db T' bs st,
    reads cols (t_filters T) -> determined T db -> kept_first T db ->
    reg_reads cols (t_regressors T) -> reg_determined T db ->
    task_init korder enum T cols db = Ok (T', bs, st) -> coded T db ->
    Zlen db * Zlen db * Zlen db < 2 ^ 63 -> r_ABX (t_regressors T) = false -> of_BX (t_regressors T) <> [] ->
  forall t, t < 0 ->
  forall k s grp, is_wanted T db k s ->
    lists_that (fun u => is_wanted T db k u /\ same_group T (by_rows T db k) u s) grp -> Zlen grp <= 100 ->
  forall R fuel c, generate_triplets korder enum argsort R (S fuel) T' (Some t) bs st c = Err ValueError.
Proof.
  intros ? ? ? K E A ? ? ? ? ? ? rd dt kf rr rt init cod Hsz HG Hbx t Ht k s grp H1 H2 H3 R fuel c.
  apply (generate_neg R K E A rd dt kf rr rt init cod Ht Hbx Hsz HG fuel c). exists k, s, grp. auto.
Qed.

Theorem negative_empty :
  forall korder enum argsort, lists_keys korder -> lists_set enum -> argsort_spec argsort ->
  forall T cols db T' bs st,
    reads cols (t_filters T) -> determined T db -> kept_first T db ->
    reg_reads cols (t_regressors T) -> reg_determined T db ->
    task_init korder enum T cols db = Ok (T', bs, st) -> coded T db ->
    Zlen db * Zlen db * Zlen db < 2 ^ 63 -> r_ABX (t_regressors T) = false -> of_BX (t_regressors T) <> [] ->
  forall t, t < 0 ->
  (forall k s grp, is_wanted T db k s ->
    lists_that (fun u => is_wanted T db k u /\ same_group T (by_rows T db k) u s) grp -> 100 < Zlen grp) ->
  (exists k s, is_wanted T db k s) ->
  forall R fuel c, exists f,
    generate_triplets korder enum argsort R (S fuel) T' (Some t) bs st c = Ok ([], Some f) /\
    fl_triplets f = [] /\ fl_by_index f = [] /\ fl_bys f = [].
Proof.
  intros ? ? ? K E A ? ? ? ? ? ? rd dt kf rr rt init cod Hsz HG Hbx t Ht Hg Hw R fuel c.
  apply (generate_neg R K E A rd dt kf rr rt init cod Ht Hbx Hsz HG fuel c); [|exact Hw].
  intros (k & s & grp & H1 & H2 & H3). specialize (Hg k s grp H1 H2). lia.
Qed.
