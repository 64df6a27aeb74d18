(** Generating triplets with a threshold: it does not raise. *)
From Coq Require Import Ascii String.
From Verif Require Import Prelude ListFacts TypeFitting TypeFitting_proofs
  Sampler Sampler_spec Sampler_proofs Task Task_spec Task_blocks Task_sort Task_regs Task_gen Task_file
  Task_proofs Task_main Task_total.
Set Implicit Arguments.
Open Scope Z_scope.

(** A result that satisfies [P], or the end of the fuel. *)
Definition fine {A} (P : A -> Prop) (r : res A) : Prop :=
  match r with Ok x => P x | Err e => e = OutOfFuel end.

Lemma fine_bind {A B} (P : A -> Prop) (Q : B -> Prop) r (f : A -> res B) :
  fine P r -> (forall x, r = Ok x -> P x -> fine Q (f x)) -> fine Q (bind r f).
Proof. destruct r as [x|e]; cbn; auto. Qed.

Lemma fine_imp {A} (P Q : A -> Prop) r : (forall x, P x -> Q x) -> fine P r -> fine Q r.
Proof. destruct r; cbn; auto. Qed.

Lemma cast_unsigned_le ty x : signed ty = false -> 0 <= x -> 0 <= cast ty x <= x.
Proof.
  intros Hs Hx. unfold cast. rewrite Hs. split; [apply Z.mod_pos_bound; destruct ty; reflexivity|].
  apply Z.mod_le; [exact Hx|destruct ty; reflexivity].
Qed.

Section Sample.
Variable R : rng.
Hypothesis R_ok : rng_ok R.
Variable ty : itype.
Hypothesis Hty : signed ty = false.

Lemma knuth_unsigned n N : forall fuel c t m,
  0 <= t -> m <= n -> n - m <= N - t -> (Z.to_nat (N - t) < fuel)%nat ->
  fine (fun r => Z.of_nat (length (fst r)) = n - m /\ forall x, In x (fst r) -> 0 <= x < N)
       (knuth_loop R fuel c ty n N t m).
Proof.
  destruct R_ok as [HD [Hu _]].
  induction fuel as [|fuel IH]; intros c t m Ht Hm Hn Hf; [lia|].
  cbn [knuth_loop]. destruct (m <? n) eqn:E.
  - apply Z.ltb_lt in E. destruct ((N - t) * rnd_unit R c <? (n - m) * rnd_den R) eqn:E2.
    + eapply fine_bind; [apply IH; lia|]. intros [l c'] _ (Hl & Hi). cbn [fst snd fine length In] in *.
      split; [lia|]. intros x [<-|Hx]; [|auto]. pose proof (@cast_unsigned_le ty t Hty Ht). lia.
    + apply Z.ltb_ge in E2. assert (N - t <> n - m).
      { intros HE. rewrite HE in E2. specialize (Hu c). nia. }
      apply IH; lia.
  - apply Z.ltb_ge in E. cbn. split; [lia|tauto].
Qed.

Lemma rejection_unsigned n N : 0 < N -> forall fuel c sample remaining,
  (forall x, In x sample -> 0 <= x < N) -> Z.of_nat (length sample) <= n ->
  remaining = n - Z.of_nat (length sample) ->
  fine (fun r => Z.of_nat (length (fst r)) = n /\ forall x, In x (fst r) -> 0 <= x < N)
       (rejection_loop R fuel c ty n N sample remaining).
Proof.
  intros HN. induction fuel as [|fuel IH]; intros c sample remaining Hi Hl Hr; [reflexivity|].
  cbn [rejection_loop]. destruct (0 <? remaining) eqn:E; cbv zeta.
  - apply Z.ltb_lt in E. apply IH; [| |reflexivity].
    + intros x Hx. rewrite np_unique_In, in_app_iff, np_unique_In in Hx.
      destruct Hx as [Hx|Hx]; [auto|]. apply in_map_iff in Hx as (y & <- & Hy).
      apply (@randints_in R R_ok) in Hy; [|exact HN]. pose proof (@cast_unsigned_le ty y Hty (proj1 Hy)). lia.
    + assert (length (np_unique (sample ++ np_unique (map (cast ty) (randints R c N remaining))))
              <= length sample + length (map (cast ty) (randints R c N remaining)))%nat.
      { apply NoDup_incl_app_length; [apply np_unique_NoDup|]. intros x Hx.
        rewrite np_unique_In, in_app_iff, np_unique_In in Hx. apply in_app_iff. exact Hx. }
      rewrite map_length, randints_length in H. lia.
  - apply Z.ltb_ge in E. cbn. split; [lia|exact Hi].
Qed.

Lemma swr_unsigned fuel c n N : 0 <= n <= N ->
  fine (fun r => Z.of_nat (length (fst r)) = n /\ forall x, In x (fst r) -> 0 <= x < N)
       (sample_without_replacement R fuel c n N ty).
Proof.
  intros Hn. unfold sample_without_replacement.
  destruct ((100 <? N) && (5 * n <? 3 * N)) eqn:E.
  - apply andb_true_iff in E. apply rejection_unsigned; cbn; lia || tauto.
  - unfold knuth_sampling. destruct (n <? 0) eqn:E0; [lia|].
    eapply fine_imp; [|apply knuth_unsigned; lia]. cbn beta. intros r (H & Hi). split; [lia|exact Hi].
Qed.

Variable fuel : nat.

Lemma threshold_runs_unsigned permut t (counts : list nat) : 0 < t ->
  forall i c, (i + sumn counts <= length permut)%nat ->
  fine (fun r => (length (fst r) <= sumn counts)%nat /\ incl (fst r) permut)
       (threshold_runs R fuel permut ty (Some t) counts i c).
Proof.
  intros Ht. induction counts as [|n counts IH]; intros i c Hi.
  { cbn. split; [lia|intros x []]. }
  cbn [threshold_runs]. cbn [sumn fold_right] in Hi. fold (sumn counts) in Hi.
  change (sumn (n :: counts)) with (n + sumn counts)%nat.
  apply fine_bind with (P := fun r => (length (fst r) <= n)%nat /\ incl (fst r) permut).
  - destruct (negb (t =? 0) && (t <? Z.of_nat n)) eqn:Es.
    + eapply fine_bind; [apply swr_unsigned; lia|]. intros [s cs] _ (Ls & Is). cbn [fst snd] in *.
      assert (HB : forall j, In j (map (fun x => Z.to_nat (cast ty (x + Z.of_nat i))) s) -> (j < length permut)%nat).
      { intros j Hj. apply in_map_iff in Hj as (x & <- & Hx). specialize (Is x Hx).
        pose proof (@cast_unsigned_le ty (x + Z.of_nat i) Hty). lia. }
      rewrite (@gather_ok _ permut _ 0%nat) by exact HB. cbn [bind fine fst].
      split; [rewrite !map_length; lia|]. intros y Hy. apply in_map_iff in Hy as (j & <- & Hj). apply nth_In. auto.
    + cbn [fine fst]. unfold slice. split; [rewrite firstn_length; lia|].
      intros x Hx. rewrite <- (firstn_skipn i permut). apply in_or_app. right.
      rewrite <- (firstn_skipn (i + n - i) (skipn i permut)). apply in_or_app. left. exact Hx.
  - intros [l c1] _ (Hl & Il). cbn [fst snd] in *. eapply fine_bind; [apply IH; lia|].
    intros [l2 c2] _ (Hl2 & Il2). cbn [fst snd fine] in *. split; [rewrite app_length; lia|].
    apply incl_app; assumption.
Qed.

Lemma sort_and_threshold_unsigned permut idx t c :
  0 < t -> idx <> [] -> Permutation permut (seq 0 (length idx)) ->
  fine (fun r => (length (fst (fst r)) <= length idx)%nat /\ incl (fst (fst r)) (seq 0 (length idx)))
       (sort_and_threshold R fuel permut idx ty (Some t) c).
Proof.
  intros Ht Hne Hp. unfold sort_and_threshold.
  rewrite (@gather_ok _ idx permut 0).
  2:{ intros i Hi. apply (Permutation_in _ Hp), in_seq in Hi. lia. }
  cbn [bind]. set (s := map (fun i => nth i idx 0) permut).
  assert (Ls : length s = length permut) by apply map_length.
  assert (Lp : length permut = length idx) by (rewrite (Permutation_length Hp); apply seq_length).
  assert (Hs : s <> []).
  { intros E. apply Hne. apply length_zero_iff_nil. rewrite <- Lp, <- Ls, E. reflexivity. }
  rewrite run_lengths by exact Hs.
  assert (Esum : sumn (map snd (rle s)) = length permut).
  { rewrite <- length_expand, expand_rle. exact Ls. }
  eapply fine_bind; [apply threshold_runs_unsigned; lia|].
  intros [l c1] _ (Hl & Il). cbn [fst snd fine] in *. split; [lia|].
  intros x Hx. apply (Permutation_in _ Hp). auto.
Qed.

End Sample.

Lemma fit_unsigned n ty : fit_integer_type n false = Ok ty -> signed ty = false.
Proof.
  unfold fit_integer_type. repeat match goal with |- context [if ?c then _ else _] => destruct c end;
    intros H; inversion H; reflexivity.
Qed.

Section Core.
Variable argsort : list Z -> list nat.
Variable R : rng.
Variable fuel : nat.
Hypothesis argsort_ok : argsort_spec argsort.
Hypothesis R_ok : rng_ok R.

Lemma core_fine t ts gs c : 0 < t ->
  fine (fun r => (length (snd (fst r)) <= length ts)%nat) (core argsort R fuel (Some t) ts gs c).
Proof.
  intros Ht. unfold core. destruct gs as [|g gs]; [cbn; lia|]. destruct ts as [|t0 ts]; [cbn; lia|].
  assert (exists ty, ind_ty (g :: gs) (t0 :: ts) = Ok ty) as (ty & Hty).
  { apply fit_ok_unsigned. eapply Z.le_lt_trans; [apply (proj2 (cast_range I64 _))|reflexivity]. }
  rewrite Hty. cbn [bind]. apply fit_unsigned in Hty.
  set (idx := map (icode ty (bounds_of (g :: gs) (t0 :: ts))) (t0 :: ts)) in *.
  assert (Li : length idx = length (t0 :: ts)) by apply map_length.
  assert (Hp : Permutation (argsort idx) (seq 0 (length idx))) by apply argsort_ok.
  eapply fine_bind; [apply sort_and_threshold_unsigned; auto; unfold idx; discriminate|].
  intros [[p index] c'] _ (Hl & Hi). cbn [fst snd] in *.
  rewrite (@gather_ok _ (t0 :: ts) _ t0).
  - cbn [bind fine fst snd]. rewrite map_length. lia.
  - intros i Hin. apply Hi, in_seq in Hin. lia.
Qed.

End Core.

Section Main.
Variable korder : list key -> list key.
Variable enum : list Z -> list Z.
Variable argsort : list Z -> list nat.
Variable R : rng.
Variable fuel : nat.
Hypothesis korder_ok : lists_keys korder.
Hypothesis enum_ok : lists_set enum.
Hypothesis argsort_ok : argsort_spec argsort.
Hypothesis R_ok : rng_ok R.
Variable t : Z.
Hypothesis Ht : 0 < t.

Section Block.
Variable T : task.
Hypothesis Hac : t_across T <> [].
Variable b : by_block.
Hypothesis wf : wf_block b.
Hypothesis al : aligned (b_frame b).
Hypothesis small : Zlen (b_frame b) * Zlen (b_frame b) * Zlen (b_frame b) < 2 ^ 64.

Local Notation cols := (t_on T :: t_across T).

Lemma compute_fine c :
  b_frame b <> [] -> r_ABX (t_regressors T) = false ->
  fine (fun r => (length (all_triplets (fst r)) <= length (by_list korder enum T b))%nat)
       (compute_triplets korder enum argsort R fuel T (Some t) b c).
Proof.
  intros Hne HG. unfold compute_triplets, groups.
  assert (exists bv, iloc (b_frame b) 0 = Ok bv) as (bv & ->).
  { unfold iloc. cbn. destruct (b_frame b) as [|p fr]; [congruence|]. cbn. eauto. }
  cbn [bind]. unfold by_list.
  assert (Hks : incl (korder (keys cols (map snd (b_frame b)))) (keys cols (map snd (b_frame b)))).
  { intros k. apply Permutation_in, korder_ok. }
  assert (G : forall ks c acc, incl ks (keys cols (map snd (b_frame b))) ->
     fine (fun r => (length (all_triplets (fst r)) <= length (all_triplets acc) + length (flat_map (block_list enum T b) ks))%nat)
       (foldM (block_step enum argsort R fuel T (Some t) b (scalar_regressors (r_by (t_regressors T)) bv))
          (map (fun k => (k, group cols (b_frame b) k)) ks) (acc, c))).
  { clear c Hks. induction ks as [|k ks IH]; intros c acc Hks; cbn [map foldM]; [cbn [fine fst flat_map length]; lia|].
    assert (Hk : In k (keys cols (map snd (b_frame b)))) by (apply Hks; left; reflexivity).
    assert (Hks' : incl ks (keys cols (map snd (b_frame b)))) by (intros x Hx; apply Hks; right; exact Hx).
    apply fine_bind with (P := fun r => (length (all_triplets (fst r)) <= length (all_triplets acc) + length (block_list enum T b k))%nat).
    - unfold block_step. destruct (block_val_ok _ _ al _ Hk) as (l & v & Hv & _).
      assert (Hv' := Hv). unfold block_val in Hv.
      apply bind_ok in Hv as (l0 & -> & Hv). cbn [bind]. rewrite Hv. cbn [bind].
      unfold block_list. rewrite Hv'.
      destruct (f_oab (t_filters T) v) eqn:Eo; [|cbn [fine fst]; lia]. unfold on_across_triplets.
      destruct (block_design_total _ enum_ok _ wf v _ Hac Hk small) as (d & Hd). rewrite Hd. cbn [bind].
      destruct (block_design_ok _ enum_ok _ wf _ _ Hac Hk Hd) as (Hts & A & B & X & Hdk & IA & IB & IX).
      rewrite (dk_A Hdk), (dk_B Hdk), (dk_X Hdk). rewrite !(item_regressors_ok wf) by assumption. cbn [bind].
      rewrite (sort_design_core argsort R fuel (Some t) _ _ c Hdk).
      pose proof (@core_fine argsort R fuel argsort_ok R_ok t (d_triplets d)
         (gB b v (r_B (t_regressors T)) ++ gX b v (r_X (t_regressors T))) c Ht) as Hf.
      destruct (core _ _ _ _ _ _ _) as [[[[p idx] ts'] c2]|e] eqn:Hc; [|exact Hf].
      cbn [fine fst snd] in Hf. cbn [bind]. rewrite HG.
      pose proof (core_applied _ _ _ _ _ _ _ Hc) as Ha.
      destruct (compute_regressors_ok (length ts') (scalar_regressors (r_by (t_regressors T)) bv ++ scalar_regressors (r_oab (t_regressors T)) v)
         (r_A (t_regressors T)) (r_B (t_regressors T)) (r_X (t_regressors T)) Hdk Ha) as (As & E1 & E2).
      rewrite E1. cbn [bind fst snd fine]. rewrite Hts in Hf.
      unfold all_triplets. rewrite map_app, concat_app, app_length. cbn [map concat o_triplets]. rewrite app_nil_r. unfold plist. apply Nat.add_le_mono_l. exact Hf.
    - intros [acc1 c1] _ H1. cbn [fst] in H1. eapply fine_imp; [|apply IH; exact Hks'].
      cbn beta. intros r Hr. cbn [flat_map]. rewrite app_length. lia. }
  eapply fine_imp; [|apply G; exact Hks]. cbn beta. intros r Hr. exact Hr.
Qed.

End Block.

Section Init.
Variable T : task.
Variable cols : list string.
Variable db : list row.
Hypothesis rd : reads cols (t_filters T).
Hypothesis dt : determined T db.
Hypothesis kf : kept_first T db.
Variable T' : task.
Variable bs : list by_block.
Variable st : stats.
Hypothesis init : task_init korder enum T cols db = Ok (T', bs, st).

Lemma loop_fine g :
  (forall b c, In b bs -> fine (fun _ => True) (compute_triplets korder enum argsort R fuel T' (Some t) b c)) ->
  fine (fun _ => True) (foldM (by_step korder enum argsort R fuel T' (Some t)) bs g).
Proof.
  clear. revert g. induction bs as [|b l IH]; intros g H; cbn [foldM]; [exact I|].
  apply fine_bind with (P := fun _ => True); [|intros; apply IH; intros b' c' Hb; apply H; right; exact Hb].
  unfold by_step. eapply fine_bind; [apply H; left; reflexivity|]. intros [outs c1] _ _. cbv zeta.
  destruct (_ =? _); exact I.
Qed.

Lemma generate_fine c :
  Zlen db * Zlen db * Zlen db < 2 ^ 63 -> r_ABX (t_regressors T) = false ->
  fine (fun r => snd r = None <-> s_nb_triplets st = 0)
       (generate_triplets korder enum argsort R fuel T' (Some t) bs st c).
Proof.
  intros Hsz HG. destruct (sizes_small korder_ok enum_ok rd dt kf init Hsz) as (Hfl & H1 & H2).
  assert (Hcf : forall b c, In b bs ->
     fine (fun r => (length (all_triplets (fst r)) <= length (by_list korder enum T' b))%nat)
       (compute_triplets korder enum argsort R fuel T' (Some t) b c)).
  { intros b c0 Hb. destruct (proj2 (bs_inv _ korder_ok rd dt kf init) b Hb) as (Hw & Ha & Hne & _).
    apply compute_fine; auto; [apply (T'_ne _ _ _ _ _ init)| |].
    - pose proof (cube_le (conj (Zlen_nonneg (b_frame b)) (Hfl b Hb))). lia.
    - destruct (init_inv _ _ _ _ _ init) as (_ & -> & _). exact HG. }
  unfold generate_triplets. destruct (s_nb_triplets st =? 0) eqn:E0.
  { apply Z.eqb_eq in E0. cbn. tauto. }
  apply Z.eqb_neq in E0.
  destruct (fit_ok_signed _ H1) as (t1 & ->). destruct (fit_ok_signed _ H2) as (t2 & ->). cbn [bind].
  pose proof (@loop_fine (mk_gen [] [] [] [0] [] [] c)) as HL.
  destruct (foldM (by_step korder enum argsort R fuel T' (Some t)) bs (mk_gen [] [] [] [0] [] [] c)) as [g|e] eqn:Hg.
  2:{ apply HL. intros b c0 Hb. eapply fine_imp; [|apply Hcf; exact Hb]. auto. }
  cbn [bind]. apply loop_ok in Hg; [|reflexivity]. destruct Hg as (outss & Hch & L). cbn [g_rng] in Hch.
  assert (exists t3, fit_integer_type (Zlen (concat (map (fun p => all_triplets (snd p)) (named bs outss)))) true = Ok t3) as (t3 & E3).
  { apply fit_ok_signed. eapply Z.le_lt_trans; [|exact H1].
    rewrite (nb_triplets_sum korder_ok enum_ok _ _ _ init).
    assert (HP2 : forall b outs, In (b, outs) (combine bs outss) ->
              (length (all_triplets outs) <= length (by_list korder enum T' b))%nat).
    { intros b outs Hin. destruct (combine_compute _ _ _ _ _ _ _ _ _ _ _ _ _ Hch Hin) as (Hb & c0 & c1 & Hc).
      specialize (Hcf b c0 Hb). rewrite Hc in Hcf. exact Hcf. }
    assert (HLn : length bs = length outss) by (apply chain_by_each, Forall2_len in Hch; exact Hch).
    clear -HP2 HLn. unfold named. revert outss HP2 HLn.
    induction bs as [|b bs0 IH]; intros [|o outss2] HP2 HL; try discriminate.
    cbn [map combine concat snd sumZ fold_right length In] in *.
    rewrite Zlen_app. unfold sumZ in IH. apply Z.add_le_mono.
    + unfold Zlen. apply inj_le. apply (HP2 b o (or_introl eq_refl)).
    + apply IH; [intros; apply HP2; right; assumption|lia]. }
  rewrite (lr_hd L), (lr_triplets L). cbn [g_triplets app]. rewrite E3. cbn [bind]. cbv zeta.
  cbn [fine snd]. split; [discriminate|tauto].
Qed.

End Init.
End Main.

(** Whatever the threshold, the generation ends without exception or goes on for ever. *)
Theorem generate_never_raises :
  forall korder enum argsort (R : rng) (fuel : nat),
    lists_keys korder -> lists_set enum -> argsort_spec argsort -> rng_ok R ->
  forall T cols db T' bs st,
    reads cols (t_filters T) -> determined T db -> kept_first T db ->
    task_init korder enum T cols db = Ok (T', bs, st) ->
    Zlen db * Zlen db * Zlen db < 2 ^ 63 -> r_ABX (t_regressors T) = false ->
  forall thr c, (forall t, thr = Some t -> 0 <= t) ->
    match generate_triplets korder enum argsort R fuel T' thr bs st c with
    | Ok (_, of) => of = None <-> forall k a b x, ~ wanted T db k a b x
    | Err e => e = OutOfFuel
    end.
Proof.
  intros korder enum argsort R fuel korder_ok enum_ok argsort_ok R_ok T cols db T' bs st rd dt kf init Hsz HG thr c Hthr.
  assert (Hcase : no_threshold thr \/ exists t, thr = Some t /\ 0 < t).
  { destruct thr as [t|]; [|left; left; reflexivity]. specialize (Hthr t eq_refl).
    destruct (Z.eq_dec t 0) as [->|]; [left; right; reflexivity|right; exists t; split; [reflexivity|lia]]. }
  destruct Hcase as [Hn|(t & -> & Ht)].
  - destruct (generate_succeeds R fuel korder_ok enum_ok argsort_ok rd dt kf init (thr := thr) c Hsz Hn HG) as (bs' & of & -> & Hof).
    exact Hof.
  - pose proof (@generate_fine korder enum argsort R fuel korder_ok enum_ok argsort_ok R_ok t Ht T cols db rd dt kf T' bs st init c Hsz HG) as H.
    destruct (generate_triplets _ _ _ _ _ _ _ _ _ _) as [[bs' of]|e]; [|exact H]. cbn [fine snd] in H. rewrite H.
    rewrite <- (tagged_length korder_ok enum_ok _ _ _ init). split.
    + intros E k a b x Hw. apply (tagged_In korder_ok enum_ok rd dt kf init) in Hw.
      destruct (tagged korder enum T' bs); [destruct Hw|]. unfold Zlen in E. cbn [length] in E. lia.
    + intros Hno. destruct (tagged korder enum T' bs) as [|[k [[a b] x]] l] eqn:E; [reflexivity|].
      exfalso. apply (Hno k a b x), (tagged_In korder_ok enum_ok rd dt kf init). rewrite E. left. reflexivity.
Qed.
