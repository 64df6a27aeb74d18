(** Lemmas behind the theorems on tasks. *)
From Coq Require Import Ascii String.
From Verif Require Import Prelude ListFacts TypeFitting TypeFitting_proofs
  Sampler Sampler_spec Sampler_proofs Task Task_spec Task_blocks Task_sort Task_regs Task_gen Task_file Task_proofs.
Set Implicit Arguments.
Open Scope Z_scope.

Lemma no_threshold_iff thr : no_threshold thr <-> thr = None \/ thr = Some 0.
Proof. unfold no_threshold. destruct thr as [t|]; split; auto; intuition congruence. Qed.

Lemma fit_capacity n t v : fit_integer_type n true = Ok t -> 0 <= v <= capacity n -> cast t v = v.
Proof.
  unfold fit_integer_type, capacity. cbn. intros H Hv. apply cast_id. revert H.
  destruct (Z.ltb_spec n 128); [|destruct (Z.ltb_spec n 32768); [|destruct (Z.ltb_spec n 2147483648);
    [|destruct (Z.ltb_spec n 9223372036854775808)]]]; intros E; inversion E; subst; cbn;
  destruct (Z.leb_spec n 127); try lia; destruct (Z.leb_spec n 32767); try lia;
  destruct (Z.leb_spec n 2147483647); lia.
Qed.

Lemma Forall2_len {A B} (P : A -> B -> Prop) l l' : Forall2 P l l' -> length l = length l'.
Proof. induction 1; cbn; congruence. Qed.

Lemma NoDup_map_filter {A B} (g : A -> B) (p : A -> bool) l : NoDup (map g l) -> NoDup (map g (filter p l)).
Proof.
  induction l as [|a l IH]; cbn; [auto|]. intros H. apply NoDup_cons_iff in H as [H1 H2].
  destruct (p a); [|auto]. cbn. constructor; [|auto]. intros H. apply H1.
  apply in_map_iff in H as (a' & E & H). apply filter_In in H as [H _]. apply in_map_iff. eauto.
Qed.

(** Without threshold the state of the random source has no effect. *)
Section Shift.
Variable korder : list key -> list key.
Variable enum : list Z -> list Z.
Variable argsort : list Z -> list nat.
Variable R : rng.
Variable fuel : nat.
Variable thr : option Z.
Hypothesis Hthr : no_threshold thr.

Lemma threshold_runs_shift permut ty counts i c l c' c2 :
  threshold_runs R fuel permut ty thr counts i c = Ok (l, c') ->
  threshold_runs R fuel permut ty thr counts i c2 = Ok (l, c2).
Proof.
  revert i c l c' c2. induction counts as [|n counts IH]; intros i c l c' c2; cbn [threshold_runs].
  - intros H. inversion H. reflexivity.
  - assert (E : match thr with Some t => negb (t =? 0) && (t <? Z.of_nat n) | None => false end = false).
    { apply no_threshold_iff in Hthr as [->| ->]; reflexivity. }
    rewrite E. cbn [bind fst snd]. intros H. apply bind_ok in H as ([l1 c1] & H1 & H). inversion H; subst.
    rewrite (IH _ _ _ _ c2 H1). reflexivity.
Qed.

Lemma on_across_triplets_shift T b v k block sc c o c' c2 :
  on_across_triplets enum argsort R fuel T thr b v k block sc c = Ok (o, c') ->
  on_across_triplets enum argsort R fuel T thr b v k block sc c2 = Ok (o, c2).
Proof.
  unfold on_across_triplets. intros H. apply bind_ok in H as (d & -> & H). cbn [bind].
  apply bind_ok in H as (Ar & -> & H). cbn [bind]. apply bind_ok in H as (Br & -> & H). cbn [bind].
  apply bind_ok in H as (Xr & -> & H). cbn [bind]. apply bind_ok in H as ([[[p idx] ts] c1] & Hs & H).
  assert (E : sort_design argsort R fuel thr d Br Xr c2 = Ok (p, idx, ts, c2)).
  { unfold sort_design in *. apply bind_ok in Hs as (Bc & -> & Hs). cbn [bind]. apply bind_ok in Hs as (Xc & -> & Hs). cbn [bind].
    destruct (Bc ++ Xc) as [|x l]; [inversion Hs; reflexivity|].
    destruct (d_triplets d) as [|t ts0]; [inversion Hs; reflexivity|].
    apply bind_ok in Hs as (ty & -> & Hs). cbn [bind]. apply bind_ok in Hs as ([[p1 i1] c3] & Hr & Hs).
    unfold sort_and_threshold in *. apply bind_ok in Hr as (si & -> & Hr). cbn [bind].
    apply bind_ok in Hr as ([l1 c4] & Hl & Hr). apply threshold_runs_shift with (c2 := c2) in Hl.
    rewrite Hl. cbn [bind fst snd] in *. inversion Hr; subst. apply bind_ok in Hs as (ts' & -> & Hs).
    inversion Hs; subst. reflexivity. }
  rewrite E. cbn [bind]. destruct (r_ABX (t_regressors T)); [discriminate|].
  apply bind_ok in H as (regs & -> & H). inversion H; subst. reflexivity.
Qed.

Lemma compute_shift T b c outs c' c2 :
  compute_triplets korder enum argsort R fuel T thr b c = Ok (outs, c') ->
  compute_triplets korder enum argsort R fuel T thr b c2 = Ok (outs, c2).
Proof.
  unfold compute_triplets, groups. intros H. apply bind_ok in H as (bv & -> & H). cbn [bind].
  revert H. generalize (@nil block_out). generalize (korder (keys (t_on T :: t_across T) (map snd (b_frame b)))).
  intros ks. revert c c'. induction ks as [|k ks IH]; intros c c' acc; cbn [map foldM].
  - intros H. inversion H. reflexivity.
  - intros H. apply bind_ok in H as ([o1 c1] & H1 & H).
    assert (E : block_step enum argsort R fuel T thr b (scalar_regressors (r_by (t_regressors T)) bv) (acc, c2)
                  (k, group (t_on T :: t_across T) (b_frame b) k) = Ok (o1, c2)).
    { unfold block_step in *. apply bind_ok in H1 as (l0 & -> & H1). cbn [bind].
      apply bind_ok in H1 as (v & -> & H1). cbn [bind]. destruct (f_oab (t_filters T) v).
      - apply bind_ok in H1 as ([o c3] & Ho & H1). rewrite (on_across_triplets_shift _ _ _ _ _ _ _ c2 Ho).
        inversion H1; subst. reflexivity.
      - inversion H1; subst. reflexivity. }
    rewrite E. cbn [bind]. eapply IH. exact H.
Qed.

End Shift.

Section Main.
Variable korder : list key -> list key.
Variable enum : list Z -> list Z.
Variable argsort : list Z -> list nat.
Variable R : rng.
Variable fuel : nat.
Hypothesis korder_ok : lists_keys korder.
Hypothesis enum_ok : lists_set enum.
Hypothesis argsort_ok : argsort_spec argsort.

(** Nothing raises on a prepared by group. *)
Section Total.
Variable T : task.
Hypothesis Hac : t_across T <> [].
Variable b : by_block.
Hypothesis wf : wf_block b.
Hypothesis al : aligned (b_frame b).
Hypothesis small : Zlen (b_frame b) * Zlen (b_frame b) * Zlen (b_frame b) < 2 ^ 64.

Lemma compute_total thr c :
  no_threshold thr -> b_frame b <> [] -> r_ABX (t_regressors T) = false ->
  exists r, compute_triplets korder enum argsort R fuel T thr b c = Ok r.
Proof.
  intros Ht Hne HG. unfold compute_triplets, groups.
  assert (exists bv, iloc (b_frame b) 0 = Ok bv) as (bv & ->).
  { unfold iloc. cbn. destruct (b_frame b) as [|p fr]; [congruence|]. cbn. eauto. }
  cbn [bind].
  assert (Hks : incl (korder (keys (t_on T :: t_across T) (map snd (b_frame b)))) (keys (t_on T :: t_across T) (map snd (b_frame b)))).
  { intros k. apply Permutation_in, korder_ok. }
  revert Hks. generalize (@nil block_out). generalize (korder (keys (t_on T :: t_across T) (map snd (b_frame b)))).
  intros ks. revert c. induction ks as [|k ks IH]; intros c acc Hks; cbn [map foldM]; [eauto|].
  assert (Hk : In k (keys (t_on T :: t_across T) (map snd (b_frame b)))) by (apply Hks; left; reflexivity).
  assert (exists r, block_step enum argsort R fuel T thr b (scalar_regressors (r_by (t_regressors T)) bv) (acc, c)
                  (k, group (t_on T :: t_across T) (b_frame b) k) = Ok r) as ([acc1 c1] & E).
  { unfold block_step. destruct (block_val_ok _ _ al _ Hk) as (l & v & Hv & _). unfold block_val in Hv.
    apply bind_ok in Hv as (l0 & -> & Hv). cbn [bind]. rewrite Hv. cbn [bind].
    destruct (f_oab (t_filters T) v); [|eauto]. unfold on_across_triplets.
    destruct (block_design_total _ enum_ok _ wf v _ Hac Hk small) as (d & Hd). rewrite Hd. cbn [bind].
    destruct (block_design_ok _ enum_ok _ wf _ _ Hac Hk Hd) as (Hts & A & B & X & Hdk & IA & IB & IX).
    rewrite (dk_A Hdk), (dk_B Hdk), (dk_X Hdk). rewrite !(item_regressors_ok wf) by assumption. cbn [bind].
    rewrite (sort_design_core argsort R fuel thr _ _ c Hdk).
    destruct (core_none_total R fuel argsort_ok (thr := thr) (d_triplets d)
       (gB b v (r_B (t_regressors T)) ++ gX b v (r_X (t_regressors T))) c Ht) as ([[[p idx] ts'] c2] & Hc).
    { apply fit_ok_unsigned. eapply Z.le_lt_trans; [apply (proj2 (cast_range I64 _))|reflexivity]. }
    rewrite Hc. cbn [bind]. rewrite HG.
    pose proof (core_applied _ _ _ _ _ _ _ Hc) as Ha.
    destruct (compute_regressors_ok (length ts') (scalar_regressors (r_by (t_regressors T)) bv ++ scalar_regressors (r_oab (t_regressors T)) v)
       (r_A (t_regressors T)) (r_B (t_regressors T)) (r_X (t_regressors T)) Hdk Ha) as (As & E1 & E2).
    rewrite E1. cbn [bind fst snd]. eauto. }
  rewrite E. cbn [bind]. apply IH. intros x Hx. apply Hks. right. exact Hx.
Qed.

Lemma stats_total ap : exists st, stats_by korder enum T ap b = Ok st.
Proof.
  unfold stats_by.
  assert (Hks : incl (korder (keys (t_on T :: t_across T) (map snd (b_frame b)))) (keys (t_on T :: t_across T) (map snd (b_frame b)))).
  { intros k. apply Permutation_in, korder_ok. }
  match goal with |- exists st, foldM _ _ ?s = _ => generalize s end. unfold groups.
  revert Hks. generalize (korder (keys (t_on T :: t_across T) (map snd (b_frame b)))).
  intros ks. induction ks as [|k ks IH]; intros Hks st; cbn [map foldM]; [eauto|].
  assert (Hk : In k (keys (t_on T :: t_across T) (map snd (b_frame b)))) by (apply Hks; left; reflexivity).
  assert (exists r, stats_step enum T ap b st (k, group (t_on T :: t_across T) (b_frame b) k) = Ok r) as (st1 & E).
  { unfold stats_step. destruct (block_val_ok _ _ al _ Hk) as (l & v & Hv & _). unfold block_val in Hv.
    apply bind_ok in Hv as (l0 & -> & Hv). cbn [bind]. rewrite Hv. cbn [bind].
    destruct (f_oab (t_filters T) v); [|eauto].
    destruct ((ap || negb (has_item_filters (t_filters T))) && negb (1 <? length (skipn 1 k))%nat); [cbn [bind]; eauto|].
    unfold on_across_triplets_only. destruct (block_design_total _ enum_ok _ wf v _ Hac Hk small) as (d & Hd).
    rewrite Hd. cbn [bind]. eauto. }
  rewrite E. cbn [bind]. apply IH. intros x Hx. apply Hks. right. exact Hx.
Qed.

End Total.

Variable T : task.
Variable cols : list string.
Variable db : list row.
Variable T' : task.
Variable bs : list by_block.
Variable st : stats.

Hypothesis rd : reads cols (t_filters T).
Hypothesis dt : determined T db.
Hypothesis kf : kept_first T db.

Section Init.
Hypothesis init : task_init korder enum T cols db = Ok (T', bs, st).

Lemma init_inv :
  check_database cols (t_on T) (t_across T) (t_by T) = Ok tt /\
  T' = fst (with_dummies T db) /\
  prepare_database korder T' (snd (with_dummies T db)) = Ok bs /\
  compute_statistics korder enum T' false bs = Ok st.
Proof.
  unfold task_init in init. pose proof init as H. apply bind_ok in H as (u & Hu & H). destruct u.
  split; [exact Hu|]. destruct (with_dummies T db) as [T1 db1] eqn:E. cbn [fst snd].
  apply bind_ok in H as (bs1 & Hb & H). apply bind_ok in H as (st1 & Hs & H). inversion H; subst. auto.
Qed.

Lemma T'_ne : t_across T' <> [].
Proof. destruct init_inv as (Hc & -> & _). apply (T'_across_ne _ _ _ Hc). Qed.

Lemma bs_wf : map b_key bs = kept_keys korder T' (snd (with_dummies T db)) /\
  forall b, In b bs -> wf_block b /\ b_frame b <> [].
Proof.
  destruct init_inv as (_ & _ & Hp & _).
  apply (prepare_ok korder_ok) in Hp as [E F]. split; [exact E|]. intros b Hb.
  rewrite Forall_forall in F. destruct (F b Hb) as (Hw & _ & Hne). auto.
Qed.

Lemma bs_inv : map b_key bs = kept_keys korder T' (snd (with_dummies T db)) /\
  forall b, In b bs -> wf_block b /\ aligned (b_frame b) /\ b_frame b <> [] /\
     b_frame b = kept_frame T' (snd (with_dummies T db)) (b_key b) /\
     by_kept T' (snd (with_dummies T db)) (b_key b) = true /\ block_det T' b.
Proof.
  destruct init_inv as (Hc & ET & Hp & _). subst T'.
  apply (prepare_ok korder_ok) in Hp as [E F]. split; [exact E|]. intros b Hb.
  rewrite Forall_forall in F. destruct (F b Hb) as (Hw & Ef & Hne).
  split; [exact Hw|]. split; [apply (frame_aligned Hc rd dt _ _ Ef kf)|]. split; [exact Hne|].
  split; [exact Ef|]. split; [|apply (det Hc rd dt _ _ Ef)].
  assert (Hk : In (b_key b) (map b_key bs)) by (apply in_map; exact Hb).
  rewrite E in Hk. apply (In_kept_keys korder_ok) in Hk. tauto.
Qed.

Lemma keys_NoDup : NoDup (map b_key bs).
Proof. rewrite (proj1 bs_wf). apply kept_keys_NoDup. exact korder_ok. Qed.

Local Notation blist := (by_list korder enum T').

Lemma blist_In b a b' x : In b bs -> (In (a, b', x) (blist b) <-> wanted T db (b_key b) a b' x).
Proof.
  intros Hb. destruct (proj2 bs_inv b Hb) as (Hw & Ha & _ & Ef & Hk & Hd).
  rewrite (by_list_In korder_ok enum_ok T'_ne Hw Ha a b' x Hd).
  destruct init_inv as (Hc & ET & _). revert Ef Hk. rewrite ET. intros Ef Hk. apply (wanted_in_iff Hc rd dt _ _ Ef _ _ _ Hk).
Qed.

Lemma blist_NoDup b : In b bs -> NoDup (blist b).
Proof.
  intros Hb. destruct (proj2 bs_wf b Hb) as (Hw & _). apply (by_list_NoDup korder_ok enum_ok _ T'_ne Hw).
Qed.

Lemma wanted_key k a b' x : wanted T db k a b' x -> exists b, In b bs /\ b_key b = k.
Proof.
  intros (ra & rb & rx & Ha & _ & _ & _ & Hp & _).
  destruct init_inv as (Hc & ET & _).
  assert (Hk : In k (map b_key bs)).
  { rewrite (proj1 bs_inv). apply (In_kept_keys korder_ok). subst T'.
    apply (item_ig _ _ _ Hc) in Ha as (L & g & N). split; [apply (key_in _ _ _ Hc _ _ N)|]. rewrite (by_kept_iff Hc rd dt _ _ N). exact Hp. }
  apply in_map_iff in Hk as (b & E & Hb). eauto.
Qed.

(* ------------------------------------------------------------------ *)
(** ** Statistics *)

Lemma stats_inv :
  exists sts, mapM (stats_by korder enum T' false) bs = Ok sts /\
    s_by st = sts /\ s_nb_by_levels st = Zlen bs /\ s_nb_triplets st = sumZ (map st_nb_triplets sts) /\
    s_nb_blocks st = sumZ (map st_nb_on_across_levels sts) /\
    s_approximate_nb_triplets st = false.
Proof.
  destruct init_inv as (_ & _ & _ & H). unfold compute_statistics in H. apply bind_ok in H as (sts & Hs & H).
  exists sts. split; [exact Hs|]. inversion H; subst. cbn. repeat split.
Qed.

Lemma sts_inv : Forall2 (fun b s => stats_by korder enum T' false b = Ok s) bs (s_by st).
Proof.
  destruct stats_inv as (sts & H & -> & _). apply mapM_forall2. exact H.
Qed.

Lemma nb_triplets_sum : s_nb_triplets st = sumZ (map (fun b => Zlen (blist b)) bs).
Proof.
  destruct stats_inv as (sts & Hm & E & _ & -> & _). pose proof sts_inv as F. rewrite E in F. clear E Hm.
  assert (Hw : forall b, In b bs -> wf_block b) by (intros b Hb; apply (proj2 bs_wf b Hb)).
  revert F Hw. generalize T'_ne. clear -korder_ok enum_ok. intros Hne F Hw.
  induction F as [|b s bs sts H F IH]; [reflexivity|]. cbn [map sumZ].
  destruct (stats_by_ok korder_ok enum_ok _ Hne (Hw b (or_introl eq_refl)) H) as (E & _).
  unfold sumZ in *. cbn [fold_right]. rewrite E, IH; [reflexivity|]. intros b' Hb'. apply Hw. right. exact Hb'.
Qed.

Definition tagged : list (key * triplet) := flat_map (fun b => map (pair (b_key b)) (blist b)) bs.

Lemma tagged_length : Zlen tagged = s_nb_triplets st.
Proof.
  rewrite nb_triplets_sum. unfold tagged. clear. induction bs as [|b bs0 IH]; [reflexivity|].
  cbn [flat_map map sumZ fold_right] in *. rewrite Zlen_app. unfold sumZ in IH. rewrite IH.
  f_equal. unfold Zlen. rewrite map_length. reflexivity.
Qed.

Lemma tagged_In k a b' x : In (k, (a, b', x)) tagged <-> wanted T db k a b' x.
Proof.
  unfold tagged. rewrite in_flat_map. split.
  - intros (b & Hb & H). apply in_map_iff in H as (t & E & H). inversion E; subst. apply blist_In; assumption.
  - intros H. destruct (wanted_key H) as (b & Hb & E). exists b. split; [exact Hb|]. subst k.
    apply in_map. apply blist_In; assumption.
Qed.

Lemma tagged_NoDup : NoDup tagged.
Proof.
  unfold tagged. pose proof keys_NoDup as HN. pose proof blist_NoDup as HB. clear -HN HB.
  induction bs as [|b bs0 IH]; cbn; [constructor|]. cbn in HN. apply NoDup_cons_iff in HN as [H1 H2].
  apply NoDup_app_intro.
  - apply FinFun.Injective_map_NoDup; [intros u v E; congruence|]. apply HB. left. reflexivity.
  - apply IH; [exact H2|]. intros b' Hb'. apply HB. right. exact Hb'.
  - intros [k t] Ht Ht'. apply in_map_iff in Ht as (t0 & E & _). inversion E; subst.
    apply in_flat_map in Ht' as (b' & Hb' & Ht'). apply in_map_iff in Ht' as (t1 & E' & _).
    apply H1. apply in_map_iff. exists b'. split; [congruence|exact Hb'].
Qed.

Theorem announced_count (L : list (key * triplet)) :
  NoDup L -> (forall k a b x, In (k, (a, b, x)) L <-> wanted T db k a b x) ->
  s_nb_triplets st = Zlen L.
Proof.
  intros HN HI. rewrite <- tagged_length. unfold Zlen. f_equal. apply Permutation_length, NoDup_Permutation.
  - apply tagged_NoDup.
  - exact HN.
  - intros [k [[a b] x]]. rewrite tagged_In, HI. reflexivity.
Qed.

(** The count of a by. *)
Theorem announced_count_by (l : list triplet) i b s :
  nth_error bs i = Some b -> nth_error (s_by st) i = Some s ->
  lists_exactly T db (b_key b) l -> st_nb_triplets s = Zlen l.
Proof.
  intros Hb Hs [HN HI].
  assert (H : stats_by korder enum T' false b = Ok s).
  { pose proof sts_inv as F. clear -F Hb Hs. revert i Hb Hs.
    induction F as [|b0 s0 bs0 sts0 H F IH]; intros [|i]; cbn; try discriminate.
    - intros E1 E2. inversion E1; inversion E2; subst. exact H.
    - apply IH. }
  apply nth_error_In in Hb. pose proof (proj2 bs_wf b Hb) as (Hw & _).
  destruct (stats_by_ok korder_ok enum_ok _ T'_ne Hw H) as (E & _). rewrite E. unfold Zlen. f_equal.
  apply Permutation_length, NoDup_Permutation; [apply blist_NoDup; exact Hb|exact HN|].
  intros [[a b'] x]. rewrite blist_In by exact Hb. rewrite HI. reflexivity.
Qed.

Theorem block_size (l : list triplet) i b s bk n :
  t_across T <> [] -> nth_error bs i = Some b -> nth_error (s_by st) i = Some s ->
  In (bk, n) (st_block_sizes s) -> lists_block T db (b_key b) bk l -> n = Zlen l.
Proof.
  intros Hne Hb Hs Hin [HN HI].
  assert (H : stats_by korder enum T' false b = Ok s).
  { pose proof sts_inv as F. clear -F Hb Hs. revert i Hb Hs.
    induction F as [|b0 s0 bs0 sts0 H F IH]; intros [|i]; cbn; try discriminate.
    - intros E1 E2. inversion E1; inversion E2; subst. exact H.
    - apply IH. }
  apply nth_error_In in Hb. pose proof (proj2 bs_inv b Hb) as (Hw & Ha & _ & Ef & Hk & Hd).
  destruct (stats_by_ok korder_ok enum_ok _ T'_ne Hw H) as (_ & E & _). rewrite E in Hin.
  apply in_map_iff in Hin as (k & Ek & Hin). injection Ek as <- <-.
  apply (In_by_keys korder_ok) in Hin.
  unfold Zlen. f_equal. apply Permutation_length, NoDup_Permutation; [apply (block_list_NoDup enum_ok _ T'_ne Hw); exact Hin|exact HN|].
  intros [[a b'] x]. rewrite HI. rewrite (block_list_In enum_ok T'_ne Hw Ha _ a b' x Hd Hin).
  rewrite <- (blist_In _ a b' x Hb). rewrite (by_list_In korder_ok enum_ok T'_ne Hw Ha a b' x Hd).
  destruct init_inv as (Hc & ET & _).
  assert (EA : t_on T' :: t_across T' = t_on T :: t_across T).
  { rewrite ET. unfold with_dummies. cbn [fst t_on t_across]. destruct (t_across T); congruence. }
  destruct (check_inv _ _ Hc) as (C1 & C2 & _).
  assert (P : forall g r, proj (t_on T :: t_across T) (ext T (g, r)) = map r (t_on T :: t_across T)).
  { intros g r. apply map_ext_in. intros c Hcin. apply (ext_agree _ _ Hc (g, r)). destruct Hcin as [<-|Hcin]; [exact C1|apply C2; exact Hcin]. }
  rewrite EA. subst T'. split.
  - intros (ra & Hra & Ep & Hwt). split; [exact Hwt|].
    apply (frame_In Hc rd dt _ _ Ef) in Hra as (g & r & H0 & Hn & -> & _). exists r.
    split; [apply (item_ig _ _ _ Hc); eauto|]. rewrite <- (P g r). exact Ep.
  - intros (Hwt & r & Hir & Er). pose proof Hwt as Hwt'. destruct Hwt' as (ra & _ & _ & Hra & _).
    exists ra. split; [exact Hra|]. split; [|exact Hwt].
    apply (frame_In Hc rd dt _ _ Ef) in Hra as (g & r' & H0 & Hn & -> & _). rewrite P.
    apply (item_ig _ _ _ Hc) in Hir as (_ & g' & Hn'). congruence.
Qed.

(* ------------------------------------------------------------------ *)
(** ** The file *)

Section File.
Variable thr : option Z.
Variable c : nat.
Variable bs' : list by_block.
Variable f : task_file.
Hypothesis gen : generate_triplets korder enum argsort R fuel T' thr bs st c = Ok (bs', Some f).

Lemma block_result_incl b byr k c0 os c1 : wf_block b ->
  In k (keys (t_on T' :: t_across T') (map snd (b_frame b))) ->
  block_result enum argsort R fuel T' b thr byr k c0 os c1 ->
  incl (all_triplets os) (block_list enum T' b k).
Proof.
  intros Hw Hk (v & Hv & H). unfold block_list. rewrite Hv.
  destruct H as [(E & -> & _)|(E & o & -> & Ho)]; rewrite E; [intros x []|].
  apply (on_across_triplets_ok _ _ _ enum_ok _ T'_ne Hw) in Ho; [|exact Hk]. destruct Ho as (_ & p & Hc & _).
  unfold all_triplets. cbn. rewrite app_nil_r. apply core_applied in Hc.
  destruct Hc as [(_ & _ & ->)|(_ & Hg)]; [apply incl_refl|].
  intros t Ht. apply In_nth_error in Ht as (n & Hn).
  unfold gather in Hg. apply mapM_forall2 in Hg.
  apply (fun F => Forall2_in_l (Forall2_flip F)) with (1 := Hg) in Ht || idtac.
  revert n Hn. induction Hg as [|i y l l' E' F IH]; intros n Hn; [destruct n; discriminate|].
  destruct n as [|n]; cbn in Hn.
  - inversion Hn; subst. unfold nth_res in E'. destruct (nth_error _ i) eqn:E2; inversion E'; subst.
    eapply nth_error_In. exact E2.
  - eapply IH. exact Hn.
Qed.

Lemma compute_incl b c0 outs c1 : In b bs ->
  compute_triplets korder enum argsort R fuel T' thr b c0 = Ok (outs, c1) -> incl (all_triplets outs) (blist b).
Proof.
  intros Hb H. destruct (proj2 bs_wf b Hb) as (Hw & _).
  apply compute_triplets_ok in H as (bv & _ & H). unfold by_list.
  assert (Hks : incl (korder (keys (t_on T' :: t_across T') (map snd (b_frame b)))) (keys (t_on T' :: t_across T') (map snd (b_frame b)))).
  { intros k. apply Permutation_in, korder_ok. }
  revert c0 outs H Hks. generalize (korder (keys (t_on T' :: t_across T') (map snd (b_frame b)))). intros ks.
  induction ks as [|k ks IH]; cbn [chain flat_map]; intros c0 outs H Hks.
  - destruct H as [-> _]. intros x [].
  - destruct H as (o1 & c2 & o2 & H1 & H2 & ->). unfold all_triplets. rewrite map_app, concat_app.
    apply incl_app.
    + apply incl_appl. apply (block_result_incl Hw (Hks _ (or_introl eq_refl)) H1).
    + apply incl_appr. apply (IH _ _ H2). intros x Hx. apply Hks. right. exact Hx.
Qed.

(** Rows of the file for each by. *)
Lemma file_inv :
  exists outss c' t,
    chain_by korder enum argsort R fuel T' thr bs c outss c' /\
    fit_integer_type (s_nb_triplets st) true = Ok t /\
    tiles 0 (Zlen (fl_triplets f)) (fl_by_index f) /\
    NoDup (fl_bys f) /\
    Forall2 (fun k ij => exists b outs, In (b, outs) (combine bs outss) /\ b_key b = k /\
               all_triplets outs <> [] /\
               rows_of ij (fl_triplets f) = map (cast3 t) (all_triplets outs)) (fl_bys f) (fl_by_index f) /\
    forall b outs, In (b, outs) (combine bs outss) -> all_triplets outs <> [] -> In (b_key b) (fl_bys f).
Proof.
  destruct (generate_ok _ _ _ _ _ _ _ _ _ _ gen) as (_ & outss & c' & Hch & F & _).
  destruct F as [(t & Ht & Ft) Fb Fi _ _ _].
  exists outss, c', t. split; [exact Hch|]. split; [exact Ht|].
  assert (HL : length bs = length outss).
  { apply chain_by_each in Hch. apply Forall2_len in Hch. exact Hch. }
  set (N := filter full (named bs outss)) in *.
  assert (HN : Forall (fun l => l <> []) (map (fun p => all_triplets (snd p)) N)).
  { apply Forall_map, Forall_forall. intros p Hp. apply filter_In in Hp as [_ Hp]. unfold full in Hp.
    destruct (all_triplets (snd p)); [discriminate|congruence]. }
  split; [|split; [|split]].
  - rewrite Fi, Ft. pose proof (pairs_tiles 0 HN) as H. cbn [Z.add] in H.
    unfold Zlen at 1. rewrite map_length. exact H.
  - rewrite Fb. unfold N. pose proof keys_NoDup as HD. unfold named.
    apply (NoDup_map_filter fst). 
    assert (E : map fst (combine (map b_key bs) outss) = map b_key bs).
    { clear -HL. revert outss HL. induction bs as [|b bs0 IH]; intros [|o outss]; cbn; try discriminate; auto.
      intros HL. f_equal. apply IH. lia. }
    rewrite E. exact HD.
  - rewrite Fb, Fi, Ft.
    pose proof (pairs_rows (map (fun p => all_triplets (snd p)) N) [] []) as H. rewrite app_nil_r in H. cbn [app] in H.
    change (Zlen []) with 0 in H.
    assert (Hin : forall p, In p N -> In p (named bs outss) /\ all_triplets (snd p) <> []).
    { intros p Hp. unfold N in Hp. apply filter_In in Hp as [Hp Hf]. split; [exact Hp|]. unfold full in Hf.
      destruct (all_triplets (snd p)); [discriminate|congruence]. }
    revert H. generalize (concat (map (fun p : key * list block_out => all_triplets (snd p)) N)).
    generalize (pairs_of_bounds (0 :: cum 0 (map (fun p : key * list block_out => all_triplets (snd p)) N))).
    revert Hin. clearbody N. clear -HL. induction N as [|[k outs] N IH]; intros Hin l tr H; cbn [map] in *; inversion H; subst; constructor.
    + destruct (Hin _ (or_introl eq_refl)) as [Hn Hne]. cbn [snd fst] in *.
      destruct (In_named _ _ _ _ Hn HL) as (b & Hb & E). exists b, outs.
      split; [exact Hb|]. split; [exact E|]. split; [exact Hne|]. rewrite rows_of_map; congruence.
    + apply IH; [|assumption]. intros p Hp. apply Hin. right. exact Hp.
  - intros b outs Hin Hne. rewrite Fb. apply in_map_iff. exists (b_key b, outs). split; [reflexivity|].
    apply filter_In. split.
    + unfold named. clear -Hin. revert outss Hin. induction bs as [|b0 bs0 IH]; intros [|o outss]; cbn; try tauto.
      intros [E|H]; [inversion E; subst; left; reflexivity|right; apply IH; exact H].
    + unfold full. cbn [snd]. destruct (all_triplets outs); [congruence|reflexivity].
Qed.

Lemma combine_compute outss c' b outs :
  chain_by korder enum argsort R fuel T' thr bs c outss c' -> In (b, outs) (combine bs outss) ->
  In b bs /\ exists c0 c1, compute_triplets korder enum argsort R fuel T' thr b c0 = Ok (outs, c1).
Proof.
  intros Hch Hin. split; [eapply in_combine_l; exact Hin|]. apply chain_by_each in Hch.
  clear -Hch Hin. induction Hch as [|b0 o0 bs0 os0 H F IH]; [destruct Hin|].
  destruct Hin as [E|Hin]; [inversion E; subst; exact H|auto].
Qed.

Lemma perm_blist outss c' b outs :
  no_threshold thr -> chain_by korder enum argsort R fuel T' thr bs c outss c' ->
  In (b, outs) (combine bs outss) -> In b bs /\ Permutation (all_triplets outs) (blist b).
Proof.
  intros Hn Hch Hin. destruct (combine_compute _ _ _ _ Hch Hin) as (Hb & c0 & c1 & Hc). split; [exact Hb|].
  destruct (proj2 bs_wf b Hb) as (Hw & _).
  apply (compute_triplets_none R fuel korder_ok enum_ok argsort_ok _ T'_ne Hw) in Hc; [|exact Hn]. apply Hc.
Qed.

(** The announced numbers are those of the rows, whatever the filters do. *)
Theorem rows_announced :
  no_threshold thr ->
  Zlen (fl_triplets f) = s_nb_triplets st /\
  (forall k i j, In (k, (i, j)) (combine (fl_bys f) (fl_by_index f)) ->
     exists n b s, nth_error bs n = Some b /\ nth_error (s_by st) n = Some s /\ b_key b = k /\
       st_nb_triplets s = j - i) /\
  (forall n b s, nth_error bs n = Some b -> nth_error (s_by st) n = Some s -> ~ In (b_key b) (fl_bys f) ->
     st_nb_triplets s = 0).
Proof.
  intros Hn. split.
  { destruct (generate_ok _ _ _ _ _ _ _ _ _ _ gen) as (_ & outss2 & c2 & Hch2 & [(t2 & _ & Ft) _ _ _ _ _] & _).
    rewrite Ft. unfold Zlen at 1. rewrite map_length, <- concat_full, nb_triplets_sum.
    assert (HP2 : forall b outs, In (b, outs) (combine bs outss2) -> Permutation (all_triplets outs) (blist b))
      by (intros b outs Hin; apply (perm_blist _ _ _ _ Hn Hch2 Hin)).
    assert (HL : length bs = length outss2) by (apply chain_by_each, Forall2_len in Hch2; exact Hch2).
    clear -HP2 HL. unfold named. revert outss2 HP2 HL.
    induction bs as [|b bs0 IH]; intros [|o outss2] HP2 HL; try discriminate; [reflexivity|].
    cbn [map combine concat snd sumZ fold_right length In] in *.
    rewrite app_length, Nat2Z.inj_add. unfold sumZ in IH. rewrite IH; [|intros; apply HP2; right; assumption|lia].
    rewrite (Permutation_length (HP2 b o (or_introl eq_refl))). reflexivity. }
  destruct file_inv as (outss & c' & t & Hch & Ht & Hti & HD & F & Hall).
  assert (HS : forall n b s, nth_error bs n = Some b -> nth_error (s_by st) n = Some s -> st_nb_triplets s = Zlen (blist b)).
  { intros n b s Hb Hs. assert (H : stats_by korder enum T' false b = Ok s).
    { pose proof sts_inv as FF. clear -FF Hb Hs. revert n Hb Hs.
      induction FF as [|b0 s0 bs0 sts0 H F IH]; intros [|n]; cbn; try discriminate.
      - intros E1 E2. inversion E1; inversion E2; subst. exact H.
      - apply IH. }
    apply nth_error_In in Hb. pose proof (proj2 bs_wf b Hb) as (Hw & _).
    apply (stats_by_ok korder_ok enum_ok _ T'_ne Hw H). }
  assert (HLs : length bs = length (s_by st)) by (apply (Forall2_len sts_inv)).
  split.
  - intros k i j Hin. pose proof F as F0. apply Forall2_combine in F0 as [_ F0].
    destruct (F0 _ _ Hin) as (b & outs & Hbo & E & _ & Er).
    destruct (perm_blist _ _ _ _ Hn Hch Hbo) as [Hb P].
    apply In_nth_error in Hb as (n & Hb).
    assert (exists s, nth_error (s_by st) n = Some s) as (s & Hs).
    { assert ((n < length bs)%nat) by (apply nth_error_Some; congruence).
      destruct (nth_error (s_by st) n) eqn:En; [eauto|]. apply nth_error_None in En. lia. }
    exists n, b, s. split; [exact Hb|]. split; [exact Hs|]. split; [exact E|].
    rewrite (HS _ _ _ Hb Hs). unfold Zlen. rewrite <- (Permutation_length P).
    apply (f_equal (@length _)) in Er. rewrite map_length in Er. rewrite <- Er.
    apply in_combine_r in Hin. clear -Hti Hin. unfold rows_of. cbn [fst snd].
    assert (H : forall l s e, tiles s e l -> 0 <= s -> In (i, j) l -> 0 <= i /\ i < j /\ j <= e).
    { intros l. induction l as [|[i0 j0] l IH]; cbn [tiles In]; intros s e Ht H0 [].
      - inversion H; subst. destruct Ht as (-> & H1 & H2).
        assert (G : forall l s e, tiles s e l -> s <= e).
        { clear. induction l as [|[i j] l IH]; cbn; intros s e; [lia|]. intros (-> & H1 & H2). apply IH in H2. lia. }
        apply G in H2. lia.
      - destruct Ht as (-> & H1 & H2). apply (IH _ _ H2); [lia|exact H]. }
    destruct (H _ _ _ Hti ltac:(lia) Hin) as (H1 & H2 & H3).
    rewrite firstn_length, skipn_length. unfold Zlen in H3. lia.
  - intros n b s Hb Hs Hni. rewrite (HS _ _ _ Hb Hs).
    assert (exists outs, In (b, outs) (combine bs outss)) as (outs & Hin).
    { apply nth_error_In in Hb. assert (HL : length bs = length outss) by (apply chain_by_each, Forall2_len in Hch; exact Hch).
      clear -HL Hb. revert outss HL. induction bs as [|b0 bs0 IH]; intros [|o outss] HL; cbn in *; try discriminate; [destruct Hb|].
      destruct Hb as [->|Hb]; [eauto|]. destruct (IH Hb outss) as (outs & Ho); [lia|eauto]. }
    destruct (perm_blist _ _ _ _ Hn Hch Hin) as [_ P].
    destruct (all_triplets outs) as [|t0 l] eqn:El; [apply Permutation_nil in P; rewrite P; reflexivity|].
    exfalso. apply Hni, (Hall _ _ Hin). congruence.
Qed.

(** Rows of each by, up to the conversion to the type of the dataset. *)
Theorem rows_generated :
  no_threshold thr ->
  exists t, fit_integer_type (s_nb_triplets st) true = Ok t /\
    Forall2 (fun k ij => exists l, lists_exactly T db k l /\ rows_of ij (fl_triplets f) = map (cast3 t) l)
            (fl_bys f) (fl_by_index f).
Proof.
  intros Hn. destruct file_inv as (outss & c' & t & Hch & Ht & Hti & HD & F & Hall).
  exists t. split; [exact Ht|]. revert F; apply Forall2_impl. intros k ij (b & outs & Hin & E & _ & Er).
  exists (all_triplets outs). split; [|exact Er]. destruct (perm_blist _ _ _ _ Hn Hch Hin) as [Hb P]. subst k. split.
  - apply (Permutation_NoDup (Permutation_sym P)), blist_NoDup. exact Hb.
  - intros a b' x. rewrite <- (blist_In _ _ _ _ Hb). split; apply Permutation_in; [exact P|apply Permutation_sym; exact P].
Qed.

(** Whatever the threshold, the rows of a by are triplets of this by. *)
Theorem file_partition :
  storable T db (capacity (s_nb_triplets st)) ->
  tiles 0 (Zlen (fl_triplets f)) (fl_by_index f) /\ NoDup (fl_bys f) /\
  Forall2 (fun k ij => forall a b x, In (a, b, x) (rows_of ij (fl_triplets f)) -> wanted T db k a b x)
          (fl_bys f) (fl_by_index f).
Proof.
  intros Hs. destruct file_inv as (outss & c' & t & Hch & Ht & Hti & HD & F & _).
  split; [exact Hti|]. split; [exact HD|]. revert F; apply Forall2_impl.
  intros k ij (b & outs & Hin & E & _ & Er) a b' x H. rewrite Er in H.
  apply in_map_iff in H as ([[a0 b0] x0] & E0 & H).
  destruct (combine_compute _ _ _ _ Hch Hin) as (Hb & c0 & c1 & Hc).
  apply (compute_incl _ _ Hb Hc) in H. apply (blist_In _ _ _ _ Hb) in H. rewrite E in H.
  destruct (Hs _ _ _ _ H) as (S1 & S2 & S3).
  destruct H as (ra & rb & rx & Ia & Ib & Ix & H). destruct Ia as [Pa Ia], Ib as [Pb Ib], Ix as [Px Ix].
  cbn [cast3] in E0. rewrite !(fit_capacity _ Ht) in E0 by lia. inversion E0; subst.
  exists ra, rb, rx. unfold item. tauto.
Qed.

Theorem file_exact :
  no_threshold thr -> storable T db (capacity (s_nb_triplets st)) ->
  Forall2 (fun k ij => lists_exactly T db k (rows_of ij (fl_triplets f))) (fl_bys f) (fl_by_index f) /\
  (forall k, In k (fl_bys f) <-> exists a b x, wanted T db k a b x) /\
  Zlen (fl_triplets f) = s_nb_triplets st.
Proof.
  intros Hn Hs. destruct file_inv as (outss & c' & t & Hch & Ht & Hti & HD & F & Hall).
  assert (HP : forall b outs, In (b, outs) (combine bs outss) -> In b bs /\ Permutation (all_triplets outs) (blist b)).
  { intros b outs Hin. destruct (combine_compute _ _ _ _ Hch Hin) as (Hb & c0 & c1 & Hc). split; [exact Hb|].
    destruct (proj2 bs_wf b Hb) as (Hw & _).
    apply (compute_triplets_none R fuel korder_ok enum_ok argsort_ok _ T'_ne Hw) in Hc; [|exact Hn]. apply Hc. }
  split; [|split].
  - revert F; apply Forall2_impl. intros k ij (b & outs & Hin & E & _ & Er). rewrite Er.
    destruct (HP _ _ Hin) as [Hb P].
    assert (Em : map (cast3 t) (all_triplets outs) = all_triplets outs).
    { etransitivity; [|apply map_id]. apply map_ext_in. intros [[a b'] x] H.
      apply (Permutation_in _ P), (blist_In _ _ _ _ Hb) in H. destruct (Hs _ _ _ _ H) as (S1 & S2 & S3).
      destruct H as (ra & rb & rx & Ia & Ib & Ix & H). destruct Ia as [Pa Ia], Ib as [Pb Ib], Ix as [Px Ix].
      cbn [cast3]. rewrite !(fit_capacity _ Ht) by lia. reflexivity. }
    rewrite Em. subst k. split.
    + apply (Permutation_NoDup (Permutation_sym P)), blist_NoDup. exact Hb.
    + intros a b' x. rewrite <- (blist_In _ _ _ _ Hb). split; apply Permutation_in; [exact P|apply Permutation_sym; exact P].
  - intros k. split.
    + intros Hk. destruct (Forall2_in_l _ _ _ _ _ _ F Hk) as (ij & _ & b & outs & Hin & E & Hne & _).
      destruct (HP _ _ Hin) as [Hb P]. destruct (all_triplets outs) as [|[[a b'] x] l] eqn:El; [congruence|].
      exists a, b', x. subst k. apply (blist_In _ _ _ _ Hb), (Permutation_in _ P). left. reflexivity.
    + intros (a & b' & x & H). destruct (wanted_key H) as (b & Hb & E). subst k.
      assert (HL : length bs = length outss) by (apply chain_by_each, Forall2_len in Hch; exact Hch).
      assert (exists outs, In (b, outs) (combine bs outss)) as (outs & Hin).
      { clear -HL Hb. revert outss HL. induction bs as [|b0 bs0 IH]; intros [|o outss] HL; cbn in *; try discriminate; [destruct Hb|].
        destruct Hb as [->|Hb]; [eauto|]. destruct (IH Hb outss) as (outs & Ho); [lia|eauto]. }
      apply (Hall _ _ Hin). destruct (HP _ _ Hin) as [_ P]. intros En. rewrite En in P.
      apply (blist_In _ _ _ _ Hb) in H. apply Permutation_nil in P. rewrite P in H. destruct H.
  - destruct (generate_ok _ _ _ _ _ _ _ _ _ _ gen) as (_ & outss2 & c2 & Hch2 & [(t2 & _ & Ft) _ _ _ _ _] & _).
    rewrite Ft. unfold Zlen at 1. rewrite map_length, <- concat_full, nb_triplets_sum.
    assert (HP2 : forall b outs, In (b, outs) (combine bs outss2) -> Permutation (all_triplets outs) (blist b)).
    { intros b outs Hin. destruct (combine_compute _ _ _ _ Hch2 Hin) as (Hb & c0 & c1 & Hc).
      destruct (proj2 bs_wf b Hb) as (Hw & _).
      apply (compute_triplets_none R fuel korder_ok enum_ok argsort_ok _ T'_ne Hw) in Hc; [|exact Hn]. apply Hc. }
    assert (HL : length bs = length outss2) by (apply chain_by_each, Forall2_len in Hch2; exact Hch2).
    clear -HP2 HL. unfold named. revert outss2 HP2 HL.
    induction bs as [|b bs0 IH]; intros [|o outss2] HP2 HL; try discriminate; [reflexivity|].
    cbn [map combine concat snd sumZ fold_right length In] in *.
    rewrite app_length, Nat2Z.inj_add. unfold sumZ in IH. rewrite IH; [|intros; apply HP2; right; assumption|lia].
    rewrite (Permutation_length (HP2 b o (or_introl eq_refl))). reflexivity.
Qed.

End File.

Theorem generation_succeeds thr c :
  no_threshold thr -> r_ABX (t_regressors T) = false ->
  (forall b, In b bs -> Zlen (b_frame b) * Zlen (b_frame b) * Zlen (b_frame b) < 2 ^ 64) ->
  s_nb_triplets st < 2 ^ 63 -> s_nb_blocks st < 2 ^ 63 ->
  exists bs' of, generate_triplets korder enum argsort R fuel T' thr bs st c = Ok (bs', of) /\
    (of = None <-> s_nb_triplets st = 0).
Proof.
  intros Hn HG Hsm H1 H2. apply generate_total.
  - intros b c0 Hb. destruct (proj2 bs_inv b Hb) as (Hw & Ha & Hne & _).
    apply compute_total; auto; [apply T'_ne|]. destruct init_inv as (_ & -> & _). exact HG.
  - apply fit_ok_signed. exact H1.
  - apply fit_ok_signed. exact H2.
  - intros outss c' Hch. apply fit_ok_signed. eapply Z.le_lt_trans; [|exact H1].
    rewrite nb_triplets_sum.
    assert (HP2 : forall b outs, In (b, outs) (combine bs outss) -> Permutation (all_triplets outs) (blist b)).
    { intros b outs Hin. destruct (combine_compute _ _ _ _ _ _ Hch Hin) as (Hb & c0 & c1 & Hc).
      destruct (proj2 bs_wf b Hb) as (Hw & _).
      apply (compute_triplets_none R fuel korder_ok enum_ok argsort_ok _ T'_ne Hw) in Hc; [|exact Hn]. apply Hc. }
    assert (HL : length bs = length outss) by (apply chain_by_each, Forall2_len in Hch; exact Hch).
    clear -HP2 HL. unfold named. revert outss HP2 HL.
    induction bs as [|b bs0 IH]; intros [|o outss2] HP2 HL; try discriminate.
    cbn [map combine concat snd sumZ fold_right length In] in *.
    rewrite Zlen_app. unfold sumZ in IH. apply Z.add_le_mono.
    + unfold Zlen. rewrite (Permutation_length (HP2 b o (or_introl eq_refl))). lia.
    + apply IH; [intros; apply HP2; right; assumption|lia].
Qed.

End Init.
End Main.

(** The unfiltered task. *)
Lemma unfiltered_reads T cols : reads cols (t_filters (unfiltered T)).
Proof. constructor; cbn; intros; congruence || reflexivity. Qed.

Lemma unfiltered_determined T db : determined (unfiltered T) db.
Proof. constructor; cbn; intros; congruence || reflexivity. Qed.

Lemma unfiltered_kept_first T db : kept_first (unfiltered T) db.
Proof. intros k i j ri rj _ _ _ _. reflexivity. Qed.

Lemma wanted_filter T db k a b x :
  wanted T db k a b x <-> wanted (unfiltered T) db k a b x /\ accepted T db k a b x.
Proof.
  unfold wanted, accepted. split.
  - intros (ra & rb & rx & Ha & Hb & Hx & H1 & H2). split.
    + exists ra, rb, rx. split; [exact Ha|]. split; [exact Hb|]. split; [exact Hx|]. split; [exact H1|].
      repeat split.
    + exists ra, rb, rx. auto.
  - intros [(ra & rb & rx & Ha & Hb & Hx & H1 & _) (ra' & rb' & rx' & Ha' & Hb' & Hx' & H2)].
    assert (U : forall i r r', item (by_rows T db k) i r -> item (by_rows T db k) i r' -> r = r').
    { intros i r r' [_ E1] [_ E2]. congruence. }
    rewrite (U _ _ _ Ha' Ha), (U _ _ _ Hb' Hb), (U _ _ _ Hx' Hx) in H2.
    exists ra, rb, rx. auto.
Qed.

Section Filtered.
Variable korder : list key -> list key.
Variable enum : list Z -> list Z.
Variable argsort : list Z -> list nat.
Variable R : rng.
Variable fuel : nat.
Hypothesis korder_ok : lists_keys korder.
Hypothesis enum_ok : lists_set enum.
Hypothesis argsort_ok : argsort_spec argsort.
Variable T : task.
Variable cols : list string.
Variable db : list row.
Hypothesis rd : reads cols (t_filters T).
Hypothesis dt : determined T db.
Hypothesis kf : kept_first T db.

Theorem filter_commutes T1 bs1 st1 T0 bs0 st0 c1 c0 r1 r0 f1 f0 :
  task_init korder enum T cols db = Ok (T1, bs1, st1) ->
  task_init korder enum (unfiltered T) cols db = Ok (T0, bs0, st0) ->
  storable T db (capacity (s_nb_triplets st1)) -> storable (unfiltered T) db (capacity (s_nb_triplets st0)) ->
  generate_triplets korder enum argsort R fuel T1 None bs1 st1 c1 = Ok (r1, Some f1) ->
  generate_triplets korder enum argsort R fuel T0 None bs0 st0 c0 = Ok (r0, Some f0) ->
  forall k ij, In (k, ij) (combine (fl_bys f1) (fl_by_index f1)) ->
  exists ij0, In (k, ij0) (combine (fl_bys f0) (fl_by_index f0)) /\
    NoDup (rows_of ij (fl_triplets f1)) /\ NoDup (rows_of ij0 (fl_triplets f0)) /\
    forall a b x, In (a, b, x) (rows_of ij (fl_triplets f1)) <->
                  In (a, b, x) (rows_of ij0 (fl_triplets f0)) /\ accepted T db k a b x.
Proof.
  intros I1 I0 S1 S0 G1 G0 k ij Hin.
  destruct (file_exact R fuel korder_ok enum_ok argsort_ok rd dt kf I1 c1 G1 (or_introl eq_refl) S1) as (F1 & K1 & _).
  destruct (file_exact R fuel korder_ok enum_ok argsort_ok (unfiltered_reads T cols) (unfiltered_determined T db)
     (@unfiltered_kept_first T db) I0 c0 G0 (or_introl eq_refl) S0) as (F0 & K0 & _).
  apply Forall2_combine in F1 as [_ F1]. apply Forall2_combine in F0 as [L0 F0].
  destruct (F1 _ _ Hin) as [N1 M1].
  assert (Hk : In k (fl_bys f0)).
  { apply K0. pose proof (in_combine_l _ _ _ _ Hin) as Hk. apply K1 in Hk as (a & b & x & H).
    exists a, b, x. apply wanted_filter in H. apply H. }
  assert (exists ij0, In (k, ij0) (combine (fl_bys f0) (fl_by_index f0))) as (ij0 & Hin0).
  { clear -Hk L0. revert L0 Hk. generalize (fl_by_index f0). generalize (fl_bys f0). intros l.
    induction l as [|k0 l IH]; intros [|i0 l'] HL Hk; cbn in *; try discriminate; [destruct Hk|].
    destruct Hk as [->|Hk]; [eauto|]. destruct (IH l') as (ij & H); [lia|exact Hk|]. eauto. }
  destruct (F0 _ _ Hin0) as [N0 M0]. exists ij0. split; [exact Hin0|]. split; [exact N1|]. split; [exact N0|].
  intros a b x. rewrite M1, M0. apply wanted_filter.
Qed.

End Filtered.

(** The frames of the task hold the items of the table, at the position of their label. *)
Theorem frames_aligned korder enum (korder_ok : lists_keys korder) T cols db T' bs st :
  reads cols (t_filters T) -> determined T db -> kept_first T db ->
  task_init korder enum T cols db = Ok (T', bs, st) ->
  forall b l r, In b bs -> In (l, r) (b_frame b) ->
    iloc (b_frame b) l = Ok r /\ exists r0, item (by_rows T db (b_key b)) l r0 /\ agree cols r r0.
Proof.
  intros rd dt kf init b l r Hb Hin.
  destruct (proj2 (bs_inv _ korder_ok rd dt kf init) b Hb) as (Hw & Ha & _ & Ef & _).
  split; [apply (Ha _ _ Hin)|]. destruct (init_inv _ _ _ _ _ init) as (Hc & -> & _).
  apply (frame_In Hc rd dt _ _ Ef) in Hin as (g & r0 & H0 & Hn & -> & _). exists r0.
  split; [apply (item_ig _ _ _ Hc); eauto|]. exact (ext_agree _ _ Hc (g, r0)).
Qed.
