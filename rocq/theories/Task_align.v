(** Lemmas: the regressors and the thresholded triplets of a task file. *)
From Coq Require Import String.
From Verif Require Import Prelude ListFacts TypeFitting TypeFitting_spec TypeFitting_proofs
  Sampler Sampler_spec Sampler_proofs Task Task_spec Task_blocks Task_sort Task_regs Task_gen Task_file
  Task_proofs Task_main Task_reg_spec.
Set Implicit Arguments.
Open Scope Z_scope.

Section Align.
Variable korder : list key -> list key.
Variable enum : list Z -> list Z.
Variable argsort : list Z -> list nat.
Variable R : rng.
Variable fuel : nat.
Hypothesis korder_ok : lists_keys korder.
Hypothesis enum_ok : lists_set enum.
Hypothesis argsort_ok : argsort_spec argsort.
Variable T : task.
Variable cols : list string.
Variable db : list row.
Variable T' : task.
Variable bs : list by_block.
Variable st : stats.
Hypothesis rd : reads cols (t_filters T).
Hypothesis dt : determined T db.
Hypothesis kf : kept_first T db.
Hypothesis rr : reg_reads cols (t_regressors T).
Hypothesis rt : reg_determined T db.
Hypothesis init : task_init korder enum T cols db = Ok (T', bs, st).

Local Notation G := (t_regressors T).
Local Notation rows k := (by_rows T db k).

Lemma T'_regressors : t_regressors T' = G.
Proof. destruct (init_inv _ _ _ _ _ init) as (_ & -> & _). reflexivity. Qed.

Lemma T'_filters_eq : t_filters T' = t_filters T.
Proof. destruct (init_inv _ _ _ _ _ init) as (_ & -> & _). reflexivity. Qed.

Section By.
Variable b : by_block.
Hypothesis Hb : In b bs.
Local Notation fr := (b_frame b).
Local Notation rs := (by_rows T db (b_key b)).
Local Notation rowof := (rowof b).
Local Notation bcols := (t_on T' :: t_across T').

Lemma wfb : wf_block b.
Proof. exact (proj1 (proj2 (bs_wf _ korder_ok _ _ _ init) b Hb)). Qed.

Lemma in_frame l r : In (l, r) fr ->
  agree cols r (row_at rs l) /\ item rs l (row_at rs l) /\ In (row_at rs l) db /\
  exists g, nth_error (ig T db (b_key b)) (Z.to_nat l) = Some (g, row_at rs l) /\ r = ext T (g, row_at rs l).
Proof.
  intros Hin. destruct (proj2 (bs_inv _ korder_ok rd dt kf init) b Hb) as (_ & _ & _ & Ef & _).
  destruct (init_inv _ _ _ _ _ init) as (Hc & ET & _). rewrite ET in Ef.
  apply (frame_In Hc rd dt _ _ Ef) in Hin as (g & r0 & H0 & Hn & -> & _).
  assert (Hi : item rs l r0) by (apply (item_ig _ _ _ Hc); eauto).
  assert (E : row_at rs l = r0).
  { destruct Hi as [_ Hi]. unfold row_at. apply nth_error_nth. exact Hi. }
  rewrite E. split; [exact (ext_agree _ _ Hc (g, r0))|]. split; [exact Hi|].
  split; [exact (ig_in_db _ _ _ _ Hn)|]. eauto.
Qed.

Lemma mates l l' r r' : In (l, r) fr -> In (l', r') fr -> same_block T' r r' ->
  row_at rs l = row_at rs l' \/
  (t_across T <> [] /\ agree (t_on T :: t_across T ++ t_by T) (row_at rs l) (row_at rs l')).
Proof.
  intros H H' Hs. apply in_frame in H as (_ & _ & _ & g & N & ->). apply in_frame in H' as (_ & _ & _ & g' & N' & ->).
  destruct (init_inv _ _ _ _ _ init) as (Hc & ET & _). rewrite ET in Hs.
  exact (same_block_agree _ Hc _ _ _ N N' Hs).
Qed.

Lemma by_mates l l' r r' : In (l, r) fr -> In (l', r') fr -> agree (t_by T) (row_at rs l) (row_at rs l').
Proof.
  intros H H'. apply in_frame in H as (_ & _ & _ & g & N & _). apply in_frame in H' as (_ & _ & _ & g' & N' & _).
  destruct (init_inv _ _ _ _ _ init) as (Hc & _). exact (ig_by _ _ _ Hc _ _ _ N N').
Qed.


(** An item regressor read at the values of the block, or at its A. *)
Lemma item_reg nf lv v a ra x rx :
  In nf (r_A G ++ r_B G ++ r_X G) ->
  In (lv, v) fr -> In (a, ra) fr -> In (x, rx) fr -> same_block T' v ra ->
  snd nf v rx = snd nf (row_at rs a) (row_at rs x).
Proof.
  intros Hnf Hv Ha Hx Hs.
  destruct (in_frame _ _ Hv) as (V1 & _ & V2 & _). destruct (in_frame _ _ Ha) as (_ & _ & A2 & _).
  destruct (in_frame _ _ Hx) as (X1 & _ & X2 & _).
  rewrite (rr_item rr _ Hnf V1 X1).
  destruct (mates _ _ Hv Ha Hs) as [->|[Hne Hm]]; [reflexivity|].
  eapply (rt_item rt); eassumption.
Qed.

Lemma oab_reg nf lv v a ra :
  In nf (r_oab G) -> In (lv, v) fr -> In (a, ra) fr -> same_block T' v ra ->
  snd nf v = snd nf (row_at rs a).
Proof.
  intros Hnf Hv Ha Hs.
  destruct (in_frame _ _ Hv) as (V1 & _ & V2 & _). destruct (in_frame _ _ Ha) as (_ & _ & A2 & _).
  rewrite (rr_oab rr _ Hnf V1).
  destruct (mates _ _ Hv Ha Hs) as [->|[Hne Hm]]; [reflexivity|].
  eapply (rt_oab rt); eassumption.
Qed.

Lemma by_reg nf lv v a ra :
  In nf (r_by G) -> In (lv, v) fr -> In (a, ra) fr -> snd nf v = snd nf (row_at rs a).
Proof.
  intros Hnf Hv Ha.
  destruct (in_frame _ _ Hv) as (V1 & _ & V2 & _). destruct (in_frame _ _ Ha) as (_ & _ & A2 & _).
  rewrite (rr_by rr _ Hnf V1). eapply (rt_by rt); try eassumption; eapply by_mates; eassumption.
Qed.

Lemma map_repeat A B (y : B) (f : A -> B) l : (forall x, In x l -> f x = y) -> map f l = repeat y (length l).
Proof.
  induction l as [|x l IH]; cbn; intros H; [reflexivity|]. rewrite (H x (or_introl eq_refl)), IH by auto. reflexivity.
Qed.

Section Thr.
Variable thr : option Z.

(** Members of a block: rows of the frame in the block of its A. *)
Lemma block_member k v lv t : In k (keys bcols (map snd fr)) -> block_val T' b k = Ok v -> In (lv, v) fr ->
  proj bcols v = k -> In t (block_list enum T' b k) ->
  exists ra rb rx, In (pA t, ra) fr /\ In (pB t, rb) fr /\ In (pX t, rx) fr /\ same_block T' v ra /\
    rowof (pA t) = ra /\ rowof (pB t) = rb /\ rowof (pX t) = rx.
Proof.
  intros Hk Hv Hvin Ev Ht. unfold block_list in Ht. rewrite Hv in Ht.
  destruct (f_oab (t_filters T') v); [|destruct Ht]. destruct t as [[a b'] x].
  apply (plist_In _ enum_ok T' wfb _ _ _ _ _ (T'_ne _ _ _ _ _ init) Hk) in Ht.
  destruct Ht as (ra & rb & rx & Ha & Hb' & Hx & E & _).
  exists ra, rb, rx. unfold pA, pB, pX. cbn [fst snd].
  repeat (split; [assumption|]). split; [unfold same_block; congruence|].
  repeat split; apply (rowof_In wfb); assumption.
Qed.

Lemma block_columns lb bv k c0 os c1 : In k (keys bcols (map snd fr)) -> In (lb, bv) fr ->
  block_result enum argsort R fuel T' b thr (scalar_regressors (r_by G) bv) k c0 os c1 ->
  os = [] \/ exists o, os = [o] /\ exists cA,
    o_regressors o = columns_of rs (o_triplets o) (of_block G) ++ cA ++ columns_of rs (o_triplets o) (of_BX G) /\
    map fst cA = map fst (r_A G) /\ (A_in_order T -> cA = columns_of rs (o_triplets o) (of_A G)).
Proof.
  intros Hk Hbv H. pose proof (block_result_incl _ enum_ok _ _ _ init wfb Hk H) as Hincl.
  destruct H as (v & Hv & [(_ & -> & _)|(Eo & o & -> & Ho)]); [left; reflexivity|right].
  exists o. split; [reflexivity|].
  destruct (block_val_ok T' b (proj1 (proj2 (proj2 (bs_inv _ korder_ok rd dt kf init) b Hb))) k Hk) as (lv & v' & Hv' & Hvin & Ev).
  assert (v' = v) by congruence. subst v'.
  apply (on_across_triplets_ok _ _ _ enum_ok _ (T'_ne _ _ _ _ _ init) wfb) in Ho; [|exact Hk].
  destruct Ho as (_ & p & Hc & Eq). unfold all_triplets in Hincl. cbn in Hincl. rewrite app_nil_r in Hincl.
  assert (Hbl : block_list enum T' b k = plist enum T' b v k) by (unfold block_list; rewrite Hv, Eo; reflexivity).
  rewrite T'_regressors, T'_filters_eq in Eq. rewrite Eq. clear Eq.
  exists (map (fun nf => (fst nf, map (fun t => snd nf v (rowof (pA t)))
               (match f_ABX (t_filters T) with
                | None => plist enum T' b v k
                | Some _ => match gs_of T' b v with [] => [] | _ => o_triplets o end
                end))) (r_A G)).
  assert (EA : forall nf t, In nf (r_A G) -> In t (block_list enum T' b k) ->
     snd nf v (rowof (pA t)) = value rs (fun ra rb rx => snd nf ra ra) t).
  { intros nf t Hnf Ht. destruct (block_member _ _ Hk Hv Hvin Ev Ht) as (ra & rb & rx & Ha & Hb' & Hx & Hs & E1 & E2 & E3).
    rewrite E1. destruct t as [[a b'] x]. cbn [value]. unfold pA in Ha. cbn in Ha.
    eapply (@item_reg nf lv v a ra); eauto. apply in_or_app. auto. }
  assert (EB : forall nf t, In nf (r_B G) -> In t (block_list enum T' b k) ->
     snd nf v (rowof (pB t)) = value rs (fun ra rb rx => snd nf ra rb) t).
  { intros nf t Hnf Ht. destruct (block_member _ _ Hk Hv Hvin Ev Ht) as (ra & rb & rx & Ha & Hb' & Hx & Hs & E1 & E2 & E3).
    rewrite E2. destruct t as [[a b'] x]. cbn [value]. unfold pA, pB in Ha, Hb'. cbn in Ha, Hb'.
    eapply (@item_reg nf lv v a ra); eauto. apply in_or_app. right. apply in_or_app. auto. }
  assert (EX : forall nf t, In nf (r_X G) -> In t (block_list enum T' b k) ->
     snd nf v (rowof (pX t)) = value rs (fun ra rb rx => snd nf ra rx) t).
  { intros nf t Hnf Ht. destruct (block_member _ _ Hk Hv Hvin Ev Ht) as (ra & rb & rx & Ha & Hb' & Hx & Hs & E1 & E2 & E3).
    rewrite E3. destruct t as [[a b'] x]. cbn [value]. unfold pA, pX in Ha, Hx. cbn in Ha, Hx.
    eapply (@item_reg nf lv v a ra); eauto. apply in_or_app. right. apply in_or_app. auto. }
  assert (ES : forall nf t, In nf (r_oab G) -> In t (block_list enum T' b k) ->
     value rs (fun ra rb rx => snd nf ra) t = snd nf v).
  { intros nf t Hnf Ht. destruct (block_member _ _ Hk Hv Hvin Ev Ht) as (ra & rb & rx & Ha & Hb' & Hx & Hs & _).
    destruct t as [[a b'] x]. cbn [value]. symmetry. eapply (@oab_reg nf lv v a ra); eauto. }
  assert (EY : forall nf t, In nf (r_by G) -> In t (block_list enum T' b k) ->
     value rs (fun ra rb rx => snd nf ra) t = snd nf bv).
  { intros nf t Hnf Ht. destruct (block_member _ _ Hk Hv Hvin Ev Ht) as (ra & rb & rx & Ha & _).
    destruct t as [[a b'] x]. cbn [value]. symmetry. eapply (@by_reg nf lb bv a ra); eauto. }
  split; [|split].
  - f_equal; [|f_equal].
    + unfold columns_of, of_block. rewrite map_map, !map_app. unfold scalar_regressors. rewrite !map_map.
      f_equal; apply map_ext_in; intros nf Hnf; cbn [fst snd]; f_equal; symmetry; apply map_repeat; intros t Ht; auto.
    + unfold columns_of, of_BX. rewrite map_app, !map_map.
      f_equal; apply map_ext_in; intros nf Hnf; cbn [fst snd]; f_equal; apply map_ext_in; intros t Ht; auto.
  - rewrite map_map. reflexivity.
  - intros HA. unfold columns_of, of_A. rewrite map_map. apply map_ext_in. intros nf Hnf. cbn [fst snd]. f_equal.
    assert (El : (match f_ABX (t_filters T) with
                | None => plist enum T' b v k
                | Some _ => match gs_of T' b v with [] => [] | _ => o_triplets o end
                end) = o_triplets o).
    { unfold A_in_order in HA. unfold gs_of in *. rewrite T'_regressors in *. destruct (f_ABX (t_filters T)).
      - destruct (gB b v (r_B G) ++ gX b v (r_X G)) eqn:Eg; [|reflexivity].
        apply app_eq_nil in Eg as [E1 E2]. apply map_eq_nil in E1, E2. tauto.
      - destruct HA as [HA1 HA2]. unfold gB, gX in Hc. rewrite HA1, HA2 in Hc. cbn in Hc. inversion Hc. reflexivity. }
    rewrite El. apply map_ext_in. intros t Ht. auto.
Qed.

End Thr.

(* ------------------------------------------------------------------ *)
(** ** Threshold *)

Definition vals (t : triplet) : list Z := map (fun ng => value rs (snd ng) t) (of_BX G).

Lemma vals_profile k v lv t : In k (keys bcols (map snd fr)) -> block_val T' b k = Ok v -> In (lv, v) fr ->
  proj bcols v = k -> In t (block_list enum T' b k) -> profile (gs_of T' b v) t = vals t.
Proof.
  intros Hk Hv Hvin Ev Ht.
  destruct (block_member _ _ Hk Hv Hvin Ev Ht) as (ra & rb & rx & Ha & Hb' & Hx & Hs & E1 & E2 & E3).
  unfold profile, vals, gs_of, of_BX, gB, gX. rewrite T'_regressors, !map_app, !map_map. cbn [snd].
  destruct t as [[a b'] x]. unfold pA, pB, pX in *. cbn [fst snd value] in *. rewrite E2, E3.
  f_equal; apply map_ext_in; intros nf Hnf;
    eapply (@item_reg nf lv v a ra); eauto; apply in_or_app; right; apply in_or_app; auto.
Qed.

Lemma same_block_iff a a0 ra ra0 t t0 : In (a, ra) fr -> In (a0, ra0) fr -> fst (fst t) = a -> fst (fst t0) = a0 ->
  (proj bcols ra = proj bcols ra0 <-> same_block_of T rs t t0).
Proof.
  intros Ha Ha0 Et Et0. pose proof (wf_nodup wfb) as Hnd. unfold same_block_of. rewrite Et, Et0.
  destruct (in_frame _ _ Ha) as (_ & [Pa _] & _ & g & N & Er). destruct (in_frame _ _ Ha0) as (_ & [Pa0 _] & _ & g0 & N0 & Er0).
  destruct (init_inv _ _ _ _ _ init) as (Hc & ET & _). subst T'.
  rewrite proj_ext, T'_on, T'_across. destruct (check_inv _ _ Hc) as (C1 & C2 & _).
  destruct (t_across T) as [|c ac] eqn:E.
  - split.
    + intros H. specialize (H "#across"%string (or_intror (or_introl eq_refl))).
      rewrite Er, Er0, !ext_across in H by exact E. cbn in H. subst g0.
      destruct (ig_fst_inj _ _ _ _ _ N N0) as [H _]. lia.
    + intros Q. rewrite Q in Ha. assert (ra = ra0) by (eapply label_unique; eauto). congruence.
  - rewrite <- E in *. assert (HQ : forall x, In x (t_on T :: t_across T) -> ra x = row_at rs a x /\ ra0 x = row_at rs a0 x).
    { intros x Hx. assert (In x cols) by (destruct Hx as [<-|Hx]; auto).
      rewrite Er, Er0. split; apply (ext_agree _ _ Hc); assumption. }
    split; intros H x Hx; destruct (HQ x Hx) as [Q1 Q2]; specialize (H x Hx); congruence.
Qed.

Lemma block_list_iff k t : In k (keys bcols (map snd fr)) ->
  (In t (block_list enum T' b k) <->
   exists ra, In (pA t, ra) fr /\ proj bcols ra = k /\ is_wanted T db (b_key b) t).
Proof.
  intros Hk. destruct t as [[a b'] x]. unfold pA. cbn [fst is_wanted].
  destruct (proj2 (bs_inv _ korder_ok rd dt kf init) b Hb) as (Hw & Ha & _ & Ef & Hby & Hd).
  rewrite (block_list_In enum_ok (T'_ne _ _ _ _ _ init) Hw Ha _ _ _ _ Hd Hk).
  destruct (init_inv _ _ _ _ _ init) as (Hc & ET & _). revert Ef Hby. rewrite ET. intros Ef Hby.
  split; intros (ra & H1 & H2 & H3); exists ra; (split; [exact H1|]); (split; [exact H2|]);
    apply (wanted_in_iff Hc rd dt _ _ Ef _ _ _ Hby); exact H3.
Qed.

(** The triplets of the block of [t0]. *)
Lemma block_lists k t0 : In k (keys bcols (map snd fr)) -> In t0 (block_list enum T' b k) ->
  lists_that (fun t => is_wanted T db (b_key b) t /\ same_block_of T rs t t0) (block_list enum T' b k).
Proof.
  intros Hk H0. apply (block_list_iff _ _ Hk) in H0 as (ra0 & Ha0 & E0 & _). split.
  - apply (block_list_NoDup enum_ok _ (T'_ne _ _ _ _ _ init) wfb _ Hk).
  - intros t. rewrite (block_list_iff _ _ Hk). split.
    + intros (ra & Ha & E & Hw). split; [exact Hw|]. apply (@same_block_iff _ _ ra ra0 t t0 Ha Ha0 eq_refl eq_refl). congruence.
    + intros [Hw Hs]. destruct t as [[a b'] x]. pose proof Hw as Hw'.
      destruct (proj2 (bs_inv _ korder_ok rd dt kf init) b Hb) as (_ & _ & _ & Ef & Hby & _).
      destruct (init_inv _ _ _ _ _ init) as (Hc & ET & _). rewrite ET in Ef, Hby.
      cbn in Hw'. apply (wanted_in_iff Hc rd dt _ _ Ef _ _ _ Hby) in Hw' as (ra & rb & rx & Ha & _).
      exists ra. unfold pA. cbn [fst]. split; [exact Ha|]. split; [|exact Hw].
      rewrite <- E0. apply (@same_block_iff _ _ ra ra0 (a, b', x) t0 Ha Ha0 eq_refl eq_refl). exact Hs.
Qed.

Definition same_vals (t0 t : triplet) : bool := prof_eqb (vals t) (vals t0).

Lemma ucapacity_tmax n ty : fit_integer_type n false = Ok ty -> ucapacity n <= tmax ty.
Proof.
  unfold fit_integer_type, ucapacity. cbn.
  destruct (Z.ltb_spec n 256); [|destruct (Z.ltb_spec n 65536); [|destruct (Z.ltb_spec n 4294967296);
    [|destruct (Z.ltb_spec n 18446744073709551616)]]]; intros E; inversion E; subst; cbn;
  destruct (Z.leb_spec n 255); try lia; destruct (Z.leb_spec n 65535); try lia;
  destruct (Z.leb_spec n 4294967295); lia.
Qed.

Lemma gs_map k v lv l : In k (keys bcols (map snd fr)) -> block_val T' b k = Ok v -> In (lv, v) fr ->
  proj bcols v = k -> incl l (block_list enum T' b k) ->
  forall A (h : list Z -> A), map (fun g => h (map g l)) (gs_of T' b v) =
    map (fun ng => h (map (value rs (snd ng)) l)) (of_BX G).
Proof.
  intros Hk Hv Hvin Ev Hl A h.
  assert (E : map (fun g => map g l) (gs_of T' b v) = map (fun ng => map (value rs (snd ng)) l) (of_BX G)).
  { unfold gs_of, of_BX, gB, gX. rewrite T'_regressors, !map_app, !map_map. cbn [snd].
    f_equal; apply map_ext_in; intros nf Hnf; apply map_ext_in; intros t Ht;
    destruct (block_member _ _ Hk Hv Hvin Ev (Hl _ Ht)) as (ra & rb & rx & Ha & Hb' & Hx & Hs & E1 & E2 & E3);
    destruct t as [[a b'] x]; unfold pA, pB, pX in *; cbn [fst snd value] in *; rewrite ?E2, ?E3;
    eapply (@item_reg nf lv v a ra); eauto; apply in_or_app; right; apply in_or_app; auto. }
  apply (f_equal (map h)) in E. rewrite !map_map in E. exact E.
Qed.

Lemma thr_block t k byr c0 os c1 : rng_ok R -> room T db -> 0 < t -> of_BX G <> [] ->
  In k (keys bcols (map snd fr)) ->
  block_result enum argsort R fuel T' b (Some t) byr k c0 os c1 ->
  NoDup (all_triplets os) /\ incl (all_triplets os) (block_list enum T' b k) /\
  forall t0, In t0 (block_list enum T' b k) ->
    length (filter (same_vals t0) (all_triplets os)) =
    Nat.min (Z.to_nat t) (length (filter (same_vals t0) (block_list enum T' b k))).
Proof.
  intros R_ok Hroom Ht Hne Hk H. pose proof (block_result_incl _ enum_ok _ _ _ init wfb Hk H) as Hincl.
  destruct H as (v & Hv & [(Eo & -> & _)|(Eo & o & -> & Ho)]).
  { split; [constructor|]. split; [intros x []|]. unfold block_list. rewrite Hv, Eo. intros t0 []. }
  destruct (block_val_ok T' b (proj1 (proj2 (proj2 (bs_inv _ korder_ok rd dt kf init) b Hb))) k Hk) as (lv & v' & Hv' & Hvin & Ev).
  assert (v' = v) by congruence. subst v'.
  apply (on_across_triplets_ok _ _ _ enum_ok _ (T'_ne _ _ _ _ _ init) wfb) in Ho; [|exact Hk].
  destruct Ho as (_ & p & Hc & _).
  assert (Hbl : block_list enum T' b k = plist enum T' b v k) by (unfold block_list; rewrite Hv, Eo; reflexivity).
  rewrite <- Hbl in Hc. unfold all_triplets in *. cbn [map concat] in *. rewrite app_nil_r in *.
  destruct (block_list enum T' b k) as [|t1 l1] eqn:El.
  { split; [|split; [exact Hincl|intros t0 []]]. destruct (o_triplets o) as [|y ?]; [constructor|].
    destruct (Hincl y). left. reflexivity. }
  rewrite <- El in *.
  assert (H1 : In t1 (block_list enum T' b k)) by (rewrite El; left; reflexivity).
  pose proof (block_lists _ _ Hk H1) as HL.
  assert (Hw1 : is_wanted T db (b_key b) t1) by (apply (proj2 HL) in H1; tauto).
  destruct (Hroom _ _ _ HL Hw1) as (Hpos & Hprod & Hlen).
  assert (Egs : forall A (h : list Z -> A) l, incl l (block_list enum T' b k) ->
     map (fun g => h (map g l)) (gs_of T' b v) = map (fun ng => h (map (value rs (snd ng)) l)) (of_BX G)).
  { intros A h l Hl. exact (@gs_map k v lv l Hk Hv Hvin Ev Hl A h). }
  pose proof (Egs _ (fun c => maxZ c + 1) _ (incl_refl _)) as Em. cbn beta in Em.
  apply (core_some _ argsort_ok R_ok) in Hc.
  - destruct Hc as (N1 & N2 & N3 & _). split; [exact N1|]. split; [exact Hincl|]. intros t0 Ht0.
    specialize (N3 (vals t0)). unfold count_profile in N3.
    assert (EF : forall l, incl l (block_list enum T' b k) ->
       filter (fun x => prof_eqb (profile (gs_of T' b v) x) (vals t0)) l = filter (same_vals t0) l).
    { intros l Hl. apply filter_ext_in. intros x Hx. unfold same_vals.
      rewrite (@vals_profile k v lv x Hk Hv Hvin Ev (Hl _ Hx)). reflexivity. }
    rewrite !EF in N3 by (auto using incl_refl). exact N3.
  - exact Ht.
  - intros E. apply (f_equal (@length _)) in Em. rewrite !map_length, E in Em. destruct (of_BX G); [congruence|discriminate].
  - apply HL.
  - intros g s Hg Hs. pose proof (Egs _ (fun c => 0 <= hd 0 c) [s]) as Ep. cbn beta in Ep.
    assert (Hs' : incl [s] (block_list enum T' b k)) by (intros y [<-|[]]; exact Hs).
    specialize (Ep Hs'). assert (HI : In (0 <= g s) (map (fun g => 0 <= hd 0 (map g [s])) (gs_of T' b v))).
    { apply in_map_iff. exists g. auto. }
    rewrite Ep in HI. apply in_map_iff in HI as (ng & E & Hng). rewrite <- E. cbn. apply Hpos; assumption.
  - rewrite Em. exact Hprod.
  - rewrite Em. intros ty Hty. apply ucapacity_tmax in Hty. lia.
Qed.

End By.

Section File.
Variable thr : option Z.
Variable c : nat.
Variable bs' : list by_block.
Variable f : task_file.
Hypothesis gen : generate_triplets korder enum argsort R fuel T' thr bs st c = Ok (bs', Some f).

Lemma compute_columns b c0 outs c1 : In b bs ->
  compute_triplets korder enum argsort R fuel T' thr b c0 = Ok (outs, c1) ->
  Forall2 (carries T (rows (b_key b))) (map o_regressors outs) (map o_triplets outs).
Proof.
  intros Hb H. apply compute_triplets_ok in H as (bv & Hbv & H). apply chain_each in H as (outss & -> & F).
  assert (Hbin : exists lb, In (lb, bv) (b_frame b)).
  { unfold iloc in Hbv. cbn in Hbv. destruct (b_frame b) as [|[l r] fr0]; [discriminate|]. cbn in Hbv.
    inversion Hbv; subst. exists l. left. reflexivity. }
  destruct Hbin as (lb & Hbin). rewrite T'_regressors in F.
  assert (Hks : forall k, In k (korder (keys (t_on T' :: t_across T') (map snd (b_frame b)))) ->
            In k (keys (t_on T' :: t_across T') (map snd (b_frame b)))).
  { intros k. apply Permutation_in, korder_ok. }
  revert Hks. induction F as [|k os ks oss (c2 & c3 & H) F IH]; intros Hks; [constructor|].
  cbn [concat]. rewrite !map_app. apply Forall2_app; [|apply IH; intros; apply Hks; right; assumption].
  destruct (block_columns Hb lb bv (Hks k (or_introl eq_refl)) Hbin H) as [->|(o & -> & cA & H')]; [constructor|].
  constructor; [|constructor]. exists cA. exact H'.
Qed.

Lemma chain_by_det l c0 o1 c1 o2 c2 :
  chain_by korder enum argsort R fuel T' thr l c0 o1 c1 -> chain_by korder enum argsort R fuel T' thr l c0 o2 c2 -> o1 = o2.
Proof.
  revert c0 o1 o2. induction l as [|b l IH]; intros c0 [|x o1] [|y o2]; cbn; try tauto.
  intros (d1 & E1 & H1) (d2 & E2 & H2). assert (E : (x, d1) = (y, d2)) by congruence. inversion E; subst.
  f_equal. eapply IH; eauto.
Qed.

Theorem regressors_aligned : storable T db (capacity (s_nb_triplets st)) ->
  incl (fl_bys f) (map fst (fl_regressors f)) /\ NoDup (map fst (fl_regressors f)) /\
  forall k blocks, In (k, blocks) (fl_regressors f) ->
  exists chunks, Forall2 (carries T (rows k)) blocks chunks /\
    (forall ij, In (k, ij) (combine (fl_bys f) (fl_by_index f)) -> rows_of ij (fl_triplets f) = concat chunks) /\
    (~ In k (fl_bys f) -> concat chunks = []).
Proof.
  intros Hs.
  destruct (generate_ok _ _ _ _ _ _ _ _ _ _ gen) as (_ & outss & c' & Hch & [_ Fb _ Fr _ _] & _).
  assert (HL : length bs = length outss) by (apply chain_by_each, Forall2_len in Hch; exact Hch).
  assert (Ek : map fst (named bs outss) = map b_key bs).
  { unfold named. clear -HL. revert outss HL. induction bs as [|b bs0 IH]; intros [|o outss]; cbn; try discriminate; auto.
    intros HL. f_equal. apply IH. lia. }
  split; [|split].
  { rewrite Fb, Fr, map_map. cbn [fst]. intros k Hk. apply in_map_iff in Hk as (p & <- & Hp).
    apply filter_In in Hp as [Hp _]. apply in_map_iff. eauto. }
  { rewrite Fr, map_map. cbn [fst]. change (fun x : key * list block_out => fst x) with (@fst key (list block_out)).
    rewrite Ek. exact (keys_NoDup _ korder_ok _ _ _ init). }
  clear Ek Fb. intros k blocks Hin.
  destruct (file_inv _ _ _ _ korder_ok _ _ _ init _ _ gen) as (outss2 & c2 & t & Hch2 & Ht & _ & _ & F & Hall).
  assert (outss2 = outss) by (eapply chain_by_det; eauto). subst outss2.
  rewrite Fr in Hin. apply in_map_iff in Hin as ([k0 outs] & E & Hin). cbn [fst snd] in E. inversion E; subst k0 blocks; clear E.
  destruct (In_named _ _ _ _ Hin HL) as (b & Hbo & Ek).
  destruct (combine_compute _ _ _ _ _ _ _ _ _ _ _ _ _ Hch Hbo) as (Hb & c0 & c1 & Hc).
  exists (map o_triplets outs). split; [subst k; eapply compute_columns; eauto|]. split.
  - intros ij Hij. apply Forall2_combine in F as [_ F]. destruct (F _ _ Hij) as (b2 & outs2 & Hbo2 & Ek2 & _ & Er).
    assert (E : (b2, outs2) = (b, outs)).
    { pose proof (keys_NoDup _ korder_ok _ _ _ init) as HD. clear -HD Hbo Hbo2 Ek Ek2.
      revert outss Hbo Hbo2. induction bs as [|b0 l IH]; intros [|o outss]; cbn; try tauto. cbn in HD.
      apply NoDup_cons_iff in HD as [HD1 HD2].
      assert (HM : forall b1 o1, In (b1, o1) (combine l outss) -> b_key b1 <> b_key b0).
      { intros b1 o1 H E. apply HD1. rewrite <- E. apply in_map. eapply in_combine_l. exact H. }
      intros [E1|H1] [E2|H2]; try congruence.
      - inversion E1; subst. apply HM in H2. congruence.
      - inversion E2; subst. apply HM in H1. congruence.
      - eapply IH; eauto. }
    inversion E; subst b2 outs2. rewrite Er. change (concat (map o_triplets outs)) with (all_triplets outs).
    etransitivity; [|apply map_id]. apply map_ext_in. intros [[a b'] x] H.
    apply (compute_incl _ _ _ korder_ok enum_ok _ _ _ init _ _ _ Hb Hc) in H.
    apply (blist_In korder_ok enum_ok rd dt kf init _ _ _ _ Hb) in H. destruct (Hs _ _ _ _ H) as (S1 & S2 & S3).
    destruct H as (ra & rb & rx & Ia & Ib & Ix & H). destruct Ia as [Pa Ia], Ib as [Pb Ib], Ix as [Px Ix].
    cbn [cast3]. rewrite !(fit_capacity _ Ht) by lia. reflexivity.
  - intros Hni. change (concat (map o_triplets outs)) with (all_triplets outs).
    destruct (all_triplets outs) eqn:Ea; [reflexivity|]. exfalso. apply Hni. subst k.
    apply (Hall _ _ Hbo). congruence.
Qed.

(** The triplets kept by a threshold, by [b]. *)
Lemma compute_thr b t c0 outs c1 : rng_ok R -> room T db -> 0 < t -> of_BX G <> [] -> thr = Some t -> In b bs ->
  compute_triplets korder enum argsort R fuel T' thr b c0 = Ok (outs, c1) ->
  NoDup (all_triplets outs) /\ incl (all_triplets outs) (by_list korder enum T' b) /\
  forall k t0, In k (keys (t_on T' :: t_across T') (map snd (b_frame b))) -> In t0 (block_list enum T' b k) ->
    length (filter (fun s => key_eqb (proj (t_on T' :: t_across T') (rowof b (pA s))) k && same_vals b t0 s) (all_triplets outs)) =
    Nat.min (Z.to_nat t) (length (filter (same_vals b t0) (block_list enum T' b k))).
Proof.
  intros R_ok Hroom Ht Hne Ethr Hb H. pose proof (wfb _ Hb) as Hw.
  split; [|split; [eapply compute_incl; eauto|]].
  all: apply compute_triplets_ok in H as (bv & _ & H); apply chain_each in H as (outss & -> & F).
  all: set (ks := korder (keys (t_on T' :: t_across T') (map snd (b_frame b)))) in F.
  all: assert (Hks : forall k, In k ks <-> In k (keys (t_on T' :: t_across T') (map snd (b_frame b))))
    by (intros k; split; apply Permutation_in; [apply korder_ok|apply Permutation_sym, korder_ok]).
  all: assert (Hn : NoDup ks) by (apply (Permutation_NoDup (Permutation_sym (korder_ok _))), NoDup_keys).
  all: assert (Q : Forall2 (fun k os => NoDup (all_triplets os) /\ incl (all_triplets os) (block_list enum T' b k) /\
       forall t0, In t0 (block_list enum T' b k) ->
       length (filter (same_vals b t0) (all_triplets os)) =
       Nat.min (Z.to_nat t) (length (filter (same_vals b t0) (block_list enum T' b k)))) ks outss).
  1,3: rewrite Ethr in F; clear Hn; clearbody ks;
       assert (Hi : forall k, In k ks -> In k (keys (t_on T' :: t_across T') (map snd (b_frame b)))) by (intros k Hk; apply Hks; exact Hk);
       clear Hks; induction F as [|k os ks' oss (c2 & c3 & H) F IH]; constructor;
       [eapply thr_block; eauto; apply Hi; left; reflexivity|apply IH; intros; apply Hi; right; assumption].
  all: assert (Hkey : forall k s, In k ks -> In s (block_list enum T' b k) -> proj (t_on T' :: t_across T') (rowof b (pA s)) = k)
    by (intros k s Hk Hs; apply (block_list_key enum_ok _ (T'_ne _ _ _ _ _ init) Hw); [apply Hks; exact Hk|exact Hs]).
  - clear F Hks. clearbody ks. revert Hn Hkey. induction Q as [|k os ks' oss (Q1 & Q2 & Q3) Q IH]; intros Hn Hkey; [constructor|].
    apply NoDup_cons_iff in Hn as [Hn1 Hn2]. unfold all_triplets. cbn [concat]. rewrite map_app, concat_app.
    apply NoDup_app_intro.
    + exact Q1.
    + apply IH; [exact Hn2|]. intros; apply Hkey; [right|]; assumption.
    + intros s Hs Hs'. apply Q2 in Hs. apply Hkey in Hs; [|left; reflexivity].
      assert (exists k', In k' ks' /\ In s (block_list enum T' b k')) as (k' & Hk' & Hs2).
      { clear -Q Hs'. induction Q as [|k os ks' oss (_ & Q2 & _) Q IH]; [destruct Hs'|].
        cbn [concat] in Hs'. rewrite map_app, concat_app in Hs'. apply in_app_or in Hs' as [Hs'|Hs'].
        - exists k. split; [left; reflexivity|]. apply Q2. exact Hs'.
        - destruct (IH Hs') as (k' & H1 & H2). exists k'. split; [right; exact H1|exact H2]. }
      apply Hkey in Hs2; [|right; exact Hk']. congruence.
  - intros k0 t0 Hk0 Ht0. apply Hks in Hk0.
    assert (HZ : forall ks' oss, Forall2 (fun k os => incl (all_triplets os) (block_list enum T' b k)) ks' oss ->
        (forall k, In k ks' -> In k ks) -> ~ In k0 ks' ->
        filter (fun s => key_eqb (proj (t_on T' :: t_across T') (rowof b (pA s))) k0 && same_vals b t0 s) (all_triplets (concat oss)) = []).
    { intros ks' oss HF Hin Hni. apply filter_none. intros s Hs.
      assert (exists k', In k' ks' /\ In s (block_list enum T' b k')) as (k' & Hk' & Hs2).
      { clear -HF Hs. induction HF as [|k os ks' oss Q2 Q IH]; [destruct Hs|].
        unfold all_triplets in Hs. cbn [concat] in Hs. rewrite map_app, concat_app in Hs. apply in_app_or in Hs as [Hs'|Hs'].
        - exists k. split; [left; reflexivity|]. apply Q2. exact Hs'.
        - destruct (IH Hs') as (k' & H1 & H2). exists k'. split; [right; exact H1|exact H2]. }
      rewrite (Hkey k' s (Hin _ Hk') Hs2). destruct (key_eqb k' k0) eqn:E; [|reflexivity].
      apply key_eqb_spec in E. subst k'. tauto. }
    assert (HI : forall k, In k ks -> In k ks) by auto. revert HI Hk0 Hn.
    assert (G : forall ks' oss, Forall2 (fun k os => NoDup (all_triplets os) /\ incl (all_triplets os) (block_list enum T' b k) /\
       forall t0, In t0 (block_list enum T' b k) ->
       length (filter (same_vals b t0) (all_triplets os)) =
       Nat.min (Z.to_nat t) (length (filter (same_vals b t0) (block_list enum T' b k)))) ks' oss ->
       (forall k, In k ks' -> In k ks) -> In k0 ks' -> NoDup ks' ->
       length (filter (fun s => key_eqb (proj (t_on T' :: t_across T') (rowof b (pA s))) k0 && same_vals b t0 s) (all_triplets (concat oss))) =
       Nat.min (Z.to_nat t) (length (filter (same_vals b t0) (block_list enum T' b k0)))); [|exact (G ks outss Q)].
    clear Q F. intros ks' oss HF. induction HF as [|k os ks' oss (Q1 & Q2 & Q3) HF IH]; intros HI Hk0 Hn; [destruct Hk0|].
    apply NoDup_cons_iff in Hn as [Hn1 Hn2]. unfold all_triplets. cbn [concat]. rewrite map_app, concat_app, filter_app, app_length.
    change (concat (map o_triplets os)) with (all_triplets os).
    change (concat (map o_triplets (concat oss))) with (all_triplets (concat oss)).
    destruct Hk0 as [->|Hk0].
    + rewrite (HZ ks' oss); [|revert HF; apply Forall2_impl; intros ? ? (_ & ? & _); assumption|
                              intros; apply HI; right; assumption|exact Hn1].
      cbn [length]. rewrite Nat.add_0_r, <- (Q3 t0 Ht0). f_equal. apply filter_ext_in. intros s Hs.
      rewrite (Hkey k0 s) by (auto using HI, in_eq). rewrite (proj2 (key_eqb_spec k0 k0) eq_refl). reflexivity.
    + rewrite IH; [|intros; apply HI; right; assumption|exact Hk0|exact Hn2].
      assert (E : filter (fun s => key_eqb (proj (t_on T' :: t_across T') (rowof b (pA s))) k0 && same_vals b t0 s) (all_triplets os) = []).
      { apply filter_none. intros s Hs. rewrite (Hkey k s) by (auto using HI, in_eq).
        destruct (key_eqb k k0) eqn:E; [|reflexivity]. apply key_eqb_spec in E. subst k. tauto. }
      rewrite E. reflexivity.
Qed.

Theorem threshold_kept t : rng_ok R -> room T db -> storable T db (capacity (s_nb_triplets st)) ->
  0 < t -> of_BX G <> [] -> thr = Some t ->
  (forall k, In k (fl_bys f) <-> exists s, is_wanted T db k s) /\
  forall k ij, In (k, ij) (combine (fl_bys f) (fl_by_index f)) ->
    let l := rows_of ij (fl_triplets f) in
    NoDup l /\
    forall t0 all kept, is_wanted T db k t0 ->
      lists_that (fun s => is_wanted T db k s /\ same_group T (rows k) s t0) all ->
      lists_that (fun s => In s l /\ same_group T (rows k) s t0) kept ->
      Zlen kept = Z.min t (Zlen all).
Proof.
  intros R_ok Hroom Hs Ht Hne Ethr.
  destruct (file_inv _ _ _ _ korder_ok _ _ _ init _ _ gen) as (outss & c2 & ty & Hch & Hty & _ & _ & F & Hall).
  assert (HL : length bs = length outss) by (apply chain_by_each, Forall2_len in Hch; exact Hch).
  assert (Hkey : forall b t0, In b bs -> is_wanted T db (b_key b) t0 ->
     exists k0, In k0 (keys (t_on T' :: t_across T') (map snd (b_frame b))) /\ In t0 (block_list enum T' b k0)).
  { intros b t0 Hb Hw. destruct t0 as [[a b'] x]. apply (blist_In korder_ok enum_ok rd dt kf init _ _ _ _ Hb) in Hw.
    unfold by_list in Hw. apply in_flat_map in Hw as (k0 & Hk0 & Hw). exists k0. split; [|exact Hw].
    revert Hk0. apply Permutation_in, korder_ok. }
  assert (Hwt : forall b s, In b bs -> In s (by_list korder enum T' b) -> is_wanted T db (b_key b) s).
  { intros b [[a b'] x] Hb H. apply (blist_In korder_ok enum_ok rd dt kf init _ _ _ _ Hb) in H. exact H. }
  split.
  - intros k. split.
    + intros Hk. destruct (Forall2_in_l _ _ _ _ _ _ F Hk) as (ij & _ & b & outs & Hin & E & Hnn & _).
      destruct (combine_compute _ _ _ _ _ _ _ _ _ _ _ _ _ Hch Hin) as (Hb & c0 & c1 & Hc).
      destruct (compute_thr _ _ R_ok Hroom Ht Hne Ethr Hb Hc) as (_ & Hi & _).
      destruct (all_triplets outs) as [|s l] eqn:El; [congruence|]. exists s. subst k. apply (Hwt _ _ Hb), Hi. left. reflexivity.
    + intros ([[a b'] x] & H). pose proof H as H0. cbn in H. destruct (wanted_key _ korder_ok rd dt kf init H) as (b & Hb & E). subst k.
      assert (exists outs, In (b, outs) (combine bs outss)) as (outs & Hin).
      { clear -HL Hb. revert outss HL. induction bs as [|b0 bs0 IH]; intros [|o outss] HL; cbn in *; try discriminate; [destruct Hb|].
        destruct Hb as [->|Hb]; [eauto|]. destruct (IH Hb outss) as (outs & Ho); [lia|eauto]. }
      apply (Hall _ _ Hin). destruct (combine_compute _ _ _ _ _ _ _ _ _ _ _ _ _ Hch Hin) as (_ & c0 & c1 & Hc).
      destruct (compute_thr _ _ R_ok Hroom Ht Hne Ethr Hb Hc) as (_ & _ & Hq).
      destruct (Hkey _ _ Hb H0) as (k0 & Hk0 & Hin0). specialize (Hq _ _ Hk0 Hin0). intros En. rewrite En in Hq. cbn in Hq.
      assert (Hf : In (a, b', x) (filter (same_vals b (a, b', x)) (block_list enum T' b k0))).
      { apply filter_In. split; [exact Hin0|]. unfold same_vals, prof_eqb. destruct (list_eq_dec _ _ _); [reflexivity|congruence]. }
      destruct (filter _ _); [destruct Hf|]. cbn [length] in Hq. lia.
  - intros k ij Hij. apply Forall2_combine in F as [_ F]. destruct (F _ _ Hij) as (b & outs & Hin & E & _ & Er).
    destruct (combine_compute _ _ _ _ _ _ _ _ _ _ _ _ _ Hch Hin) as (Hb & c0 & c1 & Hc).
    destruct (compute_thr _ _ R_ok Hroom Ht Hne Ethr Hb Hc) as (Hnd & Hi & Hq). subst k.
    assert (Em : rows_of ij (fl_triplets f) = all_triplets outs).
    { rewrite Er. etransitivity; [|apply map_id]. apply map_ext_in. intros [[a b'] x] H.
      apply Hi, (Hwt _ _ Hb) in H. cbn in H. destruct (Hs _ _ _ _ H) as (S1 & S2 & S3).
      destruct H as (ra & rb & rx & Ia & Ib & Ix & H). destruct Ia as [Pa Ia], Ib as [Pb Ib], Ix as [Px Ix].
      cbn [cast3]. rewrite !(fit_capacity _ Hty) by lia. reflexivity. }
    rewrite Em. cbv zeta. split; [exact Hnd|].
    intros t0 all kept Hw [Na Ha] [Nk Hk]. destruct (Hkey _ _ Hb Hw) as (k0 & Hk0 & Hin0).
    specialize (Hq _ _ Hk0 Hin0).
    pose proof (block_list_iff _ Hb _ t0 Hk0) as Bi0. apply Bi0 in Hin0 as (ra0 & Ha0 & E0 & _).
    assert (Hsv : forall s, same_vals b t0 s = true <-> forall ng, In ng (of_BX G) -> value (rows (b_key b)) (snd ng) s = value (rows (b_key b)) (snd ng) t0).
    { intros s. unfold same_vals, prof_eqb, vals. destruct (list_eq_dec _ _ _) as [e|e]; split; try discriminate; try reflexivity.
      - intros _. revert e. clear. generalize (of_BX G). intros l. induction l as [|y l IH]; cbn; intros e ng [].
        + subst. injection e as e _. exact e.
        + injection e as _ e. apply IH; assumption.
      - intros H. exfalso. apply e. apply map_ext_in. exact H. }
    assert (P1 : Permutation kept (filter (fun s => key_eqb (proj (t_on T' :: t_across T') (rowof b (pA s))) k0 && same_vals b t0 s) (all_triplets outs))).
    { apply NoDup_Permutation; [exact Nk|apply NoDup_filter; exact Hnd|]. intros s. rewrite Hk, filter_In, andb_true_iff, key_eqb_spec, Hsv.
      unfold same_group. split.
      - intros (H1 & H2 & H3). split; [exact H1|]. split; [|exact H3].
        apply Hi, (Hwt _ _ Hb) in H1. destruct (Hkey _ _ Hb H1) as (k1 & Hk1 & H1').
        apply (block_list_iff _ Hb _ s Hk1) in H1' as (ra & Hra & E1 & _).
        rewrite (rowof_In (wfb _ Hb) _ _ Hra). rewrite <- E0. apply (@same_block_iff _ Hb _ _ ra ra0 s t0 Hra Ha0 eq_refl eq_refl). exact H2.
      - intros (H1 & H2 & H3). split; [exact H1|]. split; [|exact H3].
        apply Hi, (Hwt _ _ Hb) in H1. destruct (Hkey _ _ Hb H1) as (k1 & Hk1 & H1').
        apply (block_list_iff _ Hb _ s Hk1) in H1' as (ra & Hra & E1 & _).
        rewrite (rowof_In (wfb _ Hb) _ _ Hra) in H2. apply (@same_block_iff _ Hb _ _ ra ra0 s t0 Hra Ha0 eq_refl eq_refl). congruence. }
    assert (P2 : Permutation all (filter (same_vals b t0) (block_list enum T' b k0))).
    { apply NoDup_Permutation; [exact Na|apply NoDup_filter, (block_list_NoDup enum_ok _ (T'_ne _ _ _ _ _ init) (wfb _ Hb) _ Hk0)|].
      intros s. rewrite Ha, filter_In, Hsv. unfold same_group.
      assert (Hin0 : In t0 (block_list enum T' b k0)) by (apply Bi0; eauto).
      rewrite (proj2 (block_lists _ Hb _ _ Hk0 Hin0) s). tauto. }
    apply Permutation_length in P1, P2. unfold Zlen. rewrite P1, P2, Hq. lia.
Qed.

End File.
End Align.
