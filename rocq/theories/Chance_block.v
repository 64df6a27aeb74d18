(** The threshold favours no selection of the triplets of a by. *)
From Coq Require Import Reals Lra Ascii String.
From Verif Require Import Prelude ListFacts TypeFitting TypeFitting_proofs Sampler Sampler_spec Sampler_proofs Sampler_uniform
  Chance_spec Chance_count Chance_law Chance_sample Chance_runs Chance_core
  Task Task_spec Task_blocks Task_sort Task_regs Task_gen Task_file
  Task_proofs Task_main Task_total Task_reg_spec Task_align TaskIndex_spec Task_thr_total Task_thr_spec Task_thr_ends.
Open Scope Z_scope.

Definition out_dec : forall a b : block_out, {a = b} + {a <> b}.
Proof. repeat (decide equality; try apply String.string_dec; try apply Z.eq_dec). Defined.
Definition outs_dec : forall a b : list block_out, {a = b} + {a <> b} := list_eq_dec out_dec.

(** Two results of a block with as many triplets, that differ by them only. *)
Definition same_shape (o o' : block_out) : Prop :=
  List.length (o_triplets o) = List.length (o_triplets o') /\ ((forall s, In s (o_triplets o) <-> In s (o_triplets o')) -> o = o').

Lemma shapes_length a b : Forall2 same_shape a b -> List.length a = List.length b.
Proof. induction 1; cbn; congruence. Qed.

Lemma shapes_app a a' b b' : Forall2 same_shape a a' -> Forall2 same_shape b b' -> Forall2 same_shape (a ++ b) (a' ++ b').
Proof. intros H H'. apply Forall2_app; assumption. Qed.

Lemma all_triplets_app a b : all_triplets (a ++ b) = all_triplets a ++ all_triplets b.
Proof. unfold all_triplets. rewrite map_app, concat_app. reflexivity. Qed.

Lemma shapes_total a b : Forall2 same_shape a b -> List.length (all_triplets a) = List.length (all_triplets b).
Proof.
  induction 1 as [|o o' a b H F IH]; [reflexivity|]. unfold all_triplets in *. cbn. rewrite !app_length. destruct H as [H _]. lia.
Qed.

Lemma shapes_inj a b : Forall2 same_shape a b -> all_triplets a = all_triplets b -> a = b.
Proof.
  induction 1 as [|o o' a b H F IH]; [reflexivity|]. unfold all_triplets in *. cbn. intros E. destruct H as [H1 H2].
  apply app_inj_length in E as [E1 E2]; [|exact H1]. rewrite (IH E2). rewrite H2; [reflexivity|]. intros s. rewrite E1. tauto.
Qed.

Lemma prod_empty (gs : list (triplet -> Z)) : prodZ (map (fun g => maxZ (map g []) + 1) gs) = 1.
Proof. induction gs as [|g gs IH]; [reflexivity|]. change (prodZ (map (fun g => maxZ (map g []) + 1) (g :: gs))) with ((maxZ [] + 1) * prodZ (map (fun g : triplet -> Z => maxZ (map g []) + 1) gs)). rewrite IH. reflexivity. Qed.

Lemma filter_andb {A} (f g : A -> bool) l : filter (fun x => f x && g x) l = filter f (filter g l).
Proof. induction l as [|x l IH]; [reflexivity|]. cbn. destruct (g x); cbn; rewrite ?andb_true_r, ?andb_false_r; [destruct (f x)|]; cbn; congruence. Qed.

Section Main.
Variable L : Z.
Hypothesis HL : 0 < L.
Variable M : Z.
Hypothesis Hdiv : forall r, 0 < r <= M -> (r | L).
Variable korder : list key -> list key.
Variable enum : list Z -> list Z.
Variable argsort : list Z -> list nat.
Hypothesis korder_ok : lists_keys korder.
Hypothesis enum_ok : lists_set enum.
Hypothesis argsort_ok : argsort_spec argsort.
Variable T : task.
Variable cols : list string.
Variable db : list row.
Variable T' : task.
Variable bs : list by_block.
Variable st : stats.
Hypothesis rd : reads cols (t_filters T).
Hypothesis dt : determined T db.
Hypothesis kf : kept_first T db.
Hypothesis rr : reg_reads cols (t_regressors T).
Hypothesis rt : reg_determined T db.
Hypothesis init : task_init korder enum T cols db = Ok (T', bs, st).
Hypothesis rm : room T db.
Variable t : Z.
Hypothesis Ht : 0 < t.
Local Notation G := (t_regressors T).
Local Notation rows k := (by_rows T db k).

Variable b : by_block.
Hypothesis Hb : In b bs.
Local Notation bcols := (t_on T' :: t_across T').
Local Notation bl k := (block_list enum T' b k).
Hypothesis small : Zlen (b_frame b) * Zlen (b_frame b) * Zlen (b_frame b) < 2 ^ 64.
Hypothesis HG : r_ABX (t_regressors T') = false.
Hypothesis HM : forall k, In k (keys bcols (map snd (b_frame b))) -> Zlen (bl k) <= M.

(** A choice that keeps as many triplets of each group as the threshold. *)
Definition chosen (keep : triplet -> bool) : Prop := forall t0 all, is_wanted T db (b_key b) t0 ->
  lists_that (fun s => is_wanted T db (b_key b) s /\ same_group T (rows (b_key b)) s t0) all ->
  Zlen (filter keep all) = Z.min t (Zlen all).

Lemma cod : coded T db.
Proof. intros k t0 l H1 H2. destruct (rm k t0 l H1 H2) as (A & B & _). split; [exact A|exact B]. Qed.

Definition blk (byr : list (string * Z)) (k : key) (acc : list block_out) : comp (list block_out) := fun fuel R c =>
  block_step enum argsort R fuel T' (Some t) b byr (acc, c) (k, group bcols (b_frame b) k).

Definition good (l : list (list block_out)) (ts : list triplet) : Prop :=
  (forall x y, In x l -> In y l -> Forall2 same_shape x y) /\
  (forall x, In x l -> incl (all_triplets x) ts) /\
  (forall x y, In x l -> In y l -> (forall s, In s (all_triplets x) <-> In s (all_triplets y)) -> x = y) /\
  forall keep, of_BX G <> [] -> chosen keep -> exists x, In x l /\ forall s, In s (all_triplets x) <-> In s ts /\ keep s = true.

Lemma block_law byr k : In k (keys bcols (map snd (b_frame b))) ->
  exists lo, (forall acc, law L outs_dec (blk byr k acc) (map (app acc) lo)) /\ good lo (bl k).
Proof.
  intros Hk. destruct (proj2 (bs_inv _ korder_ok rd dt kf init) b Hb) as (Hw & al & Hne & _).
  pose proof (T'_ne _ _ _ _ _ init) as Hac.
  destruct (block_val_ok _ _ al _ Hk) as (lv & v & Hv & Hvin & Ev).
  assert (Hv' := Hv). unfold block_val in Hv'. apply bind_ok in Hv' as (l0 & Hl0 & Hv').
  destruct (f_oab (t_filters T') v) eqn:Eo.
  2:{ exists [[]]. split.
      - intros acc. cbn [map]. eapply law_ext; [|apply (law_ret L HL outs_dec (acc ++ []))]. intros fuel R c. unfold blk, block_step.
        rewrite Hl0. cbn [bind]. rewrite Hv'. cbn [bind]. rewrite Eo, app_nil_r. reflexivity.
      - assert (E : bl k = []) by (unfold block_list; rewrite Hv, Eo; reflexivity). rewrite E. split; [|split; [|split]].
        + intros x y [<-|[]] [<-|[]]. constructor.
        + intros x [<-|[]]. apply incl_refl.
        + intros x y [<-|[]] [<-|[]] _. reflexivity.
        + intros keep _ _. exists []. cbn. split; [auto|tauto]. }
  destruct (block_design_total _ enum_ok _ Hw v _ Hac Hk small) as (d & Hd).
  destruct (block_design_ok _ enum_ok _ Hw _ _ Hac Hk Hd) as (Hts & A & B & X & Hdk & IA & IB & IX).
  assert (Hbl : bl k = d_triplets d) by (unfold block_list; rewrite Hv, Eo; symmetry; exact Hts).
  set (gs := gs_of T' b v).
  assert (HC : exists l, core_good L t argsort (bl k) gs l).
  { destruct (bl k) as [|s0 bl0] eqn:Ebl.
    { apply (core_law L HL M Hdiv t Ht argsort argsort_ok); [constructor|intros g s _ []| | |].
      - rewrite prod_empty. reflexivity.
      - rewrite prod_empty. apply Z.leb_le. reflexivity.
      - rewrite <- Ebl. apply HM, Hk. }
    rewrite <- Ebl. assert (H0 : In s0 (bl k)) by (rewrite Ebl; left; reflexivity).
    destruct (@block_facts korder enum korder_ok enum_ok T cols db T' bs st rd dt kf rr rt init cod b Hb k v lv s0 Hk Hv Hvin Ev H0) as (F1 & F2 & F3 & F4 & F5).
    pose proof (block_lists korder_ok enum_ok rd dt kf init b Hb _ _ Hk H0) as HLl.
    assert (Hw0 : is_wanted T db (b_key b) s0) by (apply (proj2 HLl) in H0; tauto).
    destruct (rm _ _ _ HLl Hw0) as (_ & _ & Hcap).
    apply (core_law L HL M Hdiv t Ht argsort argsort_ok); [exact (proj1 HLl)|exact F2| | |apply HM, Hk].
    - unfold gs. rewrite F3. exact F4.
    - unfold gs. rewrite F3. exact Hcap. }
  destruct HC as (l & Hlaw & Hsh & Hap & Hkeep).
  set (sc := byr ++ scalar_regressors (r_oab (t_regressors T')) v).
  set (regs := fun ts' : list triplet =>
    map (fun nv : string * Z => (fst nv, repeat (snd nv) (List.length ts'))) sc ++
    map (fun nf : string * (row -> row -> Z) =>
            (fst nf, map (fun s => snd nf v (rowof b (pA s)))
               (match f_ABX (t_filters T') with
                | None => d_triplets d
                | Some _ => match gs with [] => [] | _ => ts' end
                end))) (r_A (t_regressors T')) ++
    map (fun nf => (fst nf, map (fun s => snd nf v (rowof b (pB s))) ts')) (r_B (t_regressors T')) ++
    map (fun nf => (fst nf, map (fun s => snd nf v (rowof b (pX s))) ts')) (r_X (t_regressors T'))).
  set (out := fun x : list nat * list nat * list triplet => mk_block_out (snd x) (regs (snd x)) (snd (fst x))).
  assert (Hreg : forall x, In x l -> compute_regressors d (fst (fst x)) (List.length (snd x)) sc (regcol b v (r_A (t_regressors T')) A)
     (regcol b v (r_B (t_regressors T')) B) (regcol b v (r_X (t_regressors T')) X) = Ok (regs (snd x))).
  { intros x Hx. destruct (Hap x Hx) as [Ha _]. rewrite Hbl in Ha.
    destruct (compute_regressors_ok (List.length (snd x)) sc (r_A (t_regressors T')) (r_B (t_regressors T')) (r_X (t_regressors T')) Hdk Ha) as (As & E1 & E2).
    rewrite E1, E2. reflexivity. }
  exists (map (fun x => [out x]) l). split.
  - intros acc. rewrite map_map.
    eapply law_ext; [|apply (law_map L HL core_dec outs_dec _ (fun x => regs <- compute_regressors d (fst (fst x)) (List.length (snd x)) sc
      (regcol b v (r_A (t_regressors T')) A) (regcol b v (r_B (t_regressors T')) B) (regcol b v (r_X (t_regressors T')) X) ;;
      Ok (acc ++ [mk_block_out (snd x) regs (snd (fst x))])) (fun x => acc ++ [out x]) l Hlaw)].
    + intros fuel R c. unfold blk, block_step. rewrite Hl0. cbn [bind]. rewrite Hv'. cbn [bind]. rewrite Eo.
      unfold on_across_triplets. rewrite Hd. cbn [bind]. rewrite (dk_A Hdk), (dk_B Hdk), (dk_X Hdk). rewrite !(item_regressors_ok Hw) by assumption.
      cbn [bind]. rewrite (sort_design_core argsort R fuel (Some t) _ _ c Hdk). unfold corec. rewrite Hbl.
      change (gB b v (r_B (t_regressors T')) ++ gX b v (r_X (t_regressors T'))) with gs.
      destruct (core argsort R fuel (Some t) (d_triplets d) gs c) as [[[[p idx] ts'] c2]|e]; cbn [bind fst snd]; [|reflexivity].
      rewrite HG. fold sc. destruct (compute_regressors _ _ _ _ _ _ _) as [rg|e]; reflexivity.
    + intros x Hx. rewrite (Hreg x Hx). reflexivity.
    + intros x y Hx Hy E. apply app_inv_head in E. destruct (Hsh x y Hx Hy) as (_ & _ & H). apply H. unfold out in E. injection E as E. intros s. rewrite E. tauto.
  - split; [|split; [|split]].
    + intros x y Hx Hy. apply in_map_iff in Hx as (x0 & <- & Hx). apply in_map_iff in Hy as (y0 & <- & Hy).
      destruct (Hsh x0 y0 Hx Hy) as (S1 & S2 & S3). constructor; [|constructor]. split; [exact S2|]. cbn [out o_triplets]. intros E. rewrite (S3 E). reflexivity.
    + intros x Hx. apply in_map_iff in Hx as (x0 & <- & Hx). unfold all_triplets. cbn. rewrite app_nil_r. apply Hap. exact Hx.
    + intros x y Hx Hy. apply in_map_iff in Hx as (x0 & <- & Hx). apply in_map_iff in Hy as (y0 & <- & Hy).
      unfold all_triplets. cbn. rewrite !app_nil_r. intros E. destruct (Hsh x0 y0 Hx Hy) as (_ & _ & S3). rewrite (S3 E). reflexivity.
    + intros keep Hbx Hch.
      assert (Hx : exists x, In x l /\ forall s, In s (snd x) <-> In s (bl k) /\ keep s = true).
      { destruct (bl k) as [|s0 bl0] eqn:Ebl.
        { destruct l as [|x l1]; [destruct (law_nonempty _ _ _ _ Hlaw); reflexivity|]. exists x. split; [left; reflexivity|].
          intros s. destruct (Hap x (or_introl eq_refl)) as [_ Hi]. split; [intros H; destruct (Hi s H)|intros [[] _]]. }
        rewrite <- Ebl in *. assert (H0 : In s0 (bl k)) by (rewrite Ebl; left; reflexivity).
        destruct (@block_facts korder enum korder_ok enum_ok T cols db T' bs st rd dt kf rr rt init cod b Hb k v lv s0 Hk Hv Hvin Ev H0) as (F1 & F2 & F3 & F4 & F5).
        apply Hkeep; [apply F1, Hbx|]. intros s Hs. unfold gs. rewrite (F5 s Hs).
        assert (HLs := @group_perm korder enum korder_ok enum_ok T cols db T' bs st rd dt kf init b Hb k s Hk Hs).
        pose proof (block_lists korder_ok enum_ok rd dt kf init b Hb _ _ Hk Hs) as HLl.
        assert (Hws : is_wanted T db (b_key b) s) by (apply (proj2 HLl) in Hs; tauto).
        specialize (Hch s _ Hws HLs). unfold Zlen in Hch. rewrite <- Hch, <- filter_andb. f_equal. f_equal. apply filter_ext_in. intros x Hx.
        f_equal. unfold same_vals.
        rewrite !(vals_profile korder_ok enum_ok rd dt kf rr rt init b Hb lv _ Hk Hv Hvin Ev) by assumption. reflexivity. }
      destruct Hx as (x & Hx & E). exists [out x]. split; [apply (in_map (fun x => [out x])); exact Hx|]. unfold all_triplets. cbn. rewrite app_nil_r. exact E.
Qed.

Definition folded (byr : list (string * Z)) (ks : list key) (acc : list block_out) : comp (list block_out) := fun fuel R c =>
  foldM (block_step enum argsort R fuel T' (Some t) b byr) (map (fun k => (k, group bcols (b_frame b) k)) ks) (acc, c).

Lemma good_app lo lr ts us : (forall s, In s ts -> ~ In s us) -> good lo ts -> good lr us -> good (flat_map (fun o => map (app o) lr) lo) (ts ++ us).
Proof.
  intros D (A1 & A2 & Au & A3) (B1 & B2 & Bu & B3). split; [|split; [|split]].
  - intros x y Hx Hy. apply in_flat_map in Hx as (o & Ho & Hx). apply in_map_iff in Hx as (r & <- & Hr).
    apply in_flat_map in Hy as (o' & Ho' & Hy). apply in_map_iff in Hy as (r' & <- & Hr'). apply shapes_app; auto.
  - intros x Hx. apply in_flat_map in Hx as (o & Ho & Hx). apply in_map_iff in Hx as (r & <- & Hr). rewrite all_triplets_app.
    apply incl_app; [apply incl_appl; auto|apply incl_appr; auto].
  - intros x y Hx Hy. apply in_flat_map in Hx as (o & Ho & Hx). apply in_map_iff in Hx as (r & <- & Hr).
    apply in_flat_map in Hy as (o' & Ho' & Hy). apply in_map_iff in Hy as (r' & <- & Hr'). rewrite !all_triplets_app. intros E.
    f_equal; [apply Au|apply Bu]; auto; intros s; specialize (E s); rewrite !in_app_iff in E; specialize (D s);
      pose proof (A2 o Ho s); pose proof (A2 o' Ho' s); pose proof (B2 r Hr s); pose proof (B2 r' Hr' s); tauto.
  - intros keep Hbx Hch. destruct (A3 keep Hbx Hch) as (o & Ho & E). destruct (B3 keep Hbx Hch) as (r & Hr & E'). exists (o ++ r). split.
    + apply in_flat_map. exists o. split; [exact Ho|]. apply in_map. exact Hr.
    + intros s. rewrite all_triplets_app, !in_app_iff, E, E'. tauto.
Qed.

Lemma fold_law byr ks : incl ks (keys bcols (map snd (b_frame b))) -> NoDup (flat_map (fun k => bl k) ks) ->
  exists lr, (forall acc, law L outs_dec (folded byr ks acc) (map (app acc) lr)) /\ good lr (flat_map (fun k => bl k) ks).
Proof.
  induction ks as [|k ks IH]; intros Hks Hnd.
  - exists [[]]. split.
    + intros acc. cbn [map]. eapply law_ext; [|apply (law_ret L HL outs_dec (acc ++ []))]. intros fuel R c. rewrite app_nil_r. reflexivity.
    + split; [|split; [|split]].
      * intros x y [<-|[]] [<-|[]]. constructor.
      * intros x [<-|[]]. apply incl_refl.
      * intros x y [<-|[]] [<-|[]] _. reflexivity.
      * intros keep _ _. exists []. cbn. split; [auto|tauto].
  - cbn [flat_map] in Hnd. destruct (NoDup_app_elim _ _ Hnd) as (_ & Nr & Nd).
    destruct IH as (lr & Hr & Gr); [intros x Hx; apply Hks; right; exact Hx|exact Nr|].
    destruct (block_law byr k) as (lo & Ho & Go); [apply Hks; left; reflexivity|].
    exists (flat_map (fun o => map (app o) lr) lo). split; [|apply good_app; assumption].
    intros acc.
    replace (map (app acc) (flat_map (fun o => map (app o) lr) lo)) with (flat_map (fun a => map (app a) lr) (map (app acc) lo)).
    2:{ clear. induction lo as [|o lo IH]; [reflexivity|]. cbn. rewrite map_app, IH, map_map. f_equal. apply map_ext. intros r. apply app_assoc_reverse. }
    eapply law_ext; [|apply (law_bind L HL outs_dec outs_dec (blk byr k acc) (folded byr ks) (map (app acc) lo) (fun a => map (app a) lr) (List.length lr) (Ho acc))].
    + intros fuel R c. unfold bindc, blk, folded. cbn [map foldM]. destruct (block_step _ _ _ _ _ _ _ _ _ _) as [[a c1]|e]; reflexivity.
    + intros a _. apply Hr.
    + intros a _. apply map_length.
    + intros a a' x Ha Ha' Hx Hx'. apply in_map_iff in Ha as (o & <- & Hoo). apply in_map_iff in Ha' as (o' & <- & Hoo').
      apply in_map_iff in Hx as (r & <- & Hrr). apply in_map_iff in Hx' as (r' & E & Hrr').
      rewrite <- !app_assoc in E. apply app_inv_head in E. apply app_inj_length in E as [E _]; [congruence|].
      apply shapes_length. apply Go; assumption.
Qed.

Lemma compute_law : exists l, law L outs_dec (fun fuel R c => compute_triplets korder enum argsort R fuel T' (Some t) b c) l /\ good l (by_list korder enum T' b).
Proof.
  destruct (proj2 (bs_inv _ korder_ok rd dt kf init) b Hb) as (Hw & al & Hne & _).
  assert (exists bv, iloc (b_frame b) 0 = Ok bv) as (bv & Hbv).
  { unfold iloc. cbn. destruct (b_frame b) as [|p fr]; [congruence|]. cbn. eauto. }
  destruct (fold_law (scalar_regressors (r_by (t_regressors T')) bv) (korder (keys bcols (map snd (b_frame b))))) as (lr & Hr & Gr).
  { intros k. apply Permutation_in, korder_ok. }
  { apply (by_list_NoDup korder_ok enum_ok _ (T'_ne _ _ _ _ _ init) Hw). }
  exists lr. split; [|exact Gr]. specialize (Hr []). replace (map (app []) lr) with lr in Hr by (symmetry; apply map_id).
  eapply law_ext; [|exact Hr]. intros fuel R c. unfold compute_triplets, groups, folded. rewrite Hbv. reflexivity.
Qed.
End Main.
