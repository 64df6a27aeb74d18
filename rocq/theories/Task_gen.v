(** Lemmas about the triplets of a by group and about the task file. *)
From Coq Require Import String.
From Verif Require Import Prelude ListFacts TypeFitting TypeFitting_proofs
  Sampler Sampler_spec Sampler_proofs Task Task_spec Task_blocks Task_sort Task_regs.
Set Implicit Arguments.
Open Scope Z_scope.

Section Gen.
Variable korder : list key -> list key.
Variable enum : list Z -> list Z.
Variable argsort : list Z -> list nat.
Variable R : rng.
Variable fuel : nat.
Hypothesis korder_ok : lists_keys korder.
Hypothesis enum_ok : lists_set enum.
Hypothesis argsort_ok : argsort_spec argsort.

Section By.
Variable T : task.
Hypothesis Hac : t_across T <> [].
Variable b : by_block.
Hypothesis wf : wf_block b.
Local Notation fr := (b_frame b).
Local Notation rowof := (rowof b).
Local Notation cols := (t_on T :: t_across T).
Local Notation G := (t_regressors T).
Local Notation plist := (plist enum T b).

(** Values of the regressors of B and X on a triplet of the block. *)
Definition gs_of (v : row) : list (triplet -> Z) := gB b v (r_B G) ++ gX b v (r_X G).

Lemma on_across_triplets_ok thr v k sc c o c' :
  In k (keys cols (map snd fr)) ->
  on_across_triplets enum argsort R fuel T thr b v k (group cols fr k) sc c = Ok (o, c') ->
  r_ABX G = false /\
  exists p,
    core argsort R fuel thr (plist v k) (gs_of v) c = Ok (p, o_index o, o_triplets o, c') /\
    o_regressors o =
      map (fun nv => (fst nv, repeat (snd nv) (length (o_triplets o)))) sc ++
      map (fun nf => (fst nf, map (fun t => snd nf v (rowof (pA t)))
               (match f_ABX (t_filters T) with
                | None => plist v k
                | Some _ => match gs_of v with [] => [] | _ => o_triplets o end
                end))) (r_A G) ++
      map (fun nf => (fst nf, map (fun t => snd nf v (rowof (pB t))) (o_triplets o))) (r_B G) ++
      map (fun nf => (fst nf, map (fun t => snd nf v (rowof (pX t))) (o_triplets o))) (r_X G).
Proof.
  intros Hk. unfold on_across_triplets. intros H. apply bind_ok in H as (d & Hd & H).
  destruct (block_design_ok _ enum_ok _ wf _ _ Hac Hk Hd) as (Hts & A & B & X & Hdk & IA & IB & IX).
  rewrite (dk_A Hdk), (dk_B Hdk), (dk_X Hdk) in H.
  rewrite !(item_regressors_ok wf) in H by assumption. cbn [bind] in H.
  rewrite (sort_design_core argsort R fuel thr (r_B G) (r_X G) c Hdk) in H.
  rewrite Hts in H. fold (gs_of v) in H.
  apply bind_ok in H as ([[[p idx] ts'] c1] & Hc & H).
  destruct (r_ABX G); [discriminate|]. split; [reflexivity|].
  pose proof (core_applied _ _ _ _ _ _ _ Hc) as Ha. rewrite <- Hts in Ha.
  destruct (compute_regressors_ok (length ts') sc (r_A G) (r_B G) (r_X G) Hdk Ha) as (As & E1 & E2).
  rewrite E1 in H. cbn [bind] in H. inversion H; subst o c1; clear H.
  exists p. split; [exact Hc|]. cbn [o_triplets o_regressors].
  rewrite E2, Hts. reflexivity.
Qed.

Definition block_val (k : key) : res row := l0 <- nth_res (group cols fr k) 0 ;; iloc fr l0.

Definition block_list (k : key) : list triplet :=
  match block_val k with
  | Ok v => if f_oab (t_filters T) v then plist v k else []
  | Err _ => []
  end.

Local Notation by_keys := (korder (keys cols (map snd fr))).

Lemma In_by_keys k : In k by_keys <-> In k (keys cols (map snd fr)).
Proof. split; apply Permutation_in; [apply korder_ok|apply Permutation_sym, korder_ok]. Qed.

Definition by_list : list triplet := flat_map block_list by_keys.

(** What block [k] adds to the file. *)
Definition block_result (thr : option Z) (byr : list (string * Z)) (k : key)
           (c : nat) (os : list block_out) (c' : nat) : Prop :=
  exists v, block_val k = Ok v /\
    ((f_oab (t_filters T) v = false /\ os = [] /\ c' = c) \/
     (f_oab (t_filters T) v = true /\ exists o, os = [o] /\
        on_across_triplets enum argsort R fuel T thr b v k (group cols fr k)
          (byr ++ scalar_regressors (r_oab G) v) c = Ok (o, c'))).

Fixpoint chain (thr : option Z) (byr : list (string * Z)) (ks : list key) (c : nat)
         (outs : list block_out) (c' : nat) : Prop :=
  match ks with
  | [] => outs = [] /\ c' = c
  | k :: ks => exists o1 c1 o2, block_result thr byr k c o1 c1 /\ chain thr byr ks c1 o2 c' /\ outs = o1 ++ o2
  end.

Lemma block_step_ok thr byr outs c k outs' c' :
  block_step enum argsort R fuel T thr b byr (outs, c) (k, group cols fr k) = Ok (outs', c') <->
  exists os, outs' = outs ++ os /\ block_result thr byr k c os c'.
Proof.
  unfold block_step, block_result, block_val. split.
  - intros H. apply bind_ok in H as (l0 & Hl & H). apply bind_ok in H as (v & Hv & H).
    rewrite Hl. cbn [bind]. rewrite Hv. destruct (f_oab (t_filters T) v) eqn:E.
    + apply bind_ok in H as ([o c1] & Ho & H). cbn [fst snd] in H. inversion H; subst.
      exists [o]. split; [reflexivity|]. exists v. split; [reflexivity|]. right. split; [exact E|]. eauto.
    + inversion H; subst. exists []. rewrite app_nil_r. split; [reflexivity|]. exists v. auto.
  - intros (os & -> & v & Hv & H). apply bind_ok in Hv as (l0 & Hl & Hv). rewrite Hl. cbn [bind].
    rewrite Hv. cbn [bind]. destruct H as [(E & -> & ->)|(E & o & -> & Ho)]; rewrite E.
    + rewrite app_nil_r. reflexivity.
    + rewrite Ho. reflexivity.
Qed.

Lemma fold_blocks_ok thr byr ks outs c outs' c' :
  foldM (block_step enum argsort R fuel T thr b byr) (map (fun k => (k, group cols fr k)) ks) (outs, c)
    = Ok (outs', c') <->
  exists os, outs' = outs ++ os /\ chain thr byr ks c os c'.
Proof.
  revert outs c. induction ks as [|k ks IH]; intros outs c; cbn [map foldM chain].
  - split.
    + intros H. inversion H; subst. exists []. rewrite app_nil_r. auto.
    + intros (os & -> & -> & ->). rewrite app_nil_r. reflexivity.
  - split.
    + intros H. apply bind_ok in H as ([o1 c1] & H1 & H). apply block_step_ok in H1 as (os1 & -> & H1).
      apply IH in H as (os2 & -> & H2). exists (os1 ++ os2). rewrite app_assoc. split; [reflexivity|].
      exists os1, c1, os2. auto.
    + intros (os & -> & o1 & c1 & o2 & H1 & H2 & ->).
      assert (E : block_step enum argsort R fuel T thr b byr (outs, c) (k, group cols fr k) = Ok (outs ++ o1, c1)).
      { apply block_step_ok. eauto. }
      rewrite E. cbn [bind]. apply IH. exists o2. rewrite app_assoc. auto.
Qed.

Lemma compute_triplets_ok thr c outs c' :
  compute_triplets korder enum argsort R fuel T thr b c = Ok (outs, c') ->
  exists bv, iloc fr 0 = Ok bv /\ chain thr (scalar_regressors (r_by G) bv) by_keys c outs c'.
Proof.
  unfold compute_triplets, groups. intros H. apply bind_ok in H as (bv & Hbv & H).
  exists bv. split; [exact Hbv|]. apply fold_blocks_ok in H as (os & -> & H). exact H.
Qed.

Lemma chain_each thr byr ks c outs c' :
  chain thr byr ks c outs c' ->
  exists outss, outs = concat outss /\
    Forall2 (fun k os => exists c0 c1, block_result thr byr k c0 os c1) ks outss.
Proof.
  revert c outs. induction ks as [|k ks IH]; cbn; intros c outs.
  - intros [-> _]. exists []. split; [reflexivity|constructor].
  - intros (o1 & c1 & o2 & H1 & H2 & ->). destruct (IH _ _ H2) as (oss & -> & HF).
    exists (o1 :: oss). split; [reflexivity|]. constructor; eauto.
Qed.

Lemma block_result_none thr byr k c os c' :
  no_threshold thr -> In k (keys cols (map snd fr)) -> block_result thr byr k c os c' ->
  c' = c /\ Permutation (concat (map o_triplets os)) (block_list k).
Proof.
  intros Ht Hk (v & Hv & H). unfold block_list. rewrite Hv.
  destruct H as [(E & -> & ->)|(E & o & -> & Ho)]; rewrite E; [split; [reflexivity|constructor]|].
  apply on_across_triplets_ok in Ho; [|exact Hk]. destruct Ho as (_ & p & Hc & _).
  apply (core_none R fuel argsort_ok) in Hc; [|exact Ht]. destruct Hc as [-> Hp].
  cbn. rewrite app_nil_r. auto.
Qed.

Lemma compute_triplets_none thr c outs c' :
  no_threshold thr ->
  compute_triplets korder enum argsort R fuel T thr b c = Ok (outs, c') ->
  c' = c /\ Permutation (concat (map o_triplets outs)) by_list.
Proof.
  intros Ht H. apply compute_triplets_ok in H as (bv & _ & H). unfold by_list.
  assert (Hks : incl by_keys (keys cols (map snd fr))) by (intros k Hk; apply In_by_keys; exact Hk).
  revert c outs H Hks. generalize by_keys. intros ks. induction ks as [|k ks IH]; cbn; intros c outs H Hks.
  - destruct H as [-> ->]. split; [reflexivity|constructor].
  - destruct H as (o1 & c1 & o2 & H1 & H2 & ->).
    apply block_result_none in H1 as [-> P1]; [|exact Ht|apply Hks; left; reflexivity].
    apply IH in H2 as [-> P2]; [|intros x Hx; apply Hks; right; exact Hx].
    split; [reflexivity|]. rewrite map_app, concat_app. apply Permutation_app; assumption.
Qed.

(* ------------------------------------------------------------------ *)
(** ** Statistics *)

Lemma stats_fold_ok ks st st' :
  incl ks (keys cols (map snd fr)) -> st_nb_items st = Zlen fr ->
  foldM (stats_step enum T false b) (map (fun k => (k, group cols fr k)) ks) st = Ok st' ->
  st_nb_triplets st' = st_nb_triplets st + Zlen (flat_map block_list ks) /\
  st_block_sizes st' = st_block_sizes st ++ map (fun k => (k, Zlen (block_list k))) ks /\
  st_nb_items st' = st_nb_items st /\ st_nb_on_levels st' = st_nb_on_levels st /\
  st_nb_across_levels st' = st_nb_across_levels st /\ st_nb_on_across_levels st' = st_nb_on_across_levels st.
Proof.
  revert st. induction ks as [|k ks IH]; intros st Hks Hi H; cbn [map foldM] in H.
  - inversion H; subst. cbn. rewrite app_nil_r. unfold Zlen. cbn. repeat split. lia.
  - apply bind_ok in H as (st1 & H1 & H). unfold stats_step in H1.
    apply bind_ok in H1 as (l0 & Hl & H1). apply bind_ok in H1 as (v & Hv & H1).
    assert (Hk : In k (keys cols (map snd fr))) by (apply Hks; left; reflexivity).
    assert (Ebv : block_val k = Ok v) by (unfold block_val; rewrite Hl; exact Hv).
    assert (Hstep : st_nb_items st1 = st_nb_items st /\ st_nb_on_levels st1 = st_nb_on_levels st /\
       st_nb_across_levels st1 = st_nb_across_levels st /\ st_nb_on_across_levels st1 = st_nb_on_across_levels st /\
       st_block_sizes st1 = st_block_sizes st ++ [(k, Zlen (block_list k))] /\
       st_nb_triplets st1 = st_nb_triplets st + Zlen (block_list k)).
    { unfold block_list. rewrite Ebv. destruct (f_oab (t_filters T) v).
      - apply bind_ok in H1 as (n & Hn & H1). inversion H1; subst st1; clear H1.
        cbn [st_nb_items st_nb_on_levels st_nb_across_levels st_nb_on_across_levels st_block_sizes st_nb_triplets].
        assert (En : n = Zlen (plist v k)).
        { destruct ((false || negb (has_item_filters (t_filters T))) && negb (1 <? length (skipn 1 k))%nat) eqn:Eb.
          - apply andb_true_iff in Eb as [E1 E2]. cbn in E1. apply negb_true_iff in E1, E2. apply Nat.ltb_ge in E2.
            assert (Hlk : length (skipn 1 k) = length (t_across T)).
            { apply In_keys in Hk as (r0 & _ & <-). cbn. unfold proj. apply map_length. }
            rewrite (plist_length _ enum_ok T wf v _ Hac Hk E1) by lia. inversion Hn; subst n; clear Hn.
            rewrite Hi. reflexivity.
          - unfold on_across_triplets_only in Hn. apply bind_ok in Hn as (ts & Hts & Hn). inversion Hn; subst n; clear Hn.
            apply bind_ok in Hts as (d & Hd & Hts). inversion Hts; subst ts; clear Hts.
            destruct (block_design_ok _ enum_ok _ wf _ _ Hac Hk Hd) as (-> & _). reflexivity. }
        rewrite En. repeat split.
      - inversion H1; subst st1. cbn. repeat split. unfold Zlen. cbn. lia. }
    destruct Hstep as (S1 & S2 & S3 & S4 & S5 & S6).
    apply IH in H; [|intros x Hx; apply Hks; right; exact Hx|congruence].
    destruct H as (Q1 & Q2 & Q3 & Q4 & Q5 & Q6).
    rewrite Q1, Q2, Q3, Q4, Q5, Q6, S1, S2, S3, S4, S5, S6. cbn [flat_map map].
    repeat split.
    + unfold Zlen. rewrite app_length. lia.
    + rewrite <- app_assoc. reflexivity.
Qed.

Lemma stats_by_ok st :
  stats_by korder enum T false b = Ok st ->
  st_nb_triplets st = Zlen by_list /\
  st_block_sizes st = map (fun k => (k, Zlen (block_list k))) by_keys /\
  st_nb_items st = Zlen fr /\ st_nb_on_levels st = Zlen (keys [t_on T] (map snd fr)) /\
  st_nb_across_levels st = Zlen (keys (t_across T) (map snd fr)) /\
  st_nb_on_across_levels st = Zlen by_keys.
Proof.
  unfold stats_by. intros H. apply stats_fold_ok in H.
  - destruct H as (Q1 & Q2 & Q3 & Q4 & Q5 & Q6). cbn in *.
    assert (HL : forall cs, Zlen (groups korder cs fr) = Zlen (keys cs (map snd fr))).
    { intros cs. unfold Zlen, groups. rewrite map_length, (Permutation_length (korder_ok _)). reflexivity. }
    rewrite HL in Q4, Q5. rewrite Q1, Q2, Q3, Q4, Q5, Q6. repeat split.
    unfold Zlen, groups. rewrite map_length. reflexivity.
  - intros k Hk. apply In_by_keys. exact Hk.
  - reflexivity.
Qed.

(* ------------------------------------------------------------------ *)
(** ** Members *)

Definition same_block (r r' : row) : Prop := proj cols r = proj cols r'.

(** The filters do not depend on which item of the block gives its values. *)
Record block_det : Prop := mk_bdet {
  bd_oab : forall l l' r r', In (l, r) fr -> In (l', r') fr -> same_block r r' ->
             f_oab (t_filters T) r = f_oab (t_filters T) r';
  bd_A : forall f l l' m r r' x, f_A (t_filters T) = Some f -> In (l, r) fr -> In (l', r') fr -> In (m, x) fr ->
             same_block r r' -> f r x = f r' x;
  bd_B : forall f l l' m r r' x, f_B (t_filters T) = Some f -> In (l, r) fr -> In (l', r') fr -> In (m, x) fr ->
             same_block r r' -> f r x = f r' x;
  bd_X : forall f l l' m r r' x, f_X (t_filters T) = Some f -> In (l, r) fr -> In (l', r') fr -> In (m, x) fr ->
             same_block r r' -> f r x = f r' x;
  bd_ABX : forall f l l' m1 m2 m3 r r' x y z, f_ABX (t_filters T) = Some f -> In (l, r) fr -> In (l', r') fr ->
             In (m1, x) fr -> In (m2, y) fr -> In (m3, z) fr -> same_block r r' -> f r x y z = f r' x y z
}.

Hypothesis al : aligned fr.

Lemma block_val_ok k : In k (keys cols (map snd fr)) ->
  exists l v, block_val k = Ok v /\ In (l, v) fr /\ proj cols v = k.
Proof.
  intros Hk. apply In_keys in Hk as (r & Hr & Ek). apply in_map_iff in Hr as ([l r'] & E & Hr). cbn in E. subst r'.
  assert (Hin : In l (group cols fr k)) by (apply In_group; eauto).
  unfold block_val. destruct (group cols fr k) as [|l0 g] eqn:Eg; [destruct Hin|].
  cbn. assert (H0 : In l0 (group cols fr k)) by (rewrite Eg; left; reflexivity).
  apply In_group in H0 as (v & Hv & Ev). exists l0, v. rewrite (al _ _ Hv). auto.
Qed.

Definition wanted_in (a b' x : Z) : Prop :=
  exists ra rb rx, In (a, ra) fr /\ In (b', rb) fr /\ In (x, rx) fr /\
    (rb (t_on T) <> ra (t_on T) /\ (no_across T = false -> forall c, In c (t_across T) -> rb c = ra c)) /\
    (rx (t_on T) = ra (t_on T) /\ forall c, In c (t_across T) -> rx c <> ra c) /\
    f_oab (t_filters T) ra = true /\
    holds2 (f_A (t_filters T)) ra ra /\ holds2 (f_B (t_filters T)) ra rb /\
    holds2 (f_X (t_filters T)) ra rx /\ holds4 (f_ABX (t_filters T)) ra ra rb rx.

Lemma proj_ext cs r r' : proj cs r = proj cs r' <-> forall c, In c cs -> r c = r' c.
Proof.
  unfold proj. induction cs as [|c cs IH]; cbn; [split; [intros _ c []|reflexivity]|].
  split.
  - intros H. injection H as H1 H2. intros c' [<-|Hc]; [exact H1|]. apply IH; assumption.
  - intros H. f_equal; [apply H; auto|]. apply IH. auto.
Qed.

Lemma block_list_In k a b' x :
  block_det -> In k (keys cols (map snd fr)) ->
  (In (a, b', x) (block_list k) <->
   exists ra, In (a, ra) fr /\ proj cols ra = k /\ wanted_in a b' x).
Proof.
  intros Hdet Hk. destruct (block_val_ok _ Hk) as (lv & v & Hv & Hvin & Ev).
  unfold block_list. rewrite Hv.
  assert (Hsb : forall ra, proj cols ra = k -> same_block v ra) by (intros ra E; unfold same_block; congruence).
  split.
  - destruct (f_oab (t_filters T) v) eqn:Eo; [|intros []].
    intros H. apply (plist_In _ enum_ok T wf _ _ _ _ _ Hac Hk) in H.
    destruct H as (ra & rb & rx & Ha & Hb & Hx & Ek & (B1 & B2) & (X1 & X2) & FA & FB & FX & FABX).
    pose proof (Hsb _ Ek) as Hs.
    exists ra. split; [exact Ha|]. split; [exact Ek|]. exists ra, rb, rx.
    rewrite <- Ek in B1, B2, X1, X2. cbn [proj map hd tl] in B1, B2, X1, X2.
    split; [exact Ha|]. split; [exact Hb|]. split; [exact Hx|]. split; [|split; [|split]].
    + split; [exact B1|]. intros E. apply proj_ext. auto.
    + split; [exact X1|]. apply proj_eq_combine. exact X2.
    + rewrite <- (bd_oab Hdet _ _ Hvin Ha Hs). exact Eo.
    + unfold holds2, holds4. repeat split.
      * destruct (f_A (t_filters T)) eqn:E; [|exact I]. rewrite <- (bd_A Hdet _ _ _ _ E Hvin Ha Ha Hs). exact FA.
      * destruct (f_B (t_filters T)) eqn:E; [|exact I]. rewrite <- (bd_B Hdet _ _ _ _ E Hvin Ha Hb Hs). exact FB.
      * destruct (f_X (t_filters T)) eqn:E; [|exact I]. rewrite <- (bd_X Hdet _ _ _ _ E Hvin Ha Hx Hs). exact FX.
      * destruct (f_ABX (t_filters T)) eqn:E; [|exact I].
        rewrite <- (bd_ABX Hdet _ _ _ _ _ _ _ _ E Hvin Ha Ha Hb Hx Hs). exact FABX.
  - intros (ra' & Ha' & Ek & ra & rb & rx & Ha & Hb & Hx & (B1 & B2) & (X1 & X2) & Fo & FA & FB & FX & FABX).
    assert (ra' = ra) by (eapply label_unique; eauto; apply (wf_nodup wf)). subst ra'.
    pose proof (Hsb _ Ek) as Hs.
    rewrite (bd_oab Hdet _ _ Hvin Ha Hs), Fo.
    apply (plist_In _ enum_ok T wf _ _ _ _ _ Hac Hk).
    exists ra, rb, rx. rewrite <- Ek. cbn [proj map hd tl].
    split; [exact Ha|]. split; [exact Hb|]. split; [exact Hx|]. split; [reflexivity|]. split; [|split].
    + split; [exact B1|]. intros E. apply proj_ext. auto.
    + split; [exact X1|]. apply proj_eq_combine. exact X2.
    + unfold holds2, holds4 in *. repeat split.
      * destruct (f_A (t_filters T)) eqn:E; [|exact I]. rewrite (bd_A Hdet _ _ _ _ E Hvin Ha Ha Hs). exact FA.
      * destruct (f_B (t_filters T)) eqn:E; [|exact I]. rewrite (bd_B Hdet _ _ _ _ E Hvin Ha Hb Hs). exact FB.
      * destruct (f_X (t_filters T)) eqn:E; [|exact I]. rewrite (bd_X Hdet _ _ _ _ E Hvin Ha Hx Hs). exact FX.
      * destruct (f_ABX (t_filters T)) eqn:E; [|exact I].
        rewrite (bd_ABX Hdet _ _ _ _ _ _ _ _ E Hvin Ha Ha Hb Hx Hs). exact FABX.
Qed.

Lemma by_list_In a b' x : block_det -> (In (a, b', x) by_list <-> wanted_in a b' x).
Proof.
  intros Hdet. unfold by_list. rewrite in_flat_map. split.
  - intros (k & Hk & H). apply In_by_keys in Hk. apply (block_list_In _ _ _ _ Hdet Hk) in H.
    destruct H as (ra & _ & _ & H). exact H.
  - intros H. pose proof H as H'. destruct H as (ra & rb & rx & Ha & _).
    assert (Hk : In (proj cols ra) (keys cols (map snd fr))).
    { apply In_keys. exists ra. split; [|reflexivity]. apply in_map_iff. exists (a, ra). auto. }
    exists (proj cols ra). split; [apply In_by_keys; exact Hk|].
    apply (block_list_In _ _ _ _ Hdet Hk). eauto.
Qed.

Lemma block_list_NoDup k : In k (keys cols (map snd fr)) -> NoDup (block_list k).
Proof.
  intros Hk. unfold block_list. destruct (block_val k) as [v|]; [|constructor].
  destruct (f_oab (t_filters T) v); [|constructor]. apply (plist_NoDup _ enum_ok T wf); assumption.
Qed.

Lemma block_list_key k t : In k (keys cols (map snd fr)) -> In t (block_list k) -> proj cols (rowof (pA t)) = k.
Proof.
  intros Hk. unfold block_list. destruct (block_val k) as [v|]; [|intros []].
  destruct (f_oab (t_filters T) v); [|intros []]. destruct t as [[a b'] x].
  intros H. apply (plist_In _ enum_ok T wf _ _ _ _ _ Hac Hk) in H. destruct H as (ra & rb & rx & Ha & _ & _ & E & _).
  unfold pA. cbn [fst]. rewrite (rowof_In wf _ _ Ha). exact E.
Qed.

Lemma by_list_NoDup : NoDup by_list.
Proof.
  unfold by_list.
  assert (Hn : NoDup by_keys).
  { apply (Permutation_NoDup (Permutation_sym (korder_ok _))), NoDup_keys. }
  assert (Hks : incl by_keys (keys cols (map snd fr))) by (intros k Hk; apply In_by_keys; exact Hk).
  revert Hn Hks. generalize by_keys. intros ks. induction ks as [|k ks IH]; intros Hn Hks; [constructor|].
  apply NoDup_cons_iff in Hn as [H1 H2]. cbn. apply NoDup_app_intro.
  - apply block_list_NoDup. apply Hks. left. reflexivity.
  - apply IH; [exact H2|]. intros x Hx. apply Hks. right. exact Hx.
  - intros t Ht Ht'. apply in_flat_map in Ht' as (k' & Hk' & Ht').
    apply block_list_key in Ht; [|apply Hks; left; reflexivity].
    apply block_list_key in Ht'; [|apply Hks; right; exact Hk']. congruence.
Qed.

End By.
End Gen.
