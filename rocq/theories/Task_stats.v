(** The statistics of a by group. *)
From Coq Require Import String.
From Verif Require Import Prelude ListFacts TypeFitting TypeFitting_proofs
  Sampler Sampler_spec Sampler_proofs Task Task_spec Task_blocks Task_sort Task_regs Task_gen Task_file
  Task_proofs Task_main Task_stats_spec.
Set Implicit Arguments.
Open Scope Z_scope.

Lemma NoDup_list_prod {A B} (l : list A) (m : list B) : NoDup l -> NoDup m -> NoDup (list_prod l m).
Proof.
  intros Hl Hm. induction Hl as [|a l Hin Hl IH]; cbn; [constructor|]. apply NoDup_app_intro.
  - apply FinFun.Injective_map_NoDup; [intros x y E; congruence|exact Hm].
  - exact IH.
  - intros [x y] H1 H2. apply in_map_iff in H1 as (z & E & _). inversion E; subst.
    apply in_prod_iff in H2. tauto.
Qed.

Section Stats.
Variable korder : list key -> list key.
Variable enum : list Z -> list Z.
Hypothesis korder_ok : lists_keys korder.
Hypothesis enum_ok : lists_set enum.

Section By.
Variable T : task.
Hypothesis Hac : t_across T <> [].
Variable b : by_block.
Hypothesis wf : wf_block b.
Hypothesis al : aligned (b_frame b).
Hypothesis det : block_det T b.
Local Notation fr := (b_frame b).
Local Notation cols := (t_on T :: t_across T).
Local Notation by_keys := (korder (keys cols (map snd fr))).

Definition kept_block (k : key) : bool :=
  match block_val T b k with Ok v => f_oab (t_filters T) v | Err _ => false end.

Definition Bs (k : key) : list Z :=
  if no_across T then set_diff (labels fr) (group [t_on T] fr (firstn 1 k))
  else set_diff (group (t_across T) fr (skipn 1 k)) (group cols fr k).

Definition Xs (k : key) : list Z := set_diff (group [t_on T] fr (firstn 1 k)) (group cols fr k).

Definition apairs (k : key) : list (Z * Z) := if kept_block k then list_prod (group cols fr k) (Bs k) else [].
Definition opairs (k : key) : list (Z * Z) := if kept_block k then list_prod (group cols fr k) (Xs k) else [].

Lemma sub1 k : incl (group cols fr k) (group [t_on T] fr (firstn 1 k)).
Proof.
  intros l Hin. apply In_group in Hin as (r & H1 & H2). apply In_group. exists r. split; [exact H1|].
  rewrite <- H2. reflexivity.
Qed.

Lemma sub2 k : incl (group cols fr k) (group (t_across T) fr (skipn 1 k)).
Proof.
  intros l Hin. apply In_group in Hin as (r & H1 & H2). apply In_group. exists r. split; [exact H1|].
  rewrite <- H2. reflexivity.
Qed.

Lemma Xs_length k : Zlen (Xs k) = Zlen (group [t_on T] fr (firstn 1 k)) - Zlen (group cols fr k).
Proof.
  pose proof (wf_nodup wf) as Hn. unfold Xs, Zlen.
  rewrite (length_set_diff enum enum_ok) by (auto using NoDup_group, sub1).
  pose proof (NoDup_incl_length (NoDup_group cols fr k Hn) (sub1 k)). lia.
Qed.

Lemma Bs_length k : Zlen (Bs k) =
  if no_across T then Zlen fr - Zlen (group [t_on T] fr (firstn 1 k))
  else Zlen (group (t_across T) fr (skipn 1 k)) - Zlen (group cols fr k).
Proof.
  pose proof (wf_nodup wf) as Hn. unfold Bs, Zlen. destruct (no_across T).
  - assert (S : incl (group [t_on T] fr (firstn 1 k)) (labels fr)) by (intros l; apply In_group_label).
    rewrite (length_set_diff enum enum_ok) by (auto using NoDup_group).
    pose proof (NoDup_incl_length (NoDup_group [t_on T] fr (firstn 1 k) Hn) S) as L.
    assert (EL : length (labels fr) = length fr) by apply map_length. lia.
  - rewrite (length_set_diff enum enum_ok) by (auto using NoDup_group, sub2).
    pose proof (NoDup_incl_length (NoDup_group cols fr k Hn) (sub2 k)). lia.
Qed.

Lemma Zlen_list_prod {A B} (l : list A) (m : list B) : Zlen (list_prod l m) = Zlen l * Zlen m.
Proof. unfold Zlen. rewrite prod_length. lia. Qed.

Lemma Zlen_app' {A} (l m : list A) : Zlen (l ++ m) = Zlen l + Zlen m.
Proof. unfold Zlen. rewrite app_length. lia. Qed.

Lemma pairs_fold ap ks st st' :
  st_nb_items st = Zlen fr ->
  foldM (stats_step enum T ap b) (map (fun k => (k, group cols fr k)) ks) st = Ok st' ->
  st_nb_across_pairs st' = st_nb_across_pairs st + Zlen (flat_map apairs ks) /\
  st_nb_on_pairs st' = st_nb_on_pairs st + Zlen (flat_map opairs ks).
Proof.
  revert st. induction ks as [|k ks IH]; intros st Hi H; cbn [map foldM] in H.
  - inversion H; subst. cbn. unfold Zlen. cbn. lia.
  - apply bind_ok in H as (st1 & H1 & H). unfold stats_step in H1.
    apply bind_ok in H1 as (l0 & Hl & H1). apply bind_ok in H1 as (v & Hv & H1).
    assert (Ebv : block_val T b k = Ok v) by (unfold block_val; rewrite Hl; exact Hv).
    assert (S : st_nb_items st1 = Zlen fr /\
       st_nb_across_pairs st1 = st_nb_across_pairs st + Zlen (apairs k) /\
       st_nb_on_pairs st1 = st_nb_on_pairs st + Zlen (opairs k)).
    { unfold apairs, opairs, kept_block. rewrite Ebv. destruct (f_oab (t_filters T) v).
      - apply bind_ok in H1 as (n & Hn & H1). inversion H1; subst st1; clear H1.
        cbn [st_nb_items st_nb_across_pairs st_nb_on_pairs].
        rewrite !Zlen_list_prod, Xs_length, Bs_length, Hi. auto.
      - inversion H1; subst st1. cbn. split; [exact Hi|]. unfold Zlen. cbn. lia. }
    destruct S as (S1 & S2 & S3). apply IH in H; [|exact S1]. destruct H as [Q1 Q2].
    cbn [flat_map]. rewrite !Zlen_app'. lia.
Qed.

Lemma In_apairs k a b' : In k (keys cols (map snd fr)) ->
  (In (a, b') (apairs k) <-> exists ra rb, In (a, ra) fr /\ In (b', rb) fr /\ proj cols ra = k /\
     f_oab (t_filters T) ra = true /\ rb (t_on T) <> ra (t_on T) /\
     (no_across T = false -> proj (t_across T) rb = proj (t_across T) ra)).
Proof.
  intros Hk. destruct (block_val_ok _ _ al _ Hk) as (lv & v & Hv & Hvin & Ev).
  unfold apairs, kept_block. rewrite Hv.
  assert (Fo : forall l ra, In (l, ra) fr -> proj cols ra = k -> f_oab (t_filters T) ra = f_oab (t_filters T) v).
  { intros l ra Ha E. apply (bd_oab det _ _ Ha Hvin). unfold same_block. congruence. }
  assert (HB : forall ra, proj cols ra = k -> (In b' (Bs k) <-> exists rb, In (b', rb) fr /\
     rb (t_on T) <> ra (t_on T) /\ (no_across T = false -> proj (t_across T) rb = proj (t_across T) ra))).
  { intros ra <-. unfold Bs. cbn [proj map firstn skipn]. destruct (no_across T).
    - rewrite In_set_diff, In_labels, In_group. split.
      + intros [(r & H1) H2]. exists r. split; [exact H1|]. split; [|discriminate].
        intros E. apply H2. exists r. split; [exact H1|]. cbn. rewrite E. reflexivity.
      + intros (r & H1 & H2 & _). split; [eauto|]. intros (r' & H3 & H4).
        assert (r' = r) by (eapply label_unique; eauto; apply (wf_nodup wf)). subst r'.
        cbn in H4. congruence.
    - rewrite In_set_diff, !In_group. split.
      + intros [(r & H1 & H1') H2]. exists r. split; [exact H1|]. split; [|auto].
        intros E. apply H2. exists r. split; [exact H1|]. cbn. rewrite E. unfold proj in H1'. rewrite H1'. reflexivity.
      + intros (r & H1 & H2 & H2'). split; [exists r; auto|]. intros (r' & H3 & H4).
        assert (r' = r) by (eapply label_unique; eauto; apply (wf_nodup wf)). subst r'.
        cbn in H4. congruence. }
  split.
  - destruct (f_oab (t_filters T) v) eqn:Eo; [|intros []]. rewrite in_prod_iff, In_group.
    intros [(ra & Ha & E) Hb]. apply (HB _ E) in Hb as (rb & Hb & H1 & H2).
    exists ra, rb. rewrite (Fo _ _ Ha E). auto 10.
  - intros (ra & rb & Ha & Hb & E & Fa & H1 & H2). rewrite (Fo _ _ Ha E) in Fa. rewrite Fa.
    apply in_prod_iff. split; [apply In_group; eauto|]. apply (HB _ E). eauto.
Qed.

Lemma In_opairs k a x : In k (keys cols (map snd fr)) ->
  (In (a, x) (opairs k) <-> exists ra rx, In (a, ra) fr /\ In (x, rx) fr /\ proj cols ra = k /\
     f_oab (t_filters T) ra = true /\ rx (t_on T) = ra (t_on T) /\
     proj (t_across T) rx <> proj (t_across T) ra).
Proof.
  intros Hk. destruct (block_val_ok _ _ al _ Hk) as (lv & v & Hv & Hvin & Ev).
  unfold opairs, kept_block. rewrite Hv.
  assert (Fo : forall l ra, In (l, ra) fr -> proj cols ra = k -> f_oab (t_filters T) ra = f_oab (t_filters T) v).
  { intros l ra Ha E. apply (bd_oab det _ _ Ha Hvin). unfold same_block. congruence. }
  assert (HX : forall ra, proj cols ra = k -> (In x (Xs k) <-> exists rx, In (x, rx) fr /\
     rx (t_on T) = ra (t_on T) /\ proj (t_across T) rx <> proj (t_across T) ra)).
  { intros ra <-. unfold Xs. cbn [proj map firstn skipn].
    rewrite In_set_diff, !In_group. split.
    - intros [(r & H1 & H1') H2]. exists r. split; [exact H1|]. cbn in H1'. split; [congruence|].
      intros E. apply H2. exists r. split; [exact H1|]. cbn. unfold proj in E. congruence.
    - intros (r & H1 & H2 & H2'). split; [exists r; split; [exact H1|cbn; congruence]|]. intros (r' & H3 & H4).
      assert (r' = r) by (eapply label_unique; eauto; apply (wf_nodup wf)). subst r'.
      cbn in H4. apply H2'. unfold proj. congruence. }
  split.
  - destruct (f_oab (t_filters T) v) eqn:Eo; [|intros []]. rewrite in_prod_iff, In_group.
    intros [(ra & Ha & E) Hb]. apply (HX _ E) in Hb as (rb & Hb & H1 & H2).
    exists ra, rb. rewrite (Fo _ _ Ha E). auto 10.
  - intros (ra & rb & Ha & Hb & E & Fa & H1 & H2). rewrite (Fo _ _ Ha E) in Fa. rewrite Fa.
    apply in_prod_iff. split; [apply In_group; eauto|]. apply (HX _ E). eauto.
Qed.

Lemma NoDup_set_diff l l' : NoDup l -> NoDup (set_diff l l').
Proof. apply NoDup_filter. Qed.

Lemma NoDup_apairs k : NoDup (apairs k).
Proof.
  pose proof (wf_nodup wf) as Hn. unfold apairs, Bs. destruct (kept_block k); [|constructor].
  apply NoDup_list_prod; [apply NoDup_group; exact Hn|].
  destruct (no_across T); apply NoDup_set_diff; [exact Hn|apply NoDup_group; exact Hn].
Qed.

Lemma NoDup_opairs k : NoDup (opairs k).
Proof.
  pose proof (wf_nodup wf) as Hn. unfold opairs, Xs. destruct (kept_block k); [|constructor].
  apply NoDup_list_prod; [apply NoDup_group; exact Hn|]. apply NoDup_set_diff, NoDup_group, Hn.
Qed.

Lemma NoDup_by_pairs (f : key -> list (Z * Z)) :
  (forall k, NoDup (f k)) -> (forall k a x, In (a, x) (f k) -> In a (group cols fr k)) ->
  NoDup (flat_map f by_keys).
Proof.
  intros H1 H2.
  assert (Hn : NoDup by_keys).
  { apply (Permutation_NoDup (Permutation_sym (korder_ok _))), NoDup_keys. }
  revert Hn. generalize by_keys. intros ks. induction ks as [|k ks IH]; intros Hn; [constructor|].
  apply NoDup_cons_iff in Hn as [Hk Hn]. cbn. apply NoDup_app_intro; [apply H1|apply IH, Hn|].
  intros [a x] Ha Ha'. apply in_flat_map in Ha' as (k' & Hk' & Ha').
  apply H2, In_group in Ha as (r & Hr & E). apply H2, In_group in Ha' as (r' & Hr' & E').
  assert (r' = r) by (eapply label_unique; eauto; apply (wf_nodup wf)). subst r'. congruence.
Qed.

Lemma by_apairs : NoDup (flat_map apairs by_keys).
Proof.
  apply NoDup_by_pairs; [apply NoDup_apairs|]. intros k a x. unfold apairs. destruct (kept_block k); [|intros []].
  rewrite in_prod_iff. tauto.
Qed.

Lemma by_opairs : NoDup (flat_map opairs by_keys).
Proof.
  apply NoDup_by_pairs; [apply NoDup_opairs|]. intros k a x. unfold opairs. destruct (kept_block k); [|intros []].
  rewrite in_prod_iff. tauto.
Qed.

Lemma In_by_apairs a b' : In (a, b') (flat_map apairs by_keys) <->
  exists ra rb, In (a, ra) fr /\ In (b', rb) fr /\
     f_oab (t_filters T) ra = true /\ rb (t_on T) <> ra (t_on T) /\
     (no_across T = false -> proj (t_across T) rb = proj (t_across T) ra).
Proof.
  rewrite in_flat_map. split.
  - intros (k & Hk & H). apply (Permutation_in _ (korder_ok _)) in Hk. apply (In_apairs _ _ _ Hk) in H.
    destruct H as (ra & rb & H1 & H2 & _ & H3). exists ra, rb. tauto.
  - intros (ra & rb & Ha & Hb & H).
    assert (Hk : In (proj cols ra) (keys cols (map snd fr))).
    { apply In_keys. exists ra. split; [|reflexivity]. apply in_map_iff. exists (a, ra). auto. }
    exists (proj cols ra). split; [apply (Permutation_in _ (Permutation_sym (korder_ok _))), Hk|].
    apply (In_apairs _ _ _ Hk). exists ra, rb. tauto.
Qed.

Lemma In_by_opairs a x : In (a, x) (flat_map opairs by_keys) <->
  exists ra rx, In (a, ra) fr /\ In (x, rx) fr /\
     f_oab (t_filters T) ra = true /\ rx (t_on T) = ra (t_on T) /\
     proj (t_across T) rx <> proj (t_across T) ra.
Proof.
  rewrite in_flat_map. split.
  - intros (k & Hk & H). apply (Permutation_in _ (korder_ok _)) in Hk. apply (In_opairs _ _ _ Hk) in H.
    destruct H as (ra & rb & H1 & H2 & _ & H3). exists ra, rb. tauto.
  - intros (ra & rb & Ha & Hb & H).
    assert (Hk : In (proj cols ra) (keys cols (map snd fr))).
    { apply In_keys. exists ra. split; [|reflexivity]. apply in_map_iff. exists (a, ra). auto. }
    exists (proj cols ra). split; [apply (Permutation_in _ (Permutation_sym (korder_ok _))), Hk|].
    apply (In_opairs _ _ _ Hk). exists ra, rb. tauto.
Qed.

Lemma stats_by_pairs ap st : stats_by korder enum T ap b = Ok st ->
  st_nb_across_pairs st = Zlen (flat_map apairs by_keys) /\ st_nb_on_pairs st = Zlen (flat_map opairs by_keys).
Proof. unfold stats_by, groups. intros H. apply pairs_fold in H; [|reflexivity]. exact H. Qed.

End By.

(* ------------------------------------------------------------------ *)
(** ** On the table of the user *)

Variable T : task.
Variable cs : list string.
Variable db : list row.
Variable T' : task.
Variable bs : list by_block.
Variable st : stats.
Hypothesis rd : reads cs (t_filters T).
Hypothesis dt : determined T db.
Hypothesis kf : kept_first T db.
Hypothesis init : task_init korder enum T cs db = Ok (T', bs, st).

Section Key.
Variable b : by_block.
Hypothesis Hb : In b bs.
Local Notation fr := (b_frame b).
Local Notation ext := (ext T).

Lemma frame_kept i r' : In (i, r') fr <->
  exists g r, r' = ext (g, r) /\ kept_item T db (b_key b) i r /\
     nth_error (ig T db (b_key b)) (Z.to_nat i) = Some (g, r).
Proof.
  destruct (init_inv _ _ _ _ _ init) as (Hc & ET & _).
  destruct (proj2 (bs_inv enum korder_ok rd dt kf init) b Hb) as (_ & _ & _ & Ef & _ & _).
  rewrite ET in Ef. rewrite (frame_In Hc rd dt _ _ Ef). unfold kept_item. split.
  - intros (g & r & H1 & H2 & -> & H3). exists g, r. split; [reflexivity|]. split; [|exact H2].
    split; [|exact H3]. apply (item_ig _ _ _ Hc). eauto.
  - intros (g & r & -> & [H1 H2] & H3). exists g, r. split; [apply H1|]. auto.
Qed.

Lemma kept_in_frame i r : kept_item T db (b_key b) i r -> exists g,
  In (i, ext (g, r)) fr /\ nth_error (ig T db (b_key b)) (Z.to_nat i) = Some (g, r).
Proof.
  intros H. pose proof H as [H1 _]. destruct (init_inv _ _ _ _ _ init) as (Hc & _).
  apply (item_ig _ _ _ Hc) in H1 as (_ & g & H1). exists g. split; [|exact H1]. apply frame_kept. eauto.
Qed.

Lemma Hchk : check_database cs (t_on T) (t_across T) (t_by T) = Ok tt.
Proof. apply (init_inv _ _ _ _ _ init). Qed.

Lemma ext_col p c : In c cs -> ext p c = snd p c.
Proof. apply (ext_agree _ _ Hchk p). Qed.

Lemma same_len {A} (l m : list A) : NoDup l -> NoDup m -> (forall x, In x l <-> In x m) -> Zlen l = Zlen m.
Proof. intros H1 H2 H. unfold Zlen. f_equal. apply Permutation_length, NoDup_Permutation; assumption. Qed.

Lemma kept_labels i : In i (labels fr) <-> exists r, kept_item T db (b_key b) i r.
Proof.
  rewrite In_labels. split.
  - intros (r' & H). apply frame_kept in H as (g & r & _ & H & _). eauto.
  - intros (r & H). apply kept_in_frame in H as (g & H & _). eauto.
Qed.

Lemma proj_ext_cols c p : incl c cs -> proj c (ext p) = map (snd p) c.
Proof. intros H. unfold proj. apply map_ext_in. intros x Hx. apply ext_col, H, Hx. Qed.

Lemma values_keys c v : incl c cs ->
  (In v (keys c (map snd fr)) <-> exists i r, kept_item T db (b_key b) i r /\ map r c = v).
Proof.
  intros Hc. rewrite In_keys. split.
  - intros (r' & H & <-). apply in_map_iff in H as ([i r0] & E & H). cbn in E. subst r0.
    apply frame_kept in H as (g & r & -> & H & _). exists i, r. split; [exact H|].
    rewrite proj_ext_cols by exact Hc. reflexivity.
  - intros (i & r & H & <-). apply kept_in_frame in H as (g & H & _). exists (ext (g, r)).
    split; [apply in_map_iff; exists (i, ext (g, r)); auto|apply (proj_ext_cols (g, r) Hc)].
Qed.

(** Without across, each item is alone in its across group. *)
Lemma keys_no_across c : t_across T = [] -> incl c cs -> Zlen (keys (c ++ ["#across"%string]) (map snd fr)) = Zlen fr.
Proof.
  intros E Hc.
  assert (N : NoDup (map (proj (c ++ ["#across"%string])) (map snd fr))).
  { destruct (proj2 (bs_wf _ korder_ok _ _ _ init) b Hb) as (Hw & _).
    assert (G : forall p q, In p fr -> In q fr ->
       proj (c ++ ["#across"%string]) (snd p) = proj (c ++ ["#across"%string]) (snd q) -> p = q).
    { intros [i r] [j r'] H1 H2 EE. cbn [snd] in EE.
      apply proj_ext with (c := "#across"%string) in EE; [|apply in_or_app; right; left; reflexivity].
      apply frame_kept in H1 as (g & r0 & -> & (I1 & _) & N1). apply frame_kept in H2 as (g' & r1 & -> & (I2 & _) & N2).
      rewrite !ext_across in EE by exact E. cbn in EE. subst g'.
      destruct (ig_fst_inj _ _ _ _ _ N1 N2) as [Ei ->].
      destruct I1 as [I1 _], I2 as [I2 _]. f_equal. lia. }
    pose proof (wf_nodup Hw) as Hn. unfold labels in Hn. apply NoDup_map_inv in Hn. clear -G Hn.
    rewrite map_map. induction Hn as [|p l Hp Hn IH]; cbn; constructor.
    - intros H. apply in_map_iff in H as (q & E & Hq). apply Hp.
      rewrite (G p q); [exact Hq|left; reflexivity|right; exact Hq|congruence].
    - apply IH. intros p' q' H1 H2. apply G; right; assumption. }
  unfold keys. rewrite nodup_fixed_point by exact N. unfold Zlen. rewrite !map_length. reflexivity.
Qed.

End Key.

Lemma by_stats_of n b s : nth_error bs n = Some b -> nth_error (s_by st) n = Some s ->
  stats_by korder enum T' false b = Ok s.
Proof.
  intros Hb Hs. pose proof (sts_inv _ _ _ _ _ init) as F. clear -F Hb Hs. revert n Hb Hs.
  induction F as [|b0 s0 bs0 sts0 H F IH]; intros [|i]; cbn; try discriminate.
  - intros E1 E2. inversion E1; inversion E2; subst. exact H.
  - apply IH.
Qed.

Lemma cols_known : incl (t_on T :: t_across T) cs.
Proof.
  destruct (check_inv _ _ Hchk) as (C1 & C2 & _). intros c [<-|H]; [exact C1|apply C2, H].
Qed.

Theorem item_counts n b s l L :
  nth_error bs n = Some b -> nth_error (s_by st) n = Some s ->
  lists_items T db (b_key b) l -> lists_values T db (b_key b) [t_on T] L ->
  st_nb_items s = Zlen l /\ st_nb_on_levels s = Zlen L.
Proof.
  intros Hb Hs [N1 I1] [N2 I2]. pose proof (by_stats_of _ Hb Hs) as H. apply nth_error_In in Hb.
  destruct (proj2 (bs_wf _ korder_ok _ _ _ init) b Hb) as (Hw & _).
  destruct (init_inv _ _ _ _ _ init) as (_ & ET & _).
  destruct (stats_by_ok korder_ok enum_ok _ (T'_ne _ _ _ _ _ init) Hw H) as (_ & _ & -> & -> & _).
  split.
  - transitivity (Zlen (labels (b_frame b))); [unfold Zlen, labels; rewrite map_length; reflexivity|].
    apply same_len; [apply (wf_nodup Hw)|exact N1|]. intros i. rewrite I1. apply kept_labels. exact Hb.
  - apply same_len; [apply NoDup_keys|exact N2|]. intros v. rewrite I2, ET, T'_on.
    apply values_keys; [exact Hb|]. intros c [<-|[]]. apply cols_known. left. reflexivity.
Qed.

Theorem across_counts n b s L M :
  nth_error bs n = Some b -> nth_error (s_by st) n = Some s -> t_across T <> [] ->
  lists_values T db (b_key b) (t_across T) L -> lists_values T db (b_key b) (t_on T :: t_across T) M ->
  st_nb_across_levels s = Zlen L /\ st_nb_on_across_levels s = Zlen M /\
  Permutation (map fst (st_block_sizes s)) M.
Proof.
  intros Hb Hs Hne [N1 I1] [N2 I2]. pose proof (by_stats_of _ Hb Hs) as H. apply nth_error_In in Hb.
  destruct (proj2 (bs_wf _ korder_ok _ _ _ init) b Hb) as (Hw & _).
  destruct (init_inv _ _ _ _ _ init) as (_ & ET & _).
  destruct (stats_by_ok korder_ok enum_ok _ (T'_ne _ _ _ _ _ init) Hw H) as (_ & Eb & _ & _ & -> & ->).
  assert (EA : t_across T' = t_across T) by (rewrite ET, T'_across; destruct (t_across T); [congruence|reflexivity]).
  assert (EO : t_on T' = t_on T) by (rewrite ET; reflexivity).
  rewrite EA, EO in *.
  assert (P : Permutation (korder (keys (t_on T :: t_across T) (map snd (b_frame b)))) M).
  { etransitivity; [apply korder_ok|]. apply NoDup_Permutation; [apply NoDup_keys|exact N2|].
    intros v. rewrite I2. apply (values_keys _ Hb), cols_known. }
  split; [|split].
  - apply same_len; [apply NoDup_keys|exact N1|]. intros v. rewrite I1.
    apply (values_keys _ Hb). intros c Hc. apply cols_known. right. exact Hc.
  - unfold Zlen. f_equal. apply Permutation_length, P.
  - rewrite Eb, map_map. cbn [fst]. rewrite map_id. exact P.
Qed.

(** Without across every item is a block. *)
Theorem no_across_counts n b s :
  nth_error bs n = Some b -> nth_error (s_by st) n = Some s -> t_across T = [] ->
  st_nb_across_levels s = st_nb_items s /\ st_nb_on_across_levels s = st_nb_items s.
Proof.
  intros Hb Hs E. pose proof (by_stats_of _ Hb Hs) as H. apply nth_error_In in Hb.
  destruct (proj2 (bs_wf _ korder_ok _ _ _ init) b Hb) as (Hw & _).
  destruct (init_inv _ _ _ _ _ init) as (_ & ET & _).
  destruct (stats_by_ok korder_ok enum_ok _ (T'_ne _ _ _ _ _ init) Hw H) as (_ & _ & -> & _ & -> & ->).
  assert (EA : t_across T' = ["#across"%string]) by (rewrite ET, T'_across, E; reflexivity).
  assert (EO : t_on T' = t_on T) by (rewrite ET; reflexivity).
  rewrite EA, EO. split.
  - apply (@keys_no_across b Hb [] E). intros c [].
  - transitivity (Zlen (keys ([t_on T] ++ ["#across"%string]) (map snd (b_frame b)))).
    + unfold Zlen. f_equal. apply Permutation_length, korder_ok.
    + apply (@keys_no_across b Hb [t_on T] E). intros c [<-|[]]. apply cols_known. left. reflexivity.
Qed.

Theorem pair_counts n b s l m :
  nth_error bs n = Some b -> nth_error (s_by st) n = Some s ->
  lists_pairs (across_pair T db (b_key b)) l -> lists_pairs (on_pair T db (b_key b)) m ->
  st_nb_across_pairs s = Zlen l /\ st_nb_on_pairs s = Zlen m.
Proof.
  intros Hb Hs [N1 I1] [N2 I2]. pose proof (by_stats_of _ Hb Hs) as H. apply nth_error_In in Hb.
  destruct (proj2 (bs_inv enum korder_ok rd dt kf init) b Hb) as (Hw & Ha & _ & Ef & _ & Hd).
  pose proof Hchk as Hc. destruct (check_inv _ _ Hc) as (C1 & C2 & _).
  destruct (init_inv _ _ _ _ _ init) as (_ & ET & _).
  assert (EO : t_on T' = t_on T) by (rewrite ET; reflexivity).
  assert (EF : t_filters T' = t_filters T) by (rewrite ET; reflexivity).
  destruct (stats_by_pairs _ Hw _ H) as [-> ->].
  split; (apply same_len; [|assumption|]).
  - apply (by_apairs _ Hw).
  - intros [a b']. rewrite I1, (In_by_apairs Hw Ha Hd a b'), EF, EO. split.
    + intros (ra' & rb' & H1 & H2 & H3 & H4 & H5).
      apply (frame_kept _ Hb) in H1 as (g1 & ra & -> & K1 & M1). apply (frame_kept _ Hb) in H2 as (g2 & rb & -> & K2 & M2).
      exists ra, rb. split; [exact K1|]. split; [exact K2|].
      rewrite (rd_oab rd (ext_agree _ _ Hc (g1, ra))) in H3. split; [exact H3|].
      rewrite !ext_col in H4 by exact C1. split; [exact H4|].
      intros c Hcc. rewrite ET, (no_across_T' _ _ _ Hc) in H5. rewrite T'_across in H5.
      destruct (t_across T) as [|c0 ac] eqn:E; [destruct Hcc|]. rewrite <- E in *.
      assert (G := proj1 (proj_ext (t_across T) (ext T (g2, rb)) (ext T (g1, ra))) (H5 eq_refl) c Hcc).
      rewrite !ext_col in G by (apply C2; exact Hcc). exact G.
    + intros (ra & rb & K1 & K2 & H3 & H4 & H5).
      destruct (kept_in_frame _ Hb K1) as (g1 & F1 & M1). destruct (kept_in_frame _ Hb K2) as (g2 & F2 & M2).
      exists (ext T (g1, ra)), (ext T (g2, rb)). split; [exact F1|]. split; [exact F2|].
      rewrite (rd_oab rd (ext_agree _ _ Hc (g1, ra))). split; [exact H3|].
      rewrite !ext_col by exact C1. split; [exact H4|].
      rewrite ET, (no_across_T' _ _ _ Hc), T'_across. destruct (t_across T) as [|c0 ac] eqn:E; [discriminate|].
      rewrite <- E in *. intros _. apply proj_ext. intros c Hcc. rewrite !ext_col by (apply C2; exact Hcc).
      apply H5, Hcc.
  - apply (by_opairs _ Hw).
  - intros [a x]. rewrite I2, (In_by_opairs Hw Ha Hd a x), EF, EO. split.
    + intros (ra' & rx' & H1 & H2 & H3 & H4 & H5).
      apply (frame_kept _ Hb) in H1 as (g1 & ra & -> & K1 & M1). apply (frame_kept _ Hb) in H2 as (g2 & rx & -> & K2 & M2).
      exists ra, rx. split; [exact K1|]. split; [exact K2|].
      rewrite (rd_oab rd (ext_agree _ _ Hc (g1, ra))) in H3. split; [exact H3|].
      rewrite !ext_col in H4 by exact C1. split; [exact H4|].
      rewrite ET, T'_across in H5. destruct (t_across T) as [|c0 ac] eqn:E.
      * intros ->. rewrite M1 in M2. inversion M2; subst. apply H5. reflexivity.
      * rewrite <- E in *.
        assert (D : forall cc, (exists c, In c cc /\ rx c <> ra c) \/ (forall c, In c cc -> rx c = ra c)).
        { induction cc as [|c cc [(c' & I' & D')|D']]; [right; intros c []|left; exists c'; split; [right; exact I'|exact D']|].
          destruct (Z.eq_dec (rx c) (ra c)) as [Ec|Ec].
          - right. intros c' [<-|Hc']; auto.
          - left. exists c. split; [left; reflexivity|exact Ec]. }
        destruct (D (t_across T)) as [G|G]; [exact G|]. exfalso. apply H5. apply proj_ext. intros c Hcc.
        rewrite !ext_col by (apply C2; exact Hcc). apply G, Hcc.
    + intros (ra & rx & K1 & K2 & H3 & H4 & H5).
      destruct (kept_in_frame _ Hb K1) as (g1 & F1 & M1). destruct (kept_in_frame _ Hb K2) as (g2 & F2 & M2).
      exists (ext T (g1, ra)), (ext T (g2, rx)). split; [exact F1|]. split; [exact F2|].
      rewrite (rd_oab rd (ext_agree _ _ Hc (g1, ra))). split; [exact H3|].
      rewrite !ext_col by exact C1. split; [exact H4|].
      rewrite ET, T'_across. destruct (t_across T) as [|c0 ac] eqn:E.
      * intros EE. assert (G := proj1 (proj_ext _ _ _) EE _ (or_introl eq_refl)).
        rewrite !ext_across in G by exact E. cbn in G. subst g2.
        destruct (ig_fst_inj _ _ _ _ _ M1 M2) as [Ei _]. destruct K1 as [[I1' _] _], K2 as [[I2' _] _].
        apply H5. lia.
      * rewrite <- E in *. destruct H5 as (c & Hcc & H5). intros EE. apply H5.
        assert (G := proj1 (proj_ext _ _ _) EE c Hcc). rewrite !ext_col in G by (apply C2; exact Hcc). exact G.
Qed.

(** The by groups, and the sums over them. *)
Theorem by_counts :
  s_nb_by_levels st = Zlen bs /\ length (s_by st) = length bs /\ NoDup (map b_key bs) /\
  (forall k, In k (map b_key bs) <-> exists i r, item (by_rows T db k) i r /\ f_by (t_filters T) r = true) /\
  s_nb_blocks st = sumZ (map st_nb_on_across_levels (s_by st)) /\
  s_nb_triplets st = sumZ (map st_nb_triplets (s_by st)).
Proof.
  destruct (stats_inv _ _ _ _ _ init) as (sts & _ & E & E1 & E2 & E3 & _).
  split; [exact E1|]. split; [symmetry; apply (Forall2_len (sts_inv _ _ _ _ _ init))|].
  split; [apply (keys_NoDup _ korder_ok _ _ _ init)|]. split; [|subst sts; auto].
  intros k. pose proof Hchk as Hc. destruct (init_inv _ _ _ _ _ init) as (_ & ET & _).
  rewrite (proj1 (bs_inv enum korder_ok rd dt kf init)), (In_kept_keys korder_ok), ET. split.
  - intros [Hk Hkept]. apply In_keys in Hk as (r' & Hr & Ek). rewrite (dummies_db _ _ _ Hc) in Hr.
    apply in_map_iff in Hr as ([g r] & <- & Hr).
    assert (Hig : In (g, r) (ig T db k)).
    { apply filter_In. split; [exact Hr|]. rewrite <- (ext_by _ _ db Hc (g, r) k). apply key_eqb_spec. exact Ek. }
    apply In_nth_error in Hig as (i & Hi). exists (Z.of_nat i), r. split.
    + apply (item_ig _ _ _ Hc). rewrite Nat2Z.id. split; [lia|eauto].
    + rewrite <- (by_kept_iff Hc rd dt _ _ Hi). exact Hkept.
  - intros (i & r & Hi & Hf). apply (item_ig _ _ _ Hc) in Hi as (L & g & N).
    split; [apply (key_in _ _ _ Hc _ _ N)|]. rewrite (by_kept_iff Hc rd dt _ _ N). exact Hf.
Qed.

End Stats.
