(** Approximate statistics: [compute_statistics(approximate=True)] called on a task. *)
From Coq Require Import Ascii String.
From Verif Require Import Prelude ListFacts TypeFitting TypeFitting_proofs
  Sampler Sampler_spec Sampler_proofs Task Task_spec Task_blocks Task_sort Task_regs Task_gen Task_file Task_proofs
  Task_main Task_total Task_approx_spec.
Set Implicit Arguments.
Open Scope Z_scope.

Local Notation wif := without_item_filters.

Lemma foldM_ext_in {A B} (f g : A -> B -> res A) l a :
  (forall x s, In x l -> f s x = g s x) -> foldM f l a = foldM g l a.
Proof.
  revert a. induction l as [|x l IH]; intros a H; [reflexivity|]. cbn [foldM].
  rewrite (H x a) by (left; reflexivity). destruct (g a x); [|reflexivity]. cbn [bind].
  apply IH. intros y s Hy. apply H. right. exact Hy.
Qed.

Section Approx.
Variable korder : list key -> list key.
Variable enum : list Z -> list Z.
Hypothesis korder_ok : lists_keys korder.
Hypothesis enum_ok : lists_set enum.

Lemma groups_key_length cols fr k bl : In (k, bl) (groups korder cols fr) -> length k = length cols.
Proof.
  clear enum_ok. unfold groups. intros H. apply in_map_iff in H as (k' & E & H). inversion E; subst.
  apply (Permutation_in _ (korder_ok _)) in H. apply In_keys in H as (r & _ & <-). unfold proj. apply map_length.
Qed.

Lemma stats_by_several T b : (2 <= length (t_across T))%nat ->
  stats_by korder enum T true b = stats_by korder enum T false b.
Proof.
  intros L. unfold stats_by. apply foldM_ext_in. intros [k bl] s Hin. apply groups_key_length in Hin.
  unfold stats_step. assert (E : (1 <? length (skipn 1 k))%nat = true).
  { apply Nat.ltb_lt. rewrite skipn_length, Hin. cbn [length]. lia. }
  rewrite E. cbn [negb]. rewrite !andb_false_r. reflexivity.
Qed.

Lemma stats_by_one T b : (length (t_across T) <= 1)%nat ->
  stats_by korder enum T true b = stats_by korder enum (wif T) false b.
Proof.
  intros L. unfold stats_by. cbn [without_item_filters t_on t_across]. apply foldM_ext_in.
  intros [k bl] s Hin. apply groups_key_length in Hin.
  unfold stats_step. cbn [without_item_filters t_on t_across t_filters f_oab].
  assert (E : (1 <? length (skipn 1 k))%nat = false).
  { apply Nat.ltb_ge. rewrite skipn_length, Hin. cbn [length]. lia. }
  rewrite E. cbn [negb has_item_filters f_A f_B f_X f_ABX orb andb]. reflexivity.
Qed.

Lemma item_filtered_iff T : has_item_filters (t_filters T) = true <-> item_filtered T.
Proof.
  clear. unfold has_item_filters, item_filtered.
  destruct (f_A (t_filters T)), (f_B (t_filters T)), (f_X (t_filters T)), (f_ABX (t_filters T));
    split; intros H; try reflexivity; try discriminate;
    try (left; discriminate); try (right; left; discriminate); try (right; right; left; discriminate);
    try (right; right; right; discriminate).
  destruct H as [H|[H|[H|H]]]; destruct H; reflexivity.
Qed.

Variable T : task.
Variable cols : list string.
Variable db : list row.
Variable T' : task.
Variable bs : list by_block.
Variable st st' : stats.
Hypothesis rd : reads cols (t_filters T).
Hypothesis dt : determined T db.
Hypothesis kf : kept_first T db.
Hypothesis init : task_init korder enum T cols db = Ok (T', bs, st).

Lemma wif_reads : reads cols (t_filters (wif T)).
Proof. destruct rd. constructor; cbn; intros; try discriminate; auto. Qed.
Lemma wif_determined : determined (wif T) db.
Proof. destruct dt. constructor; cbn in *; intros; try discriminate; eauto. Qed.
Lemma wif_kept_first : kept_first (wif T) db.
Proof. exact kf. Qed.

Lemma wif_dummies : with_dummies (wif T) db = (wif (fst (with_dummies T db)), snd (with_dummies T db)).
Proof. reflexivity. Qed.

Lemma wif_prepare U d : prepare_database korder (wif U) d = prepare_database korder U d.
Proof. reflexivity. Qed.

Lemma across_T' : (2 <= length (t_across T))%nat -> t_across T' = t_across T.
Proof.
  destruct (init_inv _ _ _ _ _ init) as (_ & -> & _). unfold with_dummies. cbn [fst t_across].
  destruct (t_across T); [cbn; lia|reflexivity].
Qed.
Lemma across_T'1 : (length (t_across T) <= 1)%nat -> (length (t_across T') <= 1)%nat.
Proof.
  destruct (init_inv _ _ _ _ _ init) as (_ & -> & _). unfold with_dummies. cbn [fst t_across].
  destruct (t_across T); cbn; lia.
Qed.

Lemma T'_filters : t_filters T' = t_filters T.
Proof. destruct (init_inv _ _ _ _ _ init) as (_ & -> & _). reflexivity. Qed.

Lemma mapM_ext {A B} (f g : A -> res B) l : (forall x, f x = g x) -> mapM f l = mapM g l.
Proof. intros H. induction l as [|x l IH]; [reflexivity|]. cbn [mapM]. rewrite H, IH. reflexivity. Qed.

(** The approximate statistics are those of the task that is counted. *)
Lemma counted_init : compute_statistics korder enum T' true bs = Ok st' ->
  exists U st0, task_init korder enum (counted T) cols db = Ok (U, bs, st0) /\
    s_by st' = s_by st0 /\ s_nb_triplets st' = s_nb_triplets st0 /\ s_nb_by_levels st' = s_nb_by_levels st0 /\
    s_nb_blocks st' = s_nb_blocks st0 /\
    s_approximate st' = has_item_filters (t_filters T) /\
    s_approximate_nb_triplets st' = has_item_filters (t_filters T).
Proof.
  intros H. unfold compute_statistics in H. apply bind_ok in H as (sts & Hs & H). rewrite T'_filters in H.
  cbn [andb] in H.
  assert (C : (exists c1 c2 l, t_across T = c1 :: c2 :: l) /\ counted T = T \/
              (length (t_across T) <= 1)%nat /\ counted T = wif T).
  { unfold counted. destruct (t_across T) as [|c1 [|c2 l]]; cbn; [right|right|left]; split; try reflexivity; try lia; eauto. }
  destruct C as [((c1 & c2 & l & E) & ->)|[L ->]].
  - exists T', st. split; [exact init|].
    destruct (stats_inv _ _ _ _ _ init) as (sts0 & Hs0 & E1 & E2 & E3 & E4 & _).
    rewrite (mapM_ext (stats_by korder enum T' true) (stats_by korder enum T' false)) in Hs.
    2:{ intros b. apply stats_by_several. rewrite across_T'; rewrite E; cbn; lia. }
    assert (sts = sts0) as -> by congruence. inversion H; subst st'. cbn.
    rewrite E1, E2, E3, E4. repeat split.
  - destruct (init_inv _ _ _ _ _ init) as (Hc & ET & Hp & _).
    rewrite (mapM_ext (stats_by korder enum T' true) (stats_by korder enum (wif T') false)) in Hs.
    2:{ intros b. apply stats_by_one, across_T'1, L. }
    exists (wif T'), (mk_stats false false (Zlen bs) (sumZ (map st_nb_on_across_levels sts)) (sumZ (map st_nb_triplets sts)) sts).
    split.
    + unfold task_init. change (check_database cols (t_on (wif T)) (t_across (wif T)) (t_by (wif T))) with
        (check_database cols (t_on T) (t_across T) (t_by T)). rewrite Hc. cbn [bind]. rewrite wif_dummies.
      rewrite <- ET. rewrite wif_prepare, Hp. cbn [bind]. unfold compute_statistics. rewrite Hs. reflexivity.
    + inversion H; subst st'. repeat split.
Qed.

Lemma counted_reads : reads cols (t_filters (counted T)).
Proof. unfold counted. destruct (t_across T) as [|c1 [|c2 l]]; [exact wif_reads|exact wif_reads|exact rd]. Qed.
Lemma counted_determined : determined (counted T) db.
Proof. unfold counted. destruct (t_across T) as [|c1 [|c2 l]]; [exact wif_determined|exact wif_determined|exact dt]. Qed.
Lemma counted_kept_first : kept_first (counted T) db.
Proof. unfold counted. destruct (t_across T) as [|c1 [|c2 l]]; exact kf. Qed.

Lemma wanted_counted k a b x : wanted T db k a b x -> wanted (counted T) db k a b x.
Proof.
  clear. unfold counted. destruct (t_across T) as [|c1 [|c2 l]] eqn:E; [| |auto];
  intros (ra & rb & rx & Ha & Hb & Hx & Habx & P1 & P2 & P3 & _); exists ra, rb, rx;
    (split; [exact Ha|]; split; [exact Hb|]; split; [exact Hx|]; split; [exact Habx|]);
    split; [exact P1|split; [exact P2|split; [exact P3|cbn; auto]]|exact P1|split; [exact P2|split; [exact P3|cbn; auto]]].
Qed.

Theorem approximate_counts : compute_statistics korder enum T' true bs = Ok st' ->
  (forall L, NoDup L -> (forall k a b x, In (k, (a, b, x)) L <-> wanted (counted T) db k a b x) ->
     s_nb_triplets st' = Zlen L) /\
  (forall i b s l, nth_error bs i = Some b -> nth_error (s_by st') i = Some s ->
     lists_exactly (counted T) db (b_key b) l -> st_nb_triplets s = Zlen l) /\
  (forall i b s bk n l, t_across T <> [] -> nth_error bs i = Some b -> nth_error (s_by st') i = Some s ->
     In (bk, n) (st_block_sizes s) -> lists_block (counted T) db (b_key b) bk l -> n = Zlen l) /\
  s_nb_triplets st <= s_nb_triplets st' /\
  (s_approximate st = true <-> item_filtered T) /\ s_approximate_nb_triplets st = false /\
  (s_approximate st' = true <-> item_filtered T) /\ (s_approximate_nb_triplets st' = true <-> item_filtered T).
Proof.
  intros H. destruct (counted_init H) as (U & st0 & I0 & E1 & E2 & E3 & E4 & E5 & E6).
  rewrite E1, E2, E5, E6.
  split; [|split; [|split; [|split; [|split; [|split; [|split]]]]]].
  - intros L. exact (announced_count korder_ok enum_ok counted_reads counted_determined counted_kept_first I0 (L := L)).
  - intros i b s l. exact (announced_count_by korder_ok enum_ok counted_reads counted_determined counted_kept_first I0 (l := l) i (b := b) (s := s)).
  - intros i b s bk n l Hac. apply (block_size korder_ok enum_ok counted_reads counted_determined counted_kept_first I0 (l := l) i (b := b) (s := s)).
    unfold counted. destruct (t_across T) as [|c1 [|c2 l']] eqn:E; [destruct Hac; reflexivity|cbn; rewrite E; discriminate|rewrite E; discriminate].
  - rewrite <- (tagged_length korder_ok enum_ok _ _ _ init).
    rewrite <- (tagged_length korder_ok enum_ok _ _ _ I0).
    unfold Zlen. apply inj_le. apply NoDup_incl_length.
    + exact (tagged_NoDup korder_ok enum_ok _ _ _ init).
    + intros [k [[a b] x]] Hin.
      apply (tagged_In korder_ok enum_ok rd dt kf init) in Hin.
      apply (tagged_In korder_ok enum_ok counted_reads counted_determined counted_kept_first I0).
      apply wanted_counted. exact Hin.
  - destruct (init_inv _ _ _ _ _ init) as (_ & _ & _ & Hs). unfold compute_statistics in Hs.
    apply bind_ok in Hs as (sts & _ & Hs). inversion Hs. cbn. rewrite T'_filters. apply item_filtered_iff.
  - destruct (stats_inv _ _ _ _ _ init) as (_ & _ & _ & _ & _ & _ & E). exact E.
  - apply item_filtered_iff.
  - apply item_filtered_iff.
Qed.

(** The other statistics do not depend on the flag. *)
Lemma step_same U b s s' kb r r' : same_but_triplets s s' ->
  stats_step enum U false b s kb = Ok r -> stats_step enum U true b s' kb = Ok r' -> same_but_triplets r r'.
Proof.
  clear. destruct kb as [k bl]. intros (E1 & E2 & E3 & E4 & E5 & E6 & E7). unfold stats_step. intros H H'.
  apply bind_ok in H as (l0 & Hl & H). rewrite Hl in H'. cbn [bind] in H'.
  apply bind_ok in H as (v & Hv & H). rewrite Hv in H'. cbn [bind] in H'.
  destruct (f_oab (t_filters U) v).
  - cbv zeta in H, H'. apply bind_ok in H as (n & _ & H). apply bind_ok in H' as (n' & _ & H').
    inversion H; subst r. inversion H'; subst r'. unfold same_but_triplets. cbn. rewrite !map_app, E1, E5, E6, E7. cbn.
    repeat split; congruence.
  - inversion H; subst r. inversion H'; subst r'. unfold same_but_triplets. cbn. rewrite !map_app, E1, E5, E6, E7.
    repeat split; congruence.
Qed.

Lemma fold_same U b l s s' r r' : same_but_triplets s s' ->
  foldM (stats_step enum U false b) l s = Ok r -> foldM (stats_step enum U true b) l s' = Ok r' -> same_but_triplets r r'.
Proof.
  clear. revert s s'. induction l as [|kb l IH]; intros s s' E; cbn [foldM].
  - intros H H'. inversion H; inversion H'; subst. exact E.
  - intros H H'. apply bind_ok in H as (s1 & H1 & H). apply bind_ok in H' as (s1' & H1' & H').
    eapply IH; [eapply step_same; eassumption|exact H|exact H'].
Qed.

Lemma stats_by_same U b r r' :
  stats_by korder enum U false b = Ok r -> stats_by korder enum U true b = Ok r' -> same_but_triplets r r'.
Proof. clear. unfold stats_by. apply fold_same. repeat split. Qed.

Lemma mapM_same U l r r' : mapM (stats_by korder enum U false) l = Ok r -> mapM (stats_by korder enum U true) l = Ok r' ->
  Forall2 same_but_triplets r r'.
Proof.
  clear. revert r r'. induction l as [|b l IH]; intros r r'; cbn [mapM]; intros H H'.
  - inversion H; inversion H'; constructor.
  - apply bind_ok in H as (s & Hs & H). apply bind_ok in H as (ss & Hss & H).
    apply bind_ok in H' as (s' & Hs' & H'). apply bind_ok in H' as (ss' & Hss' & H').
    inversion H; inversion H'; subst. constructor; [exact (stats_by_same _ _ Hs Hs')|auto].
Qed.

Theorem approximate_others : compute_statistics korder enum T' true bs = Ok st' ->
  s_nb_by_levels st' = s_nb_by_levels st /\ s_nb_blocks st' = s_nb_blocks st /\
  Forall2 same_but_triplets (s_by st) (s_by st').
Proof.
  intros H. destruct (stats_inv _ _ _ _ _ init) as (sts0 & Hs0 & E1 & E2 & _ & E4 & _).
  unfold compute_statistics in H. apply bind_ok in H as (sts & Hs & H). inversion H; subst st'. cbn.
  pose proof (mapM_same _ _ Hs0 Hs) as F. rewrite E1, E2, E4. split; [reflexivity|]. split; [|exact F].
  clear -F. induction F as [|s s' l l' (_ & _ & _ & E & _) F IH]; [reflexivity|].
  cbn [map]. unfold sumZ in *. cbn [fold_right]. rewrite E, IH. reflexivity.
Qed.

Lemma nb_triplets_pos : 0 <= s_nb_triplets st.
Proof. rewrite <- (tagged_length korder_ok enum_ok _ _ _ init). apply Zlen_nonneg. Qed.

Lemma capacity_mono n m : n <= m -> capacity n <= capacity m.
Proof.
  clear. intros H. unfold capacity.
  destruct (Z.leb_spec n 127), (Z.leb_spec m 127); try lia;
  destruct (Z.leb_spec n 32767), (Z.leb_spec m 32767); try lia;
  destruct (Z.leb_spec n 2147483647), (Z.leb_spec m 2147483647); lia.
Qed.

Lemma fit_signed n : n < 2 ^ 63 -> exists t, fit_integer_type n true = Ok t.
Proof.
  clear. intros H. unfold fit_integer_type. cbn.
  destruct (n <? 128); [eauto|]. destruct (n <? 32768); [eauto|]. destruct (n <? 2147483648); [eauto|].
  destruct (Z.ltb_spec n 9223372036854775808); [eauto|]. change (2 ^ 63) with 9223372036854775808 in H. lia.
Qed.

Section Generate.
Variable argsort : list Z -> list nat.
Variable R : rng.
Variable fuel : nat.
Variable thr : option Z.
Variable c : nat.

Lemma wanted_nonneg k a b x : wanted T db k a b x -> 0 <= a /\ 0 <= b /\ 0 <= x.
Proof. clear. intros (ra & rb & rx & (Ha & _) & (Hb & _) & (Hx & _) & _). auto. Qed.

Lemma generated_wanted g : foldM (by_step korder enum argsort R fuel T' thr) bs (mk_gen [] [] [] [0] [] [] c) = Ok g ->
  forall a b x, In (a, b, x) (g_triplets g) -> exists k, wanted T db k a b x.
Proof.
  intros Hg a b x Hin. apply loop_ok in Hg; [|reflexivity]. destruct Hg as (outss & Hch & L). cbn [g_rng] in Hch.
  rewrite (lr_triplets L) in Hin. cbn [g_triplets app] in Hin. apply in_concat in Hin as (l & Hl & Hin).
  apply in_map_iff in Hl as ([k outs] & <- & Hp). cbn [snd] in Hin.
  assert (HL : length bs = length outss) by (apply chain_by_each in Hch; apply Forall2_len in Hch; exact Hch).
  destruct (In_named _ _ _ _ Hp HL) as (b0 & Hb0 & Ek).
  assert (HC : exists c0 c1, compute_triplets korder enum argsort R fuel T' thr b0 c0 = Ok (outs, c1)).
  { apply chain_by_each in Hch. clear -Hch Hb0. induction Hch as [|y o l l' H F IH]; [destruct Hb0|].
    destruct Hb0 as [E|Hb0]; [inversion E; subst; exact H|auto]. }
  destruct HC as (c0 & c1 & HC). apply in_combine_l in Hb0.
  apply (compute_incl _ _ _ korder_ok enum_ok _ _ _ init _ _ _ Hb0 HC) in Hin.
  apply (blist_In korder_ok enum_ok rd dt kf init _ _ _ _ Hb0) in Hin. eauto.
Qed.

Theorem same_file : compute_statistics korder enum T' true bs = Ok st' ->
  s_nb_triplets st <> 0 -> s_nb_triplets st' < 2 ^ 63 -> storable T db (capacity (s_nb_triplets st)) ->
  generate_triplets korder enum argsort R fuel T' thr bs st' c =
  generate_triplets korder enum argsort R fuel T' thr bs st c.
Proof.
  intros H Hne Hlt Hst. destruct (approximate_counts H) as (_ & _ & _ & Hle & _).
  destruct (approximate_others H) as (_ & EB & _). pose proof nb_triplets_pos as Hp.
  unfold generate_triplets. rewrite EB.
  destruct (Z.eqb_spec (s_nb_triplets st) 0); [contradiction|].
  destruct (Z.eqb_spec (s_nb_triplets st') 0); [lia|].
  destruct (@fit_signed (s_nb_triplets st)) as (t & Ht); [lia|]. destruct (fit_signed Hlt) as (t' & Ht').
  rewrite Ht, Ht'. cbn [bind].
  destruct (fit_integer_type (s_nb_blocks st) true) as [ti|]; [|reflexivity]. cbn [bind].
  destruct (foldM _ _ _) as [g|e] eqn:Eg; [|reflexivity]. cbn [bind].
  destruct (fit_integer_type (hd 0 (g_bounds g)) true) as [tb|]; [|reflexivity]. cbn [bind]. cbv zeta.
  assert (E : map (cast3 t') (g_triplets g) = map (cast3 t) (g_triplets g)).
  { apply map_ext_in. intros [[a b] x] Hin. destruct (generated_wanted Eg _ _ _ Hin) as (k & Hw).
    destruct (Hst _ _ _ _ Hw) as (Ha & Hb & Hx). destruct (wanted_nonneg Hw) as (Ha0 & Hb0 & Hx0).
    pose proof (capacity_mono Hle) as Hc. unfold cast3.
    rewrite !(fit_capacity _ Ht), !(fit_capacity _ Ht') by lia. reflexivity. }
  rewrite E. reflexivity.
Qed.

(** When no triplet is wanted, and the approximate count says otherwise, a file without triplet
    is made. *)
Theorem empty_file : compute_statistics korder enum T' true bs = Ok st' ->
  s_nb_triplets st = 0 -> s_nb_triplets st' <> 0 ->
  forall r, generate_triplets korder enum argsort R fuel T' thr bs st' c = Ok r ->
  exists f, snd r = Some f /\ fl_triplets f = [] /\ fl_by_index f = [] /\ fl_bys f = [] /\ fst r = [].
Proof.
  intros H Hz Hne r. unfold generate_triplets. destruct (Z.eqb_spec (s_nb_triplets st') 0); [contradiction|].
  intros Hr. apply bind_ok in Hr as (t & _ & Hr). apply bind_ok in Hr as (ti & _ & Hr).
  apply bind_ok in Hr as (g & Hg & Hr). apply bind_ok in Hr as (tb & _ & Hr). cbv zeta in Hr. inversion Hr; subst r; clear Hr.
  assert (Ew : forall k a b x, ~ wanted T db k a b x).
  { intros k a b x Hw. apply (tagged_In korder_ok enum_ok rd dt kf init) in Hw.
    pose proof (tagged_length korder_ok enum_ok _ _ _ init) as E. rewrite Hz in E.
    destruct (tagged korder enum T' bs); [destruct Hw|discriminate]. }
  assert (Et : g_triplets g = []).
  { destruct (g_triplets g) as [|[[a b] x] l] eqn:E; [reflexivity|].
    destruct (generated_wanted Hg a b x) as (k & Hk); [rewrite E; left; reflexivity|]. destruct (Ew _ _ _ _ Hk). }
  pose proof Hg as Hl. apply loop_ok in Hl; [|reflexivity]. destruct Hl as (outss & Hch & L). cbn [g_rng] in Hch.
  assert (HL : length bs = length outss) by (apply chain_by_each in Hch; apply Forall2_len in Hch; exact Hch).
  pose proof (lr_triplets L) as L1. cbn [g_triplets app] in L1. rewrite Et in L1.
  assert (F : filter full (named bs outss) = []).
  { clear -L1. induction (named bs outss) as [|p l IH]; [reflexivity|]. cbn [map concat filter] in *.
    symmetry in L1. apply app_eq_nil in L1 as [E1 E2]. unfold full at 1. rewrite E1. cbn. apply IH. congruence. }
  pose proof (lr_bounds L) as L4. pose proof (lr_bys L) as L6. rewrite F in L4, L6. cbn in L4, L6.
  pose proof (lr_empty L) as L7. cbn [g_empty app] in L7.
  eexists. split; [reflexivity|]. cbn [fl_triplets fl_by_index fl_bys fst]. rewrite Et, L4, L6.
  split; [reflexivity|]. split; [reflexivity|]. split; [reflexivity|].
  assert (Eall : g_empty g = map b_key bs).
  { rewrite L7. assert (E : filter (fun p => negb (full p)) (named bs outss) = named bs outss).
    { clear -F. induction (named bs outss) as [|p l IH]; [reflexivity|]. cbn [filter] in *.
      destruct (full p); [discriminate|]. cbn. f_equal. auto. }
    rewrite E. unfold named. clear -HL. revert outss HL.
    induction bs as [|b l IH]; intros [|o outss] HL; cbn in *; try discriminate; [reflexivity|]. f_equal. apply IH. lia. }
  rewrite Eall. clear. assert (H : forall b, In b bs -> negb (mem_key (map b_key bs) (b_key b)) = false).
  { intros b Hb. apply Bool.negb_false_iff. unfold mem_key. apply existsb_exists. exists (b_key b).
    split; [apply in_map; exact Hb|]. unfold key_eqb. destruct (key_dec (b_key b) (b_key b)); congruence. }
  induction bs as [|b l IH]; [reflexivity|].
  assert (G : forall p : by_block -> bool, (forall b', In b' (b :: l) -> p b' = false) -> filter p (b :: l) = []).
  { clear. intros p. generalize (b :: l). intros m. induction m as [|y m IH]; intros Hp; [reflexivity|].
    cbn. rewrite Hp by (left; reflexivity). apply IH. intros z Hz. apply Hp. right. exact Hz. }
  apply G. exact H.
Qed.
End Generate.

(** The approximate statistics can be computed. *)
Theorem approximate_total : Zlen db * Zlen db * Zlen db < 2 ^ 63 ->
  exists s, compute_statistics korder enum T' true bs = Ok s.
Proof.
  intros Hsz. destruct (sizes_small korder_ok enum_ok rd dt kf init Hsz) as (Hfl & _).
  unfold compute_statistics.
  destruct (@mapM_total _ _ (stats_by korder enum T' true) bs) as (sts & ->); [|cbn [bind]; eauto].
  intros b Hb. destruct (proj2 (bs_inv enum korder_ok rd dt kf init) b Hb) as (Hw & Ha & _).
  pose proof (Hfl b Hb) as Hle. pose proof (Zlen_nonneg (b_frame b)) as H0.
  apply stats_total; auto; [exact (T'_ne _ _ _ _ _ init)|].
  pose proof (cube_le (conj H0 Hle)). lia.
Qed.

Lemma approximate_small : compute_statistics korder enum T' true bs = Ok st' ->
  Zlen db * Zlen db * Zlen db < 2 ^ 63 -> s_nb_triplets st' < 2 ^ 63.
Proof.
  intros H Hsz. destruct (counted_init H) as (U & st0 & I0 & _ & -> & _).
  destruct (sizes_small korder_ok enum_ok counted_reads counted_determined counted_kept_first I0 Hsz) as (_ & L & _). exact L.
Qed.
End Approx.
