(** The analysis of whole task files. *)
From Coq Require Import String.
From Coq Require Import List ZArith QArith Qround Lqa Lia Sorted Permutation.
From Verif Require Import Prelude ListFacts TypeFitting TypeFitting_proofs Rounding Distances Distances_proofs
  Analyze Analyze_spec Analyze_runs Analyze_keys Analyze_proofs.
Import ListNotations.
Local Open Scope Z_scope.
Local Open Scope list_scope.

Lemma collapse_by_eq (L : Type) rnd argsort (T : analyzed_task L) scores by_idx by_ :
  collapse_by rnd argsort T scores by_idx by_ =
  (trip_attrs <- nth_res (a_by_index T) by_idx ;;
   g <- lookup (a_groups T) by_ ;;
   if (length (g_data g) * g_columns g =? 0)%nat then Ok []
   else
     let scores_arr := slice (fst trip_attrs) (snd trip_attrs) scores in
     k <- new_keys g ;;
     let '(n_indices, new_index) := k in
     let permut := argsort new_index in
     sorted_scores <- gather scores_arr permut ;;
     sorted_index <- gather new_index permut ;;
     u <- unique sorted_index sorted_scores ;;
     let '(means, unique_index, counts) := u in
     let decoded := npdecode rnd unique_index n_indices in
     indexes <- mapM (lookup (g_indexes g)) (g_names g) ;;
     mapM (make_line by_ indexes) (combine (combine decoded means) counts)).
Proof.
  unfold collapse_by, by_table. destruct (nth_res _ _) as [ij|]; [|reflexivity]. cbn [bind].
  destruct (lookup (a_groups T) by_) as [g|]; [|reflexivity]. cbn [bind].
  destruct (_ =? 0)%nat; [reflexivity|]. destruct (new_keys g) as [[ns keys]|]; [|reflexivity]. cbn [bind].
  destruct (gather _ _) as [ss|]; [|reflexivity]. cbn [bind].
  destruct (gather keys _) as [si|]; [|reflexivity]. cbn [bind].
  destruct (unique si ss) as [[[ms ui] cs]|]; [|reflexivity]. cbn [bind].
  destruct (mapM _ _) as [ix|]; reflexivity.
Qed.

Lemma by_ok (L : Type) rnd argsort (T : analyzed_task L) scores n by_ ij :
  exact53 rnd -> argsort_spec argsort -> analysable (2 ^ 53) T scores ->
  nth_error (a_bys T) n = Some by_ -> nth_error (a_by_index T) n = Some ij ->
  exists lines g, collapse_by rnd argsort T scores n by_ = Ok lines /\ In (by_, g) (a_groups T) /\
    collapsed g by_ (scores_in ij scores) lines.
Proof.
  intros Hr Hs Ha Hb Hi. destruct ij as [i j]. destruct (an_by Ha n Hb Hi) as (B & g & sizes & Hin & Hg & Hl).
  rewrite collapse_by_eq. unfold nth_res. rewrite Hi. cbn [bind].
  rewrite (lookup_NoDup _ _ _ _ (an_groups Ha) Hin). cbn [bind fst snd].
  destruct (Nat.eqb_spec (length (g_data g) * g_columns g) 0) as [E|E].
  - exists [], g. split; [reflexivity|]. split; [exact Hin|].
    assert (D : g_data g = []).
    { rewrite (go_columns Hg) in E. pose proof (go_some Hg). destruct (g_data g); [reflexivity|].
      destruct (g_names g); [congruence|cbn in E; lia]. }
    exists []. rewrite D. split; [constructor|]. split; [reflexivity|constructor].
  - assert (D : g_data g <> []) by (intros D; rewrite D in E; cbn in E; congruence).
    destruct (group_lines L rnd Hr argsort Hs g sizes Hg D (scores_in (i, j) scores) by_) as (lines & El & Hc).
    + unfold scores_in. cbn [fst snd]. rewrite firstn_length, skipn_length. lia.
    + exists lines, g. split; [exact El|]. split; assumption.
Qed.

Lemma group_unique (L : Type) (T : analyzed_task L) by_ g g' : NoDup (map fst (a_groups T)) ->
  In (by_, g) (a_groups T) -> In (by_, g') (a_groups T) -> g = g'.
Proof.
  intros Hn H H'. pose proof (lookup_NoDup _ _ _ _ Hn H). pose proof (lookup_NoDup _ _ _ _ Hn H'). congruence.
Qed.

Lemma collapse_ok (L : Type) rnd argsort (T : analyzed_task L) scores :
  exact53 rnd -> argsort_spec argsort -> analysable (2 ^ 53) T scores ->
  forall bys n, (forall k by_, nth_error bys k = Some by_ -> nth_error (a_bys T) (n + k) = Some by_) ->
  exists ls, collapse rnd argsort T scores n bys = Ok (concat ls) /\ length ls = length bys /\
    forall k by_ ij l g, nth_error bys k = Some by_ -> nth_error (a_by_index T) (n + k) = Some ij ->
      nth_error ls k = Some l -> In (by_, g) (a_groups T) -> collapsed g by_ (scores_in ij scores) l.
Proof.
  intros Hr Hs Ha bys. induction bys as [|b bys IH]; intros n Hb.
  - exists []. split; [reflexivity|]. split; [reflexivity|]. intros [|k]; discriminate.
  - pose proof (Hb 0%nat b eq_refl) as H0. rewrite Nat.add_0_r in H0.
    destruct (nth_error (a_by_index T) n) as [ij|] eqn:Ei.
    2: { apply nth_error_None in Ei. rewrite (an_index Ha) in Ei. apply nth_error_None in Ei. congruence. }
    destruct (by_ok L rnd argsort T scores n b ij Hr Hs Ha H0 Ei) as (l & g & E & Hg & Hc).
    destruct (IH (S n)) as (ls & El & Hl & HL).
    { intros k by_ Hk. rewrite Nat.add_succ_l, <- Nat.add_succ_r. apply Hb. exact Hk. }
    cbn [collapse]. rewrite E. cbn [bind]. rewrite El. cbn [bind].
    exists (l :: ls). split; [reflexivity|]. split; [cbn; congruence|].
    intros [|k] by_ ij' l' g' Hk Hij Hl' Hg'.
    + cbn in Hk, Hl'. rewrite Nat.add_0_r in Hij. injection Hk as <-. injection Hl' as <-.
      assert (ij' = ij) as -> by congruence. rewrite (group_unique _ _ _ _ _ (an_groups Ha) Hg' Hg). exact Hc.
    + cbn in Hk, Hl'. rewrite Nat.add_succ_r, <- Nat.add_succ_l in Hij. eapply HL; eassumption.
Qed.

Lemma analyze_ok (L : Type) rnd argsort (T : analyzed_task L) scores g0 rest :
  exact53 rnd -> argsort_spec argsort -> analysable (2 ^ 53) T scores -> a_groups T = g0 :: rest ->
  exists lines, analyze rnd argsort T scores = Ok (g_names (snd g0), lines) /\ analysed T scores lines.
Proof.
  intros Hr Hs Ha Hg. destruct (collapse_ok L rnd argsort T scores Hr Hs Ha (a_bys T) 0) as (ls & E & Hl & H).
  { intros k by_ Hk. exact Hk. }
  unfold analyze. rewrite Hg. cbn [map nth_res nth_error bind]. rewrite E. cbn [bind].
  exists (concat ls). split; [reflexivity|]. exists ls. split; [reflexivity|]. split; [exact Hl|].
  intros n by_ ij l g H1 H2 H3 H4. apply (H n by_ ij l g H1 H2 H3 H4).
Qed.

(** Accounting. *)
Lemma same_spec r r' : same r r' = true <-> r = r'.
Proof. unfold same. destruct (list_eq_dec Z.eq_dec r r'); split; congruence. Qed.

Lemma count_rows rows (x : list Z) : NoDup rows -> In x rows -> length (filter (fun r => same r x) rows) = 1%nat.
Proof.
  induction rows as [|r rows IH]; intros Hn Hin; [destruct Hin|]. inversion Hn as [|? ? Hn1 Hn2]; subst.
  cbn [filter]. destruct (same r x) eqn:E.
  - apply same_spec in E. subst r. cbn [length]. f_equal. rewrite filter_none; [reflexivity|].
    intros y Hy. destruct (same y x) eqn:E; [|reflexivity]. apply same_spec in E. subst. contradiction.
  - destruct Hin as [->|Hin]; [|apply IH; assumption]. assert (same x x = true) by (apply same_spec; reflexivity). congruence.
Qed.

Lemma sum_groups rows (l : list (list Z * Z)) : NoDup rows -> (forall x, In x l -> In (fst x) rows) ->
  sumZ (map (fun r => Z.of_nat (length (filter (fun x => same r (fst x)) l))) rows) = Z.of_nat (length l).
Proof.
  intros Hn. induction l as [|x l IH]; intros H.
  - clear. induction rows; [reflexivity|]. unfold sumZ in *. cbn [map fold_right]. rewrite IHrows. reflexivity.
  - cbn [length]. rewrite Nat2Z.inj_succ, <- IH by (intros; apply H; right; assumption).
    pose proof (count_rows rows (fst x) Hn (H x (or_introl eq_refl))) as C.
    assert (G : forall rs, sumZ (map (fun r => Z.of_nat (length (filter (fun x => same r (fst x)) (x :: l)))) rs)
      = sumZ (map (fun r => Z.of_nat (length (filter (fun x => same r (fst x)) l))) rs)
        + Z.of_nat (length (filter (fun r => same r (fst x)) rs))).
    { induction rs as [|r rs IHr]; [reflexivity|]. cbn [map filter]. unfold sumZ in *. cbn [fold_right].
      cbn [filter] in IHr. rewrite IHr. destruct (same r (fst x)); cbn [length]; lia. }
    rewrite G, C. lia.
Qed.

Lemma lex_irrefl r : ~ lex r r.
Proof. induction r as [|x r IH]; cbn; [tauto|]. intros [H|[_ H]]; [lia|tauto]. Qed.

Lemma sorted_lex_NoDup rows : StronglySorted lex rows -> NoDup rows.
Proof.
  induction 1 as [|r rows H IH F]; constructor; [|assumption].
  intros Hin. apply (lex_irrefl r). apply (proj1 (Forall_forall _ _) F). exact Hin.
Qed.

Lemma sumZ_app l l' : sumZ (l ++ l') = sumZ l + sumZ l'.
Proof. induction l as [|x l IH]; cbn; [reflexivity|]. unfold sumZ in *. rewrite IH. lia. Qed.

Lemma collapsed_total (L : Type) (g : by_group L) by_ scores lines :
  collapsed g by_ scores lines -> length scores = length (g_data g) ->
  sumZ (map (@l_n L) lines) = Z.of_nat (length scores).
Proof.
  intros (rows & Hs & Hin & F) Hl.
  assert (E : map (@l_n L) lines = map (fun r => Z.of_nat (length (filter (fun x => same r (fst x)) (combine (g_data g) scores)))) rows).
  { clear -F. induction F as [|r ln rs ls (_ & _ & H & _) F IH]; [reflexivity|]. cbn [map]. rewrite IH, H.
    unfold scores_with. rewrite map_length. reflexivity. }
  rewrite E, sum_groups.
  - rewrite combine_length. lia.
  - apply sorted_lex_NoDup. exact Hs.
  - intros [r s] Hx. apply Hin. apply in_combine_l in Hx. exact Hx.
Qed.

Lemma analysed_total (L : Type) (T : analyzed_task L) scores lines :
  analysable (2 ^ 53) T scores -> analysed T scores lines ->
  sumZ (map (@l_n L) lines) = sumZ (map (fun ij => Z.of_nat (snd ij - fst ij)) (a_by_index T)).
Proof.
  intros Ha (ls & -> & Hl & H).
  assert (G : forall bys idx lss n, length idx = length bys -> length lss = length bys ->
    (forall k, nth_error bys k = nth_error (a_bys T) (n + k)) ->
    (forall k, nth_error idx k = nth_error (a_by_index T) (n + k)) ->
    (forall k, nth_error lss k = nth_error ls (n + k)) ->
    sumZ (map (@l_n L) (concat lss)) = sumZ (map (fun ij => Z.of_nat (snd ij - fst ij)) idx)).
  { induction bys as [|b bys IH]; intros idx lss n H1 H2 H3 H4 H5.
    - destruct idx; [|discriminate]. destruct lss; [|discriminate]. reflexivity.
    - destruct idx as [|[i j] idx]; [discriminate|]. destruct lss as [|l lss]; [discriminate|].
      cbn [concat map]. rewrite map_app, sumZ_app.
      pose proof (H3 0%nat) as E3. pose proof (H4 0%nat) as E4. pose proof (H5 0%nat) as E5.
      rewrite Nat.add_0_r in E3, E4, E5. cbn in E3, E4, E5. symmetry in E3, E4, E5.
      destruct (an_by Ha n E3 E4) as (B & g & sizes & Hin & Hg & Hd).
      pose proof (H n b (i, j) l g E3 E4 E5 Hin) as Hc.
      assert (Hs : length (scores_in (i, j) scores) = (j - i)%nat).
      { unfold scores_in. cbn [fst snd]. rewrite firstn_length, skipn_length. lia. }
      rewrite (collapsed_total L g b _ _ Hc) by congruence. rewrite Hs.
      unfold sumZ at 2. cbn [fold_right]. f_equal.
      apply (IH idx lss (S n)); try (cbn in *; congruence);
        intros k; rewrite Nat.add_succ_l, <- Nat.add_succ_r; [rewrite <- H3|rewrite <- H4|rewrite <- H5]; reflexivity. }
  apply (G (a_bys T) (a_by_index T) ls 0%nat); try reflexivity; [apply (an_index Ha)|exact Hl].
Qed.

(** Proportions. *)
Lemma howmany_sum sc : Forall (fun s => s = -1 \/ s = 0 \/ s = 1) sc ->
  sumZ sc + Z.of_nat (length sc) = 2 * howmany 1 sc + howmany 0 sc /\
  0 <= howmany 1 sc /\ 0 <= howmany 0 sc /\ howmany 1 sc + howmany 0 sc <= Z.of_nat (length sc).
Proof.
  unfold howmany. induction 1 as [|s sc H F IH]; [cbn; lia|]. cbn [filter length].
  change (sumZ (s :: sc)) with (s + sumZ sc). destruct H as [->|[->| ->]]; 
    repeat match goal with |- context [?a =? ?b] => let v := eval compute in (a =? b) in change (a =? b) with v end;
    cbn [length]; lia.
Qed.

Lemma proportion_score sc : sc <> [] -> Forall (fun s => s = -1 \/ s = 0 \/ s = 1) sc ->
  (((inject_Z (sumZ sc) / inject_Z (Z.of_nat (length sc)) + 1) / 2 == proportion sc) /\
   0 <= proportion sc <= 1)%Q.
Proof.
  intros Hn F. destruct (howmany_sum sc F) as (E & P1 & P0 & B). unfold proportion.
  set (n := Z.of_nat (length sc)) in *. assert (Hpos : 0 < n) by (destruct sc; [congruence|unfold n; cbn; lia]).
  assert (Hq : (0 < inject_Z n)%Q) by (change 0%Q with (inject_Z 0); rewrite <- Zlt_Qlt; exact Hpos).
  assert (N0 : ~ (inject_Z n == 0)%Q) by lra.
  assert (E' : (inject_Z (sumZ sc) == 2 * inject_Z (howmany 1 sc) + inject_Z (howmany 0 sc) - inject_Z n)%Q).
  { change 2%Q with (inject_Z 2). rewrite <- inject_Z_mult, <- inject_Z_plus. unfold Qminus. rewrite <- inject_Z_opp, <- inject_Z_plus.
    apply inject_Z_injective. lia. }
  split; [rewrite E'; field; exact N0|].
  assert (Q1 : (0 <= inject_Z (howmany 1 sc))%Q) by (change 0%Q with (inject_Z 0); rewrite <- Zle_Qle; exact P1).
  assert (Q0 : (0 <= inject_Z (howmany 0 sc))%Q) by (change 0%Q with (inject_Z 0); rewrite <- Zle_Qle; exact P0).
  assert (QB : (inject_Z (howmany 1 sc) + inject_Z (howmany 0 sc) <= inject_Z n)%Q) by (rewrite <- inject_Z_plus, <- Zle_Qle; exact B).
  split.
  - apply Qle_shift_div_l; [exact Hq|]. lra.
  - apply Qle_shift_div_r; [exact Hq|]. lra.
Qed.

Lemma analysed_lines (L : Type) (T : analyzed_task L) scores lines ln :
  analysable (2 ^ 53) T scores -> analysed T scores lines -> Forall (fun s => s = -1 \/ s = 0 \/ s = 1) scores ->
  In ln lines ->
  exists n by_ ij g r, nth_error (a_bys T) n = Some by_ /\ nth_error (a_by_index T) n = Some ij /\
    In (by_, g) (a_groups T) /\ In r (g_data g) /\ labels_of g r (l_labels ln) /\
    let sc := scores_with (g_data g) (scores_in ij scores) r in
    l_by ln = by_ /\ l_n ln = Z.of_nat (length sc) /\ (l_score ln == proportion sc)%Q /\ (0 <= l_score ln <= 1)%Q.
Proof.
  intros Ha (ls & -> & Hl & H) Hsc Hin. apply in_concat in Hin. destruct Hin as (l & Hl1 & Hl2).
  apply In_nth_error in Hl1. destruct Hl1 as (n & En).
  assert (Hn : (n < length (a_bys T))%nat) by (rewrite <- Hl; apply nth_error_Some; congruence).
  destruct (nth_error (a_bys T) n) as [by_|] eqn:Eb; [|apply nth_error_None in Eb; lia].
  destruct (nth_error (a_by_index T) n) as [[i j]|] eqn:Ei; [|apply nth_error_None in Ei; rewrite (an_index Ha) in Ei; lia].
  destruct (an_by Ha n Eb Ei) as (B & g & sizes & Hg & Hok & Hd).
  destruct (H n by_ (i, j) l g Eb Ei En Hg) as (rows & Hs & Hr & F).
  destruct (Forall2_in_l _ _ _ _ _ ln (Forall2_flip _ _ _ _ _ F) Hl2) as (r & Hrin & (L1 & L2 & L3 & L4)).
  exists n, by_, (i, j), g, r. split; [exact Eb|]. split; [exact Ei|]. split; [exact Hg|].
  assert (Hrd : In r (g_data g)) by (apply Hr; exact Hrin).
  split; [exact Hrd|]. split; [exact L1|]. cbv zeta. set (sc := scores_with _ _ _) in *.
  assert (Fsc : Forall (fun s => s = -1 \/ s = 0 \/ s = 1) sc).
  { apply Forall_forall. intros s Hs'. unfold sc, scores_with in Hs'. apply in_map_iff in Hs'.
    destruct Hs' as ([r' s'] & <- & Hf). apply filter_In in Hf. destruct Hf as [Hf _]. apply in_combine_r in Hf.
    cbn [snd]. unfold scores_in in Hf. apply (proj1 (Forall_forall _ _) Hsc).
    assert (HH : In s' (skipn i scores)).
    { rewrite <- (firstn_skipn (j - i) (skipn i scores)). apply in_or_app. left. exact Hf. }
    rewrite <- (firstn_skipn i scores). apply in_or_app. right. exact HH. }
  assert (Nsc : sc <> []).
  { apply In_nth_error in Hrd. destruct Hrd as (k & Ek).
    assert (Hlen : length (scores_in (i, j) scores) = length (g_data g)).
    { unfold scores_in. cbn [fst snd]. rewrite firstn_length, skipn_length. lia. }
    destruct (nth_error (scores_in (i, j) scores) k) as [s|] eqn:Es.
    2: { apply nth_error_None in Es. rewrite Hlen in Es. apply nth_error_None in Es. congruence. }
    assert (Hc : In (r, s) (combine (g_data g) (scores_in (i, j) scores))).
    { clear -Ek Es. revert k Ek Es. generalize (scores_in (i, j) scores). induction (g_data g) as [|x d IH]; intros [|y l] [|k] E1 E2; try discriminate; cbn in *.
      - left. congruence.
      - right. eapply IH; eassumption. }
    intros E. unfold sc, scores_with in E. apply map_eq_nil in E.
    assert (Hf : In (r, s) (filter (fun x => same r (fst x)) (combine (g_data g) (scores_in (i, j) scores)))).
    { apply filter_In. split; [exact Hc|]. apply same_spec. reflexivity. }
    rewrite E in Hf. destruct Hf. }
  destruct (proportion_score sc Nsc Fsc) as [P1 P2]. split; [exact L2|]. split; [exact L3|].
  rewrite L4, P1. split; [reflexivity|exact P2].
Qed.

(** Decoding. *)
Lemma mixed_encf ns ds : Forall2 below ns ds -> forall a, encf a (combine ns ds) = a * prodZ ns + mixed_radix ns ds.
Proof.
  induction 1 as [|n d ns ds H F IH]; intros a; [cbn; lia|].
  cbn [combine]. unfold encf. cbn [fold_left fst snd]. fold (encf (d + n * a) (combine ns ds)). rewrite IH.
  cbn [mixed_radix]. change (prodZ (n :: ns)) with (n * prodZ ns). ring.
Qed.

Lemma key_of_mixed ns ds : Forall2 below ns ds -> key_of ns ds = mixed_radix ns ds.
Proof. intros F. rewrite key_of_enc0, mixed_encf by exact F. lia. Qed.

Lemma npdecode_ok rnd ns rows : exact53 rnd -> ns <> [] -> (forall r, In r rows -> digits_of ns r) -> prodZ ns <= 2 ^ 53 ->
  exists qs, npdecode rnd (map (mixed_radix ns) rows) ns = qs /\ 
             Forall2 (Forall2 (fun q d => Qfloor q = d)) qs rows.
Proof.
  intros Hr Hne Hd Hp. eexists. split; [reflexivity|]. unfold npdecode. induction rows as [|r rows IH]; [constructor|].
  cbn [map]. constructor; [|apply IH; intros; apply Hd; right; assumption]. clear IH.
  specialize (Hd r (or_introl eq_refl)). change (Forall2 below ns r) in Hd. rewrite <- (key_of_mixed ns r Hd).
  pose proof (key_of_bound ns r Hd) as B. destruct ns as [|n ns]; [congruence|].
  inversion Hd as [|? d ? ds H F]; subst. cbn [tl]. unfold below in H. cbn [key_of tl] in B |- *.
  destruct (decode_ok rnd Hr ns ds F (NInt (encf d (combine ns ds))) d []) as (l & E & Fl); [lia|reflexivity|lia|].
  rewrite E, app_nil_r. exact Fl.
Qed.

Lemma keys_mixed (L : Type) (g : by_group L) sizes : group_ok (2 ^ 53) g sizes -> g_data g <> [] ->
  exists ns, new_keys g = Ok (ns, map (mixed_radix ns) (g_data g)) /\
    (forall r, In r (g_data g) -> digits_of ns r) /\ prodZ ns <= 2 ^ 53.
Proof.
  intros Hg Hd. exists (levels_used (g_type g) (g_columns g) (g_data g)).
  rewrite (new_keys_ok L g sizes Hg Hd). split; [|split].
  - f_equal. f_equal. apply map_ext_in. intros r Hin. apply key_of_mixed. apply (ns_below L g sizes Hg Hd r Hin).
  - intros r Hin. apply (ns_below L g sizes Hg Hd r Hin).
  - pose proof (ns_prod L g sizes Hg Hd). lia.
Qed.
