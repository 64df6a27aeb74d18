(** Proofs about the analysis. *)
From Coq Require Import String.
From Coq Require Import List ZArith QArith Qround Lia Sorted Permutation.
From Verif Require Import Prelude ListFacts TypeFitting TypeFitting_proofs Rounding Distances Distances_proofs
  Analyze Analyze_spec Analyze_runs Analyze_keys.
Import ListNotations.
Local Open Scope Z_scope.
Local Open Scope list_scope.

Lemma maxZ_le l x : In x l -> x <= maxZ l.
Proof. induction l as [|y l IH]; [intros []|]; intros [->|H]; cbn; [lia|]. specialize (IH H). unfold maxZ in IH. lia. Qed.

Lemma maxZ_lt l n : 0 < n -> (forall x, In x l -> x < n) -> maxZ l < n.
Proof.
  induction l as [|y l IH]; intros Hn H; cbn; [exact Hn|].
  pose proof (H y (or_introl eq_refl)). specialize (IH Hn (fun x Hx => H x (or_intror Hx))). unfold maxZ in IH. lia.
Qed.

Lemma maxZ_nonneg l : 0 <= maxZ l.
Proof. induction l as [|y l IH]; cbn; [lia|]. unfold maxZ in IH. lia. Qed.

Lemma prodZ_le ns ms : Forall2 (fun n m => 0 <= n <= m) ns ms -> 0 <= prodZ ns <= prodZ ms.
Proof.
  induction 1 as [|n m ns ms H F IH]; cbn; [lia|].
  change (fold_right Z.mul 1 ns) with (prodZ ns). change (fold_right Z.mul 1 ms) with (prodZ ms). nia.
Qed.

Lemma Forall2_nth_intro A B (P : A -> B -> Prop) l m da db : length l = length m ->
  (forall i, (i < length l)%nat -> P (nth i l da) (nth i m db)) -> Forall2 P l m.
Proof.
  revert m. induction l as [|a l IH]; intros [|b m] H Hi; try discriminate; constructor.
  - apply (Hi 0%nat). cbn. lia.
  - apply IH; [injection H; auto|]. intros i Hlt. apply (Hi (S i)). cbn. lia.
Qed.

Lemma Forall2_exists A B (P : A -> B -> Prop) l : (forall b, In b l -> exists a, P a b) -> exists m, Forall2 P m l.
Proof.
  induction l as [|b l IH]; intros H; [exists []; constructor|].
  destruct (H b (or_introl eq_refl)) as (a & Ha). destruct IH as (m & Hm); [intros; apply H; right; assumption|].
  exists (a :: m). constructor; assumption.
Qed.

Lemma nth_error_nth_lt A (l : list A) i d : (i < length l)%nat -> nth_error l i = Some (nth i l d).
Proof. intros H. apply nth_error_nth'. exact H. Qed.

Lemma combine_fst A B (l : list A) (m : list B) : length l = length m -> map fst (combine l m) = l.
Proof.
  revert m. induction l as [|a l IH]; intros [|b m] H; try discriminate; [reflexivity|].
  cbn. f_equal. apply IH. injection H; auto.
Qed.

Section Group.
Variable L : Type.
Variable rnd : Q -> Q.
Hypothesis Hrnd : exact53 rnd.
Variable argsort : list Z -> list nat.
Hypothesis Hsort : argsort_spec argsort.
Variable g : by_group L.
Variable sizes : list Z.
Hypothesis Hg : group_ok (2 ^ 53) g sizes.
Hypothesis Hdata : g_data g <> [].

Let ns := levels_used (g_type g) (g_columns g) (g_data g).

Lemma ns_length : length ns = length (g_names g).
Proof. unfold ns, levels_used. rewrite map_length, seq_length. apply (go_columns Hg). Qed.

Lemma ns_nth c : (c < length (g_names g))%nat ->
  nth c ns 0 = maxZ (column c (g_data g)) + 1 /\ 1 <= nth c ns 0 <= nth c sizes 0 /\
  (forall r, In r (g_data g) -> 0 <= nth c r 0 < nth c ns 0).
Proof.
  intros Hc. pose proof (go_columns Hg) as Gc. pose proof (go_sizes Hg) as Gs.
  assert (Es : nth_error sizes c = Some (nth c sizes 0)) by (apply nth_error_nth'; lia).
  assert (Hr : forall r, In r (g_data g) -> 0 <= nth c r 0 < nth c sizes 0).
  { intros r Hin. eapply (go_bounds Hg); [exact Hin| |exact Es]. apply nth_error_nth'. rewrite (go_width Hg r Hin). exact Hc. }
  assert (Hpos : 0 < nth c sizes 0).
  { destruct (g_data g) as [|r0 rs]; [congruence|]. specialize (Hr r0 (or_introl eq_refl)). lia. }
  assert (Hmax : maxZ (column c (g_data g)) < nth c sizes 0).
  { apply maxZ_lt; [exact Hpos|]. intros x Hx. unfold column in Hx. apply in_map_iff in Hx.
    destruct Hx as (r & <- & Hin). apply Hr, Hin. }
  assert (Hle : nth c sizes 0 <= tmax (g_type g)).
  { destruct (nth_error (g_names g) c) as [name|] eqn:En; [|apply nth_error_None in En; lia].
    destruct (go_indexes Hg name) as (levels & Hin); [eapply nth_error_In; exact En|].
    destruct (go_levels Hg c _ En Es Hin). lia. }
  pose proof (maxZ_nonneg (column c (g_data g))) as Hm0.
  assert (E : nth c ns 0 = maxZ (column c (g_data g)) + 1).
  { unfold ns, levels_used. rewrite Gc.
    rewrite nth_indep with (d' := cast (g_type g) (maxZ (column 0 (g_data g)) + 1)) by (rewrite map_length, seq_length; exact Hc).
    rewrite (map_nth (fun c => cast (g_type g) (maxZ (column c (g_data g)) + 1)) (seq 0 (length (g_names g))) 0%nat).
    rewrite seq_nth by exact Hc. cbn [plus]. apply cast_unsigned; [apply (go_type Hg)|lia]. }
  split; [exact E|]. split; [lia|]. intros r Hin. rewrite E. split; [apply Hr, Hin|].
  assert (nth c r 0 <= maxZ (column c (g_data g))); [|lia]. apply maxZ_le. unfold column. apply in_map_iff. eauto.
Qed.

Lemma ns_below r : In r (g_data g) -> Forall2 below ns r.
Proof.
  intros Hin. apply Forall2_nth_intro with (da := 0) (db := 0).
  - rewrite ns_length. symmetry. apply (go_width Hg r Hin).
  - intros i Hi. rewrite ns_length in Hi. destruct (ns_nth i Hi) as (_ & _ & B). apply (B r Hin).
Qed.

Lemma ns_prod : 1 <= prodZ ns <= 2 ^ 53.
Proof.
  split.
  - apply prodZ_pos. assert (exists r0, In r0 (g_data g)) as (r0 & Hr0).
    { destruct (g_data g) as [|r0 rs]; [congruence|]. exists r0. left. reflexivity. }
    apply (below_pos ns r0). apply ns_below. exact Hr0.
  - assert (F : Forall2 (fun n m => 0 <= n <= m) ns sizes).
    { apply Forall2_nth_intro with (da := 0) (db := 0).
      - rewrite ns_length. symmetry. apply (go_sizes Hg).
      - intros i Hi. rewrite ns_length in Hi. destruct (ns_nth i Hi) as (_ & B & _). lia. }
    apply prodZ_le in F. pose proof (go_product Hg). lia.
Qed.

Lemma ns_cons : exists n0 ns', ns = n0 :: ns'.
Proof.
  pose proof ns_length as H. destruct ns as [|n0 ns']; [|eauto].
  pose proof (go_some Hg). destruct (g_names g); cbn in H; [congruence|discriminate].
Qed.

Lemma row_tl r : In r (g_data g) -> 
  map (fun c => nth c r 0) (seq 1 (g_columns g - 1)) = tl r /\ r = nth 0 r 0 :: tl r.
Proof.
  intros Hin. pose proof (go_width Hg r Hin) as W. rewrite (go_columns Hg), <- W.
  assert (r <> []) by (intros ->; pose proof (go_some Hg); destruct (g_names g); cbn in W; congruence).
  destruct r as [|x r]; [congruence|]. cbn [length tl nth]. rewrite Nat.sub_0_r, Nat.sub_0_r || rewrite Nat.sub_succ, Nat.sub_0_r.
  split; [|reflexivity]. rewrite <- seq_shift, map_map. cbn [nth]. apply map_nth_seq.
Qed.

Lemma new_keys_ok : new_keys g = Ok (ns, map (key_of ns) (g_data g)).
Proof.
  unfold new_keys. fold ns. pose proof ns_prod as P.
  assert (C : cast U64 (prodZ ns) = prodZ ns) by (apply cast_unsigned; [reflexivity|cbn; lia]).
  rewrite C. destruct (Z.ltb_spec (prodZ ns) 18446744073709551615) as [_|H]; [|lia]. cbn [negb].
  destruct (fit_unsigned_total (prodZ ns)) as (t & -> & Ht & Hm); [lia|]. cbn [bind].
  assert (E0 : map (cast t) (column 0 (g_data g)) = map (fun r => nth 0 r 0) (g_data g)).
  { unfold column. rewrite map_map. apply map_ext_in. intros r Hin. apply cast_unsigned; [exact Ht|].
    pose proof (key_of_bound ns r (ns_below r Hin)). destruct (ns_nth 0) as (_ & B & B').
    { pose proof (go_some Hg). destruct (g_names g); [congruence|cbn; lia]. }
    specialize (B' r Hin). destruct ns_cons as (n0 & ns' & En). rewrite En in *. cbn [nth] in B, B'.
    assert (n0 <= prodZ (n0 :: ns')); [|lia]. cbn. change (fold_right Z.mul 1 ns') with (prodZ ns').
    assert (1 <= prodZ ns'); [|nia]. pose proof (ns_below r Hin) as F. rewrite En in F. inversion F; subst.
    apply prodZ_pos. eapply below_pos. eassumption. }
  rewrite E0.
  rewrite (fold_keys_ok (g_type g) _ (g_columns g - 1) (g_data g) (tl ns) 1 t (fun r => nth 0 r 0) (prodZ ns)).
  - cbn [bind]. f_equal. f_equal. apply map_ext_in. intros r Hin. destruct (row_tl r Hin) as [E1 E2].
    rewrite E1. rewrite E2 at 3. reflexivity.
  - reflexivity.
  - pose proof ns_length as Hl. destruct ns_cons as (n0 & ns' & En). rewrite En in *. cbn in *. rewrite (go_columns Hg). lia.
  - apply (go_type Hg).
  - exact Ht.
  - exact Hm.
  - lia.
  - intros r Hin. destruct (row_tl r Hin) as [E1 E2]. rewrite E1. pose proof (ns_below r Hin) as F.
    rewrite E2 in F. destruct ns_cons as (n0 & ns' & En). rewrite En in *. inversion F as [|? ? ? ? F1 F2]; subst.
    cbn [tl]. unfold below in F1. change (prodZ (n0 :: ns')) with (n0 * prodZ ns').
    pose proof (prodZ_pos _ (below_pos _ _ F2)). split; [lia|]. split; [nia|exact F2].
  - exact Hdata.
Qed.

(** The labels of one row. *)
Lemma labels_ok r indexes q : In r (g_data g) ->
  Forall2 (fun name ix => In (name, ix) (g_indexes g)) (g_names g) indexes ->
  Forall2 (fun q z => Qfloor q = z) q r -> forall by_ score n,
  exists ln, make_line by_ indexes (q, score, n) = Ok ln /\ labels_of g r (l_labels ln) /\
             l_by ln = by_ /\ l_score ln = score /\ l_n ln = Z.of_nat n.
Proof.
  intros Hin Fi Fq by_ score n. pose proof (go_width Hg r Hin) as W.
  pose proof (Forall2_len _ _ _ _ _ Fi) as Li. pose proof (Forall2_len _ _ _ _ _ Fq) as Lq.
  assert (E : exists ls, mapM (fun j => q <- nth_res q j ;; ix <- nth_res indexes j ;; nth_res ix (Z.to_nat (Qfloor q)))
              (seq 0 (length indexes)) = Ok ls /\
     Forall2 (fun j lab => exists name i levels, nth_error (g_names g) j = Some name /\ nth_error r j = Some i /\
         In (name, levels) (g_indexes g) /\ 0 <= i /\ nth_error levels (Z.to_nat i) = Some lab) (seq 0 (length indexes)) ls).
  { apply mapM_exists. intros j Hj. apply in_seq in Hj.
    destruct (nth_error (g_names g) j) as [name|] eqn:En; [|apply nth_error_None in En; lia].
    destruct (nth_error r j) as [i|] eqn:Er; [|apply nth_error_None in Er; lia].
    destruct (nth_error q j) as [qj|] eqn:Eq; [|apply nth_error_None in Eq; lia].
    destruct (nth_error indexes j) as [ix|] eqn:Ei; [|apply nth_error_None in Ei; lia].
    unfold nth_res. rewrite Eq. cbn [bind]. rewrite Ei. cbn [bind].
    assert (Hq : Qfloor qj = i).
    { clear -Fq Er Eq. revert j Er Eq. induction Fq; intros [|j]; cbn; intros; try discriminate; [congruence|eauto]. }
    assert (Hi : In (name, ix) (g_indexes g)).
    { clear -Fi En Ei. revert j En Ei. induction Fi; intros [|j]; cbn; intros; try discriminate; [congruence|eauto]. }
    rewrite Hq. destruct (nth_error sizes j) as [n'|] eqn:Es; [|apply nth_error_None in Es; pose proof (go_sizes Hg); lia].
    pose proof (go_bounds Hg r j Hin Er Es) as B. destruct (go_levels Hg j _ En Es Hi) as [B' _].
    destruct (nth_error ix (Z.to_nat i)) as [lab|] eqn:El; [|apply nth_error_None in El; lia].
    exists lab. split; [reflexivity|]. exists name, i, ix. repeat split; auto. lia. }
  destruct E as (ls & E & F). unfold make_line. rewrite E. cbn [bind].
  eexists. split; [reflexivity|]. cbn [l_labels l_by l_score l_n].
  repeat split.
  - pose proof (Forall2_len _ _ _ _ _ F) as Lf. rewrite seq_length in Lf. lia.
  - intros j name i En Er. assert (Hj : (j < length indexes)%nat).
    { rewrite <- Li. apply nth_error_Some. congruence. }
    destruct (nth_error ls j) as [lab|] eqn:El.
    2: { apply nth_error_None in El. pose proof (Forall2_len _ _ _ _ _ F) as Lf. rewrite seq_length in Lf. lia. }
    assert (X : exists name i levels, nth_error (g_names g) j = Some name /\ nth_error r j = Some i /\
         In (name, levels) (g_indexes g) /\ 0 <= i /\ nth_error levels (Z.to_nat i) = Some lab).
    { assert (Es : nth_error (seq 0 (length indexes)) j = Some j).
      { rewrite nth_error_nth' with (d := 0%nat) by (rewrite seq_length; exact Hj). rewrite seq_nth by exact Hj. reflexivity. }
      clear -F El Es. remember (seq 0 (length indexes)) as s. clear Heqs.
      assert (G : forall k, nth_error s k = Some j -> nth_error ls k = Some lab -> exists name i levels, nth_error (g_names g) j = Some name /\ nth_error r j = Some i /\
         In (name, levels) (g_indexes g) /\ 0 <= i /\ nth_error levels (Z.to_nat i) = Some lab).
      { clear -F. induction F; intros [|k]; cbn; intros; try discriminate; [|eauto]. injection H0 as ->. injection H1 as ->. assumption. }
      apply (G j); assumption. }
    destruct X as (name' & i' & levels & E1 & E2 & E3 & E4 & E5). rewrite En in E1. injection E1 as <-.
    rewrite Er in E2. injection E2 as <-. exists levels. repeat split; auto; congruence.
Qed.

Lemma same_key r r' : In r (g_data g) -> In r' (g_data g) -> same r r' = (key_of ns r =? key_of ns r').
Proof.
  intros H H'. unfold same. destruct (list_eq_dec Z.eq_dec r r') as [->|N]; [symmetry; apply Z.eqb_refl|].
  symmetry. apply Z.eqb_neq. intros E. apply N. apply (key_of_inj ns); auto using ns_below.
Qed.

Lemma scores_with_keys scores r : In r (g_data g) ->
  scores_with (g_data g) scores r =
  map snd (filter (fun p => key_of ns r =? fst p) (combine (map (key_of ns) (g_data g)) scores)).
Proof.
  intros Hin. unfold scores_with.
  assert (H : forall rows, (forall x, In x rows -> In x (g_data g)) -> forall sc : list Z,
    map snd (filter (fun x => same r (fst x)) (combine rows sc)) =
    map snd (filter (fun p => key_of ns r =? fst p) (combine (map (key_of ns) rows) sc))).
  { induction rows as [|x rows IH]; intros Hr sc; [reflexivity|]. destruct sc as [|s sc]; [reflexivity|].
    cbn [map combine filter fst]. rewrite <- (same_key r x Hin (Hr x (or_introl eq_refl))).
    destruct (same r x); cbn [map snd]; rewrite IH by (intros; apply Hr; right; assumption); reflexivity. }
  apply H. auto.
Qed.

Lemma sumZ_perm l l' : Permutation l l' -> sumZ l = sumZ l'.
Proof. induction 1; cbn; try lia. all: unfold sumZ in *; lia. Qed.

Lemma sorted_pairs scores : length scores = length (g_data g) ->
  let keys := map (key_of ns) (g_data g) in
  exists P : list (Z * Z), gather scores (argsort keys) = Ok (map snd P) /\ gather keys (argsort keys) = Ok (map fst P) /\
    Permutation P (combine keys scores) /\ StronglySorted Z.le (map fst P) /\ P <> [].
Proof.
  intros Hl keys. destruct (Hsort keys) as [Hp Hs].
  assert (Hlk : length keys = length scores) by (unfold keys; rewrite map_length; lia).
  assert (Hb : forall i, In i (argsort keys) -> (i < length keys)%nat).
  { intros i Hi. apply (Permutation_in _ Hp), in_seq in Hi. lia. }
  exists (map (fun i => nth i (combine keys scores) (0, 0)) (argsort keys)).
  rewrite (@gather_ok _ scores (argsort keys) 0) by (intros; rewrite <- Hlk; auto).
  rewrite (@gather_ok _ keys (argsort keys) 0) by auto.
  rewrite !map_map.
  assert (Ef : map (fun i => fst (nth i (combine keys scores) (0, 0))) (argsort keys) = map (fun i => nth i keys 0) (argsort keys)).
  { apply map_ext. intros i. rewrite combine_nth by exact Hlk. reflexivity. }
  split; [|split; [|split; [|split]]].
  - f_equal. apply map_ext. intros i. rewrite combine_nth by exact Hlk. reflexivity.
  - rewrite Ef. reflexivity.
  - eapply Permutation_trans; [apply Permutation_map, Hp|].
    replace (length keys) with (length (combine keys scores)) by (rewrite combine_length; lia).
    rewrite map_nth_seq. apply Permutation_refl.
  - rewrite Ef. exact Hs.
  - intros E. apply map_eq_nil in E. rewrite E in Hp. apply Permutation_nil in Hp. unfold keys in Hp.
    rewrite map_length in Hp. destruct (g_data g); [congruence|discriminate].
Qed.

Lemma decoded_ok r : In r (g_data g) ->
  exists q, decode_loop rnd (NInt (key_of ns r)) (rev (tl ns)) [] = q /\ Forall2 (fun q z => Qfloor q = z) q r.
Proof.
  intros Hin. destruct (row_tl r Hin) as [_ Er]. pose proof (ns_below r Hin) as F.
  destruct (key_of_bound ns r F) as [B1 B2]. pose proof ns_prod.
  destruct ns_cons as (n0 & ns' & En). rewrite En in *. rewrite Er in F. inversion F as [|? ? ? ? F1 F2]; subst.
  unfold below in F1. cbn [tl].
  assert (Ek : key_of (n0 :: ns') r = encf (nth 0 r 0) (combine ns' (tl r))) by (rewrite Er at 1; reflexivity).
  destruct (decode_ok rnd Hrnd ns' (tl r) F2 (NInt (key_of (n0 :: ns') r)) (nth 0 r 0) []) as (l & E & Fl).
  - lia.
  - cbn [stands]. exact Ek.
  - rewrite <- Ek. lia.
  - exists l. rewrite E, app_nil_r. split; [reflexivity|]. rewrite Er. exact Fl.
Qed.

Lemma group_lines scores by_ : length scores = length (g_data g) ->
  exists lines,
    (k <- new_keys g ;;
     let '(n_indices, new_index) := k in
     let permut := argsort new_index in
     sorted_scores <- gather scores permut ;;
     sorted_index <- gather new_index permut ;;
     u <- unique sorted_index sorted_scores ;;
     let '(means, unique_index, counts) := u in
     let decoded := npdecode rnd unique_index n_indices in
     indexes <- mapM (lookup (g_indexes g)) (g_names g) ;;
     mapM (make_line by_ indexes) (combine (combine decoded means) counts)) = Ok lines /\
    collapsed g by_ scores lines.
Proof.
  intros Hl. rewrite new_keys_ok. cbn [bind]. cbv zeta.
  destruct (sorted_pairs scores Hl) as (P & G1 & G2 & Hp & Hs & HP). cbv zeta in G1, G2, Hp.
  rewrite G1. cbn [bind]. rewrite G2. cbn [bind]. rewrite (unique_runs P HP). cbn [bind].
  destruct (mapM_exists _ _ (lookup (g_indexes g)) (fun name ix => In (name, ix) (g_indexes g)) (g_names g)) as (indexes & Ei & Fi).
  { intros name Hin. destruct (go_indexes Hg name Hin) as (levels & Hlv). exists levels. split; [|exact Hlv].
    apply (lookup_NoDup _ _ _ _ (go_names Hg) Hlv). }
  rewrite Ei. cbn [bind].
  destruct (group_runs_sorted P Hs) as (R1 & R2 & R3).
  assert (Hrows : exists rows, Forall2 (fun r x => In r (g_data g) /\ key_of ns r = fst x /\
                     Permutation (snd x) (scores_with (g_data g) scores r)) rows (group_runs P)).
  { apply Forall2_exists. intros [v ss] Hin.
    assert (Hv : In v (map fst P)) by (apply R2; apply in_map_iff; exists (v, ss); auto).
    apply in_map_iff in Hv. destruct Hv as ([v' s] & E & Hv). cbn in E. subst v'.
    apply (Permutation_in _ Hp) in Hv. apply in_combine_l in Hv. apply in_map_iff in Hv.
    destruct Hv as (r & Er & Hr). exists r. cbn [fst snd]. split; [exact Hr|]. split; [exact Er|].
    rewrite (R3 _ _ Hin), (scores_with_keys scores r Hr), Er.
    apply Permutation_map. apply (Permutation_filter _ Hp). }
  destruct Hrows as (rows & Fr).
  assert (Hlines : forall rs runs, Forall2 (fun r x => In r (g_data g) /\ key_of ns r = fst x /\
                     Permutation (snd x) (scores_with (g_data g) scores r)) rs runs ->
     exists lines, mapM (make_line by_ indexes)
       (combine (combine (npdecode rnd (map fst runs) ns) (map (fun x => (mean (snd x) + 1) / 2)%Q runs))
                (map (fun x => length (snd x)) runs)) = Ok lines /\
       Forall2 (fun r => line_for g by_ r (scores_with (g_data g) scores r)) rs lines).
  { intros rs runs F. induction F as [|r [v ss] rs runs (H1 & H2 & H3) F IH]; [exists []; split; [reflexivity|constructor]|].
    cbn [fst snd] in H2, H3. subst v. cbn [map fst snd npdecode combine mapM].
    destruct (decoded_ok r H1) as (q & -> & Fq).
    destruct (labels_ok r indexes q H1 Fi Fq by_ ((mean ss + 1) / 2)%Q (length ss)) as (ln & -> & L1 & L2 & L3 & L4).
    cbn [bind]. destruct IH as (lines & IH & Fl). unfold npdecode in IH. rewrite IH. cbn [bind].
    exists (ln :: lines). split; [reflexivity|]. constructor; [|exact Fl].
    split; [exact L1|]. split; [exact L2|].
    rewrite <- (Permutation_length H3), <- (sumZ_perm _ _ H3). split; [exact L4|]. rewrite L3. reflexivity. }
  destruct (Hlines rows (group_runs P) Fr) as (lines & E & Fl). exists lines. split; [exact E|].
  exists rows. split; [|split; [|exact Fl]].
  - clear -Fr R1 Hg Hdata. revert R1. induction Fr as [|r x rs runs (H1 & H2 & _) F IH]; intros R1; [constructor|].
    cbn [map] in R1. inversion R1 as [|? ? R1' R1x]; subst. constructor; [apply IH; exact R1'|].
    apply Forall_forall. intros r' Hr'. destruct (Forall2_in_l _ _ _ _ _ r' F Hr') as (x' & Hx' & (K1 & K2 & _)).
    apply (key_of_order ns); auto using ns_below. rewrite H2, K2.
    apply (proj1 (Forall_forall _ _) R1x). apply in_map. exact Hx'.
  - intros r. split.
    + intros Hr. destruct (Forall2_in_l _ _ _ _ _ r Fr Hr) as (x & _ & (K1 & _)). exact K1.
    + intros Hr. assert (Hk : In (key_of ns r) (map fst (group_runs P))).
      { apply R2. assert (Hc : In (key_of ns r) (map fst (combine (map (key_of ns) (g_data g)) scores))).
        { rewrite combine_fst by (rewrite map_length; lia). apply in_map. exact Hr. }
        apply (Permutation_in _ (Permutation_sym (Permutation_map fst Hp))). exact Hc. }
      apply in_map_iff in Hk. destruct Hk as (x & Ex & Hx).
      destruct (Forall2_in_l _ _ _ _ _ x (Forall2_flip _ _ _ _ _ Fr) Hx) as (r' & Hr' & (K1 & K2 & _)).
      assert (r = r') by (apply (key_of_inj ns); auto using ns_below; congruence). subst. exact Hr'.
Qed.

End Group.
