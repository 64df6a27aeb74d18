(** Every triplet is counted, whatever the number of combinations. *)
From Coq Require Import String.
From Coq Require Import List ZArith QArith Qround Lqa Lia Sorted Permutation.
From Verif Require Import Prelude ListFacts TypeFitting Rounding Distances Distances_proofs
  Analyze Analyze_spec Analyze_runs Analyze_keys Analyze_proofs Analyze_main.
Import ListNotations.
Local Open Scope Z_scope.
Local Open Scope list_scope.

Lemma fold_keys_length d : forall cols t ni ni', fold_keys d t cols ni = Ok ni' ->
  Forall (fun c => length (snd c) = length ni) cols -> length ni' = length ni.
Proof.
  induction cols as [|[n col] cols IH]; intros t ni ni' H F; cbn [fold_keys] in H; [injection H as <-; reflexivity|].
  inversion F as [|? ? F1 F2]; subst. cbn [snd] in F1.
  destruct (fit_integer_type n false) as [tn|e]; cbn [bind] in H; [|discriminate].
  assert (E : length (map (fun p => cast (promote (promote t tn) d) (fst p + cast (promote t tn) (n * snd p))) (combine col ni)) = length ni).
  { rewrite map_length, combine_length. lia. }
  apply IH in H.
  - rewrite H. exact E.
  - rewrite E. exact F2.
Qed.

Lemma new_keys_length (L : Type) (g : by_group L) ns keys : new_keys g = Ok (ns, keys) -> length keys = length (g_data g).
Proof.
  unfold new_keys. intros H. destruct (negb _); [discriminate|].
  destruct (fit_integer_type _ false) as [t|e]; cbn [bind] in H; [|discriminate].
  destruct (fold_keys _ _ _ _) as [k|e] eqn:E; cbn [bind] in H; [|discriminate].
  injection H as _ <-. apply fold_keys_length in E.
  - rewrite E. unfold column. rewrite !map_length. reflexivity.
  - apply Forall_forall. intros [n c] Hin. apply in_combine_r in Hin. apply in_map_iff in Hin.
    destruct Hin as (k' & <- & _). unfold column. cbn [snd]. rewrite !map_length. reflexivity.
Qed.

Lemma sorted_pairs_any argsort keys scores : argsort_spec argsort -> length keys = length scores -> keys <> [] ->
  exists P : list (Z * Z), gather scores (argsort keys) = Ok (map snd P) /\ gather keys (argsort keys) = Ok (map fst P) /\
    Permutation P (combine keys scores) /\ P <> [].
Proof.
  intros Hsort Hlk Hk. destruct (Hsort keys) as [Hp _].
  assert (Hb : forall i, In i (argsort keys) -> (i < length keys)%nat).
  { intros i Hi. apply (Permutation_in _ Hp), in_seq in Hi. lia. }
  exists (map (fun i => nth i (combine keys scores) (0, 0)) (argsort keys)).
  rewrite (@gather_ok _ scores (argsort keys) 0) by (intros; rewrite <- Hlk; auto).
  rewrite (@gather_ok _ keys (argsort keys) 0) by auto.
  rewrite !map_map. split; [|split; [|split]].
  - f_equal. apply map_ext. intros i. rewrite combine_nth by exact Hlk. reflexivity.
  - f_equal. apply map_ext. intros i. rewrite combine_nth by exact Hlk. reflexivity.
  - eapply Permutation_trans; [apply Permutation_map, Hp|].
    replace (length keys) with (length (combine keys scores)) by (rewrite combine_length; lia).
    rewrite map_nth_seq. apply Permutation_refl.
  - intros E. apply map_eq_nil in E. rewrite E in Hp. apply Permutation_nil in Hp. destruct keys; [congruence|discriminate].
Qed.

Lemma combine_snd A B (l : list A) (m : list B) : length l = length m -> map snd (combine l m) = m.
Proof.
  revert m. induction l as [|a l IH]; intros [|b m] H; try discriminate; [reflexivity|].
  cbn. f_equal. apply IH. injection H; auto.
Qed.

Lemma make_lines_fields (L : Type) by_ (indexes : list (list L)) : forall decoded runs lines,
  length decoded = length runs ->
  mapM (make_line by_ indexes)
    (combine (combine decoded (map (fun x : Z * list Z => (mean (snd x) + 1) / 2)%Q runs)) (map (fun x => length (snd x)) runs)) = Ok lines ->
  Forall2 (fun x ln => l_n ln = Z.of_nat (length (snd x)) /\ l_score ln = ((mean (snd x) + 1) / 2)%Q) runs lines.
Proof.
  induction decoded as [|q decoded IH]; intros [|[v ss] runs] lines Hl H; try discriminate.
  - injection H as <-. constructor.
  - cbn [map combine mapM fst snd] in H.
    destruct (make_line by_ indexes _) as [ln|e] eqn:E; cbn [bind] in H; [|discriminate].
    destruct (mapM _ _) as [lns|e] eqn:E'; cbn [bind] in H; [|discriminate]. injection H as <-.
    constructor; [|apply IH; [injection Hl; auto|exact E']].
    unfold make_line in E. destruct (mapM _ _) as [aux|e] eqn:E2; cbn [bind] in E; [|discriminate]. injection E as <-.
    cbn. auto.
Qed.

Lemma by_accounts (L : Type) rnd argsort limit (T : analyzed_task L) scores n by_ ij lines :
  argsort_spec argsort -> analysable limit T scores -> Forall (fun s => s = -1 \/ s = 0 \/ s = 1) scores ->
  nth_error (a_bys T) n = Some by_ -> nth_error (a_by_index T) n = Some ij ->
  collapse_by rnd argsort T scores n by_ = Ok lines -> shared_out (scores_in ij scores) lines.
Proof.
  intros Hs Ha Hsc Hb Hi E. destruct ij as [i j]. destruct (an_by Ha n Hb Hi) as (B & g & sizes & Hin & Hg & Hl).
  assert (Hlen : length (scores_in (i, j) scores) = length (g_data g)).
  { unfold scores_in. cbn [fst snd]. rewrite firstn_length, skipn_length. lia. }
  rewrite collapse_by_eq in E. unfold nth_res in E. rewrite Hi in E. cbn [bind] in E.
  rewrite (lookup_NoDup _ _ _ _ (an_groups Ha) Hin) in E. cbn [bind fst snd] in E.
  change (slice i j scores) with (scores_in (i, j) scores) in E.
  destruct (Nat.eqb_spec (length (g_data g) * g_columns g) 0) as [Z|NZ].
  - injection E as <-. exists []. split; [|constructor]. cbn [concat].
    assert (D : scores_in (i, j) scores = []); [|rewrite D; constructor].
    apply length_zero_iff_nil. rewrite Hlen. rewrite (go_columns Hg) in Z. pose proof (go_some Hg).
    destruct (g_data g); [reflexivity|]. destruct (g_names g); [congruence|cbn in Z; lia].
  - destruct (new_keys g) as [[ns keys]|e] eqn:Ek; cbn [bind] in E; [|discriminate].
    pose proof (new_keys_length _ _ _ _ Ek) as Hk.
    destruct (sorted_pairs_any argsort keys (scores_in (i, j) scores) Hs) as (P & G1 & G2 & Hp & HP).
    { congruence. }
    { intros C. rewrite C in Hk. cbn in Hk. rewrite <- Hk in NZ. cbn in NZ. congruence. }
    rewrite G1 in E. cbn [bind] in E. rewrite G2 in E. cbn [bind] in E. rewrite (unique_runs P HP) in E. cbn [bind] in E.
    destruct (mapM (lookup (g_indexes g)) (g_names g)) as [indexes|e]; cbn [bind] in E; [|discriminate].
    apply make_lines_fields in E; [|unfold npdecode; rewrite !map_length; reflexivity].
    exists (map snd (group_runs P)).
    assert (Hc : concat (map snd (group_runs P)) = map snd P).
    { rewrite <- (group_runs_concat P) at 2. rewrite concat_map, map_map. f_equal. apply map_ext. intros x.
      rewrite map_map. cbn. symmetry. apply map_id. }
    assert (Hperm : Permutation (concat (map snd (group_runs P))) (scores_in (i, j) scores)).
    { rewrite Hc. rewrite <- (combine_snd _ _ keys (scores_in (i, j) scores)) by congruence. apply Permutation_map, Hp. }
    split; [exact Hperm|].
    assert (Hval : forall s, In s (concat (map snd (group_runs P))) -> s = -1 \/ s = 0 \/ s = 1).
    { intros s Hin'. apply (Permutation_in _ Hperm) in Hin'. apply (proj1 (Forall_forall _ _) Hsc).
      unfold scores_in in Hin'. cbn [fst snd] in Hin'.
      assert (HH : In s (skipn i scores)).
      { rewrite <- (firstn_skipn (j - i) (skipn i scores)). apply in_or_app. left. exact Hin'. }
      rewrite <- (firstn_skipn i scores). apply in_or_app. right. exact HH. }
    pose proof (group_runs_nonempty P) as Fne. clear -E Fne Hval.
    induction E as [|[v ss] ln runs lines (H1 & H2) F IH]; [constructor|]. cbn [map snd concat] in *.
    inversion Fne as [|? ? N1 N2]; subst. cbn [snd] in N1. constructor.
    + assert (Fs : Forall (fun s => s = -1 \/ s = 0 \/ s = 1) ss).
      { apply Forall_forall. intros s Hs. apply Hval. apply in_or_app. left. exact Hs. }
      destruct (proportion_score ss N1 Fs) as [P1 P2]. unfold mean in H2. split; [exact N1|]. split; [exact H1|].
      rewrite H2, P1. split; [reflexivity|exact P2].
    + apply IH; [|exact N2]. intros s Hs. apply Hval. apply in_or_app. right. exact Hs.
Qed.

Lemma shared_app (L : Type) s1 s2 (l1 l2 : list (line L)) :
  shared_out s1 l1 -> shared_out s2 l2 -> shared_out (s1 ++ s2) (l1 ++ l2).
Proof.
  intros (p1 & P1 & F1) (p2 & P2 & F2). exists (p1 ++ p2). split.
  - rewrite concat_app. apply Permutation_app; assumption.
  - apply Forall2_app; assumption.
Qed.

Lemma collapse_accounts (L : Type) rnd argsort limit (T : analyzed_task L) scores :
  argsort_spec argsort -> analysable limit T scores -> Forall (fun s => s = -1 \/ s = 0 \/ s = 1) scores ->
  forall bys idx n lines, length idx = length bys ->
  (forall k by_, nth_error bys k = Some by_ -> nth_error (a_bys T) (n + k) = Some by_) ->
  (forall k ij, nth_error idx k = Some ij -> nth_error (a_by_index T) (n + k) = Some ij) ->
  collapse rnd argsort T scores n bys = Ok lines ->
  shared_out (concat (map (fun ij => scores_in ij scores) idx)) lines.
Proof.
  intros Hs Ha Hsc. induction bys as [|b bys IH]; intros [|ij idx] n lines Hl Hb Hi E; try discriminate.
  - injection E as <-. exists []. split; [constructor|constructor].
  - cbn [collapse] in E. destruct (collapse_by _ _ _ _ _ _) as [l|e] eqn:E1; cbn [bind] in E; [|discriminate].
    destruct (collapse _ _ _ _ _ _) as [ls|e] eqn:E2; cbn [bind] in E; [|discriminate]. injection E as <-.
    cbn [map concat]. apply shared_app.
    + pose proof (Hb 0%nat b eq_refl) as B0. pose proof (Hi 0%nat ij eq_refl) as I0. rewrite Nat.add_0_r in B0, I0.
      eapply by_accounts; eassumption.
    + apply (IH idx (S n)); [injection Hl; auto| | |exact E2]; intros k x Hk;
        rewrite Nat.add_succ_l, <- Nat.add_succ_r; [apply Hb|apply Hi]; exact Hk.
Qed.

Lemma analyze_accounts (L : Type) rnd argsort limit (T : analyzed_task L) scores header lines :
  argsort_spec argsort -> analysable limit T scores -> Forall (fun s => s = -1 \/ s = 0 \/ s = 1) scores ->
  analyze rnd argsort T scores = Ok (header, lines) ->
  shared_out (concat (map (fun ij => scores_in ij scores) (a_by_index T))) lines.
Proof.
  intros Hs Ha Hsc E. unfold analyze in E. destruct (nth_res _ _) as [g|e]; cbn [bind] in E; [|discriminate].
  destruct (collapse _ _ _ _ _ _) as [ls|e] eqn:E2; cbn [bind] in E; [|discriminate]. injection E as _ <-.
  eapply (collapse_accounts L rnd argsort limit T scores Hs Ha Hsc (a_bys T) (a_by_index T) 0); auto.
  apply (an_index Ha).
Qed.

Lemma shared_total (L : Type) sc (lines : list (line L)) : shared_out sc lines -> sumZ (map (@l_n L) lines) = Z.of_nat (length sc).
Proof.
  intros (parts & P & F). rewrite <- (Permutation_length P). clear P.
  induction F as [|s ln parts lines (_ & H & _) F IH]; [reflexivity|].
  cbn [map concat]. rewrite app_length, Nat2Z.inj_add, <- IH, H. reflexivity.
Qed.

Lemma analyze_total (L : Type) rnd argsort limit (T : analyzed_task L) scores header lines :
  argsort_spec argsort -> analysable limit T scores -> Forall (fun s => s = -1 \/ s = 0 \/ s = 1) scores ->
  analyze rnd argsort T scores = Ok (header, lines) ->
  sumZ (map (@l_n L) lines) = sumZ (map (fun ij => Z.of_nat (snd ij - fst ij)) (a_by_index T)).
Proof.
  intros Hs Ha Hsc E. rewrite (shared_total _ _ _ (analyze_accounts _ _ _ _ _ _ _ _ Hs Ha Hsc E)).
  rewrite length_concat, map_map.
  assert (G : forall idx, (forall ij, In ij idx -> (fst ij <= snd ij <= length scores)%nat) ->
    Z.of_nat (sumn (map (fun ij => length (scores_in ij scores)) idx)) = sumZ (map (fun ij => Z.of_nat (snd ij - fst ij)) idx)).
  { induction idx as [|ij idx IH]; intros H; [reflexivity|]. cbn [map]. unfold sumn, sumZ in *. cbn [fold_right].
    rewrite Nat2Z.inj_add, IH by (intros; apply H; right; assumption). f_equal. f_equal.
    specialize (H ij (or_introl eq_refl)). unfold scores_in. rewrite firstn_length, skipn_length. lia. }
  apply G. intros [i j] Hin. apply In_nth_error in Hin. destruct Hin as (n & En).
  destruct (nth_error (a_bys T) n) as [by_|] eqn:Eb.
  - destruct (an_by Ha n Eb En) as [B _]. exact B.
  - apply nth_error_None in Eb. rewrite <- (an_index Ha) in Eb. apply nth_error_None in Eb. congruence.
Qed.
