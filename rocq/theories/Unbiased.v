(** The expected score of a line of an evaluation with a threshold. *)
From Coq Require Import Reals String Lra.
From Coq Require Import List ZArith QArith Qreals Lia Permutation.
From Verif Require Import Prelude ListFacts Sampler Sampler_spec Chance_spec Chance_law Chance_task Expect_spec Expect Task Task_spec Task_sort Task_proofs
  Task_main Task_total Task_reg_spec Distances Distances_spec
  Score Score_spec Analyze Analyze_spec Rounding H5io Pipeline Pipeline_spec Pipeline_file Pipeline_proofs Pipeline_same_spec Pipeline_scores RoundEval_lines
  Expect_task Unbiased_spec Unbiased_made.
Import ListNotations.
Local Open Scope Z_scope.
Local Open Scope list_scope.

Lemma agree_dec cols (r r' : row) : {agree cols r r'} + {~ agree cols r r'}.
Proof.
  induction cols as [|c cols IH]; [left; intros c []|].
  destruct (Z.eq_dec (r c) (r' c)) as [E|N]; [|right; intros H; apply N, H; left; reflexivity].
  destruct IH as [H|H]; [left; intros c' [<-|Hc]; auto|right; intros H'; apply H; intros c' Hc; apply H'; right; exact Hc].
Defined.

Lemma same_group_dec T rows s u : {same_group T rows s u} + {~ same_group T rows s u}.
Proof.
  assert (D1 : {same_block_of T rows s u} + {~ same_block_of T rows s u}).
  { unfold same_block_of. destruct (t_across T); [apply Z.eq_dec|apply agree_dec]. }
  destruct D1 as [H1|H1]; [|right; intros [H _]; auto].
  assert (D2 : {forall ng, In ng (of_BX (t_regressors T)) -> value rows (snd ng) s = value rows (snd ng) u} +
               {~ forall ng, In ng (of_BX (t_regressors T)) -> value rows (snd ng) s = value rows (snd ng) u}).
  { induction (of_BX (t_regressors T)) as [|g l IH]; [left; intros ng []|].
    destruct (Z.eq_dec (value rows (snd g) s) (value rows (snd g) u)) as [E|N]; [|right; intros H; apply N, H; left; reflexivity].
    destruct IH as [H|H]; [left; intros g' [<-|Hg]; auto|right; intros H'; apply H; intros g' Hg; apply H'; right; exact Hg]. }
  destruct D2 as [H2|H2]; [left; split; assumption|right; intros [_ H]; auto].
Defined.

Lemma same_group_refl T rows s : same_group T rows s s.
Proof. split; [unfold same_block_of; destruct (t_across T); [reflexivity|intros c _; reflexivity]|reflexivity]. Qed.

(** Counting the elements of classes through the size of each class. *)
Section Classes.
Context {A : Type}.
Variable rel : A -> A -> bool.
Hypothesis rel_refl : forall a, rel a a = true.
Hypothesis rel_sym : forall a b, rel a b = true -> rel b a = true.
Hypothesis rel_trans : forall a b c, rel a b = true -> rel b c = true -> rel a c = true.

Lemma class_eq s u l : rel u s = true -> filter (fun v => rel v s) l = filter (fun v => rel v u) l.
Proof.
  intros H. apply filter_ext. intros v. destruct (rel v s) eqn:E1, (rel v u) eqn:E2; auto.
  - rewrite (rel_trans v s u E1 (rel_sym _ _ H)) in E2. discriminate.
  - rewrite (rel_trans v u s E2 H) in E1. discriminate.
Qed.

Lemma classes_count (p : A -> bool) l :
  Rsum (map (fun s => INR (List.length (filter p (filter (fun v => rel v s) l))) / INR (List.length (filter (fun v => rel v s) l)))%R l) =
  INR (List.length (filter p l)).
Proof.
  set (n := fun s => INR (List.length (filter (fun v => rel v s) l))).
  rewrite (map_ext _ (fun s => Rsum (map (fun v => (if rel v s then 1 else 0) * (if p v then 1 else 0) * / n s) l))%R).
  2:{ intros s. unfold Rdiv. rewrite <- Rsum_count. fold (n s).
      rewrite (map_ext (fun v => (if rel v s then 1 else 0) * (if p v then 1 else 0) * / n s)%R (fun v => / n s * ((if rel v s then 1 else 0) * (if p v then 1 else 0)))%R) by (intros; lra).
      rewrite Rsum_scal, Rmult_comm. f_equal. generalize l. clear. intros m. induction m as [|v m IH]; [reflexivity|].
      cbn [map filter]. destruct (rel v s); cbn [map]; rewrite ?Rsum_cons, ?IH; lra. }
  rewrite Rsum_swap. rewrite <- Rsum_count. f_equal. apply map_ext_in. intros v Hv.
  rewrite (map_ext _ (fun s => ((if p v then 1 else 0) * / n v) * (if rel s v then 1 else 0))%R).
  2:{ intros s. destruct (rel v s) eqn:E.
      - rewrite (rel_sym _ _ E). unfold n. rewrite (class_eq s v l E). lra.
      - destruct (rel s v) eqn:E'; [rewrite (rel_sym _ _ E') in E; discriminate|lra]. }
  rewrite Rsum_scal, Rsum_count. fold (n v).
  assert (0 < n v)%R.
  { unfold n. apply lt_0_INR. assert (H : In v (filter (fun u => rel u v) l)) by (apply filter_In; auto).
    destruct (filter (fun u => rel u v) l); [destruct H|cbn; lia]. }
  field. lra.
Qed.
End Classes.

Lemma worth_weight s : Q2R (weight s) = worth s.
Proof.
  unfold weight, worth. rewrite (Z.eqb_sym 1 s), (Z.eqb_sym 0 s). destruct (s =? 1); [unfold Q2R; cbn; lra|].
  destruct (s =? 0); unfold Q2R; cbn; lra.
Qed.

Lemma Q2R_total l : Q2R (total l) = Rsum (map worth l).
Proof.
  induction l as [|s l IH]; [unfold Q2R; cbn; lra|]. cbn [total fold_right map]. fold (total l). rewrite Q2R_plus, IH, worth_weight, Rsum_cons. reflexivity.
Qed.

Lemma Q2R_proportion l : l <> [] -> Q2R (proportion l) = (Rsum (map worth l) / INR (List.length l))%R.
Proof.
  intros N. unfold proportion. rewrite (Qeq_eqR _ (total l / inject_Z (Z.of_nat (List.length l)))%Q).
  - rewrite Q2R_div.
    + rewrite Q2R_total. f_equal. unfold Q2R. cbn. rewrite INR_IZR_INZ. lra.
    + destruct l; [congruence|]. discriminate.
  - rewrite total_counts. reflexivity.
Qed.

(** Values attached to the elements of two lists with the same elements. *)
Lemma Forall2_values {A B} (P : A -> B -> Prop) l ms : (forall a b b', P a b -> P a b' -> b = b') -> Forall2 P l ms ->
  forall l' ms', NoDup l -> Forall2 P l' ms' -> forall (p : A -> bool), Permutation l' (filter p l) ->
  forall w : B -> R, Rsum (map w ms') = Rsum (map (fun ab => w (snd ab) * if p (fst ab) then 1 else 0)%R (combine l ms)).
Proof.
  intros Hf H l' ms' Hn H' p Hp w.
  revert l' ms' H' Hp. induction H as [|a b l ms Hab Hl IH]; intros l' ms' H' Hp.
  - cbn in Hp. apply Permutation_sym, Permutation_nil in Hp. subst. inversion H'; subst. reflexivity.
  - apply NoDup_cons_iff in Hn as [Ha Hn]. cbn [filter] in Hp. cbn [combine map fst snd]. rewrite Rsum_cons. destruct (p a).
    + assert (Hin : In a l') by (apply (Permutation_in _ (Permutation_sym Hp)); left; reflexivity).
      apply in_split in Hin as (l1 & l2 & ->). apply Forall2_app_inv_l in H' as (m1 & m2' & F1 & F2 & ->).
      inversion F2 as [|? b' ? m2 Hab' F2']; subst. assert (b' = b) as -> by (eapply Hf; eassumption).
      rewrite map_app. cbn [map]. rewrite Rsum_app, Rsum_cons. rewrite <- (IH Hn (l1 ++ l2) (m1 ++ m2)).
      * rewrite map_app, Rsum_app. lra.
      * apply Forall2_app; assumption.
      * apply Permutation_sym in Hp. apply Permutation_sym. eapply Permutation_cons_app_inv. exact Hp.
    + rewrite <- (IH Hn l' ms' H' Hp). lra.
Qed.

(** Labels say which combination it is. *)
Lemma labels_combination {L} (indexes : list (string * list L)) : (forall s levels, In (s, levels) indexes -> NoDup levels) ->
  forall r r' labels, List.length r = List.length indexes -> List.length r' = List.length indexes ->
  labelled indexes r labels -> labelled indexes r' labels -> r = r'.
Proof.
  unfold labelled. induction indexes as [|[s levels] indexes IH]; intros HN r r' labels E E' H H'.
  - destruct r, r'; try discriminate. reflexivity.
  - destruct r as [|i r], r' as [|i' r']; try discriminate. cbn [combine] in H, H'. inversion H as [|? lb ? labels' [H1 H2] H3]; subst.
    inversion H' as [|? ? ? ? [H1' H2'] H3']; subst. cbn [fst snd] in *. f_equal.
    + assert (Hlev : NoDup levels) by (apply (HN s); left; reflexivity).
      assert (Z.to_nat i = Z.to_nat i'); [|lia]. apply (proj1 (NoDup_nth_error levels) Hlev); [apply nth_error_Some; congruence|congruence].
    + apply (IH (fun s' l' Hin => HN s' l' (or_intror Hin)) r r' labels'); auto.
Qed.

Section Main.
Variables tm L F V : Type.
Variable leq : forall x y : L, {x = y} + {x <> y}.
Variable plain : L -> bool.
Variable name : key -> string.
Hypothesis name_inj : forall k k', name k = name k' -> k = k'.
Variable gorder : list (string * by_group L) -> list (string * by_group L).
Hypothesis gorder_ok : forall l, Permutation (gorder l) l.
Variable korder : list key -> list key.
Variable enum : list Z -> list Z.
Variable argsort : list Z -> list nat.
Hypothesis korder_ok : lists_keys korder.
Hypothesis enum_ok : lists_set enum.
Hypothesis argsort_ok : argsort_spec argsort.
Variables rlen wlen clen : Z -> nat.
Hypothesis rlen_ok : forall z, (0 < rlen z)%nat.
Hypothesis wlen_ok : forall z, (0 < wlen z)%nat.
Hypothesis clen_ok : forall z, (0 < clen z)%nat.
Variables memory o_buffer : Z.
Hypothesis o_buffer_ok : 8 <= o_buffer.
Variable T : task.
Variable cols : list string.
Variable db : list row.
Variable places : list (Distances.item tm).
Variable indexes : list (string * list L).
Variable files : list (feature_data tm F).
Hypothesis Hev : evaluable plain T cols db places indexes files.
Variable T' : task.
Variable bs : list by_block.
Variable st : stats.
Hypothesis init : task_init korder enum T cols db = Ok (T', bs, st).
Hypothesis rm : room T db.
Hypothesis Hsz : Zlen db * Zlen db * Zlen db < 2 ^ 63.
Hypothesis HG : r_ABX (t_regressors T) = false.
Hypothesis Hst : storable T db (capacity (s_nb_triplets st)).
Hypothesis Hm : 64 * s_nb_triplets st <= 3 * memory \/ (10 ^ 9 <= memory /\ s_nb_triplets st <= 10 ^ 14).
Variable t : Z.
Hypothesis Ht : 0 < t.
Hypothesis Hne : of_BX (t_regressors T) <> [].
Variable tle : tm -> tm -> bool.
Variable vlt : V -> V -> bool.
Variable distance : option bool -> list F -> list F -> res V.
Variable normalize : option Z.
Hypothesis asym : asymmetric vlt.
Hypothesis Hans : answerable tle vlt distance T db places files normalize.
Hypothesis Hlev : forall s levels, In (s, levels) indexes -> NoDup levels.

Local Notation rows k := (by_rows T db k).
Local Notation M := (s_nb_triplets st).
Local Notation pr := (prog korder enum argsort T' bs st t).
Local Notation mk := (fun fuel R => make_file leq plain name gorder korder enum argsort R fuel rlen wlen clen memory o_buffer T cols db places indexes (Some t) 0).
Local Notation ev := (evaluates mk (finished argsort tle vlt distance files normalize)).
Local Notation comb k := (combination T (rows k) (map fst indexes)).
Local Notation ans := (answer tle vlt distance T db places files normalize).

Variable k : key.
Variable r : list Z.
Variable labels : list L.
Variable all : list triplet.
Variable answers : list Z.
Variable chance : triplet -> R.
Hypothesis Hlab : labelled indexes r labels.
Hypothesis Hall : lists_that (fun s => is_wanted T db k s /\ comb k s = r) all.
Hypothesis Hsome : all <> [].
Hypothesis Hanswers : Forall2 (ans k) all answers.
Hypothesis Hwhole : forall s u, is_wanted T db k s -> is_wanted T db k u -> same_group T (rows k) u s -> comb k s = r -> comb k u = r.
Hypothesis Hchance : forall s grp, In s all -> lists_that (fun u => is_wanted T db k u /\ same_group T (rows k) u s) grp ->
  chance s = (IZR (Z.min t (Zlen grp)) / IZR (Zlen grp))%R.

Local Notation rel := (fun u s => if same_group_dec T (rows k) u s then true else false).
Local Notation grp s := (filter (fun u => rel u s) all).

Lemma grp_lists s : In s all -> lists_that (fun u => is_wanted T db k u /\ same_group T (rows k) u s) (grp s).
Proof.
  intros Hs. destruct Hall as [N Ha]. apply Ha in Hs as [Hw Hc]. split; [apply NoDup_filter; exact N|]. intros u. rewrite filter_In, Ha.
  destruct (same_group_dec T (rows k) u s) as [G|G]; split; try tauto; try (intros [_ H]; discriminate).
  intros [Hu _]. split; [|reflexivity]. split; [exact Hu|]. apply (Hwhole s u); assumption.
Qed.

Lemma grp_self s : In s all -> In s (grp s).
Proof. intros H. apply filter_In. split; [exact H|]. destruct (same_group_dec T (rows k) s s) as [_|N]; [reflexivity|destruct N; apply same_group_refl]. Qed.

Lemma chance_share s : In s all -> expects M pr (fun of => if Expect_spec.listed of k s then 1 else 0)%R (chance s).
Proof.
  intros Hs. rewrite (Hchance s (grp s) Hs (grp_lists s Hs)). destruct Hev.
  eapply (kept_share korder enum argsort korder_ok enum_ok argsort_ok T cols db T' bs st); try eassumption.
  - apply (proj2 Hall). exact Hs.
  - apply grp_lists. exact Hs.
  - apply grp_self. exact Hs.
Qed.

Lemma kept_number f : possible pr (Some f) -> INR (List.length (filter (Expect_spec.listed (Some f) k) all)) = Rsum (map chance all).
Proof.
  intros Hp. rewrite <- (classes_count rel).
  - f_equal. apply map_ext_in. intros s Hs. rewrite (Hchance s (grp s) Hs (grp_lists s Hs)). destruct Hev.
    rewrite <- (listed_count korder enum argsort korder_ok enum_ok argsort_ok T cols db T' bs st ev_reads ev_determined ev_kept ev_reg_reads ev_reg_determined
      init rm Hsz HG Hst t Ht Hne f k s (grp s) Hp (proj1 (proj1 (proj2 Hall s) Hs)) (grp_lists s Hs)).
    unfold Zlen. rewrite <- !INR_IZR_INZ. reflexivity.
  - intros a. destruct (same_group_dec T (rows k) a a) as [_|N]; [reflexivity|destruct N; apply same_group_refl].
  - intros a b. destruct (same_group_dec T (rows k) a b) as [G|]; [|discriminate]. intros _.
    destruct (same_group_dec T (rows k) b a) as [_|N]; [reflexivity|destruct N; apply same_group_sym; exact G].
  - intros a b c. destruct (same_group_dec T (rows k) a b) as [G|]; [|discriminate]. intros _. destruct (same_group_dec T (rows k) b c) as [G'|]; [|discriminate]. intros _.
    destruct (same_group_dec T (rows k) a c) as [_|N]; [reflexivity|destruct N; eapply same_group_trans; eassumption].
Qed.

Lemma chance_pos s : In s all -> (0 < chance s)%R.
Proof.
  intros Hs. rewrite (Hchance s (grp s) Hs (grp_lists s Hs)).
  assert (0 < Zlen (grp s)). { unfold Zlen. pose proof (grp_self s Hs) as H. destruct (grp s); [destruct H|cbn [List.length]; lia]. }
  apply Rdiv_lt_0_compat; apply IZR_lt; lia.
Qed.

Lemma chances_pos : (0 < Rsum (map chance all))%R.
Proof.
  assert (G : forall l, incl l all -> l <> [] -> (0 < Rsum (map chance l))%R).
  { induction l as [|s l IH]; intros Hi Hn; [congruence|]. cbn [map]. rewrite Rsum_cons. pose proof (chance_pos s (Hi s (or_introl eq_refl))).
    destruct l as [|s' l]; [cbn [map]; rewrite Rsum_nil; lra|]. assert (0 < Rsum (map chance (s' :: l)))%R; [|lra].
    apply IH; [intros u Hu; apply Hi; right; exact Hu|discriminate]. }
  apply G; [intros u Hu; exact Hu|exact Hsome].
Qed.

(** The score of the line as a function of the file. *)
Definition from_file (of : option task_file) : R :=
  (/ Rsum (map chance all) * Rsum (map (fun sa => worth (snd sa) * (if Expect_spec.listed of k (fst sa) then 1 else 0)) (combine all answers)))%R.
Definition expected : R := (Rsum (map (fun sa => chance (fst sa) * worth (snd sa)) (combine all answers)) / Rsum (map chance all))%R.

Lemma from_file_expected : expects M pr from_file expected.
Proof.
  assert (H := expects_scal M pr _ _ (/ Rsum (map chance all))%R
    (expects_sum M pr (fun sa of => worth (snd sa) * (if Expect_spec.listed of k (fst sa) then 1 else 0))%R (fun sa => worth (snd sa) * chance (fst sa))%R (combine all answers)
      (fun sa Hs => expects_scal M pr _ _ (worth (snd sa)) (chance_share (fst sa) (in_combine_l _ _ _ _ (eq_rect sa (fun p => In p _) Hs (fst sa, snd sa) (surjective_pairing sa))))))).
  replace expected with (/ Rsum (map chance all) * Rsum (map (fun sa : triplet * Z => worth (snd sa) * chance (fst sa)) (combine all answers)))%R; [exact H|].
  unfold expected, Rdiv. rewrite Rmult_comm. f_equal. f_equal. apply map_ext. intros sa. lra.
Qed.

Lemma listed_same f s : Pipeline_spec.listed name (map name (fl_bys f)) (fl_by_index f) (fl_triplets f) k s <-> Expect_spec.listed (Some f) k s = true.
Proof. rewrite (listed_written name name_inj), listed_iff. reflexivity. Qed.

Lemma line_score f lines : possible pr (Some f) ->
  result_among tle vlt distance name (Pipeline_spec.listed name (map name (fl_bys f)) (fl_by_index f) (fl_triplets f)) T db places files normalize indexes lines ->
  score_at leq (name k) labels lines = from_file (Some f).
Proof.
  intros Hp (parts & El & Hnd & Hks & Hparts).
  pose proof (kept_number f Hp) as Hnum. pose proof chances_pos as Hpos.
  assert (Hs : exists s, In s all /\ Expect_spec.listed (Some f) k s = true).
  { destruct (filter (Expect_spec.listed (Some f) k) all) as [|s l] eqn:E; [cbn in Hnum; lra|]. exists s. apply filter_In. rewrite E. left. reflexivity. }
  destruct Hs as (s & Hs & Hsl). pose proof (proj2 (listed_same f s) Hsl) as Hsel.
  destruct (proj1 (proj2 Hall s) Hs) as [Hw Hc].
  assert (Hk : In k (map fst parts)) by (apply Hks; eauto). apply in_map_iff in Hk as ([k0 part] & Ek & Hpart). cbn in Ek. subst k0.
  destruct (Hparts k part Hpart) as (_ & Hr & Hln). assert (Hrp : In r (map fst part)) by (apply Hr; eauto).
  apply in_map_iff in Hrp as ([r0 ln0] & Er & Hin0). cbn in Er. subst r0.
  unfold score_at. destruct (find _ lines) as [ln|] eqn:Ef.
  - apply find_some in Ef as [Hl Hb]. apply andb_prop in Hb as [Hb1 Hb2]. apply String.eqb_eq in Hb1.
    destruct (list_eq_dec leq (l_labels ln) labels) as [Elab|]; [|discriminate]. clear Hb2.
    rewrite El in Hl. apply in_concat in Hl as (part' & Hp' & Hl'). apply in_map_iff in Hp' as ([k' part2] & <- & Hpart2). cbn [snd] in Hl'.
    apply in_map_iff in Hl' as ([r' ln'] & E' & Hin'). cbn in E'. subst ln'.
    destruct (Hparts k' part2 Hpart2) as (_ & Hr2 & Hln2). destruct (Hln2 r' ln Hin') as (Hlab' & Hby' & ts & ans' & Hts & Hans' & _ & Hsc).
    assert (k' = k) as -> by (apply name_inj; congruence).
    assert (r' = r) as ->.
    { destruct (proj1 (Hr2 r') (in_map fst _ _ Hin')) as (s' & _ & Ec').
      apply (labels_combination indexes Hlev r' r labels).
      - rewrite <- Ec'. unfold combination. rewrite !map_length. reflexivity.
      - rewrite <- Hc. unfold combination. rewrite !map_length. reflexivity.
      - rewrite <- Elab. exact Hlab'.
      - exact Hlab. }
    assert (Hperm : Permutation ts (filter (Expect_spec.listed (Some f) k) all)).
    { apply NoDup_Permutation; [apply (proj1 Hts)|apply NoDup_filter; apply (proj1 Hall)|]. intros u. rewrite (proj2 Hts u), filter_In, (proj2 Hall u), listed_same.
      split; [intros [H1 H2]|intros [[H1 H2] H3]; auto]. split; [split; [|exact H2]|exact H1].
      destruct Hev. eapply (listed_wanted korder enum argsort); eauto. }
    assert (Hlen : List.length ans' = List.length (filter (Expect_spec.listed (Some f) k) all)).
    { rewrite <- (Permutation_length Hperm). symmetry. eapply RoundEval_lines.Forall2_len. exact Hans'. }
    rewrite (Qeq_eqR _ _ Hsc), Q2R_proportion.
    + rewrite Hlen, Hnum. unfold from_file, Rdiv. rewrite Rmult_comm. f_equal.
      apply (Forall2_values (ans k) all answers) with (l' := ts); auto.
      * intros a b b'. destruct Hev. apply (answer_fun tle distance T db places normalize asym ev_features).
      * apply (proj1 Hall).
    + intros ->. rewrite <- Hlen in Hnum. cbn in Hnum. lra.
  - exfalso. assert (Hin : In ln0 lines).
    { rewrite El. apply in_concat. exists (map snd part). split; [apply in_map_iff; exists (k, part); auto|]. apply in_map_iff. exists (r, ln0). auto. }
    apply (find_none _ _ Ef) in Hin. destruct (Hln r ln0 Hin0) as (Hlab0 & Hby0 & _). rewrite Hby0, String.eqb_refl in Hin.
    destruct (list_eq_dec leq (l_labels ln0) labels) as [|N]; [discriminate|]. apply N.
    assert (G : forall (m : list ((string * list L) * Z)) l0 l1,
      Forall2 (fun ixi label => 0 <= snd ixi /\ nth_error (snd (fst ixi)) (Z.to_nat (snd ixi)) = Some label) m l0 ->
      Forall2 (fun ixi label => 0 <= snd ixi /\ nth_error (snd (fst ixi)) (Z.to_nat (snd ixi)) = Some label) m l1 -> l0 = l1).
    { clear. induction m as [|q m IH]; intros l0 l1 H H'; inversion H as [|? lb ? lbs [_ E] Hm']; inversion H' as [|? lb' ? lbs' [_ E'] Hm1']; subst; [reflexivity|].
      f_equal; [congruence|]. apply IH; assumption. }
    exact (G _ _ _ Hlab0 Hlab).
Qed.

Lemma one_result fuel R : rng_ok R ->
  (exists res, ev fuel R res) /\
  forall res, ev fuel R res ->
    match res with Ok lines => score_at leq (name k) labels lines | Err _ => 0%R end = match pr fuel R with Ok of => from_file of | Err _ => 0%R end.
Proof.
  intros HR. unfold evaluates, prog. destruct Hev as [H1 H2 H3 H4 H5 H6 H7 H8 H9 H10].
  destruct (generate_triplets korder enum argsort R fuel T' (Some t) bs st 0) as [[bs' [f|]]|e] eqn:E.
  - destruct (made_some tm L leq plain name name_inj gorder korder enum argsort R fuel korder_ok enum_ok argsort_ok rlen wlen clen rlen_ok wlen_ok clen_ok memory o_buffer o_buffer_ok
      T cols db places indexes 0 H1 H2 H3 H4 H5 H6 H7 H8 H9 T' bs st init Hst Hm t HR rm Ht Hne bs' f E) as (x & Ex & X1 & X2 & X3).
    rewrite Ex. split.
    + destruct (can_finish tm L leq plain name name_inj gorder gorder_ok korder enum argsort R fuel korder_ok enum_ok argsort_ok rlen wlen clen rlen_ok wlen_ok clen_ok memory o_buffer o_buffer_ok
        T cols db places indexes 0 H1 H2 H3 H4 H5 H6 H7 H8 H9 T' bs st init Hst Hm t HR rm Ht Hne x Ex F V tle vlt distance files normalize H10 asym Hans) as (lines & Hf).
      eexists. exists lines. split; [reflexivity|exact Hf].
    + intros res (lines & -> & Hf).
      apply (finished_result tm L leq plain name name_inj gorder gorder_ok korder enum argsort R fuel korder_ok enum_ok argsort_ok rlen wlen clen rlen_ok wlen_ok clen_ok memory o_buffer o_buffer_ok
        T cols db places indexes 0 H1 H2 H3 H4 H5 H6 H7 H8 H9 T' bs st init Hst Hm t HR rm Ht Hne x Ex F V tle vlt distance files normalize H10 asym) in Hf.
      rewrite X1, X2, X3 in Hf. apply line_score; [|exact Hf]. exists fuel, R. split; [exact HR|]. unfold prog. rewrite E. reflexivity.
  - exfalso. destruct (proj1 (proj2 Hall (hd (0, 0, 0) all))) as [Hw Hc]; [destruct all; [congruence|left; reflexivity]|].
    assert (Hin : In (hd (0, 0, 0) all) all) by (destruct all; [congruence|left; reflexivity]).
    destruct (some_file korder enum argsort korder_ok enum_ok T cols db T' bs st H1 H2 H3 init HG t k _ (grp (hd (0, 0, 0) all)) Hw (grp_lists _ Hin) None) as (f & Hf); [|discriminate].
    exists fuel, R. split; [exact HR|]. unfold prog. rewrite E. reflexivity.
  - rewrite (made_err tm L leq plain name gorder korder enum argsort R fuel rlen wlen clen memory o_buffer T cols db places indexes 0 T' bs st init t e E).
    split; [eexists; reflexivity|]. intros res ->. reflexivity.
Qed.

Theorem expected_score : always_expects M ev (score_at leq (name k) labels) expected.
Proof.
  intros B HB. split.
  - intros n. assert (G : forall vs, incl vs (vectors B n) -> exists results, Forall2 (fun v res => ev (S n) (drawn B v) res) vs results).
    { induction vs as [|v vs IH]; intros Hi; [exists []; constructor|]. destruct IH as (rs & Hrs); [intros u Hu; apply Hi; right; exact Hu|].
      destruct (one_result (S n) (drawn B v)) as [(res & Hres) _]; [eapply drawn_ok; [exact (proj1 HB)|apply Hi; left; reflexivity]|].
      exists (res :: rs). constructor; assumption. }
    destruct (G (vectors B n) (fun u Hu => Hu)) as (rs & Hrs). eexists. exists rs. split; [exact Hrs|reflexivity].
  - intros eps Heps. destruct (from_file_expected B HB eps Heps) as (N & HN). exists N. intros n m Hn (rs & Hrs & ->).
    specialize (HN n Hn). unfold R_dist in HN. unfold mean in HN.
    replace (map (fun r0 => match r0 with Ok a => score_at leq (name k) labels a | Err _ => 0%R end) rs)
      with (map (fun v => match pr (S n) (drawn B v) with Ok a => from_file a | Err _ => 0%R end) (vectors B n)); [exact HN|].
    assert (G : forall vs, incl vs (vectors B n) -> forall rs, Forall2 (fun v res => ev (S n) (drawn B v) res) vs rs ->
       map (fun v => match pr (S n) (drawn B v) with Ok a => from_file a | Err _ => 0%R end) vs = map (fun r0 => match r0 with Ok a => score_at leq (name k) labels a | Err _ => 0%R end) rs).
    { clear Hrs rs HN. intros vs Hi rs Hrs. induction Hrs as [|v res vs rs Hv Hrs IH]; [reflexivity|]. cbn [map]. f_equal.
      - symmetry. apply one_result; [eapply drawn_ok; [exact (proj1 HB)|apply Hi; left; reflexivity]|exact Hv].
      - apply IH. intros u Hu. apply Hi. right. exact Hu. }
    apply (G (vectors B n) (fun u Hu => Hu) rs Hrs).
Qed.
End Main.
