From Coq Require Import Ascii String.
From Verif Require Import Prelude ListFacts Task Task_spec Task_proofs Tree Tree_spec Tree_proofs SideOps SideOps_spec SideOps_proofs SideOps_stages SideOps_staged SideOps_meaning SideOps_user.
Set Implicit Arguments.
Open Scope string_scope.
Open Scope list_scope.
Local Open Scope nat_scope.

Lemma has_char_In a s : has_char a s = true <-> In a (list_ascii_of_string s).
Proof.
  induction s as [|c s IH]; cbn; [split; [discriminate|intros []]|]. rewrite orb_true_iff, IH, Ascii.eqb_eq. intuition.
Qed.

Lemma check_database_names cols on across by_ u : check_database cols on across by_ = Ok u ->
  Forall plain cols /\ (forall c, In c cols -> ~ In "#"%char (list_ascii_of_string c)).
Proof.
  unfold check_database. destruct (mem_string cols on); [|discriminate]. destruct (forallb (mem_string cols) across); [|discriminate].
  destruct (forallb (mem_string cols) by_); [|discriminate]. cbn. destruct (forallb _ cols) eqn:E; [|discriminate]. intros _.
  rewrite forallb_forall in E. rewrite Forall_forall.
  assert (G : forall c, In c cols -> plain c /\ ~ In "#"%char (list_ascii_of_string c)).
  { intros c Hc. specialize (E c Hc). apply andb_true_iff in E as [E1 E2]. rewrite negb_true_iff in E1, E2. unfold plain. rewrite <- !has_char_In, E1, E2. split; discriminate. }
  split; intros c Hc; apply G; exact Hc.
Qed.

Section Legal.
Variable m : manager.
Notation C := (m_cols m).
Hypothesis plain_cols : Forall plain (all_cols C).

Lemma parse_all f : all_named C f -> mapM (parse_extended_column C) (input_names f) = Ok (elements C f).
Proof.
  intros H. unfold elements, all_named in *. destruct (mapM _ _) as [l|e] eqn:E; [reflexivity|]. exfalso. revert e E H.
  induction (input_names f) as [|n l IH]; intros e E H; cbn in E; [discriminate|].
  destruct (H n (or_introl eq_refl)) as (c & s & -> & Hc & Hs). rewrite parse_named in E by auto. cbn in E.
  destruct (mapM (parse_extended_column C) l) eqn:El; [discriminate|]. eapply IH; [reflexivity|]. intros; apply H; right; auto.
Qed.

Lemma check_ok f : mapM (parse_extended_column C) (input_names f) = Ok (elements C f) ->
  ((exists u, check_extensions C (elements C f) = Ok u) <-> placed C f).
Proof.
  intros Hp. pose proof (elements_named C f Hp) as Hn. pose proof (elements_all C f Hp) as Ha.
  assert (G : forall e, check_element C e = Ok tt <-> (snd e = "_1" \/ snd e = "_2" -> In (fst e) (on_cols C) \/ In (fst e) (across_cols C)) /\ (snd e = "_AX" -> In (fst e) (across_cols C)) /\ (snd e = "AB" -> In (fst e) (on_cols C))).
  { intros [c s]. cbn [fst snd]. unfold check_element. cbn [mem_string existsb]. rewrite <- !(mem_string_In _ c).
    destruct (mem_string (on_cols C) c), (mem_string (across_cols C) c); cbn;
    destruct (String.eqb_spec s "_1"), (String.eqb_spec s "_2"), (String.eqb_spec s "_AX"), (String.eqb_spec s "AB"); subst; cbn; try discriminate;
    (split; [intros; try discriminate; repeat split; intros; try tauto; try congruence|intros (H1 & H2 & H3); try reflexivity; exfalso; try (destruct H1; [tauto|discriminate|discriminate]); try (specialize (H2 eq_refl); discriminate); try (specialize (H3 eq_refl); discriminate)]);
    try (destruct H; congruence). }
  assert (K : (exists u, check_extensions C (elements C f) = Ok u) <-> forall e, In e (elements C f) -> check_element C e = Ok tt).
  { split.
    - intros ([] & Hu). apply check_all. exact Hu.
    - intros H. exists tt. unfold check_extensions. assert (E : exists l, mapM (check_element C) (elements C f) = Ok l).
      { clear - H. revert H. induction (elements C f) as [|e l IH]; intros H; [eexists; reflexivity|]. destruct IH as (l' & El); [intros; apply H; right; auto|].
        cbn. rewrite (H e (or_introl eq_refl)). cbn. rewrite El. eexists; reflexivity. }
      destruct E as (l & ->). reflexivity. }
  rewrite K. split.
  - intros H n c s Hin N. destruct (Ha n Hin) as (e & He & E). specialize (H e He). apply G in H.
    assert (P : parse_extended_column C n = Ok (c, s)) by (destruct N as (-> & ? & ?); apply parse_named; auto).
    destruct (Hn e He) as [N' _]. assert (P' : parse_extended_column C n = Ok (fst e, snd e)) by (rewrite <- E; destruct N' as (-> & ? & ?); apply parse_named; auto).
    rewrite P in P'. injection P' as -> ->. tauto.
  - intros H e He. apply G. destruct (Hn e He) as [N I]. destruct (H _ _ _ I N) as [H1 H2]. split; [exact H1|]. split; [exact H2|].
    intros E. destruct N as (_ & _ & Hx). rewrite E in Hx. exfalso. unfold extension in Hx. intuition discriminate.
Qed.

Lemma mix_ok f : mapM (parse_extended_column C) (input_names f) = Ok (elements C f) ->
  (unmixed C f <-> (forall e, In e (rest_of C f) -> snd e = "") \/ (forall e, In e (rest_of C f) -> snd e <> "")).
Proof.
  intros Hp. pose proof (elements_named C f Hp) as Hn. pose proof (elements_all C f Hp) as Ha.
  assert (U : forall n c s, In n (input_names f) -> named C n c s -> ~ In c (by_cols C) -> In (c, s) (rest_of C f)).
  { intros n c s Hin N Hb. destruct (Ha n Hin) as (e & He & E). destruct (Hn e He) as [N' _].
    assert (P : parse_extended_column C n = Ok (c, s)) by (destruct N as (-> & ? & ?); apply parse_named; auto).
    assert (P' : parse_extended_column C n = Ok (fst e, snd e)) by (rewrite <- E; destruct N' as (-> & ? & ?); apply parse_named; auto).
    rewrite P in P'. injection P' as -> ->. rewrite <- surjective_pairing. apply in_rest. split; [exact He|]. apply mem_string_nIn. exact Hb. }
  split.
  - intros H. destruct (forallb (fun e => negb (String.eqb (snd e) "")) (rest_of C f)) eqn:E.
    + right. rewrite forallb_forall in E. intros e He Hs. specialize (E e He). rewrite Hs in E. discriminate.
    + left. assert (Hex : exists e, In e (rest_of C f) /\ snd e = "").
      { clear - E. induction (rest_of C f) as [|e l IH]; [discriminate|]. cbn in E. destruct (String.eqb_spec (snd e) "") as [Es|Es].
        - exists e. split; [left; reflexivity|exact Es].
        - cbn in E. destruct (IH E) as (e' & Hin & Hs). exists e'. split; [right; exact Hin|exact Hs]. }
      destruct Hex as (e0 & He0 & Hs0). intros e He. apply in_rest in He0 as [I0 B0]. apply in_rest in He as [I B].
      destruct (Hn e0 I0) as [N0 M0]. destruct (Hn e I) as [N M].
      apply (H _ _ _ _ _ _ M0 N0 (proj1 (mem_string_nIn _ _) B0) M N (proj1 (mem_string_nIn _ _) B) Hs0).
  - intros [H|H] n c s n' c' s' I N B I' N' B' Hs.
    + apply (H _ (U _ _ _ I' N' B')).
    + exfalso. apply (H _ (U _ _ _ I N B)). exact Hs.
Qed.

Lemma mapM_parse_err f : ~ all_named C f -> mapM (parse_extended_column C) (input_names f) = Err NameError.
Proof.
  intros H. unfold all_named in H. induction (input_names f) as [|n l IH]; [exfalso; apply H; intros n []|]. cbn.
  destruct (parse_extended_column C n) as [[c s]|e] eqn:E; cbn.
  - apply parse_sound in E. rewrite IH; [reflexivity|]. intros Hl. apply H. intros n' [<-|Hn]; eauto.
  - unfold parse_extended_column in E. destruct (find _ _); [discriminate|]. congruence.
Qed.

Lemma check_err els e : check_extensions C els = Err e -> e = ValueError.
Proof.
  unfold check_extensions. destruct (mapM (check_element C) els) as [l|e'] eqn:E; [discriminate|]. cbn. intros K. injection K as <-.
  revert e' E. induction els as [|[c s] l IH]; intros e' E; cbn [mapM] in E; [discriminate|].
  destruct (check_element C (c, s)) as [u|e1] eqn:Ee; cbn [bind] in E.
  - destruct (mapM (check_element C) l) eqn:El; [discriminate|]. cbn in E. injection E as <-. apply IH. reflexivity.
  - injection E as <-. unfold check_element in Ee. destruct (_ && _)%bool; [congruence|]. destruct (_ && _)%bool; [congruence|]. destruct (_ && _)%bool; congruence.
Qed.

Theorem add_decision f :
  ((exists m', add false m f = Ok m') <-> all_named C f /\ placed C f /\ unmixed C f) /\
  (~ all_named C f -> add false m f = Err NameError) /\
  (all_named C f -> ~ (placed C f /\ unmixed C f) -> add false m f = Err ValueError).
Proof.
  assert (A : all_named C f -> placed C f -> unmixed C f -> exists m', add false m f = Ok m').
  { intros Hn Hpl Hm. pose proof (parse_all Hn) as Hp. unfold add. rewrite Hp. cbn [bind].
    destruct (proj2 (check_ok f Hp) Hpl) as (u & Hu). rewrite Hu. cbn [bind]. fold (isby C).
    change (forallb (fun e => mem_string (by_cols C) (fst e)) (elements C f)) with (forallb (isby C) (elements C f)).
    destruct (forallb (isby C) (elements C f)) eqn:Eb; [eexists; reflexivity|].
    change (filter (fun e => negb (mem_string (by_cols C) (fst e))) (elements C f)) with (rest_of C f).
    destruct (only_plain (rest_of C f)) eqn:Eo; [eexists; reflexivity|]. unfold classify_on_across_by.
    destruct (mem_string (map snd (rest_of C f)) "") eqn:Em; [|destruct (filter _ (rest_of C f)); eexists; reflexivity]. exfalso.
    apply mem_string_In, in_map_iff in Em as (e & Es & He). apply (mix_ok f Hp) in Hm. destruct Hm as [Hm|Hm]; [|apply (Hm e He Es)].
    assert (only_plain (rest_of C f) = true); [|congruence]. apply only_plain_spec. split; [|exact Hm]. intros E. rewrite E in He. destruct He. }
  assert (B : ~ all_named C f -> add false m f = Err NameError) by (intros H; unfold add; rewrite mapM_parse_err by exact H; reflexivity).
  assert (D : all_named C f -> ~ (placed C f /\ unmixed C f) -> add false m f = Err ValueError).
  { intros Hn Hnot. pose proof (parse_all Hn) as Hp. unfold add. rewrite Hp. cbn [bind].
    destruct (check_extensions C (elements C f)) as [u|e] eqn:Ec; [|cbn; f_equal; eapply check_err; exact Ec]. cbn [bind].
    assert (Hpl : placed C f) by (apply (check_ok f Hp); eauto). assert (Hm : ~ unmixed C f) by tauto. rewrite (mix_ok f Hp) in Hm.
    change (forallb (fun e => mem_string (by_cols C) (fst e)) (elements C f)) with (forallb (isby C) (elements C f)).
    destruct (forallb (isby C) (elements C f)) eqn:Eb.
    { exfalso. apply Hm. left. intros e He. apply in_rest in He as [He Hb]. rewrite forallb_forall in Eb. rewrite (Eb e He) in Hb. discriminate. }
    change (filter (fun e => negb (mem_string (by_cols C) (fst e))) (elements C f)) with (rest_of C f).
    destruct (only_plain (rest_of C f)) eqn:Eo; [exfalso; apply Hm; left; apply only_plain_spec in Eo; apply Eo|]. unfold classify_on_across_by.
    destruct (mem_string (map snd (rest_of C f)) "") eqn:Em; [reflexivity|]. exfalso. apply Hm. right. intros e He Es. apply mem_string_nIn in Em. apply Em. rewrite <- Es. apply in_map. exact He. }
  split; [|split; assumption]. split.
  - intros (m' & E). unfold add in E. destruct (mapM (parse_extended_column C) (input_names f)) as [els|] eqn:Hp; [|discriminate].
    assert (Hp' : mapM (parse_extended_column C) (input_names f) = Ok (elements C f)) by (unfold elements; rewrite Hp; reflexivity).
    assert (Hn : all_named C f).
    { intros n Hin. destruct (elements_all C f Hp' n Hin) as (e & He & <-). destruct (elements_named C f Hp' e He) as [N _]. eauto. }
    split; [exact Hn|]. cbn [bind] in E. destruct (check_extensions C els) as [u|] eqn:Ec; [|discriminate].
    assert (els = elements C f) by congruence. subst els. assert (Hpl : placed C f) by (apply (check_ok f Hp'); eauto). split; [exact Hpl|].
    cbn [bind] in E. rewrite (mix_ok f Hp').
    change (forallb (fun e => mem_string (by_cols C) (fst e)) (elements C f)) with (forallb (isby C) (elements C f)) in E.
    destruct (forallb (isby C) (elements C f)) eqn:Eb.
    { left. intros e He. apply in_rest in He as [He Hb]. rewrite forallb_forall in Eb. rewrite (Eb e He) in Hb. discriminate. }
    change (filter (fun e => negb (mem_string (by_cols C) (fst e))) (elements C f)) with (rest_of C f) in E.
    destruct (only_plain (rest_of C f)) eqn:Eo; [left; apply only_plain_spec in Eo; apply Eo|]. unfold classify_on_across_by in E.
    destruct (mem_string (map snd (rest_of C f)) "") eqn:Em; [discriminate|]. right. intros e He Es. apply mem_string_nIn in Em. apply Em. rewrite <- Es. apply in_map. exact He.
  - intros (Hn & Hpl & Hm). auto.
Qed.

End Legal.
