From Coq Require Import Ascii String.
From Verif Require Import Prelude ListFacts Task Task_spec Tree Tree_spec Tree_proofs SideOps SideOps_spec SideOps_proofs SideOps_stages SideOps_staged.
Set Implicit Arguments.
Open Scope string_scope.
Open Scope list_scope.
Local Open Scope nat_scope.

Lemma means_functional on_cols a b x c s v v' : means on_cols a b x c s v -> means on_cols a b x c s v' -> v = v'.
Proof. intros H H'. inversion H; subst; inversion H'; subst; intuition (try congruence). Qed.

Section Meaning.
Variable C : columns.
Hypothesis plain_cols : Forall plain (all_cols C).
Variable truthy : Z -> bool.
Variable fps : list (dbfun * pred).
Variable m : manager.
Hypothesis inv : invariant C (map fst fps) m.
Hypothesis Hew : forall f p, In (f, p) fps -> elementwise f p.
Hypothesis Hus : forall f p, In (f, p) fps -> usable C f.

Notation spred := (stage_pred C fps).
Notation env := (senv C).
Notation F := (staged truthy m).

Lemma staged_by v : f_by F v = spred By (env v v v v).
Proof. cbn. rewrite (by_filter_ok plain_cols fps inv Hew). reflexivity. Qed.

Lemma staged_oab v : f_oab F v = spred Oab (env v v v v).
Proof. cbn [f_oab staged]. rewrite (oab_filter_ok plain_cols fps inv Hew Hus). reflexivity. Qed.

Lemma staged_generic v r : f_generic F v r = spred Generic (env v r r r).
Proof.
  cbn [f_generic staged]. rewrite (generic_filter_ok plain_cols truthy fps inv Hew Hus). cbn [filter].
  destruct (spred Generic (env v r r r)); reflexivity.
Qed.

Definition same2 (st : stage) (o : option (row -> row -> bool)) : Prop :=
  match o with
  | Some f => forall v r, f v r = spred st (env v r r r)
  | None => at_stage C fps st = []
  end.

Lemma funs_nil st : m_funs m st = [] -> at_stage C fps st = [].
Proof. rewrite (funs_at fps inv). apply map_eq_nil. Qed.

Lemma one_line b : holds_on truthy (Ok (np_where [b])) = b.
Proof. destruct b; reflexivity. Qed.

Lemma staged_A : same2 StA (f_A F).
Proof.
  unfold same2. cbn [f_A staged]. destruct (m_funs m StA) eqn:E; [apply funs_nil; exact E|]. intros v r. unfold A_filter.
  rewrite (item_filter_ok plain_cols truthy fps inv Hew Hus) by auto. apply one_line.
Qed.

Lemma staged_B : same2 StB (f_B F).
Proof.
  unfold same2. cbn [f_B staged]. destruct (m_funs m StB) eqn:E; [apply funs_nil; exact E|]. intros v r. unfold B_filter.
  rewrite (item_filter_ok plain_cols truthy fps inv Hew Hus) by auto. apply one_line.
Qed.

Lemma staged_X : same2 StX (f_X F).
Proof.
  unfold same2. cbn [f_X staged]. destruct (m_funs m StX) eqn:E; [apply funs_nil; exact E|]. intros v r. unfold X_filter.
  rewrite (item_filter_ok plain_cols truthy fps inv Hew Hus) by auto. apply one_line.
Qed.

Lemma staged_ABX : match f_ABX F with
  | Some f => forall v a b x, f v a b x = spred StABX (env v a b x)
  | None => at_stage C fps StABX = [] end.
Proof.
  cbn [f_ABX staged]. destruct (m_funs m StABX) eqn:E; [apply funs_nil; exact E|]. intros v a b x.
  destruct (ABX_filter_ok plain_cols truthy fps inv Hew Hus v [(0%Z, a); (1%Z, b); (2%Z, x)] [(0%Z, 1%Z, 2%Z)]) as [->|[_ (e & He)]].
  - apply one_line.
  - cbn in He. discriminate.
Qed.

(** What runs is what Task.v runs. *)
Lemma run_by v : by_filter m v = Ok (f_by F v).
Proof. rewrite staged_by. apply (by_filter_ok plain_cols fps inv Hew). Qed.

Lemma run_oab v : on_across_by_filter m v = Ok (f_oab F v).
Proof. rewrite staged_oab. apply (oab_filter_ok plain_cols fps inv Hew Hus). Qed.

Lemma run_generic v db : generic_filter truthy m v db = Ok (filter (f_generic F v) db).
Proof.
  rewrite (generic_filter_ok plain_cols truthy fps inv Hew Hus). f_equal. apply filter_ext. intros r. symmetry. apply staged_generic.
Qed.

Lemma run_single st o f field v fr l : same2 st o -> o = Some f ->
  (st = StA /\ field = m_A m \/ st = StB /\ field = m_B m \/ st = StX /\ field = m_X m) ->
  item_filter truthy m st field v fr l = single_filter f v fr l.
Proof.
  intros Hs -> Hf. rewrite (item_filter_ok plain_cols truthy fps inv Hew Hus) by exact Hf. unfold single_filter. cbn in Hs.
  destruct (mapM (loc fr) l) as [rs|]; [|reflexivity]. cbn [bind]. f_equal. f_equal. apply map_ext. intros r. symmetry. apply Hs.
Qed.

Lemma run_A f v fr l : f_A F = Some f -> A_filter truthy m v fr l = single_filter f v fr l.
Proof. intros E. unfold A_filter. eapply run_single; [exact staged_A|exact E|auto]. Qed.

Lemma run_B f v fr l : f_B F = Some f -> B_filter truthy m v fr l = single_filter f v fr l.
Proof. intros E. unfold B_filter. eapply run_single; [exact staged_B|exact E|auto]. Qed.

Lemma run_X f v fr l : f_X F = Some f -> X_filter truthy m v fr l = single_filter f v fr l.
Proof. intros E. unfold X_filter. eapply run_single; [exact staged_X|exact E|auto]. Qed.

Lemma run_ABX f v fr ts : f_ABX F = Some f -> forall kept,
  SideOps.ABX_filter truthy m v fr ts = Ok kept <-> Task.ABX_filter f v fr ts = Ok kept.
Proof.
  intros E kept. pose proof staged_ABX as H. rewrite E in H.
  assert (G : Task.ABX_filter f v fr ts = Task.ABX_filter (fun v a b x => spred StABX (env v a b x)) v fr ts).
  { unfold Task.ABX_filter. f_equal. clear - H. induction ts as [|[[a b] x] ts IH]; [reflexivity|]. cbn [mapM].
    rewrite IH. destruct (loc fr a); [|reflexivity]. destruct (loc fr b); [|reflexivity]. destruct (loc fr x); [|reflexivity]. cbn [bind]. rewrite H. reflexivity. }
  rewrite G. destruct (ABX_filter_ok plain_cols truthy fps inv Hew Hus v fr ts) as [->|[(e & ->) (e' & ->)]]; [tauto|]. split; discriminate.
Qed.

(* ------------------------------------------------------------------ *)
(** ** Meaning *)

Section Triplet.
Variables a b x : row.
Hypothesis by_b : agree (by_cols C) a b.
Hypothesis by_x : agree (by_cols C) a x.
Hypothesis on_x : agree (on_cols C) a x.

Lemma senv_reads : reads_triplet C a b x (env a a b x).
Proof.
  intros c s Hc Hs. unfold senv. rewrite parse_named by assumption. unfold svalue. cbn [fst]. unfold isby. cbn [fst].
  destruct (mem_string (by_cols C) c) eqn:Eb.
  { apply mem_string_In in Eb. destruct Hs as [->|[->|[->|[->|[->|[->|[->| ->]]]]]]]; try (apply means_A; tauto).
    - rewrite (by_b _ Eb). apply means_B; tauto.
    - rewrite (by_x _ Eb). apply means_X; tauto.
    - destruct (in_dec string_dec c (on_cols C)) as [Ho|Ho]; [rewrite (by_b _ Eb); apply means_B; tauto|rewrite (by_x _ Eb); apply means_X; tauto]. }
  destruct (mem_string (on_cols C) c) eqn:Eo.
  - pose proof (proj1 (mem_string_In _ _) Eo) as Ho.
    destruct Hs as [->|[->|[->|[->|[->|[->|[->| ->]]]]]]]; unfold condition, get_ext; rewrite ?Eo; cbn; try (apply means_A; tauto); try (apply means_B; tauto); try (apply means_X; tauto).
    rewrite (on_x _ Ho). apply means_X; tauto.
  - pose proof (proj1 (mem_string_nIn _ _) Eo) as Ho.
    destruct Hs as [->|[->|[->|[->|[->|[->|[->| ->]]]]]]]; unfold condition, get_ext; rewrite ?Eo; cbn; try (apply means_A; tauto); try (apply means_B; tauto); try (apply means_X; tauto).
Qed.

End Triplet.

Lemma usable_inputs f p : In (f, p) fps -> forall n, In n (input_names f) -> exists c s, named C n c s.
Proof. intros H n Hn. destruct (Hus _ _ H) as (_ & Hn' & _). auto. Qed.

Lemma reads_pred f p a b x e : In (f, p) fps -> agree (by_cols C) a b -> agree (by_cols C) a x -> agree (on_cols C) a x ->
  reads_triplet C a b x e -> p e = p (env a a b x).
Proof.
  intros Hf H1 H2 H3 Hr. apply (@elementwise_ext f p); [apply (Hew _ _ Hf)|]. intros n Hn.
  destruct (usable_inputs _ _ Hf n Hn) as (c & s & -> & Hc & Hs).
  eapply means_functional; [apply Hr; assumption|apply senv_reads; assumption].
Qed.

(** A filter is at the generic stage when all its columns are plain and none is a by column. *)
Lemma generic_stage f p : In (f, p) fps -> (stage_of C f = Generic <-> generic_names C (input_names f)).
Proof.
  intros Hf. pose proof (iv_accepted inv f (in_map_fps _ _ _ Hf)) as [Hp _ _].
  pose proof (elements_named C f Hp) as Hn. pose proof (elements_all C f Hp) as Ha. split.
  - intros Hst. pose proof (generic_all plain_cols fps inv Hus _ _ Hf Hst) as Hnb. split.
    + intros E. rewrite (no_inputs C f E) in Hst. discriminate.
    + intros n Hin. destruct (Ha n Hin) as (e & He & <-). exists (fst e). pose proof (Hnb e He) as Hb.
      assert (Hs : snd e = "").
      { unfold stage_of in Hst. destruct (forallb _ _); [discriminate|]. destruct (only_plain (rest_of C f)) eqn:Eop.
        - apply only_plain_spec in Eop as [_ Hpl]. apply Hpl. apply in_rest. auto.
        - destruct (filter _ _); [discriminate|]. destruct (only_ext C (e0 :: l) "_A"), (only_ext C (e0 :: l) "_B"), (only_ext C (e0 :: l) "_X"); discriminate. }
      destruct (Hn e He) as [N _]. rewrite Hs in N. split; [exact N|]. unfold isby in Hb. apply mem_string_nIn. exact Hb.
  - intros [Hne Hg].
    assert (He : forall e, In e (elements C f) -> isby C e = false /\ snd e = "").
    { intros e He. destruct (Hn e He) as [N I]. destruct (Hg _ I) as (c & N' & Hnb).
      assert (E : parse_extended_column C (ext_name e) = Ok (fst e, snd e)) by (destruct N as (-> & ? & ?); apply parse_named; auto).
      assert (E' : parse_extended_column C (ext_name e) = Ok (c, "")) by (destruct N' as (-> & ? & ?); apply parse_named; auto).
      rewrite E in E'. injection E' as E1 E2. split; [|exact E2]. unfold isby. rewrite E1. apply mem_string_nIn. exact Hnb. }
    destruct (input_names f) as [|n l] eqn:En; [congruence|]. destruct (Ha n (or_introl eq_refl)) as (e0 & He0 & _).
    unfold stage_of. destruct (forallb (isby C) (elements C f)) eqn:Eb.
    { rewrite forallb_forall in Eb. specialize (Eb e0 He0). rewrite (proj1 (He e0 He0)) in Eb. discriminate. }
    destruct (only_plain (rest_of C f)) eqn:Eop; [reflexivity|]. exfalso.
    assert (only_plain (rest_of C f) = true); [|congruence]. apply only_plain_spec. split.
    + intros E. assert (H : In e0 (rest_of C f)) by (apply in_rest; split; [exact He0|apply He; exact He0]). rewrite E in H. destruct H.
    + intros e H. apply in_rest in H as [H _]. apply He. exact H.
Qed.

(** The line on which the filters of a stage are evaluated. *)
Definition stage_line (st : stage) (a b x : row) : string -> Z :=
  match st with
  | By | Oab | StA | Generic => env a a a a
  | StB => env a b b b
  | StX => env a x x x
  | StABX => env a a b x
  end.

Lemma by_stage f e : stage_of C f = By -> In e (elements C f) -> isby C e = true.
Proof.
  unfold stage_of. destruct (forallb (isby C) (elements C f)) eqn:E; [intros _; rewrite forallb_forall in E; auto|].
  destruct (only_plain _); [discriminate|]. destruct (filter _ _); [discriminate|]. destruct (only_ext C (e0 :: l) "_A"), (only_ext C (e0 :: l) "_B"), (only_ext C (e0 :: l) "_X"); discriminate.
Qed.

Lemma stage_line_value f p a b x : In (f, p) fps -> stage_of C f <> Generic -> p (stage_line (stage_of C f) a b x) = p (env a a b x).
Proof.
  intros Hf Hng. apply (@elementwise_ext f p); [apply (Hew _ _ Hf)|]. intros n Hn.
  destruct (stage_eqb (stage_of C f) By) eqn:Eb.
  - apply stage_eqb_eq in Eb. pose proof (iv_accepted inv f (in_map_fps _ _ _ Hf)) as [Hp _ _].
    destruct (elements_all C f Hp n Hn) as (e & He & <-). rewrite Eb. cbn [stage_line].
    destruct (elements_named C f Hp e He) as [N _]. rewrite !senv_named by assumption. unfold svalue. rewrite (by_stage _ _ Eb He). reflexivity.
  - apply stage_eqb_neq in Eb. destruct (cover_cases plain_cols fps inv Hus _ _ _ Hf Eb Hng Hn) as (e & -> & Hc). cbv zeta in Hc.
    assert (G : forall a b x : row, exists v' a' b' x', stage_line (stage_of C f) a b x = env v' a' b' x' /\ v' = a /\
       (stage_of C f = StA \/ stage_of C f = StABX -> a' = a) /\ (stage_of C f = StB \/ stage_of C f = StABX -> b' = b) /\ (stage_of C f = StX \/ stage_of C f = StABX -> x' = x)).
    { intros. destruct (stage_of C f); cbn; do 4 eexists; (split; [reflexivity|]); (split; [reflexivity|]); repeat split; intros [?|?]; congruence. }
    destruct (G a b x) as (v' & a' & b' & x' & -> & -> & Ha & Hb & Hx).
    destruct Hc as [H|[H|[H|[[H H']|[[H H']|[H H']]]]]].
    + rewrite !(by_value plain_cols fps inv _ _ _ _ _ _ H). reflexivity.
    + rewrite !(on_value plain_cols fps inv _ _ _ _ _ _ H). reflexivity.
    + rewrite !(across_value plain_cols fps inv _ _ _ _ _ _ H). reflexivity.
    + rewrite !(A_value plain_cols fps inv _ _ _ _ _ _ H). rewrite (Ha H'). reflexivity.
    + rewrite !(B_value plain_cols fps inv _ _ _ _ _ _ H). rewrite (Hb H'). reflexivity.
    + rewrite !(X_value plain_cols fps inv _ _ _ _ _ _ H). rewrite (Hx H'). reflexivity.
Qed.

Lemma generic_line_value f p v w y : In (f, p) fps -> stage_of C f = Generic -> p (env v y y y) = p (env w y y y).
Proof.
  intros Hf Hst. apply (@elementwise_ext f p); [apply (Hew _ _ Hf)|]. intros n Hn.
  pose proof (iv_accepted inv f (in_map_fps _ _ _ Hf)) as [Hp _ _]. pose proof (iv_covers inv f (in_map_fps _ _ _ Hf)) as [_ V2 _ _ _ _ _].
  destruct (elements_all C f Hp n Hn) as (e & He & <-).
  assert (H : In e (m_generic m Generic)) by (apply V2; auto; eapply (generic_all plain_cols fps inv Hus); eauto).
  rewrite !(generic_value plain_cols fps inv _ _ _ _ H). reflexivity.
Qed.

Lemma spred_true st e : spred st e = true <-> forall f p, In (f, p) fps -> stage_of C f = st -> p e = true.
Proof.
  unfold stage_pred. rewrite forallb_forall. split.
  - intros H f p Hf Hst. apply (H (f, p)). apply in_at_stage. auto.
  - intros H [f p] Hf. apply in_at_stage in Hf as [Hf Hst]. eapply H; eauto.
Qed.

Lemma same2_holds st o v r : same2 st o -> (holds2 o v r <-> spred st (env v r r r) = true).
Proof.
  unfold same2, holds2. destruct o as [f|]; intros H; [rewrite H; reflexivity|]. unfold stage_pred. rewrite H. cbn. tauto.
Qed.

Theorem passes_accepts a b x : agree (by_cols C) a b -> agree (by_cols C) a x -> agree (on_cols C) a x ->
  (passes F a b x <-> forall f p, In (f, p) fps -> accepts C f p a b x).
Proof.
  intros H1 H2 H3. unfold passes. rewrite staged_by, !staged_generic, staged_oab.
  rewrite (@same2_holds _ _ a a staged_A), (@same2_holds _ _ a b staged_B), (@same2_holds _ _ a x staged_X).
  assert (EX : holds4 (f_ABX F) a a b x <-> spred StABX (env a a b x) = true).
  { pose proof staged_ABX as H. unfold holds4. destruct (f_ABX F) as [g|]; [rewrite H; reflexivity|]. unfold stage_pred. rewrite H. cbn. tauto. }
  rewrite EX. clear EX. rewrite !spred_true. split.
  - intros (Hb & (G1 & G2 & G3) & Ho & HA & HB & HX & HABX) f p Hf. split.
    + intros Hg. apply (generic_stage _ _ Hf) in Hg. intros y e Hy Hr.
      rewrite (@reads_pred f p y y y e Hf); try (intros ? ?; reflexivity); [|exact Hr].
      rewrite (@generic_line_value f p y a y Hf Hg). destruct Hy as [->|[->| ->]]; eauto.
    + intros Hg e Hr. assert (Hst : stage_of C f <> Generic) by (rewrite (generic_stage _ _ Hf); exact Hg).
      rewrite (@reads_pred f p a b x e Hf H1 H2 H3 Hr). rewrite <- (@stage_line_value f p a b x Hf Hst).
      destruct (stage_of C f) eqn:Est; cbn [stage_line]; eauto; congruence.
  - intros H.
    assert (K : forall f p, In (f, p) fps -> stage_of C f <> Generic -> p (stage_line (stage_of C f) a b x) = true).
    { intros f p Hf Hst. rewrite stage_line_value by assumption. destruct (H f p Hf) as [_ H']. apply H'; [rewrite <- (generic_stage _ _ Hf); exact Hst|].
      apply senv_reads; assumption. }
    assert (G : forall y, y = a \/ y = b \/ y = x -> forall f p, In (f, p) fps -> stage_of C f = Generic -> p (env a y y y) = true).
    { intros y Hy f p Hf Hst. rewrite (@generic_line_value f p a y y Hf Hst). destruct (H f p Hf) as [H' _]. apply (H' (proj1 (generic_stage _ _ Hf) Hst) y); [exact Hy|].
      apply senv_reads; intros ? ?; reflexivity. }
    repeat split; try (apply G; tauto); intros f p Hf Hst; specialize (K f p Hf); rewrite Hst in K; apply K; discriminate.
Qed.

End Meaning.
