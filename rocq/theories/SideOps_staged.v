From Coq Require Import Ascii String.
From Verif Require Import Prelude ListFacts Task Task_spec Tree Tree_spec Tree_proofs SideOps SideOps_spec SideOps_proofs SideOps_stages.
Set Implicit Arguments.
Open Scope string_scope.
Open Scope list_scope.
Local Open Scope nat_scope.

(** A function that computes [p] only reads its columns. *)
Lemma elementwise_ext f p env env' : elementwise f p -> (forall n, In n (input_names f) -> env n = env' n) -> p env = p env'.
Proof.
  intros Hf H. set (ctx := map (fun n => (n, [env n])) (input_names f)).
  assert (G : forall n, In n (input_names f) -> dict_get ctx n = Ok [env n]).
  { unfold ctx. intros n. induction (input_names f) as [|k l IH]; [intros []|]. intros [->|Hn]; cbn; [rewrite String.eqb_refl; reflexivity|].
    destruct (String.eqb n k) eqn:E; [apply String.eqb_eq in E; subst; reflexivity|]. apply IH; [|exact Hn]. intros; apply H; right; auto. }
  assert (E1 : evaluate f ctx = Ok (Flat (map p [env]))) by (apply Hf; [exact G|reflexivity]).
  assert (E2 : evaluate f ctx = Ok (Flat (map p [env']))).
  { apply Hf; [|reflexivity]. intros n Hn. rewrite (G n Hn). cbn. rewrite (H n Hn). reflexivity. }
  rewrite E1 in E2. cbn in E2. congruence.
Qed.

Section Staged.
Variable C : columns.
Hypothesis plain_cols : Forall plain (all_cols C).
Variable truthy : Z -> bool.

Definition svalue (v a b x : row) (e : element) : Z :=
  if isby C e then v (fst e)
  else if negb (condition C e) then v (fst e)
  else if String.eqb (get_ext C e) "_B" then b (fst e)
  else if String.eqb (get_ext C e) "_X" then x (fst e)
  else a (fst e).

Definition senv (v a b x : row) (n : string) : Z :=
  match parse_extended_column C n with Ok e => svalue v a b x e | Err _ => 0%Z end.

Lemma senv_named v a b x e : named C (ext_name e) (fst e) (snd e) -> senv v a b x (ext_name e) = svalue v a b x e.
Proof. intros (_ & Hc & Hs). unfold senv, ext_name. rewrite parse_named by assumption. destruct e; reflexivity. Qed.

Variable fps : list (dbfun * pred).
Variable m : manager.
Hypothesis inv : invariant C (map fst fps) m.
Hypothesis Hew : forall f p, In (f, p) fps -> elementwise f p.
Hypothesis Hus : forall f p, In (f, p) fps -> usable C f.

Definition at_stage (st : stage) : list (dbfun * pred) := filter (fun fp => stage_eqb (stage_of C (fst fp)) st) fps.

Definition stage_pred (st : stage) (line : string -> Z) : bool := forallb (fun fp => snd fp line) (at_stage st).

Lemma in_at_stage st f p : In (f, p) (at_stage st) <-> In (f, p) fps /\ stage_of C f = st.
Proof. unfold at_stage. rewrite filter_In. cbn. rewrite stage_eqb_eq. tauto. Qed.

Lemma funs_at st : m_funs m st = map fst (at_stage st).
Proof.
  rewrite (iv_funs inv). unfold at_stage. clear. induction fps as [|[f p] l IH]; [reflexivity|]. cbn.
  destruct (stage_eqb (stage_of C f) st); cbn; [f_equal|]; exact IH.
Qed.

Lemma at_forall2 st : Forall2 elementwise (map fst (at_stage st)) (map snd (at_stage st)).
Proof.
  assert (H : forall fp, In fp (at_stage st) -> elementwise (fst fp) (snd fp)).
  { intros [f p] H. apply in_at_stage in H as [H _]. apply (Hew _ _ H). }
  revert H. induction (at_stage st) as [|fp l IH]; intros H; cbn; constructor; [apply H; left; reflexivity|]. apply IH. intros; apply H; right; auto.
Qed.

Lemma stage_pred_map st line : forallb (fun p => p line) (map snd (at_stage st)) = stage_pred st line.
Proof. unfold stage_pred. induction (at_stage st) as [|fp l IH]; [reflexivity|]. cbn. rewrite IH. reflexivity. Qed.

Lemma no_inputs f : input_names f = [] -> stage_of C f = By.
Proof. intros E. unfold stage_of, elements. rewrite E. reflexivity. Qed.

Lemma at_inputs st : st <> By -> forall f, In f (map fst (at_stage st)) -> input_names f <> [].
Proof.
  intros Hst f Hf E. apply in_map_iff in Hf as ([f' p] & <- & H). apply in_at_stage in H as [_ H]. apply Hst. rewrite <- H. apply no_inputs, E.
Qed.

Lemma in_map_fps f p : In (f, p) fps -> In f (map fst fps).
Proof. intros H. apply in_map_iff. exists (f, p). auto. Qed.

(** The values of the lists. *)
Lemma by_value st e v a b x : In e (m_by m st) -> senv v a b x (ext_name e) = v (fst e).
Proof. intros H. apply (ok_by (iv_lists inv)) in H as (Hn & Hb & _). rewrite senv_named by exact Hn. unfold svalue. rewrite Hb. reflexivity. Qed.

Lemma on_value st e v a b x : In e (m_on m st) -> senv v a b x (ext_name e) = v (fst e).
Proof. intros H. apply (ok_on (iv_lists inv)) in H as (Hn & Hb & Hc & _). rewrite senv_named by exact Hn. unfold svalue. rewrite Hb, Hc. reflexivity. Qed.

Lemma across_value st e v a b x : In e (m_across m st) -> senv v a b x (ext_name e) = v (fst e).
Proof. intros H. apply (ok_across (iv_lists inv)) in H as (Hn & Hb & Hc & _). rewrite senv_named by exact Hn. unfold svalue. rewrite Hb, Hc. reflexivity. Qed.

Lemma A_value st e v a b x : In e (m_A m st) -> senv v a b x (ext_name e) = a (fst e).
Proof. intros H. apply (ok_A (iv_lists inv)) in H as (Hn & Hb & Hc & Hg). rewrite senv_named by exact Hn. unfold svalue. rewrite Hb, Hc, Hg. reflexivity. Qed.

Lemma B_value st e v a b x : In e (m_B m st) -> senv v a b x (ext_name e) = b (fst e).
Proof. intros H. apply (ok_B (iv_lists inv)) in H as (Hn & Hb & Hc & Hg). rewrite senv_named by exact Hn. unfold svalue. rewrite Hb, Hc, Hg. reflexivity. Qed.

Lemma X_value st e v a b x : In e (m_X m st) -> senv v a b x (ext_name e) = x (fst e).
Proof. intros H. apply (ok_X (iv_lists inv)) in H as (Hn & Hb & Hc & Hg). rewrite senv_named by exact Hn. unfold svalue. rewrite Hb, Hc, Hg. reflexivity. Qed.

Lemma generic_value st e v r : In e (m_generic m st) -> senv v r r r (ext_name e) = r (fst e).
Proof.
  intros H. apply (ok_generic (iv_lists inv)) in H as (Hn & Hb & Hs & _). rewrite senv_named by exact Hn. unfold svalue. rewrite Hb.
  destruct e as [c s]. cbn in Hs. subst s. reflexivity.
Qed.

(** Every column of a filter of a stage is in its lists. *)
Lemma generic_all f p : In (f, p) fps -> stage_of C f = Generic -> forall e, In e (elements C f) -> isby C e = false.
Proof.
  intros Hf Hst e He. pose proof (iv_accepted inv f (in_map_fps _ _ Hf)) as [Hp _ _].
  destruct (isby C e) eqn:Hb; [|reflexivity]. exfalso.
  pose proof (elements_named C f Hp) as Hn. destruct (Hus _ _ Hf) as (_ & _ & Hu).
  unfold stage_of in Hst. destruct (forallb (isby C) (elements C f)) eqn:Eby; [discriminate|].
  destruct (only_plain (rest_of C f)) eqn:Eop; [|destruct (filter _ _); [discriminate|]; destruct (only_ext C (e0 :: l) "_A"), (only_ext C (e0 :: l) "_B"), (only_ext C (e0 :: l) "_X"); discriminate].
  apply only_plain_spec in Eop as [Hne Hpl]. destruct Hu as [Hu|[Hu|Hu]].
  - destruct (rest_of C f) as [|e1 l] eqn:Er; [congruence|]. assert (Hr : In e1 (rest_of C f)) by (rewrite Er; left; reflexivity).
    apply in_rest in Hr as [Hr Hnb]. destruct (Hn e1 Hr) as [N I]. specialize (Hu _ _ _ I N). apply mem_string_In in Hu. unfold isby in Hnb. congruence.
  - destruct (Hn e He) as [N I]. destruct Hu as [_ Hu]. destruct (Hu _ I) as (c & N' & Hnb).
    assert (E : parse_extended_column C (ext_name e) = Ok (fst e, snd e)) by (destruct N as (-> & ? & ?); apply parse_named; auto).
    assert (E' : parse_extended_column C (ext_name e) = Ok (c, "")) by (destruct N' as (-> & ? & ?); apply parse_named; auto).
    rewrite E in E'. injection E' as E' _. apply Hnb. rewrite <- E'. apply mem_string_In. exact Hb.
  - destruct (rest_of C f) as [|e1 l] eqn:Er; [congruence|]. assert (Hr : In e1 (rest_of C f)) by (rewrite Er; left; reflexivity).
    pose proof (Hpl e1 (or_introl eq_refl)) as Hs. apply in_rest in Hr as [Hr Hnb]. destruct (Hn e1 Hr) as [N I].
    destruct (Hu _ _ _ I N) as [H|[H _]]; [|contradiction]. apply mem_string_In in H. unfold isby in Hnb. congruence.
Qed.

Lemma condition_true_ext e : extension (snd e) -> snd e <> "" -> condition C e = true ->
  get_ext C e = "_A" \/ get_ext C e = "_B" \/ get_ext C e = "_X".
Proof.
  destruct e as [c s]. cbn [snd]. intros He Hs Hc. unfold condition in Hc. unfold get_ext.
  destruct He as [->|[->|[->|[->|[->|[->|[->| ->]]]]]]]; cbn in Hc |- *; try discriminate; auto; try congruence.
  destruct (mem_string (on_cols C) c); auto.
Qed.

Lemma condition_false_ext e : extension (snd e) -> condition C e = false ->
  snd e = "_1" \/ snd e = "_AX" \/ snd e = "_AB" \/ (snd e = "_A" \/ snd e = "_X") /\ In (fst e) (on_cols C).
Proof.
  destruct e as [c s]. cbn [snd fst]. intros He Hc. unfold condition in Hc. rewrite <- mem_string_In.
  destruct He as [->|[->|[->|[->|[->|[->|[->| ->]]]]]]]; cbn in Hc |- *; auto; try discriminate;
  destruct (mem_string (on_cols C) c); try discriminate; auto 6.
Qed.

Lemma cover_cases f p n : In (f, p) fps -> stage_of C f <> By -> stage_of C f <> Generic -> In n (input_names f) ->
  exists e, n = ext_name e /\ let st := stage_of C f in
    (In e (m_by m st) \/ In e (m_on m st) \/ In e (m_across m st) \/ In e (m_A m st) /\ (st = StA \/ st = StABX) \/
     In e (m_B m st) /\ (st = StB \/ st = StABX) \/ In e (m_X m st) /\ (st = StX \/ st = StABX)).
Proof.
  intros Hf Hnb Hng Hn. pose proof (iv_accepted inv f (in_map_fps _ _ Hf)) as [Hp Hc Hpl].
  pose proof (iv_covers inv f (in_map_fps _ _ Hf)) as [V1 V2 V3 V4 V5 V6 V7].
  destruct (elements_all C f Hp n Hn) as (e & He & <-). exists e. split; [reflexivity|]. cbv zeta.
  destruct (isby C e) eqn:Eb; [left; auto|].
  destruct (elements_named C f Hp e He) as [N I]. pose proof N as (_ & Hin & Hex).
  assert (Hs : snd e <> "") by (apply Hpl; auto; apply in_rest; auto).
  destruct (condition C e) eqn:Ec.
  - destruct (condition_true_ext _ Hex Hs Ec) as [G|[G|G]].
    + right; right; right; left. auto.
    + do 4 right; left. auto.
    + do 5 right. auto.
  - assert (Hoa : In (fst e) (on_cols C) \/ In (fst e) (across_cols C)).
    { pose proof (Hc e He) as Hchk. destruct e as [c s]. cbn [fst snd] in *. unfold check_element in Hchk.
      pose proof (condition_false_ext (c, s) Hex Ec) as Hcf; cbn [fst snd] in Hcf. destruct Hcf as [->|[->|[->|[_ H]]]]; auto.
      - cbn in Hchk. destruct (mem_string (on_cols C) c) eqn:E1; [left; apply mem_string_In; exact E1|].
        destruct (mem_string (across_cols C) c) eqn:E2; [right; apply mem_string_In; exact E2|]. discriminate.
      - cbn in Hchk. destruct (mem_string (across_cols C) c) eqn:E2; [right; apply mem_string_In; exact E2|]. discriminate.
      - destruct (Hus _ _ Hf) as (_ & _ & [Hu|[Hu|Hu]]).
        + specialize (Hu _ _ _ I N). apply mem_string_In in Hu. unfold isby in Eb. cbn in Eb, Hu. congruence.
        + destruct Hu as [_ Hu]. destruct (Hu _ I) as (c' & N' & _). exfalso.
          assert (E : parse_extended_column C (ext_name (c, "_AB")) = Ok (c, "_AB")) by (apply parse_named; auto).
          assert (E' : parse_extended_column C (ext_name (c, "_AB")) = Ok (c', "")) by (destruct N' as (-> & ? & ?); apply parse_named; auto).
          rewrite E in E'. discriminate.
        + destruct (Hu _ _ _ I N) as [H|[_ H]]; [apply mem_string_In in H; unfold isby in Eb; cbn in Eb, H; congruence|]. apply H. auto. }
    destruct Hoa as [H|H]; [right; left|right; right; left]; auto.
Qed.

(* ------------------------------------------------------------------ *)
(** ** The filters, on lines *)

Lemma by_filter_ok v : by_filter m v = Ok (stage_pred By (senv v v v v)).
Proof.
  unfold by_filter. rewrite funs_at. rewrite (@singleton_filter_ok _ (map snd (at_stage By)) _ (senv v v v v)).
  - rewrite stage_pred_map. reflexivity.
  - apply at_forall2.
  - intros n Hn. apply in_flat_map in Hn as (f & Hf & Hn). apply in_map_iff in Hf as ([f' p] & <- & Hf). cbn [fst] in Hn.
    apply in_at_stage in Hf as [Hf Hst].
    pose proof (iv_accepted inv f' (in_map_fps _ _ Hf)) as [Hp _ _]. pose proof (iv_covers inv f' (in_map_fps _ _ Hf)) as [V1 _ _ _ _ _ _].
    destruct (elements_all C f' Hp n Hn) as (e & He & <-).
    assert (Hb : isby C e = true).
    { unfold stage_of in Hst. destruct (forallb (isby C) (elements C f')) eqn:Eby; [rewrite forallb_forall in Eby; auto|].
      destruct (only_plain _); [discriminate|]. destruct (filter _ _); [discriminate|]. destruct (only_ext C (e0 :: l) "_A"), (only_ext C (e0 :: l) "_B"), (only_ext C (e0 :: l) "_X"); discriminate. }
    rewrite Hst in V1.
    rewrite (@sound_get _ [senv v v v v]); [reflexivity| |].
    + apply constant_single, set_values_constant; [intros ? ? []|]. intros e' He' line [<-|[]]. eapply by_value; exact He'.
    + apply keys_set_values. right. apply in_map. apply V1; auto. discriminate.
Qed.

Lemma oab_filter_ok v : on_across_by_filter m v = Ok (stage_pred Oab (senv v v v v)).
Proof.
  unfold on_across_by_filter. rewrite funs_at. rewrite (@singleton_filter_ok _ (map snd (at_stage Oab)) _ (senv v v v v)).
  - rewrite stage_pred_map. reflexivity.
  - apply at_forall2.
  - intros n Hn. apply in_flat_map in Hn as (f & Hf & Hn). apply in_map_iff in Hf as ([f' p] & <- & Hf). cbn [fst] in Hn.
    apply in_at_stage in Hf as [Hf Hst].
    destruct (@cover_cases f' p n) as (e & -> & Hc); auto; try congruence. rewrite Hst in Hc. cbv zeta in Hc.
    rewrite (@sound_get _ [senv v v v v]); [reflexivity| |].
    + apply constant_single. unfold set_on_across. apply set_values_constant; [apply set_values_constant; [apply set_values_constant; [intros ? ? []|]|]|];
      intros e' He' line [<-|[]]; [eapply by_value|eapply on_value|eapply across_value]; exact He'.
    + unfold set_on_across. rewrite !keys_set_values.
      destruct Hc as [H|[H|[H|[[_ [H|H]]|[[_ [H|H]]|[_ [H|H]]]]]]]; try discriminate; apply (in_map ext_name) in H; tauto.
Qed.

Lemma vector_ok st ctx lines : st <> By -> sound ctx lines ->
  (forall f p n, In (f, p) fps -> stage_of C f = st -> In n (input_names f) -> In n (map fst ctx)) ->
  vectorial_filter truthy (m_funs m st) ctx (List.length lines) = Ok (np_where (map (stage_pred st) lines)).
Proof.
  intros Hst Hs Hk. rewrite funs_at. rewrite (@vectorial_filter_np_where truthy _ (map snd (at_stage st)) lines).
  - f_equal. f_equal. apply map_ext. intros line. apply stage_pred_map.
  - apply at_forall2.
  - apply at_inputs. exact Hst.
  - apply sound_columns; [exact Hs|]. intros n Hn. apply in_flat_map in Hn as (f & Hf & Hn). apply in_map_iff in Hf as ([f' p] & <- & Hf). cbn [fst] in Hn.
    apply in_at_stage in Hf as [Hf E]. eapply Hk; eauto.
Qed.

Lemma generic_filter_ok v db : generic_filter truthy m v db = Ok (filter (fun r => stage_pred Generic (senv v r r r)) db).
Proof.
  unfold generic_filter. set (lines := map (fun r => senv v r r r) db).
  replace (List.length db) with (List.length lines) by apply map_length.
  rewrite vector_ok.
  - cbn [bind]. unfold lines. rewrite map_map. apply (@gather_np_where _ db (fun r => stage_pred Generic (senv v r r r))).
  - discriminate.
  - apply set_columns_sound.
    + apply repeat_all_sound. apply set_values_constant; [intros ? ? []|]. intros e He line Hl.
      unfold lines in Hl. apply in_map_iff in Hl as (r & <- & _). eapply by_value; exact He.
    + intros e He. unfold lines. rewrite map_map. apply map_ext. intros r. symmetry. eapply generic_value; exact He.
  - intros f p n Hf Hst Hn. apply keys_set_columns. right.
    pose proof (iv_accepted inv f (in_map_fps _ _ Hf)) as [Hp _ _]. pose proof (iv_covers inv f (in_map_fps _ _ Hf)) as [_ V2 _ _ _ _ _].
    destruct (elements_all C f Hp n Hn) as (e & He & <-). apply in_map. apply V2; auto. eapply generic_all; eauto.
Qed.

Lemma block_context_sound st v lines : (forall line, In line lines -> exists a b x, line = senv v a b x) ->
  sound (block_context m st v (List.length lines)) lines.
Proof.
  intros Hl. unfold block_context, set_on_across. apply repeat_all_sound.
  apply set_values_constant; [apply set_values_constant; [apply set_values_constant; [intros ? ? []|]|]|];
  intros e He line Hline; apply Hl in Hline as (a & b & x & ->); [eapply by_value|eapply on_value|eapply across_value]; exact He.
Qed.

Lemma keys_block_context st v n k : In k (map fst (block_context m st v n)) <->
  In k (map ext_name (m_by m st)) \/ In k (map ext_name (m_on m st)) \/ In k (map ext_name (m_across m st)).
Proof. unfold block_context, set_on_across. rewrite keys_repeat_all, !keys_set_values. cbn. tauto. Qed.

Lemma item_filter_ok st field v fr l :
  (st = StA /\ field = m_A m \/ st = StB /\ field = m_B m \/ st = StX /\ field = m_X m) ->
  item_filter truthy m st field v fr l = single_filter (fun v r => stage_pred st (senv v r r r)) v fr l.
Proof.
  intros Hf. unfold item_filter, single_filter. destruct (mapM (loc fr) l) as [rows|] eqn:El; [|reflexivity]. cbn [bind].
  set (lines := map (fun r => senv v r r r) rows).
  replace (List.length l) with (List.length lines) by (unfold lines; rewrite map_length; apply (mapM_length _ _ El)).
  rewrite vector_ok.
  - f_equal. f_equal. unfold lines. rewrite map_map. reflexivity.
  - destruct Hf as [[-> _]|[[-> _]|[-> _]]]; discriminate.
  - apply set_columns_sound.
    + apply block_context_sound. intros line Hl. unfold lines in Hl. apply in_map_iff in Hl as (r & <- & _). eauto.
    + intros e He. unfold lines. rewrite map_map. apply map_ext. intros r. symmetry.
      destruct Hf as [[-> ->]|[[-> ->]|[-> ->]]]; [eapply A_value|eapply B_value|eapply X_value]; exact He.
  - intros f p n Hin Hst Hn. apply keys_set_columns. rewrite keys_block_context.
    assert (Hst' : stage_of C f <> By /\ stage_of C f <> Generic) by (rewrite Hst; destruct Hf as [[-> _]|[[-> _]|[-> _]]]; split; discriminate).
    destruct (@cover_cases f p n) as (e & -> & Hc); try tauto. rewrite Hst in Hc. cbv zeta in Hc.
    destruct Hf as [[-> ->]|[[-> ->]|[-> ->]]]; destruct Hc as [H|[H|[H|[[H H']|[[H H']|[H H']]]]]]; apply (in_map ext_name) in H; auto 6;
    destruct H'; discriminate.
Qed.

Lemma ABX_filter_ok v fr ts :
  SideOps.ABX_filter truthy m v fr ts = Task.ABX_filter (fun v a b x => stage_pred StABX (senv v a b x)) v fr ts \/
  (exists e, SideOps.ABX_filter truthy m v fr ts = Err e) /\ (exists e, Task.ABX_filter (fun v a b x => stage_pred StABX (senv v a b x)) v fr ts = Err e).
Proof.
  unfold SideOps.ABX_filter, Task.ABX_filter.
  destruct (mapM (fun t : triplet => loc fr (fst (fst t))) ts) as [ra|ea] eqn:Ea.
  2:{ right. split; [eexists; reflexivity|]. clear - Ea. revert ea Ea. induction ts as [|[[a b] x] ts IH]; intros ea Ea; cbn in Ea; [discriminate|]. cbn.
      destruct (loc fr a); cbn in Ea |- *; [|eexists; reflexivity]. destruct (loc fr b); cbn; [|eexists; reflexivity]. destruct (loc fr x); cbn; [|eexists; reflexivity].
      destruct (mapM (fun t : triplet => loc fr (fst (fst t))) ts); [discriminate|]. destruct (IH _ eq_refl) as (e' & He').
      destruct (mapM _ ts); [discriminate|]. eexists; reflexivity. }
  destruct (mapM (fun t : triplet => loc fr (snd (fst t))) ts) as [rb|eb] eqn:Eb.
  2:{ right. split; [eexists; reflexivity|]. clear - Eb. revert eb Eb. induction ts as [|[[a b] x] ts IH]; intros eb Eb; cbn in Eb; [discriminate|]. cbn.
      destruct (loc fr a); cbn; [|eexists; reflexivity]. destruct (loc fr b); cbn in Eb |- *; [|eexists; reflexivity]. destruct (loc fr x); cbn; [|eexists; reflexivity].
      destruct (mapM (fun t : triplet => loc fr (snd (fst t))) ts); [discriminate|]. destruct (IH _ eq_refl) as (e' & He').
      destruct (mapM _ ts); [discriminate|]. eexists; reflexivity. }
  destruct (mapM (fun t : triplet => loc fr (snd t)) ts) as [rx|ex] eqn:Ex.
  2:{ right. split; [eexists; reflexivity|]. clear - Ex. revert ex Ex. induction ts as [|[[a b] x] ts IH]; intros ex Ex; cbn in Ex; [discriminate|]. cbn.
      destruct (loc fr a); cbn; [|eexists; reflexivity]. destruct (loc fr b); cbn; [|eexists; reflexivity]. destruct (loc fr x); cbn in Ex |- *; [|eexists; reflexivity].
      destruct (mapM (fun t : triplet => loc fr (snd t)) ts); [discriminate|]. destruct (IH _ eq_refl) as (e' & He').
      destruct (mapM _ ts); [discriminate|]. eexists; reflexivity. }
  left. cbn [bind].
  set (lines := map (fun t : row * row * row => senv v (fst (fst t)) (snd (fst t)) (snd t)) (combine (combine ra rb) rx)).
  assert (Hla : List.length ra = List.length ts) by apply (mapM_length _ _ Ea).
  assert (Hlb : List.length rb = List.length ts) by apply (mapM_length _ _ Eb).
  assert (Hlx : List.length rx = List.length ts) by apply (mapM_length _ _ Ex).
  assert (Hlen : List.length lines = List.length ts) by (unfold lines; rewrite map_length, !combine_length; lia).
  assert (Ha : forall (g : row -> Z), map g ra = map (fun t => g (fst (fst t))) (combine (combine ra rb) rx)).
  { clear - Hla Hlb Hlx. intros g. revert rb rx ra Hla Hlb Hlx. induction ts as [|t ts IH]; intros [|b rb] [|x rx] [|a ra] Hla Hlb Hlx; try discriminate; [reflexivity|]. cbn. f_equal. apply IH; cbn in *; lia. }
  assert (Hb : forall (g : row -> Z), map g rb = map (fun t => g (snd (fst t))) (combine (combine ra rb) rx)).
  { clear - Hla Hlb Hlx. intros g. revert rb rx ra Hla Hlb Hlx. induction ts as [|t ts IH]; intros [|b rb] [|x rx] [|a ra] Hla Hlb Hlx; try discriminate; [reflexivity|]. cbn. f_equal. apply IH; cbn in *; lia. }
  assert (Hx : forall (g : row -> Z), map g rx = map (fun t => g (snd t)) (combine (combine ra rb) rx)).
  { clear - Hla Hlb Hlx. intros g. revert rb rx ra Hla Hlb Hlx. induction ts as [|t ts IH]; intros [|b rb] [|x rx] [|a ra] Hla Hlb Hlx; try discriminate; [reflexivity|]. cbn. f_equal. apply IH; cbn in *; lia. }
  rewrite <- Hlen. rewrite vector_ok.
  - assert (E : mapM (fun t : triplet => let '(a, b, x) := t in ra <- loc fr a ;; rb <- loc fr b ;; rx <- loc fr x ;; Ok (stage_pred StABX (senv v ra rb rx))) ts
              = Ok (map (stage_pred StABX) lines)).
    { unfold lines. clear - Ea Eb Ex. revert ra rb rx Ea Eb Ex. induction ts as [|[[a b] x] ts IH]; intros ra rb rx Ea Eb Ex; cbn in Ea, Eb, Ex.
      - injection Ea as <-. reflexivity.
      - destruct (loc fr a) as [r1|] eqn:E1; [|discriminate]. destruct (loc fr b) as [r2|] eqn:E2; [|discriminate]. destruct (loc fr x) as [r3|] eqn:E3; [|discriminate].
        cbn [bind] in *.
        destruct (mapM (fun t : triplet => loc fr (fst (fst t))) ts) as [la|]; [|discriminate].
        destruct (mapM (fun t : triplet => loc fr (snd (fst t))) ts) as [lb|]; [|discriminate].
        destruct (mapM (fun t : triplet => loc fr (snd t)) ts) as [lx|]; [|discriminate].
        cbn [bind] in *. injection Ea as <-. injection Eb as <-. injection Ex as <-. cbn [mapM]. rewrite E1. cbn [bind]. rewrite E2. cbn [bind]. rewrite E3. cbn [bind].
        rewrite (IH la lb lx eq_refl eq_refl eq_refl). reflexivity. }
    rewrite E. reflexivity.
  - discriminate.
  - apply set_columns_sound; [apply set_columns_sound; [apply set_columns_sound; [apply block_context_sound|]|]|].
    + intros line Hl. unfold lines in Hl. apply in_map_iff in Hl as (r & <- & _). eauto.
    + intros e He. etransitivity; [apply (Ha (fun r => r (fst e)))|]. unfold lines. rewrite map_map. apply map_ext. intros t. symmetry. eapply A_value; exact He.
    + intros e He. etransitivity; [apply (Hb (fun r => r (fst e)))|]. unfold lines. rewrite map_map. apply map_ext. intros t. symmetry. eapply B_value; exact He.
    + intros e He. etransitivity; [apply (Hx (fun r => r (fst e)))|]. unfold lines. rewrite map_map. apply map_ext. intros t. symmetry. eapply X_value; exact He.
  - intros f p n Hin Hst Hn. rewrite !keys_set_columns. rewrite keys_block_context.
    destruct (@cover_cases f p n) as (e & -> & Hc); auto; try congruence. rewrite Hst in Hc. cbv zeta in Hc.
    destruct Hc as [H|[H|[H|[[H H']|[[H H']|[H H']]]]]]; apply (in_map ext_name) in H; tauto.
Qed.

End Staged.
