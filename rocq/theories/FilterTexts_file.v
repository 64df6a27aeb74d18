(** The triplets of a task whose filters are given as texts. *)
From Coq Require Import String.
From Coq Require Import List ZArith Lia Permutation.
From Verif Require Import Prelude Sampler Task Task_spec Task_sort Task_main Task_total Tree Tree_spec SideOps SideOps_spec SideOps_final Compute FilterTexts FilterTexts_main.
Import ListNotations.
Local Open Scope string_scope.
Local Open Scope list_scope.
Set Implicit Arguments.

Lemma foldM_add_cols fs : forall m m', foldM (add false) fs m = Ok m' -> m_cols m' = m_cols m.
Proof.
  induction fs as [|f fs IH]; cbn; intros m m' H; [congruence|].
  destruct (add false m f) as [m1|] eqn:E; [|discriminate]. cbn [bind] in H.
  rewrite (IH _ _ H). exact (add_cols _ _ E).
Qed.

Lemma read_alike {A B C} (g : A -> res B) (l : list A) (fs : list B) (tps : list (A * C)) (fps : list (B * C)) :
  l = map fst tps -> Forall2 (fun t f => g t = Ok f) l fs ->
  Forall2 (fun tp fp => g (fst tp) = Ok (fst fp) /\ snd fp = snd tp) tps fps -> fs = map fst fps.
Proof.
  intros -> H K. revert fs H. induction K as [|tp fp tps fps [K1 K2] _ IH]; cbn [map]; intros fs H; inversion H; subst; [reflexivity|].
  f_equal; [congruence|]. apply IH. assumption.
Qed.

Section Texts.
Variable V : Type.
Variable mk_list : list V -> V.
Variable items : V -> res (list V).
Variable truth : V -> res bool.
Variable prim : string -> list V -> res V.
Variable builtin : string -> option V.
Variable import_ : string -> res V.
Variable inlined : bool.
Variable order : list string -> list string.
Variable read : string -> res string.
Variable ast_parse : string -> res (list (stmt V)).
Variable table : string -> res dbfun.
Variable of_column : list Z -> V.
Variable to_result : V -> res result.

Notation ffun := (filter_fun mk_list items truth prim builtin import_ inlined order read ast_parse table of_column to_result).
Notation tman := (texts_manager mk_list items truth prim builtin import_ inlined order read ast_parse table of_column to_result).

Theorem texts_file :
  forall korder enum argsort (R : rng) (fuel : nat),
    lists_keys korder -> lists_set enum -> argsort_spec argsort ->
  forall forest truthy tps T m cols db T' bs st,
    NoDup (flat_map names forest) -> incl (flat_map names forest) cols -> hierarchical forest db ->
    tman forest (t_on T) (match t_across T with [] => ["#across"] | l => l end) (match t_by T with [] => ["#by"] | l => l end) (map fst tps) = Ok m ->
    t_filters T = staged truthy m ->
  forall fps, Forall2 (fun tp fp => ffun (m_cols m) (fst tp) = Ok (fst fp) /\ snd fp = snd tp) tps fps ->
    (forall f p, In (f, p) fps -> elementwise f p /\ usable (m_cols m) f) -> accepted_first T db (m_cols m) fps ->
    task_init korder enum T cols db = Ok (T', bs, st) ->
  forall thr c bs' f,
    generate_triplets korder enum argsort R fuel T' thr bs st c = Ok (bs', Some f) ->
    no_threshold thr -> storable T db (capacity (s_nb_triplets st)) ->
    Forall2 (fun k ij => NoDup (rows_of ij (fl_triplets f)) /\
                forall a b x, In (a, b, x) (rows_of ij (fl_triplets f)) <-> filtered T db (m_cols m) fps k a b x)
      (fl_bys f) (fl_by_index f) /\
    (forall k, In k (fl_bys f) <-> exists a b x, filtered T db (m_cols m) fps k a b x) /\
    Zlen (fl_triplets f) = s_nb_triplets st.
Proof.
  intros korder enum argsort R fuel Hk He Ha forest truthy tps T m cols db T' bs st Hn Hi Hh Hm Hf fps Hr Hu Hfirst Hinit.
  refine (@filtered_file korder enum argsort R fuel Hk He Ha forest truthy fps T m cols db T' bs st Hn Hi Hh _ Hf Hu Hfirst Hinit).
  unfold task_manager.
  destruct (init_columns forest (t_on T) (match t_across T with [] => ["#across"] | l => l end) (match t_by T with [] => ["#by"] | l => l end)) as [C|] eqn:EC.
  2:{ unfold texts_manager in Hm. rewrite EC in Hm. discriminate. }
  apply (texts_functions mk_list items truth prim builtin import_ inlined order read ast_parse table of_column to_result _ _ _ _ _ _ EC) in Hm as (fs & Hfs & Hm).
  assert (m_cols m = C) as Em.
  { unfold filter_manager in Hm. rewrite EC in Hm. cbn [bind] in Hm. rewrite (foldM_add_cols _ _ Hm). reflexivity. }
  rewrite Em in Hr. rewrite <- (@read_alike _ _ _ (ffun C) _ fs tps fps eq_refl Hfs Hr). exact Hm.
Qed.

End Texts.
