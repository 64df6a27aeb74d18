(** Filters and regressors given as texts. *)
From Coq Require Import String.
From Coq Require Import List ZArith Lia Permutation.
From Verif Require Import Prelude Task Tree Tree_spec SideOps SideOps_spec SideOps_proofs SideOps_legal SideOps_final Compute Compute_spec Compute_proofs FilterTexts.
Import ListNotations.
Local Open Scope string_scope.
Local Open Scope list_scope.
Set Implicit Arguments.

(** ** The extended columns *)

Lemma extended_In C n : In n (extended_cols C) <-> exists c s, named C n c s.
Proof.
  unfold extended_cols. rewrite in_flat_map. split.
  - intros (c & Hc & H). apply in_map_iff in H as (s & <- & Hs). exists c, s. split; [reflexivity|]. split; [exact Hc|].
    apply extensions_extension, Hs.
  - intros (c & s & -> & Hc & Hs). exists c. split; [exact Hc|]. apply in_map_iff. exists s. split; [reflexivity|].
    apply extensions_extension, Hs.
Qed.

Theorem extended_names forest on across by_ C : init_columns forest on across by_ = Ok C ->
  forall n, In n (extended_cols C) <-> exists c s, n = (c ++ s)%string /\ In c (flat_map names forest) /\ extension s.
Proof.
  intros E n. rewrite extended_In. unfold init_columns in E. destruct (descendants forest on); [|discriminate]. injection E as <-. reflexivity.
Qed.

Section Texts.
Variable V : Type.
Variable mk_list : list V -> V.
Variable items : V -> res (list V).
Variable truth : V -> res bool.
Variable prim : string -> list V -> res V.
Variable builtin : string -> option V.
Variable import_ : string -> res V.
Variable inlined : bool.
Variable order : list string -> list string.
Variable read : string -> res string.
Variable ast_parse : string -> res (list (stmt V)).
Variable table : string -> res dbfun.
Variable of_column : list Z -> V.
Variable to_result : V -> res result.
Variable sorted : list Z -> list Z.
Hypothesis order_ok : forall l, Permutation (order l) l.

Notation ffun := (filter_fun mk_list items truth prim builtin import_ inlined order read ast_parse table of_column to_result).
Notation rfun := (regressor_fun mk_list items truth prim builtin import_ inlined order read ast_parse table of_column to_result sorted).
Notation tman := (texts_manager mk_list items truth prim builtin import_ inlined order read ast_parse table of_column to_result).
Notation rman := (regressor_manager mk_list items truth prim builtin import_ inlined order read ast_parse table of_column to_result sorted).
Notation sfun := (script_fun mk_list items truth prim builtin import_ inlined of_column to_result).

Lemma kind_column C t : (exists c s, named C t c s) -> kind_of (extended_cols C) t = Column.
Proof. intros H. apply (proj1 (kinds _ _)). apply extended_In, H. Qed.

(** A filter that is the name of a column. *)
Theorem column_text C t : (exists c s, named C t c s) -> ffun C t = Ok (SideOps.DBfun_Column t).
Proof. intros H. unfold filter_fun. rewrite (kind_column H). reflexivity. Qed.

(** ... of a lookup table. *)
Theorem table_text C t : ~ (exists c s, named C t c s) -> (exists p, t = (p ++ ".dbfun")%string) -> ffun C t = table t.
Proof.
  intros N H. unfold filter_fun. rewrite (proj1 (proj2 (kinds (extended_cols C) t))); [reflexivity| |exact H].
  rewrite extended_In. exact N.
Qed.

(** ... or a script: its inputs are the extended names that occur in it. *)
Theorem script_text C t : ~ (exists c s, named C t c s) -> ~ (exists p, t = (p ++ ".dbfun")%string) ->
  (forall e, ffun C t = Err e <-> Compute.DBfun_Compute read ast_parse order t (extended_cols C) = Err e) /\
  forall f, ffun C t = Ok f ->
    exists script text p, (t = text /\ ~ (exists q, t = (q ++ ".py")%string) \/ read t = Ok text /\ exists q, t = (q ++ ".py")%string) /\
      ast_parse text = Ok script /\ parse order (extended_cols C) script = Ok p /\ f = sfun p /\
      NoDup (input_names f) /\
      (forall n, In n (input_names f) <-> (exists c s, named C n c s) /\ occurs_in n script).
Proof.
  intros N H. unfold filter_fun. rewrite (proj2 (proj2 (kinds (extended_cols C) t))); [| |exact H].
  2:{ rewrite extended_In. exact N. }
  split.
  - intros e. destruct (Compute.DBfun_Compute _ _ _ _ _) as [p|e']; cbn [bind]; split; congruence.
  - intros f Hf. destruct (Compute.DBfun_Compute read ast_parse order t (extended_cols C)) as [p|e'] eqn:E; [|discriminate].
    cbn [bind] in Hf. injection Hf as <-. unfold Compute.DBfun_Compute in E.
    destruct (if ends_with ".py" t then read t else Ok t) as [text|] eqn:Et; [|discriminate]. cbn [bind] in E.
    destruct (ast_parse text) as [script|] eqn:Ea; [|discriminate]. cbn [bind] in E.
    exists script, text, p. split; [|split; [exact Ea|split; [exact E|split; [reflexivity|]]]].
    + destruct (ends_with ".py" t) eqn:Ee.
      * right. split; [exact Et|]. apply ends_with_iff. exact Ee.
      * left. injection Et as ->. split; [reflexivity|]. intros Hq. apply ends_with_iff in Hq. congruence.
    + destruct (inputs_ok _ _ _ _ order_ok E) as [Nd Hin]. cbn [script_fun input_names]. split; [exact Nd|].
      intros n. rewrite Hin, extended_In. reflexivity.
Qed.

(** So the names of a filter are always known, except maybe those of a lookup table. *)
Theorem text_named C t f : ffun C t = Ok f -> (exists c s, named C t c s) \/ ~ (exists p, t = (p ++ ".dbfun")%string) -> all_named C f.
Proof.
  intros Hf Hk n Hn. destruct (in_dec string_dec t (extended_cols C)) as [I|I]; rewrite extended_In in I.
  - rewrite (column_text I) in Hf. injection Hf as <-. cbn in Hn. destruct Hn as [<-|[]]. exact I.
  - destruct Hk as [K|K]; [contradiction|]. destruct (script_text I K) as [_ H].
    destruct (H f Hf) as (sc & tx & p & _ & _ & _ & _ & _ & Hin). apply Hin in Hn. tauto.
Qed.

(** The texts are turned into functions one after the other. *)
Theorem texts_functions forest on across by_ C texts m : init_columns forest on across by_ = Ok C ->
  (tman forest on across by_ texts = Ok m <->
   exists fs, Forall2 (fun t f => ffun C t = Ok f) texts fs /\ filter_manager forest on across by_ fs = Ok m).
Proof.
  intros E. unfold texts_manager, filter_manager. rewrite E. cbn [bind]. generalize (empty_manager C) as m0.
  induction texts as [|t texts IH]; intros m0; cbn [foldM].
  - split; [intros H; exists []; split; [constructor|exact H]|]. intros (fs & H & G). inversion H; subst. exact G.
  - split.
    + destruct (ffun C t) as [f|] eqn:Ef; [|discriminate]. cbn [bind]. destruct (add false m0 f) as [m1|] eqn:Ea; [|discriminate].
      cbn [bind]. intros H. apply IH in H as (fs & H & G). exists (f :: fs). split; [constructor; assumption|]. cbn [foldM]. rewrite Ea. exact G.
    + intros (fs & H & G). inversion H as [|? f ? fs' Hf Hfs]; subst. rewrite Hf. cbn [bind foldM] in *.
      destruct (add false m0 f) as [m1|] eqn:Ea; [|discriminate]. cbn [bind] in *. apply IH. eauto.
Qed.

Theorem texts_accepted forest on across by_ C texts : Forall SideOps_spec.plain (flat_map names forest) -> init_columns forest on across by_ = Ok C ->
  (forall t, In t texts -> (exists c s, named C t c s) \/ ~ (exists p, t = (p ++ ".dbfun")%string)) ->
  ((exists m, tman forest on across by_ texts = Ok m) <->
   forall t, In t texts -> exists f, ffun C t = Ok f /\ placed C f /\ unmixed C f).
Proof.
  intros Hp E Hk. split.
  - intros (m & H). apply (texts_functions _ _ _ _ _ _ E) in H as (fs & Hf & H).
    pose proof (proj1 (@manager_decision forest on across by_ C fs Hp E) (ex_intro _ m H)) as D.
    intros t Ht. clear - Hf D Ht. induction Hf as [|t0 f texts fs Hf _ IH]; [destruct Ht|].
    destruct Ht as [<-|Ht]; [exists f; split; [exact Hf|]; apply D; left; reflexivity|].
    apply IH; [intros; apply D; right; assumption|exact Ht].
  - intros H. assert (exists fs, Forall2 (fun t f => ffun C t = Ok f) texts fs /\ forall f, In f fs -> all_named C f /\ placed C f /\ unmixed C f) as (fs & Hf & D).
    { clear - H Hk order_ok. induction texts as [|t texts IH]; [exists []; split; [constructor|intros f []]|].
      destruct IH as (fs & Hf & D); [intros; apply Hk; right; assumption|intros; apply H; right; assumption|].
      destruct (H t (or_introl eq_refl)) as (f & Ef & H1 & H2). exists (f :: fs). split; [constructor; assumption|].
      intros g [<-|Hg]; [|apply D, Hg]. split; [|split; assumption]. apply (text_named Ef). apply Hk. left; reflexivity. }
    destruct (proj2 (@manager_decision forest on across by_ C fs Hp E) D) as (m & Hm). exists m. apply (texts_functions _ _ _ _ _ _ E). eauto.
Qed.

(** ** Default regressors *)

Lemma mem_true l s : In s l -> mem_string l s = true.
Proof. apply mem_string_In. Qed.

Lemma add_1 m c f : Forall SideOps_spec.plain (all_cols (m_cols m)) -> In c (all_cols (m_cols m)) ->
  input_names f = [(c ++ "_1")%string] -> In c (on_cols (m_cols m)) \/ In c (across_cols (m_cols m)) ->
  exists m', add true m f = Ok m' /\ m_cols m' = m_cols m /\
    m_funs m' = upd (m_funs m) (if mem_string (by_cols (m_cols m)) c then By else Oab) [f].
Proof.
  intros Hp Hc Ef Ho. unfold add. rewrite Ef. cbn [mapM].
  rewrite (@parse_named (m_cols m) c "_1" Hp Hc) by (unfold extension; tauto). cbn [bind].
  assert (K : check_extensions (m_cols m) [(c, "_1")] = Ok tt).
  { unfold check_extensions. cbn [mapM check_element]. cbn.
    assert (mem_string (on_cols (m_cols m)) c || mem_string (across_cols (m_cols m)) c = true)%bool as ->.
    { destruct Ho as [H|H]; apply mem_string_In in H; rewrite H; [reflexivity|apply Bool.orb_true_r]. }
    reflexivity. }
  rewrite K. cbn [bind forallb fst]. rewrite Bool.andb_true_r. destruct (mem_string (by_cols (m_cols m)) c) eqn:Eb.
  - eexists. split; [reflexivity|]. split; reflexivity.
  - cbn [filter fst]. rewrite Eb. cbn [negb]. cbn. eexists. split; [reflexivity|]. split; reflexivity.
Qed.

Lemma add_2 m c f : Forall SideOps_spec.plain (all_cols (m_cols m)) -> In c (all_cols (m_cols m)) ->
  input_names f = [(c ++ "_2")%string] -> In c (on_cols (m_cols m)) \/ In c (across_cols (m_cols m)) ->
  exists m', add true m f = Ok m' /\ m_cols m' = m_cols m /\
    m_funs m' = upd (m_funs m) (if mem_string (by_cols (m_cols m)) c then By else if mem_string (on_cols (m_cols m)) c then StB else StX) [f].
Proof.
  intros Hp Hc Ef Ho. unfold add. rewrite Ef. cbn [mapM].
  rewrite (@parse_named (m_cols m) c "_2" Hp Hc) by (unfold extension; tauto). cbn [bind].
  assert (K : check_extensions (m_cols m) [(c, "_2")] = Ok tt).
  { unfold check_extensions. cbn [mapM check_element]. cbn.
    assert (mem_string (on_cols (m_cols m)) c || mem_string (across_cols (m_cols m)) c = true)%bool as ->.
    { destruct Ho as [H|H]; apply mem_string_In in H; rewrite H; [reflexivity|apply Bool.orb_true_r]. }
    reflexivity. }
  rewrite K. cbn [bind forallb fst]. rewrite Bool.andb_true_r. destruct (mem_string (by_cols (m_cols m)) c) eqn:Eb.
  - eexists. split; [reflexivity|]. split; reflexivity.
  - cbn [filter fst]. rewrite Eb. cbn [negb only_plain forallb snd String.eqb]. cbn.
    eexists. split; [reflexivity|]. split; [reflexivity|]. unfold classify_ABX, only_ext, get_ext. cbn.
    destruct (mem_string (on_cols (m_cols m)) c); reflexivity.
Qed.

Definition reg_stage (C : columns) (e : element) : stage :=
  if mem_string (by_cols C) (fst e) then By
  else if String.eqb (snd e) "_1" then Oab
  else if mem_string (on_cols C) (fst e) then StB else StX.

Lemma stage_eqb_eq a b : stage_eqb a b = true <-> a = b.
Proof. destruct a, b; cbn; split; congruence. Qed.

Lemma defaults_added C db es : forall m, m_cols m = C -> Forall SideOps_spec.plain (all_cols C) ->
  (forall c s, In (c, s) es -> In c (all_cols C) /\ (In c (on_cols C) \/ In c (across_cols C)) /\ (s = "_1" \/ s = "_2")) ->
  exists m', foldM (fun m reg => f <- rfun C db reg ;; add true m f) (map ext_name es) m = Ok m' /\ m_cols m' = C /\
    forall st, map input_names (m_funs m' st) =
      map input_names (m_funs m st) ++ map (fun e => [ext_name e]) (filter (fun e => stage_eqb (reg_stage C e) st) es).
Proof.
  induction es as [|[c s] es IH]; intros m Hm Hp H; cbn [map foldM].
  - exists m. split; [reflexivity|]. split; [exact Hm|]. intros st. cbn. rewrite app_nil_r. reflexivity.
  - destruct (H c s (or_introl eq_refl)) as (Hc & Ho & Hs).
    assert (Hx : extension s) by (unfold extension; tauto).
    assert (exists m1 f, rfun C db (ext_name (c, s)) = Ok f /\ input_names f = [ext_name (c, s)] /\ add true m f = Ok m1 /\ m_cols m1 = C /\
              m_funs m1 = upd (m_funs m) (reg_stage C (c, s)) [f]) as (m1 & f & E1 & E2 & E3 & E4 & E5).
    { assert (K : rfun C db (ext_name (c, s)) = Ok (DBfun_Column_indexed sorted (ext_name (c, s)) (map (fun r => r c) db))).
      { unfold regressor_fun. rewrite kind_column by (exists c, s; repeat split; assumption). unfold ext_name. cbn [fst snd].
        rewrite (@parse_named C c s Hp Hc Hx). reflexivity. }
      rewrite K. subst C. destruct Hs as [-> | ->].
      - destruct (@add_1 m c (DBfun_Column_indexed sorted (c ++ "_1")%string (map (fun r => r c) db)) Hp Hc eq_refl Ho) as (m1 & A & B & D).
        exists m1, (DBfun_Column_indexed sorted (c ++ "_1")%string (map (fun r => r c) db)).
        repeat (split; [reflexivity || assumption|]). exact D.
      - destruct (@add_2 m c (DBfun_Column_indexed sorted (c ++ "_2")%string (map (fun r => r c) db)) Hp Hc eq_refl Ho) as (m1 & A & B & D).
        exists m1, (DBfun_Column_indexed sorted (c ++ "_2")%string (map (fun r => r c) db)).
        repeat (split; [reflexivity || assumption|]). exact D. }
    rewrite E1. cbn [bind]. rewrite E3. cbn [bind].
    destruct (IH m1 E4 Hp) as (m' & F1 & F2 & F3); [intros c' s' I; apply H; right; exact I|].
    exists m'. split; [exact F1|]. split; [exact F2|]. intros st. rewrite F3, E5. unfold upd. cbn [filter].
    destruct (stage_eqb (reg_stage C (c, s)) st); [|reflexivity]. rewrite map_app, <- app_assoc. cbn [map app]. rewrite E2. reflexivity.
Qed.

Definition default_elements (C : columns) (on : string) : list element :=
  [(on, "_1"); (on, "_2")] ++ flat_map (fun col => [(col, "_1"); (col, "_2")]) (order (nodup string_dec (across_cols C))).

Lemma default_elements_ok C on : default_regressors order C on = map ext_name (default_elements C on).
Proof.
  unfold default_regressors, default_elements. cbn [app map]. do 2 f_equal.
  induction (order _) as [|c l IH]; [reflexivity|]. cbn [flat_map app map]. rewrite IH. reflexivity.
Qed.

Lemma default_In C on c s : In (c, s) (default_elements C on) <-> (c = on \/ In c (across_cols C)) /\ (s = "_1" \/ s = "_2").
Proof.
  unfold default_elements. cbn [app In]. rewrite in_flat_map. split.
  - intros [E|[E|(c' & Hc & [E|[E|[]]])]]; injection E as <- <-; try tauto; (split; [|tauto]); right;
      apply (Permutation_in _ (order_ok _)), nodup_In in Hc; exact Hc.
  - intros [[->|Hc] [->| ->]]; [tauto|tauto| |]; right; right; exists c; (split; [|cbn; tauto]);
      apply (Permutation_in _ (Permutation_sym (order_ok _))), nodup_In; exact Hc.
Qed.

Lemma descends_self forest col c : descends forest col c -> descends forest col col /\ In c (flat_map names forest).
Proof.
  intros (t & p & s & q & r & Ht & Hb & En & Hb' & En'). split.
  - exists t, p, s, [], s. repeat split; try assumption. constructor.
  - apply in_flat_map. exists t. split; [exact Ht|]. apply names_below. exists (p ++ q), r. split; [exact (below_trans Hb Hb')|exact En'].
Qed.

(** Without any regressor given, those of the on and across columns are made. *)
Theorem default_stages db forest on across by_ C : NoDup (flat_map names forest) -> Forall SideOps_spec.plain (flat_map names forest) ->
  init_columns forest on across by_ = Ok C ->
  exists m, rman db forest on across by_ [] = Ok m /\
    (forall n, In n (map input_names (m_funs m By)) <->
       exists c s, n = [(c ++ s)%string] /\ (c = on \/ In c (across_cols C)) /\ (s = "_1" \/ s = "_2") /\ In c (by_cols C)) /\
    (forall n, In n (map input_names (m_funs m Oab)) <->
       exists c, n = [(c ++ "_1")%string] /\ (c = on \/ In c (across_cols C)) /\ ~ In c (by_cols C)) /\
    (forall n, In n (map input_names (m_funs m StB)) <->
       exists c, n = [(c ++ "_2")%string] /\ (c = on \/ In c (across_cols C)) /\ ~ In c (by_cols C) /\ In c (on_cols C)) /\
    (forall n, In n (map input_names (m_funs m StX)) <->
       exists c, n = [(c ++ "_2")%string] /\ In c (across_cols C) /\ ~ In c (by_cols C) /\ ~ In c (on_cols C)) /\
    m_funs m Generic = [] /\ m_funs m StA = [] /\ m_funs m StABX = [].
Proof.
  intros Nd Hp E. destruct (@init_columns_ok forest on across by_ C Nd E) as (Ha & Hon & Hac & Hby).
  assert (On : In on (on_cols C)).
  { apply Hon. unfold init_columns in E. destruct (descendants forest on) as [o|] eqn:Eo; [|discriminate].
    assert (Hd : ~ (descendants forest on = None)) by congruence.
    destruct (in_dec string_dec on (flat_map names forest)) as [I|I].
    - apply in_flat_map in I as (t & Ht & I). apply names_below in I as (q & r & Hb & En).
      exists t, q, r, [], r. repeat split; try assumption. constructor.
    - exfalso. apply Hd, descendants_none, I. }
  assert (Hall : forall c, In c (on_cols C) \/ In c (across_cols C) -> In c (all_cols C)).
  { intros c [H|H]; rewrite Ha; [apply Hon in H; apply (descends_self H)|]. apply Hac in H as (col & _ & H). apply (descends_self H). }
  assert (Hpc : Forall SideOps_spec.plain (all_cols C)) by (rewrite Ha; exact Hp).
  destruct (@defaults_added C db (default_elements C on) (empty_manager C) eq_refl Hpc) as (m & F1 & F2 & F3).
  { intros c s H. apply default_In in H as [[->|Hc] Hs]; (split; [apply Hall; tauto|]); tauto. }
  exists m. split.
  { unfold regressor_manager. rewrite E. cbn [bind app]. rewrite default_elements_ok. exact F1. }
  assert (G : forall st n, In n (map input_names (m_funs m st)) <->
    exists c s, n = [(c ++ s)%string] /\ (c = on \/ In c (across_cols C)) /\ (s = "_1" \/ s = "_2") /\ reg_stage C (c, s) = st).
  { intros st n. rewrite F3. cbn [empty_manager m_funs map app]. rewrite in_map_iff. split.
    - intros ([c s] & <- & H). apply filter_In in H as [H K]. apply stage_eqb_eq in K. apply default_In in H. exists c, s. split; [reflexivity|]. tauto.
    - intros (c & s & -> & H1 & H2 & H3). exists (c, s). split; [reflexivity|]. apply filter_In. split; [apply default_In; tauto|].
      apply stage_eqb_eq, H3. }
  assert (Nil : forall st, (forall c s, reg_stage C (c, s) <> st) -> m_funs m st = []).
  { intros st H. specialize (G st). destruct (m_funs m st) as [|f l]; [reflexivity|]. exfalso.
    destruct (proj1 (G (input_names f)) (or_introl eq_refl)) as (c & s & _ & _ & _ & K). exact (H c s K). }
  assert (Mb : forall c, mem_string (by_cols C) c = true <-> In c (by_cols C)) by (intros; apply mem_string_In).
  assert (Mo : forall c, mem_string (on_cols C) c = true <-> In c (on_cols C)) by (intros; apply mem_string_In).
  unfold reg_stage in *. cbn [fst snd] in *.
  split; [|split; [|split; [|split; [|split; [|split]]]]].
  - intros n. rewrite G. split; intros (c & s & H1 & H2 & H3 & H4); exists c, s; (repeat (split; [assumption|])).
    + apply Mb. destruct (mem_string (by_cols C) c); [reflexivity|]. destruct (String.eqb s "_1"); [discriminate|]. destruct (mem_string (on_cols C) c); discriminate.
    + rewrite (proj2 (Mb c) H4). reflexivity.
  - intros n. rewrite G. split.
    + intros (c & s & H1 & H2 & H3 & H4). exists c. destruct (mem_string (by_cols C) c) eqn:Eb; [discriminate|].
      destruct (String.eqb_spec s "_1") as [->|_]; [|destruct (mem_string (on_cols C) c); discriminate].
      split; [exact H1|]. split; [exact H2|]. intros I. apply Mb in I. congruence.
    + intros (c & H1 & H2 & H3). exists c, "_1". split; [exact H1|]. split; [exact H2|]. split; [tauto|].
      destruct (mem_string (by_cols C) c) eqn:Eb; [apply Mb in Eb; contradiction|reflexivity].
  - intros n. rewrite G. split.
    + intros (c & s & H1 & H2 & H3 & H4). exists c. destruct (mem_string (by_cols C) c) eqn:Eb; [discriminate|].
      destruct (String.eqb_spec s "_1") as [->|Hs]; [discriminate|]. destruct H3 as [H3|H3]; [contradiction|]. subst s.
      destruct (mem_string (on_cols C) c) eqn:Eo; [|discriminate].
      split; [exact H1|]. split; [exact H2|]. split; [intros I; apply Mb in I; congruence|apply Mo, Eo].
    + intros (c & H1 & H2 & H3 & H4). exists c, "_2". split; [exact H1|]. split; [exact H2|]. split; [tauto|].
      destruct (mem_string (by_cols C) c) eqn:Eb; [apply Mb in Eb; contradiction|]. cbn. rewrite (proj2 (Mo c) H4). reflexivity.
  - intros n. rewrite G. split.
    + intros (c & s & H1 & H2 & H3 & H4). exists c. destruct (mem_string (by_cols C) c) eqn:Eb; [discriminate|].
      destruct (String.eqb_spec s "_1") as [->|Hs]; [discriminate|]. destruct H3 as [H3|H3]; [contradiction|]. subst s.
      destruct (mem_string (on_cols C) c) eqn:Eo; [discriminate|].
      assert (No : ~ In c (on_cols C)) by (intros I; apply Mo in I; congruence).
      split; [exact H1|]. split; [destruct H2 as [->|H2]; [contradiction|exact H2]|]. split; [intros I; apply Mb in I; congruence|exact No].
    + intros (c & H1 & H2 & H3 & H4). exists c, "_2". split; [exact H1|]. split; [tauto|]. split; [tauto|].
      destruct (mem_string (by_cols C) c) eqn:Eb; [apply Mb in Eb; contradiction|]. cbn.
      destruct (mem_string (on_cols C) c) eqn:Eo; [apply Mo in Eo; contradiction|reflexivity].
  - apply Nil. intros c s. destruct (mem_string (by_cols C) c), (String.eqb s "_1"), (mem_string (on_cols C) c); discriminate.
  - apply Nil. intros c s. destruct (mem_string (by_cols C) c), (String.eqb s "_1"), (mem_string (on_cols C) c); discriminate.
  - apply Nil. intros c s. destruct (mem_string (by_cols C) c), (String.eqb s "_1"), (mem_string (on_cols C) c); discriminate.
Qed.

End Texts.

(** The codes of an indexed column. *)
Lemma index_of_ok l e : In e l -> exists i, index_of l e = Ok i /\ (0 <= i)%Z /\ nth_error l (Z.to_nat i) = Some e.
Proof.
  induction l as [|x l IH]; intros H; [destruct H|]. cbn [index_of]. destruct (Z.eqb_spec x e) as [->|N].
  - exists 0%Z. repeat split; lia.
  - destruct H as [H|H]; [contradiction|]. destruct (IH H) as (i & E & H0 & Hn). exists (1 + i)%Z. rewrite E. split; [reflexivity|]. split; [lia|].
    replace (Z.to_nat (1 + i)) with (S (Z.to_nat i)) by lia. exact Hn.
Qed.

Theorem column_codes (sorted : list Z -> list Z) : (forall l, Permutation (sorted l) l) -> forall n values ctx l, dict_get ctx n = Ok l -> incl l values -> l <> [] ->
  NoDup (sorted (nodup Z.eq_dec values)) /\ (forall v, In v (sorted (nodup Z.eq_dec values)) <-> In v values) /\
  exists codes, SideOps.evaluate (DBfun_Column_indexed sorted n values) ctx = Ok (Nested codes) /\
    Forall2 (fun v i => (0 <= i)%Z /\ nth_error (sorted (nodup Z.eq_dec values)) (Z.to_nat i) = Some v) l codes.
Proof.
  intros sorted_ok n values ctx l Hl Hi Hn. set (ix := sorted (nodup Z.eq_dec values)).
  assert (P : Permutation ix (nodup Z.eq_dec values)) by apply sorted_ok.
  assert (Hin : forall v, In v ix <-> In v values).
  { intros v. rewrite <- (nodup_In Z.eq_dec values v). split; apply Permutation_in; [exact P|apply Permutation_sym, P]. }
  split; [apply (Permutation_NoDup (Permutation_sym P)), NoDup_nodup|]. split; [exact Hin|].
  assert (G : forall l, incl l values -> exists codes, mapM (index_of ix) l = Ok codes /\
    Forall2 (fun v i => (0 <= i)%Z /\ nth_error ix (Z.to_nat i) = Some v) l codes).
  { clear l Hl Hi Hn. induction l as [|v l IH]; intros Hi; [exists []; split; [reflexivity|constructor]|].
    destruct IH as (codes & E & F); [intros x Hx; apply Hi; right; exact Hx|].
    destruct (@index_of_ok ix v) as (i & Ei & H0 & Hnth); [apply Hin, Hi; left; reflexivity|].
    exists (i :: codes). cbn [mapM]. rewrite Ei. cbn [bind]. rewrite E. split; [reflexivity|]. constructor; auto. }
  destruct (G l Hi) as (codes & E & F). exists codes. split; [|exact F].
  unfold DBfun_Column_indexed. fold ix. cbn [SideOps.evaluate].
  destruct ix as [|x ix'] eqn:Ex.
  - exfalso. destruct l as [|v l]; [contradiction|]. apply (proj2 (Hin v)). apply Hi. left; reflexivity.
  - rewrite Hl. cbn [bind]. rewrite E. reflexivity.
Qed.
