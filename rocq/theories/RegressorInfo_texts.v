(** The names and indexes of regressors given as texts of columns. *)
From Coq Require Import String.
From Coq Require Import List ZArith Lia Permutation.
From Verif Require Import Prelude Task Tree Tree_spec SideOps SideOps_spec SideOps_proofs SideOps_stages SideOps_legal SideOps_final Compute FilterTexts FilterTexts_main
  FilterTexts_regressors RegressorInfo RegressorInfo_main.
Import ListNotations.
Local Open Scope string_scope.
Local Open Scope list_scope.
Local Open Scope nat_scope.
Set Implicit Arguments.

(** No regressor is generic. *)
Lemma add_generic m f m' : add true m f = Ok m' -> m_funs m' Generic = m_funs m Generic.
Proof.
  unfold add. destruct (mapM _ _) as [els|]; [|discriminate]. cbn [bind]. destruct (check_extensions _ _); [|discriminate]. cbn [bind].
  destruct (forallb _ els); [intros E; injection E as <-; reflexivity|].
  destruct (only_plain _); [discriminate|].
  unfold classify_on_across_by. destruct (mem_string _ ""); [discriminate|].
  destruct (filter (condition _) _) as [|e l]; intros E; injection E as <-; [reflexivity|].
  unfold classify_ABX. cbn [m_funs]. unfold upd. destruct (only_ext _ _ "_A"); [reflexivity|]. destruct (only_ext _ _ "_B"); [reflexivity|].
  destruct (only_ext _ _ "_X"); reflexivity.
Qed.

Lemma images {A B} (P : A -> Prop) (g : A -> B) l : (forall f, In f l -> exists e, P e /\ f = g e) -> exists es, l = map g es /\ Forall P es.
Proof.
  induction l as [|f l IH]; intros H; [exists []; split; [reflexivity|constructor]|].
  destruct (H f (or_introl eq_refl)) as (e & He & ->). destruct IH as (es & -> & Hes); [intros f' I; apply H; right; exact I|].
  exists (e :: es). split; [reflexivity|constructor; assumption].
Qed.

Section Texts.
Variable V : Type.
Variable mk_list : list V -> V.
Variable items : V -> res (list V).
Variable truth : V -> res bool.
Variable prim : string -> list V -> res V.
Variable builtin : string -> option V.
Variable import_ : string -> res V.
Variable inlined : bool.
Variable order : list string -> list string.
Variable read : string -> res string.
Variable ast_parse : string -> res (list (stmt V)).
Variable table : string -> res dbfun.
Variable of_column : list Z -> V.
Variable to_result : V -> res result.
Variable sorted : list Z -> list Z.
Notation rfun := (regressor_fun mk_list items truth prim builtin import_ inlined order read ast_parse table of_column to_result sorted).
Notation rman := (regressor_manager mk_list items truth prim builtin import_ inlined order read ast_parse table of_column to_result sorted).
Hypothesis order_ok : forall l, Permutation (order l) l.
Hypothesis sorted_ok : forall l, Permutation (sorted l) l.
Variable L : Type.
Variable label : Z -> L.
Variable str : nat -> string.

Theorem regressors_named db forest on across by_ C regs m : NoDup (flat_map names forest) -> Forall SideOps_spec.plain (flat_map names forest) ->
  init_columns forest on across by_ = Ok C -> rman db forest on across by_ regs = Ok m ->
  (forall t, In t regs -> exists c s, named C t c s) ->
  exists ds (ts : stage -> list (string * string)),
    (forall n, In n ds <-> exists c s, n = (c ++ s)%string /\ (c = on \/ In c (across_cols C)) /\ (s = "_1" \/ s = "_2")) /\
    (forall st, Forall (fun e => named C (fst e ++ snd e)%string (fst e) (snd e)) (ts st) /\
       m_funs m st = map (fun e => DBfun_Column_indexed sorted (fst e ++ snd e)%string (map (fun r => r (fst e)) db)) (ts st)) /\
    m_funs m Generic = [] /\
    let specs st := map (fun e => column_specs (fst e ++ snd e)%string (map label (sorted (nodup Z.eq_dec (map (fun r => r (fst e)) db))))) (ts st) in
    let info := get_regressor_info str (specs By) (specs Oab) (specs StA) (specs StB) (specs StX) (specs StABX) in
    Permutation (fst info) (regs ++ ds) /\
    (db <> [] -> forall n i, In (n, i) (snd info) <->
       In n (regs ++ ds) /\ exists c s, named C n c s /\ i = map label (sorted (nodup Z.eq_dec (map (fun r => r c) db)))).
Proof.
  intros Nd Hp E H Hregs. destruct (@init_columns_ok forest on across by_ C Nd E) as (Ha & Hon & Hac & Hby).
  assert (Hpc : Forall SideOps_spec.plain (all_cols C)) by (rewrite Ha; exact Hp).
  destruct (@regressors_kept V mk_list items truth prim builtin import_ inlined order read ast_parse table of_column to_result sorted order_ok db forest on across by_ C regs m E H)
    as (ds & fs & F & Hds & P).
  assert (Gen : m_funs m Generic = []).
  { unfold regressor_manager in H. rewrite E in H. cbn [bind] in H.
    assert (K : forall l m0, foldM (fun m reg => f <- rfun C db reg ;; add true m f) l m0 = Ok m -> m_funs m Generic = m_funs m0 Generic).
    { clear. induction l as [|t l IH]; intros m0 H; cbn [foldM] in H; [injection H as <-; reflexivity|].
      destruct (rfun C db t) as [f|]; [|discriminate]. cbn [bind] in H. destruct (add true m0 f) as [m1|] eqn:E1; [|discriminate]. cbn [bind] in H.
      rewrite (IH _ H). exact (add_generic _ _ E1). }
    rewrite (K _ _ H). reflexivity. }
  assert (On : In on (on_cols C)).
  { apply Hon. unfold init_columns in E. destruct (descendants forest on) as [o|] eqn:Eo; [|discriminate].
    destruct (in_dec string_dec on (flat_map names forest)) as [I|I].
    - apply in_flat_map in I as (t & Ht & I). apply names_below in I as (q & r & Hb & En).
      exists t, q, r, [], r. repeat split; try assumption. constructor.
    - exfalso. apply descendants_none in I. congruence. }
  assert (Hall : forall c, In c (on_cols C) \/ In c (across_cols C) -> In c (all_cols C)).
  { intros c [I|I]; rewrite Ha; [apply Hon in I; apply (descends_self I)|]. apply Hac in I as (col & _ & I). apply (descends_self I). }
  assert (Hnm : forall t, In t (regs ++ ds) -> exists c s, named C t c s).
  { intros t I. apply in_app_or in I as [I|I]; [apply Hregs, I|]. apply Hds in I as (c & s & -> & Hc & Hs).
    exists c, s. split; [reflexivity|]. split; [apply Hall; destruct Hc as [->|Hc]; tauto|]. unfold extension. destruct Hs as [-> | ->]; cbn; tauto. }
  set (g := fun e : string * string => DBfun_Column_indexed sorted (fst e ++ snd e)%string (map (fun r => r (fst e)) db)).
  set (Pe := fun e : string * string => named C (fst e ++ snd e)%string (fst e) (snd e)).
  assert (Hfs : forall f, In f fs -> exists e, Pe e /\ f = g e).
  { clear P. induction F as [|t f ts fs Ht F IH]; [intros f []|]. intros f' [<-|I]; [|apply IH; [intros; apply Hnm; right; assumption|exact I]].
    destruct (Hnm t (or_introl eq_refl)) as (c & s & N). destruct (@regressor_text V mk_list items truth prim builtin import_ inlined order read ast_parse table of_column to_result sorted C db t Hpc) as [R _].
    rewrite (R c s N) in Ht. injection Ht as <-. exists (c, s). destruct N as (-> & ? & ?). split; [|reflexivity]. split; [reflexivity|split; assumption]. }
  assert (Hst : forall st, exists es, m_funs m st = map g es /\ Forall Pe es).
  { intros st. apply images. intros f I. apply Hfs. apply (Permutation_in _ P). apply in_flat_map. exists st. split; [destruct st; cbn; tauto|exact I]. }
  destruct (Hst By) as (e1 & M1 & F1). destruct (Hst Oab) as (e2 & M2 & F2). destruct (Hst StA) as (e3 & M3 & F3).
  destruct (Hst StB) as (e4 & M4 & F4). destruct (Hst StX) as (e5 & M5 & F5). destruct (Hst StABX) as (e6 & M6 & F6).
  exists ds, (fun st => match st with By => e1 | Generic => [] | Oab => e2 | StA => e3 | StB => e4 | StX => e5 | StABX => e6 end).
  split; [exact Hds|]. split; [intros []; (split; [first [assumption|constructor]|]); cbn [map]; assumption|]. split; [exact Gen|]. cbv zeta.
  set (sp := fun e : string * string => column_specs (fst e ++ snd e)%string (map label (sorted (nodup Z.eq_dec (map (fun r => r (fst e)) db))))).
  set (es := e1 ++ e2 ++ e3 ++ e4 ++ e5 ++ e6).
  assert (Fe : Forall Pe es) by (unfold es; rewrite !Forall_app; tauto).
  rewrite info_ok. rewrite <- !map_app. fold es. cbn [fst snd].
  assert (Nm : forall l r, concat (named_from str (map sp l) r) = map (fun e => (fst e ++ snd e)%string) l).
  { induction l as [|e l IH]; intros r; [reflexivity|]. cbn [map]. change (named_from str (sp e :: map sp l) r) with ([(fst e ++ snd e)%string] :: named_from str (map sp l) r).
    cbn [concat app]. rewrite IH. reflexivity. }
  assert (Pn : Permutation (map (fun e => (fst e ++ snd e)%string) es) (regs ++ ds)).
  { assert (A : flat_map input_names (map g es) = map (fun e => (fst e ++ snd e)%string) es).
    { generalize es. induction es0 as [|e l IH]; [reflexivity|]. cbn [map flat_map]. rewrite IH. reflexivity. }
    assert (B : flat_map input_names fs = regs ++ ds).
    { clear P Hfs. induction F as [|t f ts fs Ht F IH]; [reflexivity|]. cbn [flat_map]. rewrite IH by (intros; apply Hnm; right; assumption).
      destruct (Hnm t (or_introl eq_refl)) as (c & s & N). destruct (@regressor_text V mk_list items truth prim builtin import_ inlined order read ast_parse table of_column to_result sorted C db t Hpc) as [R _].
      rewrite (R c s N) in Ht. injection Ht as <-. reflexivity. }
    rewrite <- A, <- B. apply Permutation_flat_map. rewrite <- P. cbn [flat_map]. rewrite Gen, M1, M2, M3, M4, M5, M6. cbn [app]. rewrite app_nil_r.
    unfold es. rewrite !map_app. apply Permutation_refl. }
  rewrite Nm. split; [exact Pn|]. intros Hdb n i.
  assert (Un : forall n c s c' s', named C n c s -> named C n c' s' -> c = c').
  { intros n0 c s c' s' (-> & Hc & Hs) (En & Hc' & Hs'). pose proof (@parse_named C c s Hpc Hc Hs) as A. rewrite En in A. rewrite (@parse_named C c' s' Hpc Hc' Hs') in A. congruence. }
  assert (Ne : forall c, map label (sorted (nodup Z.eq_dec (map (fun r : row => r c) db))) <> []).
  { intros c A. apply map_eq_nil in A. destruct db as [|r0 db0]; [apply Hdb; reflexivity|].
    pose proof (sorted_ok (nodup Z.eq_dec (map (fun r : row => r c) (r0 :: db0)))) as Q. rewrite A in Q. apply Permutation_nil in Q.
    assert (X : In (r0 c) (nodup Z.eq_dec (map (fun r : row => r c) (r0 :: db0)))) by (apply nodup_In; left; reflexivity). rewrite Q in X. destruct X. }
  assert (Ix : flat_map (@sp_indexes L) (map sp es) = map (fun e => ((fst e ++ snd e)%string, map label (sorted (nodup Z.eq_dec (map (fun r => r (fst e)) db))))) es).
  { generalize es. induction es0 as [|e l IH]; [reflexivity|]. cbn [map flat_map]. rewrite IH. unfold sp at 1, column_specs. cbn [sp_indexes].
    destruct (map label _) eqn:D; [exfalso; exact (Ne _ D)|reflexivity]. }
  assert (St : forall n i, In (n, i) (stored (map sp es)) <-> exists l1 l2, flat_map (@sp_indexes L) (map sp es) = l1 ++ (n, i) :: l2 /\ ~ In n (map fst l2)).
  { intros n0 i0. unfold stored. destruct (@stored_in L (flat_map (@sp_indexes L) (map sp es)) [] (NoDup_nil _)) as [_ K]. rewrite K. split; [intros [J|[_ []]]; exact J|intros J; left; exact J]. }
  rewrite St, Ix. clear St Ix. split.
  - intros (l1 & l2 & El & _).
    assert (I : In (n, i) (map (fun e => ((fst e ++ snd e)%string, map label (sorted (nodup Z.eq_dec (map (fun r => r (fst e)) db))))) es)) by (rewrite El; apply in_elt).
    apply in_map_iff in I as (e & Ee & I). injection Ee as <- <-. split.
    + apply (Permutation_in _ Pn). apply in_map_iff. exists e. split; [reflexivity|exact I].
    + exists (fst e), (snd e). split; [|reflexivity]. rewrite Forall_forall in Fe. exact (Fe e I).
  - intros (I & c & s & N & ->). apply (Permutation_in _ (Permutation_sym Pn)) in I. clear - I N Fe Un.
    induction es as [|e l IH]; [destruct I|]. inversion Fe as [|? ? Fe1 Fe2]; subst. cbn [map].
    destruct (in_dec string_dec n (map (fun e => (fst e ++ snd e)%string) l)) as [D|D].
    + destruct (IH Fe2 D) as (l1 & l2 & El & Hn). eexists (_ :: l1), l2. split; [cbn [app]; f_equal; exact El|exact Hn].
    + destruct I as [I|I]; [|exfalso; exact (D I)]. cbn beta in I. subst n. eexists [], _. split; [cbn [app]; rewrite (Un _ _ _ _ _ N Fe1); reflexivity|].
      intros X. apply D. rewrite map_map in X. exact X.
Qed.

End Texts.
