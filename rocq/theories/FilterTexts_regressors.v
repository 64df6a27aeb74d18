(** The regressors of a task, given as texts. *)
From Coq Require Import String.
From Coq Require Import List ZArith Lia Permutation.
From Verif Require Import Prelude Task Tree Tree_spec SideOps SideOps_spec SideOps_proofs SideOps_stages SideOps_legal SideOps_final Compute Compute_spec Compute_proofs FilterTexts FilterTexts_main.
Import ListNotations.
Local Open Scope string_scope.
Local Open Scope list_scope.
Local Open Scope nat_scope.
Set Implicit Arguments.

(** A regressor is accepted when a filter would be, and no name outside of the by columns is plain. *)
Lemma add_regressor m f m' : Forall SideOps_spec.plain (all_cols (m_cols m)) ->
  (add true m f = Ok m' <->
   add false m f = Ok m' /\ forall n c s, In n (input_names f) -> named (m_cols m) n c s -> ~ In c (by_cols (m_cols m)) -> s <> "").
Proof.
  intros Hp. set (C := m_cols m) in *.
  destruct (mapM (parse_extended_column C) (input_names f)) as [els|] eqn:E.
  2:{ unfold add. fold C. rewrite E. cbn [bind]. split; [discriminate|intros [H _]; discriminate]. }
  assert (Eel : elements C f = els) by (unfold elements; rewrite E; reflexivity). rewrite <- Eel in *.
  pose proof (elements_named C f E) as Hn. pose proof (elements_all C f E) as Ha.
  assert (U : forall n c s, In n (input_names f) -> named C n c s -> In (c, s) (elements C f)).
  { intros n c s Hin N. destruct (Ha n Hin) as (e & He & En). destruct (Hn e He) as [N' _].
    assert (P : parse_extended_column C n = Ok (c, s)) by (destruct N as (-> & ? & ?); apply parse_named; auto).
    assert (P' : parse_extended_column C n = Ok (fst e, snd e)) by (rewrite <- En; destruct N' as (-> & ? & ?); apply parse_named; auto).
    rewrite P in P'. injection P' as -> ->. rewrite <- surjective_pairing. exact He. }
  clear Eel. unfold add. fold C. rewrite E. cbn [bind].
  destruct (check_extensions C (elements C f)) as [u|]; [cbn [bind]|split; [discriminate|intros [H _]; discriminate]].
  destruct (forallb (fun e => mem_string (by_cols C) (fst e)) (elements C f)) eqn:Eb.
  { split; [|intros [H _]; exact H]. intros H. split; [exact H|]. intros n c s I N Nb. exfalso. apply Nb, mem_string_In.
    rewrite forallb_forall in Eb. apply (Eb (c, s)), (U _ _ _ I N). }
  set (rest := filter (fun e => negb (mem_string (by_cols C) (fst e))) (elements C f)).
  assert (Hr : forall c s, In (c, s) rest <-> In (c, s) (elements C f) /\ ~ In c (by_cols C)).
  { intros c s. unfold rest. rewrite filter_In. cbn [fst]. rewrite Bool.negb_true_iff. rewrite mem_string_nIn. reflexivity. }
  destruct (only_plain rest) eqn:Eo.
  - split; [discriminate|]. intros [_ H]. exfalso.
    destruct rest as [|[c s] rest']; [discriminate|]. cbn [only_plain forallb snd] in Eo.
    apply andb_prop in Eo as [Eo _]. apply String.eqb_eq in Eo. subst s.
    destruct (proj1 (Hr c "") (or_introl eq_refl)) as [I Nb]. destruct (Hn _ I) as [N In'].
    exact (H _ _ _ In' N Nb eq_refl).
  - unfold classify_on_across_by. fold C. destruct (mem_string (map snd rest) "") eqn:Em.
    + split; [discriminate|intros [H _]; discriminate].
    + split; [|intros [H _]; exact H]. intros H. split; [exact H|]. intros n c s I N Nb ->. apply mem_string_nIn in Em. apply Em.
      apply in_map_iff. exists (c, ""). split; [reflexivity|]. apply Hr. split; [exact (U _ _ _ I N)|exact Nb].
Qed.

(** A function is added at one stage. *)
Lemma add_at r m f m' : add r m f = Ok m' -> exists st, m_funs m' = upd (m_funs m) st [f].
Proof.
  unfold add. destruct (mapM _ _) as [els|]; [|discriminate]. cbn [bind]. destruct (check_extensions _ _); [|discriminate]. cbn [bind].
  destruct (forallb _ els); [intros E; injection E as <-; exists By; reflexivity|].
  destruct (only_plain _); [destruct r; [discriminate|]; intros E; injection E as <-; exists Generic; reflexivity|].
  unfold classify_on_across_by. destruct (mem_string _ ""); [discriminate|].
  destruct (filter (condition _) _) as [|e l]; intros E; injection E as <-; [exists Oab; reflexivity|].
  unfold classify_ABX. cbn [m_funs]. eexists. reflexivity.
Qed.

Lemma added_all r fs : forall m m', foldM (add r) fs m = Ok m' ->
  Permutation (flat_map (m_funs m') [By; Generic; Oab; StA; StB; StX; StABX]) (flat_map (m_funs m) [By; Generic; Oab; StA; StB; StX; StABX] ++ fs).
Proof.
  induction fs as [|f fs IH]; cbn [foldM]; intros m m' H; [injection H as <-; rewrite app_nil_r; apply Permutation_refl|].
  destruct (add r m f) as [m1|] eqn:E; [|discriminate]. cbn [bind] in H. apply IH in H. rewrite H. clear IH H.
  change (f :: fs) with ([f] ++ fs). rewrite (app_assoc _ [f] fs). apply Permutation_app_tail.
  apply add_at in E as (st & E). rewrite E. unfold upd. cbn [flat_map].
  assert (K : forall a b c d e g h : list dbfun, forall i, Permutation
    (match i with 0 => (a ++ [f]) ++ b ++ c ++ d ++ e ++ g ++ h ++ [] | 1 => a ++ (b ++ [f]) ++ c ++ d ++ e ++ g ++ h ++ []
     | 2 => a ++ b ++ (c ++ [f]) ++ d ++ e ++ g ++ h ++ [] | 3 => a ++ b ++ c ++ (d ++ [f]) ++ e ++ g ++ h ++ []
     | 4 => a ++ b ++ c ++ d ++ (e ++ [f]) ++ g ++ h ++ [] | 5 => a ++ b ++ c ++ d ++ e ++ (g ++ [f]) ++ h ++ []
     | _ => a ++ b ++ c ++ d ++ e ++ g ++ (h ++ [f]) ++ [] end)
    ((a ++ b ++ c ++ d ++ e ++ g ++ h ++ []) ++ [f])).
  { intros. destruct i as [|[|[|[|[|[|i]]]]]]; rewrite <- ?app_assoc; cbn [app]; repeat apply Permutation_app_head; try apply Permutation_refl;
      rewrite ?app_nil_r, ?app_assoc; apply Permutation_cons_append. }
  destruct st; cbn [stage_eqb].
  - apply (K _ _ _ _ _ _ _ 0).
  - apply (K _ _ _ _ _ _ _ 1).
  - apply (K _ _ _ _ _ _ _ 2).
  - apply (K _ _ _ _ _ _ _ 3).
  - apply (K _ _ _ _ _ _ _ 4).
  - apply (K _ _ _ _ _ _ _ 5).
  - apply (K _ _ _ _ _ _ _ 6).
Qed.

Section Texts.
Variable V : Type.
Variable mk_list : list V -> V.
Variable items : V -> res (list V).
Variable truth : V -> res bool.
Variable prim : string -> list V -> res V.
Variable builtin : string -> option V.
Variable import_ : string -> res V.
Variable inlined : bool.
Variable order : list string -> list string.
Variable read : string -> res string.
Variable ast_parse : string -> res (list (stmt V)).
Variable table : string -> res dbfun.
Variable of_column : list Z -> V.
Variable to_result : V -> res result.
Variable sorted : list Z -> list Z.

Notation ffun := (filter_fun mk_list items truth prim builtin import_ inlined order read ast_parse table of_column to_result).
Notation rfun := (regressor_fun mk_list items truth prim builtin import_ inlined order read ast_parse table of_column to_result sorted).
Notation rman := (regressor_manager mk_list items truth prim builtin import_ inlined order read ast_parse table of_column to_result sorted).

(** A regressor is read as a filter is, but that the values of a column are replaced by codes. *)
Theorem regressor_text C db t : Forall SideOps_spec.plain (all_cols C) ->
  (forall c s, named C t c s -> rfun C db t = Ok (DBfun_Column_indexed sorted t (map (fun r => r c) db))) /\
  (~ (exists c s, named C t c s) -> rfun C db t = ffun C t).
Proof.
  intros Hp. split.
  - intros c s N. unfold regressor_fun. rewrite kind_column by (exists c, s; exact N). destruct N as (-> & Hc & Hs).
    rewrite (@parse_named C c s Hp Hc Hs). reflexivity.
  - intros N. unfold regressor_fun, filter_fun. destruct (kind_of (extended_cols C) t) eqn:K; [|reflexivity|reflexivity].
    exfalso. apply N, extended_In. unfold kind_of in K. destruct (existsb (String.eqb t) (extended_cols C)) eqn:D.
    + apply existsb_exists in D as (y & Hy & D). apply String.eqb_eq in D. subst y. exact Hy.
    + destruct (ends_with ".dbfun" t); discriminate.
Qed.

Hypothesis order_ok : forall l, Permutation (order l) l.

Lemma given_added C db regs : Forall SideOps_spec.plain (all_cols C) -> forall m, m_cols m = C ->
  ((exists m', foldM (fun m reg => f <- rfun C db reg ;; add true m f) regs m = Ok m') <->
   forall t, In t regs -> exists f, rfun C db t = Ok f /\ all_named C f /\ placed C f /\
     forall n c s, In n (input_names f) -> named C n c s -> ~ In c (by_cols C) -> s <> "").
Proof.
  intros Hp. induction regs as [|t regs IH]; intros m Hm; cbn [foldM]; [split; [intros _ t []|intros _; eexists; reflexivity]|]. split.
  - intros (m' & H). destruct (rfun C db t) as [f|] eqn:Ef; [|discriminate]. cbn [bind] in H.
    destruct (add true m f) as [m1|] eqn:E1; [|discriminate]. cbn [bind] in H.
    apply add_regressor in E1; [|rewrite Hm; exact Hp]. destruct E1 as [E1 Hx]. rewrite Hm in Hx.
    assert (Hm1 : m_cols m1 = C) by (rewrite (add_cols _ _ E1); exact Hm).
    pose proof (proj1 (@add_decision m ltac:(rewrite Hm; exact Hp) f)) as Hd. rewrite Hm in Hd.
    destruct (proj1 Hd (ex_intro _ m1 E1)) as (D1 & D2 & D3).
    intros t' [<-|I]; [exists f; repeat (split; [assumption|]); exact Hx|].
    apply (proj1 (IH m1 Hm1) (ex_intro _ m' H) t' I).
  - intros H. destruct (H t (or_introl eq_refl)) as (f & Ef & D1 & D2 & D3). rewrite Ef. cbn [bind].
    pose proof (proj1 (@add_decision m ltac:(rewrite Hm; exact Hp) f)) as Hd. rewrite Hm in Hd.
    destruct (proj2 Hd) as (m1 & E1).
    { split; [exact D1|]. split; [exact D2|]. intros n c s n' c' s' I N Nb I' N' Nb' ->. exfalso. exact (D3 _ _ _ I N Nb eq_refl). }
    assert (E2 : add true m f = Ok m1) by (apply add_regressor; [rewrite Hm; exact Hp|]; split; [exact E1|rewrite Hm; exact D3]).
    rewrite E2. cbn [bind]. apply IH; [rewrite (add_cols _ _ E1); exact Hm|]. intros; apply H; right; assumption.
Qed.

Lemma foldM_app {A S} (g : S -> A -> res S) l1 : forall l2 m, foldM g (l1 ++ l2) m = (m1 <- foldM g l1 m ;; foldM g l2 m1).
Proof. induction l1 as [|a l1 IH]; intros l2 m; cbn [app foldM]; [reflexivity|]. destruct (g m a); cbn [bind]; [apply IH|reflexivity]. Qed.

Lemma foldM_cols C db regs : forall m m', foldM (fun m reg => f <- rfun C db reg ;; add true m f) regs m = Ok m' ->
  Forall SideOps_spec.plain (all_cols (m_cols m)) -> m_cols m' = m_cols m.
Proof.
  induction regs as [|t regs IH]; cbn [foldM]; intros m m' H Hp; [congruence|].
  destruct (rfun C db t) as [f|]; [|discriminate]. cbn [bind] in H. destruct (add true m f) as [m1|] eqn:E; [|discriminate]. cbn [bind] in H.
  apply add_regressor in E as [E _]; [|exact Hp]. apply add_cols in E. rewrite (IH _ _ H); [exact E|rewrite E; exact Hp].
Qed.

(** The regressors that are given decide whether the task is made; those of the on and across columns never prevent it. *)
Theorem regressors_accepted db forest on across by_ C regs : NoDup (flat_map names forest) -> Forall SideOps_spec.plain (flat_map names forest) ->
  init_columns forest on across by_ = Ok C ->
  ((exists m, rman db forest on across by_ regs = Ok m) <->
   forall t, In t regs -> exists f, rfun C db t = Ok f /\ all_named C f /\ placed C f /\
     forall n c s, In n (input_names f) -> named C n c s -> ~ In c (by_cols C) -> s <> "").
Proof.
  intros Nd Hp E. destruct (@init_columns_ok forest on across by_ C Nd E) as (Ha & Hon & Hac & Hby).
  assert (Hpc : Forall SideOps_spec.plain (all_cols C)) by (rewrite Ha; exact Hp).
  rewrite <- (@given_added C db regs Hpc (empty_manager C) eq_refl). unfold regressor_manager. rewrite E. cbn [bind]. rewrite foldM_app. split.
  - intros (m & H). destruct (foldM _ regs (empty_manager C)) as [m1|]; [eexists; reflexivity|discriminate].
  - intros (m1 & H). rewrite H. cbn [bind].
    assert (Hm1 : m_cols m1 = C) by (rewrite (foldM_cols _ _ _ _ H); [reflexivity|exact Hpc]).
    assert (On : In on (on_cols C)).
    { apply Hon. unfold init_columns in E. destruct (descendants forest on) as [o|] eqn:Eo; [|discriminate].
      destruct (in_dec string_dec on (flat_map names forest)) as [I|I].
      - apply in_flat_map in I as (t & Ht & I). apply names_below in I as (q & r & Hb & En).
        exists t, q, r, [], r. repeat split; try assumption. constructor.
      - exfalso. apply descendants_none in I. congruence. }
    assert (Hall : forall c, In c (on_cols C) \/ In c (across_cols C) -> In c (all_cols C)).
    { intros c [I|I]; rewrite Ha; [apply Hon in I; apply (descends_self I)|]. apply Hac in I as (col & _ & I). apply (descends_self I). }
    rewrite default_elements_ok.
    destruct (@defaults_added V mk_list items truth prim builtin import_ inlined order read ast_parse table of_column to_result sorted
                C db (default_elements order C on) m1 Hm1 Hpc) as (m & F & _); [|eexists; exact F].
    intros c s I. apply (@default_In V prim builtin import_ order read ast_parse table order_ok) in I as [[->|I] Hs]; (split; [apply Hall; tauto|]); tauto.
Qed.

(** The regressors are the functions of their texts, each at one stage. *)
Theorem regressors_kept db forest on across by_ C regs m : init_columns forest on across by_ = Ok C ->
  rman db forest on across by_ regs = Ok m ->
  exists ds fs, Forall2 (fun t f => rfun C db t = Ok f) (regs ++ ds) fs /\
    (forall n, In n ds <-> exists c s, n = (c ++ s)%string /\ (c = on \/ In c (across_cols C)) /\ (s = "_1" \/ s = "_2")) /\
    Permutation (flat_map (m_funs m) [By; Generic; Oab; StA; StB; StX; StABX]) fs.
Proof.
  intros E H. unfold regressor_manager in H. rewrite E in H. cbn [bind] in H.
  assert (G : forall l m0, foldM (fun m reg => f <- rfun C db reg ;; add true m f) l m0 = Ok m ->
    exists fs, Forall2 (fun t f => rfun C db t = Ok f) l fs /\ foldM (add true) fs m0 = Ok m).
  { clear. induction l as [|t l IH]; intros m0 H; cbn [foldM] in H; [exists []; split; [constructor|exact H]|].
    destruct (rfun C db t) as [f|] eqn:Ef; [|discriminate]. cbn [bind] in H. destruct (add true m0 f) as [m1|] eqn:E1; [|discriminate]. cbn [bind] in H.
    apply IH in H as (fs & F & H). exists (f :: fs). split; [constructor; assumption|]. cbn [foldM]. rewrite E1. exact H. }
  apply G in H as (fs & F & H). exists (default_regressors order C on), fs. split; [exact F|]. split.
  - intros n. rewrite default_elements_ok, in_map_iff. split.
    + intros ([c s] & <- & I). apply (@default_In V prim builtin import_ order read ast_parse table order_ok) in I. exists c, s. split; [reflexivity|exact I].
    + intros (c & s & -> & I). exists (c, s). split; [reflexivity|]. apply (@default_In V prim builtin import_ order read ast_parse table order_ok). exact I.
  - apply added_all in H. exact H.
Qed.

End Texts.

(** A value that is not in the column has no code; without any value the column is kept as it is. *)
Theorem column_codes_other (sorted : list Z -> list Z) : (forall l, Permutation (sorted l) l) -> forall n values ctx l, dict_get ctx n = Ok l ->
  (forall v, values <> [] -> In v l -> ~ In v values -> SideOps.evaluate (DBfun_Column_indexed sorted n values) ctx = Err ValueError) /\
  (values = [] -> SideOps.evaluate (DBfun_Column_indexed sorted n values) ctx = Ok (Nested l)).
Proof.
  intros sorted_ok n values ctx l Hl. set (ix := sorted (nodup Z.eq_dec values)).
  assert (P : Permutation ix (nodup Z.eq_dec values)) by apply sorted_ok.
  assert (Hin : forall v, In v ix <-> In v values).
  { intros v. rewrite <- (nodup_In Z.eq_dec values v). split; apply Permutation_in; [exact P|apply Permutation_sym, P]. }
  assert (A : forall l e, ~ In e l -> index_of l e = Err ValueError).
  { clear. induction l as [|x l IH]; intros e H; [reflexivity|]. cbn [index_of]. destruct (Z.eqb_spec x e) as [->|N]; [exfalso; apply H; left; reflexivity|].
    rewrite IH by (intros I; apply H; right; exact I). reflexivity. }
  unfold DBfun_Column_indexed. fold ix. cbn [SideOps.evaluate]. split.
  - intros v Hv Iv Nv.
    assert (G : mapM (index_of ix) l = Err ValueError).
    { clear Hl. induction l as [|w l IH]; [destruct Iv|]. cbn [mapM]. destruct (in_dec Z.eq_dec w ix) as [I|I].
      - destruct (@index_of_ok ix w I) as (i & -> & _). cbn [bind]. rewrite IH; [reflexivity|].
        destruct Iv as [->|Iv]; [exfalso; apply Nv, Hin, I|exact Iv].
      - rewrite (A ix w I). reflexivity. }
    destruct ix as [|x ix'] eqn:Ex.
    + exfalso. destruct values as [|w values]; [contradiction|]. apply (proj2 (Hin w)). left; reflexivity.
    + rewrite Hl. cbn [bind]. rewrite G. reflexivity.
  - intros ->. cbn [nodup] in P. apply Permutation_sym, Permutation_nil in P. rewrite P, Hl. reflexivity.
Qed.
