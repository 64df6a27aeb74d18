(** Property theorems: the filters that are accepted and those that can be evaluated (C70). *)
From Coq Require Import Ascii String.
From Verif Require Import Prelude Task Task_ex Tree SideOps SideOps_spec SideOps_unusable_spec SideOps_unusable SideOps_ex Unusable_ex.
Open Scope string_scope.
Open Scope list_scope.
Open Scope Z_scope.

(** C70: a filter that is accepted is evaluated at every stage without exception, unless it uses
    a column determined by the by columns with a plain one, or [_AB] of a column that nothing
    determines... *)
Theorem C70_evaluated_partial :
  forall forest on across by_ inputs script m, Forall plain (flat_map names forest) ->
    filter_manager forest on across by_ [DBfun_Compute inputs script] = Ok m ->
  forall truthy, NoDup inputs -> (forall e e', (forall n, In n inputs -> e n = e' n) -> script e = script e') ->
    ~ (some_by (m_cols m) inputs /\ some_plain (m_cols m) inputs) -> ~ lone_AB (m_cols m) inputs ->
    (forall v, exists b, by_filter m v = Ok b) /\ (forall v db, exists kept, generic_filter truthy m v db = Ok kept) /\
    (forall v, exists b, on_across_by_filter m v = Ok b) /\
    (forall v fr l, Forall (located fr) l -> exists kept, A_filter truthy m v fr l = Ok kept) /\
    (forall v fr l, Forall (located fr) l -> exists kept, B_filter truthy m v fr l = Ok kept) /\
    (forall v fr l, Forall (located fr) l -> exists kept, X_filter truthy m v fr l = Ok kept) /\
    (forall v fr ts, Forall (fun t : triplet => located fr (fst (fst t)) /\ located fr (snd (fst t)) /\ located fr (snd t)) ts ->
       exists kept, SideOps.ABX_filter truthy m v fr ts = Ok kept).
Proof. exact others_evaluated. Qed.
Print Assumptions C70_evaluated_partial.

Example C70_evaluated_partial_ex :
  Forall plain (flat_map names hx_forest) /\
  filter_manager hx_forest "phone" ["talker"] ["lang"] [DBfun_Compute ["n_A"; "lang"] (fun e => e "lang" <? e "n_A")] = Ok ux_A /\
  ~ (some_by (m_cols ux_A) ["n_A"; "lang"] /\ some_plain (m_cols ux_A) ["n_A"; "lang"]) /\ ~ lone_AB (m_cols ux_A) ["n_A"; "lang"] /\
  A_filter truthyZ ux_A (ln 0 0 3 0) (combine [0; 1; 2] [ln 0 0 3 1; ln 0 0 3 4; ln 0 0 3 9]) [0; 1; 2; 1] = Ok [1; 2; 3]%nat.
Proof.
  split; [apply hx_well_named|]. split; [exact ux_A_ok|]. split; [apply ux_A_neither|]. split; [apply ux_A_neither|]. vm_compute. reflexivity.
Qed.

(** ... because the first ones are given the plain columns only, and always raise NameError... *)
Theorem C70_by_and_plain_refuted :
  forall forest on across by_ inputs script m, Forall plain (flat_map names forest) ->
    filter_manager forest on across by_ [DBfun_Compute inputs script] = Ok m ->
  forall truthy, some_by (m_cols m) inputs -> some_plain (m_cols m) inputs ->
  forall v db, generic_filter truthy m v db = Err NameError.
Proof. exact by_and_plain. Qed.
Print Assumptions C70_by_and_plain_refuted.

Example C70_by_and_plain_refuted_ex :
  filter_manager hx_forest "phone" ["talker"] ["lang"] [DBfun_Compute ["n"; "lang"] (fun e => e "lang" <? e "n")] = Ok ux_by /\
  some_by (m_cols ux_by) ["n"; "lang"] /\ some_plain (m_cols ux_by) ["n"; "lang"] /\
  generic_filter truthyZ ux_by (ln 0 0 3 0) [ln 0 0 3 1; ln 0 0 3 4] = Err NameError.
Proof. split; [exact ux_by_ok|]. split; [apply ux_some_by|]. split; [apply ux_some_by|]. vm_compute. reflexivity. Qed.

(** ... and the second ones are not given the column with [_AB], and raise NameError at the stage
    of their other columns. *)
Theorem C70_lone_AB_refuted :
  forall forest on across by_ inputs script m, Forall plain (flat_map names forest) ->
    filter_manager forest on across by_ [DBfun_Compute inputs script] = Ok m ->
  forall truthy, lone_AB (m_cols m) inputs ->
    (forall v, on_across_by_filter m v = Err NameError) \/
    (forall v fr l, Forall (located fr) l -> A_filter truthy m v fr l = Err NameError) \/
    (forall v fr l, Forall (located fr) l -> B_filter truthy m v fr l = Err NameError) \/
    (forall v fr l, Forall (located fr) l -> X_filter truthy m v fr l = Err NameError) \/
    (forall v fr ts, Forall (fun t : triplet => located fr (fst (fst t)) /\ located fr (snd (fst t)) /\ located fr (snd t)) ts ->
       SideOps.ABX_filter truthy m v fr ts = Err NameError).
Proof. exact alone_AB. Qed.
Print Assumptions C70_lone_AB_refuted.

Example C70_lone_AB_refuted_ex :
  filter_manager hx_forest "phone" ["talker"] ["lang"] [DBfun_Compute ["n_AB"; "n_X"] (fun e => e "n_X" <? e "n_AB")] = Ok ux_AB /\
  lone_AB (m_cols ux_AB) ["n_AB"; "n_X"] /\
  X_filter truthyZ ux_AB (ln 0 0 3 0) (combine [0; 1] [ln 0 0 3 1; ln 0 0 3 4]) [0; 1] = Err NameError.
Proof. split; [exact ux_AB_ok|]. split; [exact ux_lone_AB|]. vm_compute. reflexivity. Qed.
