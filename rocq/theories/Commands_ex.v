(** Concrete commands for the examples of [Props_Commands]. *)
From Coq Require Import Ascii String List Bool ZArith.
From Verif Require Import Prelude PyCall Metrics Dtw DefaultDistance Distances DistanceCommand RunAll Commands_spec Commands_proofs.
Import ListNotations.
Local Open Scope string_scope.

Definition ex_files : files string := fun n =>
  if String.eqb n "out.dist" then Some "earlier distances" else if String.eqb n "in.abx" then Some "triplets" else None.

Definition ex_with (distance : option string) (n : option Z) : options :=
  mk_options "in.features" "features" "in.abx" "out.dist" distance 4 n.
Definition ex_options : options := ex_with (Some "dtw_kl") (Some 1%Z).

(** A computation that needs a new file. *)
Definition ex_compute (c : DistanceCommand.call string) (fs : files string) : files string * res unit :=
  match fs (c_output c) with
  | Some _ => (fs, Err RuntimeError)
  | None => (fun n => if String.eqb n (c_output c)
                      then Some (c_distance c ++ (match c_normalized c with Some 1%Z => " 1" | _ => " 0" end)
                                 ++ (if (c_cpus c =? 4)%Z then " cpu 4" else " cpu"))
                      else fs n, Ok tt)
  end.
Definition ex_import (path module f : string) : res string := Err AttributeError.

Lemma kept_refuted :
  ex_files "out.dist" = Some "earlier distances" /\
  let r := DistanceCommand.main "cosine" "edit" "kl" ex_import ex_compute (ex_with None None) ex_files in
  (fst r "out.dist", snd r) = (None, Exited).
Proof. split; reflexivity. Qed.

Lemma normalisation empty eval (x y : mat) :
  (forall n, call_default empty (normalized_arg (Some n)) x y = default_distance empty x y (negb (n =? 0)%Z)) /\
  call_default empty (normalized_arg None) x y = Err TypeError /\
  (forall n, call_kl empty (normalized_arg (Some n)) x y
             = (r <- dtw_kl_distance empty [x; y] 0 1 (negb (n =? 0)%Z) ;; Ok (snd r))) /\
  call_kl empty (normalized_arg None) x y = (r <- dtw_kl_distance empty [x; y] 0 1 true ;; Ok (snd r)) /\
  (forall n, call_edit eval (normalized_arg (Some n)) x y = Err TypeError) /\
  call_edit eval (normalized_arg None) x y = edit_distance eval x y.
Proof.
  destruct (calls empty eval x y) as (A1 & A2 & A3 & A4 & A5 & A6).
  assert (E : forall n, normalized_arg (Some n) = Some (negb (n =? 0)%Z)).
  { intros n. unfold normalized_arg. destruct (Z.eqb_spec n 1) as [->|]; [reflexivity|]. destruct (n =? 0)%Z; reflexivity. }
  split; [intros; rewrite E; apply A1|]. split; [exact A2|]. split; [intros; rewrite E; apply A3|]. split; [exact A4|].
  split; [intros; rewrite E; apply A5|exact A6].
Qed.

(** Steps that record that they ran. *)
Definition ex_body (f : callee) (args : list pyval) (st : list callee) : list callee * res unit := (f :: st, Ok tt).
Definition ex_show (v : pyval) : string := "?".
Definition ex_argv : argv := mk_argv "data.item" "data.features" "data.conf" (Some "data.abx") None None None None (Some "run").

Lemma complete_run_refuted :
  ~ (forall v : argv, exists st, RunAll.main ex_body ex_show (fun _ _ => true) (fun _ _ => Ok [("on", PStr "c0")]) v [] = (st, Ok tt)).
Proof. intros H. destruct (H ex_argv) as [st E]. discriminate E. Qed.
