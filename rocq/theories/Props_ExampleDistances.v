(** Properties of the distances given as examples (C73). *)
From Coq Require Import Reals List Arith.
From Verif Require Import Prelude Metrics Metrics_spec Dtw Dtw_spec DefaultDistance DefaultDistance_spec DefaultDistance_proofs
  DefaultDistance_ex ExampleDistances ExampleDistances_proofs.
Import ListNotations.
Local Open Scope R_scope.

(** C73: the distance of examples/complete_run.py, called by the distance step with normalisation or
    with False, is the default distance of items that have frames; it raises ValueError for the others.
    Called without the argument it raises TypeError. *)
Theorem C73_complete_run : forall empty x y,
  (forall b, m_rows x <> [] -> m_rows y <> [] -> call_complete_run empty (Some b) x y = default_distance empty x y b) /\
  (forall b, m_rows x = [] \/ m_rows y = [] -> call_complete_run empty (Some b) x y = Err ValueError) /\
  call_complete_run empty None x y = Err TypeError.
Proof. exact complete_run_calls. Qed.
Example C73_complete_run_ex :
  call_complete_run ex_memory (Some true) (array Float64 2 ex_item1) (array Float64 2 ex_item2) = Ok (Value (Some (3 / 8))) /\
  call_complete_run ex_memory (Some false) (array Float64 2 []) (array Float64 2 ex_item2) = Err ValueError.
Proof.
  split; [|apply C73_complete_run; left; reflexivity].
  rewrite (proj1 (C73_complete_run ex_memory _ _)) by discriminate. exact (proj2 default_example).
Qed.
Print Assumptions C73_complete_run.

(** C73: the distances of example_distances.py raise TypeError for all items that have frames, and for
    all items when the distance step gives them the argument normalized. Between items without frames
    they are 0, and infinite when one only has frames. *)
Theorem C73_examples_raise : forall f empty x y,
  (m_rows x <> [] -> m_rows y <> [] -> call_two (example_distance f empty) None x y = Err TypeError) /\
  (forall b, call_two (example_distance f empty) (Some b) x y = Err TypeError) /\
  (m_rows x = [] -> m_rows y = [] -> call_two (example_distance f empty) None x y = Ok (Value (Some 0))) /\
  (m_rows x = [] -> m_rows y <> [] -> call_two (example_distance f empty) None x y = Ok Infinite) /\
  (m_rows x <> [] -> m_rows y = [] -> call_two (example_distance f empty) None x y = Ok Infinite).
Proof. exact example_calls. Qed.
Example C73_examples_raise_ex :
  call_two (example_distance KullbackLeibler ex_memory) None (array Float64 2 ex_item1) (array Float64 2 ex_item2) = Err TypeError /\
  call_two (example_distance Cosine ex_memory) (Some true) (array Float64 2 ex_item1) (array Float64 2 ex_item2) = Err TypeError /\
  call_two (example_distance Cosine ex_memory) None (array Float64 2 ex_item1) (array Float64 2 []) = Ok Infinite.
Proof. split; [reflexivity|]. split; reflexivity. Qed.
Print Assumptions C73_examples_raise.

(** C73, refuted: "the distances given as examples compute a distance between any two items with frames
    of the same width": none of example_distances.py does, nor that of ABXrun.py. *)
Theorem C73_examples_refuted :
  (forall f normalized, call_two (example_distance f ex_memory) normalized (array Float64 2 ex_item1) (array Float64 2 ex_item2) = Err TypeError) /\
  (forall normalized, call_two (run_distance ex_memory) normalized (array Float64 2 ex_item1) (array Float64 2 ex_item2) = Err TypeError) /\
  default_distance ex_memory (array Float64 2 ex_item1) (array Float64 2 ex_item2) true = Ok (Value (Some (3 / 8))).
Proof. exact examples_refuted. Qed.
Print Assumptions C73_examples_refuted.
