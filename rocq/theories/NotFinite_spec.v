(** Features that are not finite numbers. *)
From Coq Require Import Reals List.
From Verif Require Import Prelude Metrics Metrics_spec.
Import ListNotations.
Local Open Scope R_scope.

(** A frame has a value that is not a finite number. *)
Definition missing (r : list num) : Prop := In None r.

(** All the values of a frame are zero. *)
Definition all_zero (r : list num) : Prop := Forall (fun v => v = Some 0) r.

(** The values of a frame are numbers whose sum is zero. *)
Definition sums_to_zero (r : list num) : Prop := exists f : frame, r = map Some f /\ total f = 0.

(** One of two frames has a value that is not a number, and the other one is not zero. *)
Definition clash (r s : list num) : Prop := (missing r /\ ~ all_zero s) \/ (missing s /\ ~ all_zero r).

(** Two arrays that the metrics accept, with at least one frame each. *)
Record comparable (x y : mat) : Prop := mk_comparable {
  cp_float : is_float (m_type x);
  cp_type : m_type y = m_type x;
  cp_cols : m_cols x = m_cols y;
  cp_x : m_rows x <> [];
  cp_y : m_rows y <> []
}.
