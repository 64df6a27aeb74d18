(** The formats of floats, for the statements about roundings. *)
From Coq Require Import Reals ZArith.
Local Open Scope R_scope.

(** The numbers with [p] binary digits: float64 has 53, float32 has 24. *)
Definition with_digits (p : Z) (x : R) : Prop :=
  exists m e, (Z.abs m < 2 ^ p)%Z /\ x = IZR m * powerRZ 2 e.

(** Those whose last digit is not below 2 to the power [emin]: -1074 for float64, -149 for float32. *)
Definition in_format (p emin : Z) (x : R) : Prop :=
  exists m e, (Z.abs m < 2 ^ p)%Z /\ (emin <= e)%Z /\ x = IZR m * powerRZ 2 e.

(** A rounding to nearest, whatever it does with numbers in the middle. *)
Definition nearest_in (F : R -> Prop) (rnd : R -> R) : Prop :=
  forall x, F (rnd x) /\ forall g, F g -> Rabs (rnd x - x) <= Rabs (g - x).
