(** The numbers float64 of the machine (IEEE 754 binary64), with the operations of the standard library of
    Coq that define them on integers. *)
From Coq Require Import ZArith Bool List.
From Coq Require Import Floats.SpecFloat.
From Verif Require Import Prelude FloatDistance.
Import ListNotations.
Open Scope Z_scope.

Definition fl := spec_float.
Definition fadd (a b : fl) : fl := SFadd 53 1024 a b.
Definition fmul (a b : fl) : fl := SFmul 53 1024 a b.
Definition fdiv (a b : fl) : fl := SFdiv 53 1024 a b.
Definition fsqrt (a : fl) : fl := SFsqrt 53 1024 a.
(** The float of an integer. *)
Definition fz (n : Z) : fl := binary_normalize 53 1024 n 0 false.
Definition feq0 (a : fl) : bool := SFeqb a (fz 0).
Definition fge0 (a : fl) : bool := SFleb (fz 0) a.

(** Additions from the left, as for two terms in any order. *)
Definition fsum (l : list fl) : fl := match l with [] => fz 0 | a :: l => fold_left fadd l a end.
Definition fdot (l l' : list fl) : fl := fsum (map (fun p => fmul (fst p) (snd p)) (combine l l')).

(** The arithmetic, for any function [arccos] and division by pi. *)
Definition binary64 (arccos over_pi : fl -> fl) : arithmetic fl :=
  mk_arithmetic fmul fdiv fsqrt arccos over_pi (fz 0) (fz 1) feq0 fge0 fsum fdot.
