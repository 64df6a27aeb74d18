(** Specification vocabulary for integer types: the mathematical range of each type,
    written as literals, independently of [Prelude.tmin]/[tmax]/[cast]. *)
From Verif Require Import Prelude.
Open Scope Z_scope.

Definition largest (t : itype) : Z :=
  match t with
  | I8 => 127 | I16 => 32767 | I32 => 2147483647 | I64 => 9223372036854775807
  | U8 => 255 | U16 => 65535 | U32 => 4294967295 | U64 => 18446744073709551615
  end.

Definition width (t : itype) : Z :=
  match t with
  | I8 | U8 => 1 | I16 | U16 => 2 | I32 | U32 => 4 | I64 | U64 => 8
  end.

Definition is_signed_type (t : itype) : bool :=
  match t with I8 | I16 | I32 | I64 => true | _ => false end.

(** [t] is the narrowest type of the requested signedness able to hold [n >= 0]. *)
Definition narrowest (t : itype) (n : Z) (s : bool) : Prop :=
  is_signed_type t = s /\ n <= largest t /\
  forall t', is_signed_type t' = s -> n <= largest t' -> width t <= width t'.
