(** Model of ABXpy/misc/type_fitting.py *)
From Verif Require Import Prelude.
Open Scope Z_scope.

(** type_fitting.py lines 4-24: [fit_integer_type(n, is_signed)]. The [types] list
    of lines 7-12 is written out per branch. *)
Definition fit_integer_type (n : Z) (is_signed : bool) : res itype :=
  let m := if is_signed then 1 else 0 in
  if n <? 2 ^ (8 - m) then Ok (if is_signed then I8 else U8)
  else if n <? 2 ^ (16 - m) then Ok (if is_signed then I16 else U16)
  else if n <? 2 ^ (32 - m) then Ok (if is_signed then I32 else U32)
  else if n <? 2 ^ (64 - m) then Ok (if is_signed then I64 else U64)
  else Err ValueError.
