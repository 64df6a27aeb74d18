(** Property theorems: choice of integer types (C14). *)
From Verif Require Import Prelude TypeFitting TypeFitting_spec TypeFitting_proofs.
Open Scope Z_scope.

(** C14: the type returned is the narrowest one of the requested signedness that holds
    [n]; ValueError is raised exactly if no type does. *)
Theorem C14_fit_is_narrowest :
  forall (n : Z) (s : bool),
    match fit_integer_type n s with
    | Ok t => narrowest t n s
    | Err e => e = ValueError /\ forall t, is_signed_type t = s -> largest t < n
    end.
Proof. exact fit_exact. Qed.
Print Assumptions C14_fit_is_narrowest.

Example C14_fit_is_narrowest_ex :
  map (fun n => fit_integer_type n false) [0; 255; 256; 65536; 2 ^ 32; 2 ^ 64]
  = [Ok U8; Ok U8; Ok U16; Ok U32; Ok U64; Err ValueError] /\
  map (fun n => fit_integer_type n true) [127; 128; 40000; 2 ^ 31; 2 ^ 63]
  = [Ok I8; Ok I16; Ok I32; Ok I64; Err ValueError].
Proof. vm_compute. split; reflexivity. Qed.

(** C14: every value of [0, n] is stored exactly in the type fitted to [n]. *)
Theorem C14_values_up_to_n_survive :
  forall (n : Z) (s : bool) (t : itype) (v : Z),
    fit_integer_type n s = Ok t -> 0 <= v <= n -> 0 <= v <= largest t /\ cast t v = v.
Proof. exact fit_stores. Qed.
Print Assumptions C14_values_up_to_n_survive.

Example C14_values_up_to_n_survive_ex :
  fit_integer_type 300 false = Ok U16 /\ cast U16 299 = 299 /\ cast U8 299 = 43.
Proof. vm_compute. repeat split; reflexivity. Qed.
