(** Expected values over the random draws of a program. *)
From Coq Require Import Reals String.
From Verif Require Import Prelude Sampler Sampler_spec Task Task_spec Chance_spec.
Open Scope Z_scope.

Definition Rsum (l : list R) : R := fold_right Rplus 0%R l.

(** The mean of the number [w] of the result over the vectors of [T] draws below [L]; it is counted
    as zero when the program has not returned. *)
Definition mean {A : Type} (L : Z) (f : program A) (w : A -> R) (T : nat) : R :=
  (Rsum (map (fun v => match f (S T) (drawn L v) with Ok a => w a | Err _ => 0 end) (vectors L T)) / IZR L ^ T)%R.

(** The expected value of [w] is [e]. *)
Definition expects {A : Type} (M : Z) (f : program A) (w : A -> R) (e : R) : Prop :=
  forall L, multiple M L -> Un_cv (mean L f w) e.

Definition equal3 (s u : triplet) : bool :=
  let '(a, b, c) := s in let '(a', b', c') := u in (a =? a') && (b =? b') && (c =? c').

(** Does the file list the triplet [s] for the by [k]? *)
Definition listed (of : option task_file) (k : key) (s : triplet) : bool :=
  match of with
  | None => false
  | Some f => existsb (fun p => (if list_eq_dec Z.eq_dec (fst p) k then true else false) &&
                                existsb (equal3 s) (rows_of (snd p) (fl_triplets f)))
                (combine (fl_bys f) (fl_by_index f))
  end.
