(** What it means that the random choices of the program favour none of its results. *)
From Coq Require Import Reals String.
From Verif Require Import Prelude Sampler Sampler_spec Task.
Open Scope Z_scope.

(** The random source whose draws are the integers [v], below [L], then zeros: [rand()] is the
    draw divided by [L], and [randint(0, N)] the remainder of the draw by [N]. When [L] is a
    multiple of [N] and the draws are uniform, so are the remainders. *)
Definition drawn (L : Z) (v : list Z) : rng :=
  {| rnd_den := L; rnd_unit := fun c => nth c v 0; rnd_int := fun c N => nth c v 0 mod N;
     rnd_prop := fun _ => (0, true) |}.

(** A multiple of all the integers up to [M]. *)
Definition multiple (M L : Z) : Prop := 0 < L /\ forall r, 0 < r <= M -> (r | L).

(** A program that uses random draws, given the number of rounds of its loops. *)
Definition program (A : Type) := nat -> rng -> res A.

(** Among the vectors of [T] draws below [L], the share of those with which the program returns [a]. *)
Definition share {A : Type} (eqA : forall a b : A, {a = b} + {a <> b}) (L : Z) (f : program A) (a : A) (T : nat) : R :=
  (INR (List.length (filter (fun v => match f (S T) (drawn L v) with
                                 | Ok b => if eqA b a then true else false
                                 | Err _ => false
                                 end) (vectors L T))) / IZR L ^ T)%R.

(** [a] can be returned. *)
Definition possible {A : Type} (f : program A) (a : A) : Prop :=
  exists fuel R, rng_ok R /\ f fuel R = Ok a.

(** The program returns with probability one, and all that it can return is as likely: when the
    number of draws grows, the share of every possible result tends to the inverse of the number
    of the possible results. *)
Definition evenly {A : Type} (eqA : forall a b : A, {a = b} + {a <> b}) (M : Z) (f : program A) : Prop :=
  exists l, l <> [] /\ NoDup l /\ (forall a, In a l <-> possible f a) /\
    forall L, multiple M L -> forall a, In a l -> Un_cv (share eqA L f a) (/ INR (List.length l))%R.

(** Files are compared by their contents. *)
Definition file_dec : forall f g : option task_file, {f = g} + {f <> g}.
Proof. repeat (decide equality; try apply String.string_dec; try apply Z.eq_dec). Defined.
