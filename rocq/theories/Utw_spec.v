(** Uniform time warping. *)
From Coq Require Import List ZArith QArith Qabs Sorting.
From Verif Require Import Prelude.
Import ListNotations.
Set Implicit Arguments.
Local Open Scope nat_scope.

(** Floats have a relative precision of 2^-53. *)
Definition precise (rnd : Q -> Q) : Prop := forall q, (0 < q)%Q -> (Qabs (rnd q - q) <= q * (1 # 2 ^ 53))%Q.

(** Distances between frames, taken in lists. *)
Definition framewise {F : Type} (delta : F -> F -> Q) (div : list F -> list F -> res (list Q)) : Prop :=
  forall xs ys, length xs = length ys -> div xs ys = Ok (map (fun p => delta (fst p) (snd p)) (combine xs ys)).

Definition sum (l : list Q) : Q := fold_right Qplus 0%Q l.

(** The mean of the distances of a frame to the frames matched with it. *)
Definition mean_distance {F : Type} (delta : F -> F -> Q) (x : list F) (frames : list nat) (b : F) : Q :=
  (sum (flat_map (fun i => match nth_error x i with Some a => [delta a b] | None => [] end) frames)
     / inject_Z (Z.of_nat (length frames)))%Q.

(** A matching of [n2] frames with [n1] frames: each frame is matched with one frame or two
    successive frames, in order. *)
Record matching (n1 n2 : nat) (m : list (list nat)) : Prop := mk_matching {
  m_each : length m = n2;
  m_frames : Forall (fun frames => exists i, frames = [i] \/ frames = [i; S i]) m;
  m_exist : forall i, In i (concat m) -> i < n1;
  m_order : StronglySorted le (concat m)
}.

(** The matching of uniform time warping: the middle of frame [j], of [n2] frames, stretched
    to [n1] frames, is within one frame or between two frames. *)
Definition middle (n1 n2 j : nat) (frames : list nat) : Prop :=
  let p := (Z.of_nat n1 * (2 * Z.of_nat j + 1))%Z in
  let q := (2 * Z.of_nat n2)%Z in
  (exists i, frames = [i] /\ (Z.of_nat i * q < p < (Z.of_nat i + 1) * q)%Z) \/
  (exists i, frames = [i; S i] /\ (p = (Z.of_nat i + 1) * q)%Z).
