(** What the distances of two items are, for the statements about [DefaultDistance]. *)
From Coq Require Import Reals List Arith.
From Verif Require Import Prelude Dtw_spec Metrics_spec.
Import ListNotations.
Local Open Scope R_scope.

Section Warping.
Variable g : frame -> frame -> R.

(** The sum of the distances of the frames that an alignment matches. *)
Definition along (xs ys : list frame) (p : list (nat * nat)) : R :=
  fold_right (fun a s => g (nth (fst a) xs []) (nth (snd a) ys []) + s) 0 p.

(** Alignments of all the frames, and those with the least sum. *)
Definition whole (xs ys : list frame) (p : list (nat * nat)) : Prop :=
  alignment (length xs - 1, length ys - 1)%nat p.
Definition least (xs ys : list frame) (p : list (nat * nat)) : Prop :=
  whole xs ys p /\ forall q, whole xs ys q -> along xs ys p <= along xs ys q.

End Warping.

(** The angle of two frames in half turns, 0 between zero frames and 1 between a zero frame and
    another one. *)
Definition cosine_between (f : frame -> frame -> R) : Prop :=
  (forall x y, zero_frame x -> zero_frame y -> f x y = 0) /\
  (forall x y, zero_frame x -> ~ zero_frame y -> f x y = 1) /\
  (forall x y, ~ zero_frame x -> zero_frame y -> f x y = 1) /\
  (forall x y, length x = length y -> ~ zero_frame x -> ~ zero_frame y -> is_angle x y (f x y)).

(** Frames with the same direction. *)
Definition same_direction (x y : frame) : Prop :=
  (zero_frame x /\ zero_frame y) \/ (~ zero_frame x /\ exists c, 0 < c /\ y = scale c x).

(** An alignment that only matches frames related by [r]. *)
Definition matches (r : frame -> frame -> Prop) (xs ys : list frame) (p : list (nat * nat)) : Prop :=
  Forall (fun a => r (nth (fst a) xs []) (nth (snd a) ys [])) p.

(** The divergence of two frames for the precision [e]. *)
Definition kl_between (e : R) (x y : frame) : R :=
  KL_symmetric (prob (shift e (prob x))) (prob (shift e (prob y))).
