(** Uniform time warping of sequences of numbers. *)
From Coq Require Import List Arith ZArith QArith Qabs Lqa Lia.
From Verif Require Import Prelude Rounding Utw Utw_spec.
Import ListNotations.
Local Open Scope nat_scope.

Definition gap (a b : Z) : Q := inject_Z (Z.abs (a - b)).
Definition gaps (xs ys : list Z) : res (list Q) :=
  if length xs =? length ys then Ok (map (fun p => gap (fst p) (snd p)) (combine xs ys)) else Err ValueError.

Lemma gaps_framewise : framewise gap gaps.
Proof. intros xs ys E. unfold gaps. rewrite E, Nat.eqb_refl. reflexivity. Qed.

Lemma gap_sym a b : (gap a b == gap b a)%Q.
Proof. unfold gap. rewrite <- Z.abs_opp. replace (- (a - b))%Z with (b - a)%Z by lia. reflexivity. Qed.

Definition ex_x : list Z := [1; 5; 4; 9; 2; 6; 8]%Z.
Definition ex_y : list Z := [3; 3; 7; 0]%Z.

(** Frame 12 of 25 frames is between the frames 6 and 7 of 14 frames. *)
Definition short14 : list Z := map Z.of_nat (seq 0 14).
Definition long25 : list Z := repeat 6%Z 25.
Definition mark (a b : Z) : Q := if (a =? 6)%Z then 1%Q else 0%Q.
Definition marks (xs ys : list Z) : res (list Q) := Ok (map (fun p => mark (fst p) (snd p)) (combine xs ys)).

Lemma marks_framewise : framewise mark marks.
Proof. intros xs ys E. reflexivity. Qed.

Lemma rounding_refuted : exists v v', utw rnd64 short14 long25 marks = Ok v /\ utw (fun q => q) short14 long25 marks = Ok v' /\
  (v == 1)%Q /\ (v' == 3 # 2)%Q /\ middle 14 25 12 [6; 7].
Proof.
  eexists _, _. split; [vm_compute; reflexivity|]. split; [vm_compute; reflexivity|].
  split; [reflexivity|]. split; [reflexivity|]. right. exists 6. split; reflexivity.
Qed.
