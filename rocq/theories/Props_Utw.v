(** Properties of uniform time warping (C44). *)
From Coq Require Import List ZArith QArith Sorting.
From Verif Require Import Prelude Rounding Utw Utw_spec Utw_main Utw_ex.
Import ListNotations.
Local Open Scope nat_scope.

(** C44: the value is the sum, over the frames of the longer sequence, of their mean distance
    to the one or two frames matched with them, which exist and are in order; for every
    rounding of relative precision 2^-53. *)
Theorem C44_matching : forall rnd (F : Type) (delta : F -> F -> Q) div (x y short long : list F),
  precise rnd -> framewise delta div ->
  (short, long) = (if (length y <? length x)%nat then (y, x) else (x, y)) -> short <> [] -> (Z.of_nat (length long) <= 2 ^ 50)%Z ->
  exists v m, utw rnd x y div = Ok v /\ matching (length short) (length long) m /\
    (v == sum (map (fun p => mean_distance delta short (fst p) (snd p)) (combine m long)))%Q.
Proof. exact (@utw_value). Qed.
Example C44_matching_ex :
  precise rnd64 /\ framewise gap gaps /\ exists v, utw rnd64 ex_x ex_y gaps = Ok v /\ (v == 28)%Q /\
  matching 4 7 [[0]; [0]; [1]; [1; 2]; [2]; [3]; [3]] /\
  (v == sum (map (fun p => mean_distance gap ex_y (fst p) (snd p)) (combine [[0]; [0]; [1]; [1; 2]; [2]; [3]; [3]]%nat ex_x)))%Q.
Proof.
  split; [exact rnd64_precise|]. split; [exact gaps_framewise|]. eexists. split; [vm_compute; reflexivity|]. split; [reflexivity|].
  split; [|reflexivity]. constructor; [reflexivity| | |].
  - repeat (constructor; [eexists; first [left; reflexivity|right; reflexivity]|]). constructor.
  - intros i Hi. cbn in Hi. repeat (destruct Hi as [<-|Hi]; [auto with arith|]). destruct Hi.
  - cbn. repeat (constructor; [|repeat (constructor; [auto with arith|]); constructor]). constructor.
Qed.
Print Assumptions C44_matching.

(** C44: exchanging the sequences does not change the value, when the distance between frames
    is symmetric. *)
Theorem C44_symmetric : forall rnd (F : Type) (delta : F -> F -> Q) div (x y : list F), precise rnd -> framewise delta div ->
  (forall a b, (delta a b == delta b a)%Q) -> x <> [] -> y <> [] ->
  (Z.of_nat (length x) <= 2 ^ 50)%Z -> (Z.of_nat (length y) <= 2 ^ 50)%Z ->
  exists v v', utw rnd x y div = Ok v /\ utw rnd y x div = Ok v' /\ (v == v')%Q.
Proof. exact (@utw_symmetric). Qed.
Example C44_symmetric_ex :
  (forall a b, (gap a b == gap b a)%Q) /\
  exists v v', utw rnd64 ex_y ex_x gaps = Ok v /\ utw rnd64 ex_x ex_y gaps = Ok v' /\ (v == 28)%Q /\ (v' == 28)%Q.
Proof.
  split; [exact gap_sym|]. eexists _, _. split; [vm_compute; reflexivity|]. split; [vm_compute; reflexivity|]. split; reflexivity.
Qed.
Print Assumptions C44_symmetric.

(** C44: sequences of the same length are compared frame by frame. *)
Theorem C44_same_length : forall rnd (F : Type) (delta : F -> F -> Q) div (x y : list F), precise rnd -> framewise delta div ->
  length x = length y -> x <> [] -> (Z.of_nat (length x) <= 2 ^ 50)%Z ->
  exists v, utw rnd x y div = Ok v /\ (v == sum (map (fun p => delta (fst p) (snd p)) (combine x y)))%Q.
Proof. exact (@utw_same_length). Qed.
Example C44_same_length_ex :
  exists v, utw rnd64 [4; 5; 9]%Z [1; 7; 9]%Z gaps = Ok v /\ (v == 5)%Q.
Proof. eexists. split; [vm_compute; reflexivity|reflexivity]. Qed.
Print Assumptions C44_same_length.

(** C44: without rounding, each frame of the longer sequence is matched with the frame under its
    middle, or with both frames when its middle is between two. *)
Theorem C44_ideal_partial : forall rnd (F : Type) (delta : F -> F -> Q) div (x y short long : list F),
  (forall q, (rnd q == q)%Q) -> framewise delta div ->
  (short, long) = (if (length y <? length x)%nat then (y, x) else (x, y)) -> short <> [] -> (Z.of_nat (length long) <= 2 ^ 50)%Z ->
  exists v m, utw rnd x y div = Ok v /\ Forall2 (middle (length short) (length long)) (seq 0 (length long)) m /\
    (v == sum (map (fun p => mean_distance delta short (fst p) (snd p)) (combine m long)))%Q.
Proof. exact (@utw_ideal). Qed.
Example C44_ideal_partial_ex :
  Forall2 (middle 4 7) (seq 0 7) [[0]; [0]; [1]; [1; 2]; [2]; [3]; [3]] /\
  exists v, utw (fun q => q) ex_x ex_y gaps = Ok v /\ (v == 28)%Q.
Proof.
  split; [|eexists; split; [vm_compute; reflexivity|reflexivity]].
  repeat (constructor; [first [left; eexists; split; [reflexivity|split; reflexivity] | right; eexists; split; reflexivity]|]). constructor.
Qed.
Print Assumptions C44_ideal_partial.

(** C44: this is false of float64: the middle of frame 12 of 25 is between the frames 6 and 7 of
    14, but frame 6 is not counted. *)
Theorem C44_ideal_refuted : exists v v', utw rnd64 short14 long25 marks = Ok v /\ utw (fun q => q) short14 long25 marks = Ok v' /\
  (v == 1)%Q /\ (v' == 3 # 2)%Q /\ middle 14 25 12 [6; 7].
Proof. exact rounding_refuted. Qed.
Example C44_ideal_refuted_ex : length short14 = 14 /\ length long25 = 25 /\ framewise mark marks.
Proof. split; [reflexivity|]. split; [reflexivity|exact marks_framewise]. Qed.
Print Assumptions C44_ideal_refuted.

(** C44: an empty sequence raises. *)
Theorem C44_empty : forall rnd (F : Type) div (x y : list F), (forall q, (q == 0)%Q -> (rnd q == 0)%Q) -> x = [] \/ y = [] ->
  utw rnd x y div = Err (if (length x + length y =? 0)%nat then ZeroDivisionError else IndexError).
Proof. exact (@utw_empty). Qed.
Example C44_empty_ex : utw (fun q => q) [] ex_x gaps = Err IndexError /\ utw (fun q => q) [] [] gaps = Err ZeroDivisionError.
Proof. split; vm_compute; reflexivity. Qed.
Print Assumptions C44_empty.
