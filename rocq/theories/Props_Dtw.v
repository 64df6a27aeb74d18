(** Properties of dynamic time warping (C31, C32, C33). *)
From Coq Require Import List ZArith QArith Lia.
From Verif Require Import Prelude Dtw Dtw_spec Dtw_proofs Dtw_ex.
Import ListNotations.
Local Open Scope nat_scope.

(** C31: the value is the cost of an alignment of minimal cost, whatever the order of the
    costs and the monotone addition, hence also for rounded additions, and whatever the
    initial contents of the array of costs. *)
Theorem C31_optimal : forall (C : Type) (add : C -> C -> C) (leb : C -> C -> bool) (divn : C -> nat -> C),
  ordered add leb -> forall (F : Type) (metric : list F -> list F -> res (list (list C))) z x y dist empty,
  x <> [] -> y <> [] -> metric x y = Ok dist -> shape (length x) (length y) dist ->
  exists c p, dtw add leb divn x y metric false empty = Ok c /\
    optimal add leb (entry z dist) (length x - 1, length y - 1) p /\ cost_of add (entry z dist) p = Some c.
Proof. exact dtw_optimal. Qed.
Example C31_optimal_ex :
  ordered Z.add Z.leb /\ ordered add4 Z.leb /\ diffs ex_x ex_y = Ok [[0; 1; 0; 2]; [2; 1; 2; 0]; [0; 1; 0; 2]]%Z /\
  shape 3 4 [[0; 1; 0; 2]; [2; 1; 2; 0]; [0; 1; 0; 2]]%Z /\
  dtw Z.add Z.leb zdiv ex_x ex_y diffs false zero_costs = Ok 3%Z /\
  dtw Z.add Z.leb zdiv ex_x ex_y diffs false other_costs = Ok 3%Z /\
  dtw add4 Z.leb zdiv [0; 8; 3]%Z [5; 1]%Z diffs false zero_costs = Ok 8%Z.
Proof.
  split; [exact ordered_Z|]. split; [exact ordered_4|]. split; [reflexivity|].
  split; [split; [reflexivity|intros row [<-|[<-|[<-|[]]]]; reflexivity]|].
  split; [vm_compute; reflexivity|]. split; vm_compute; reflexivity.
Qed.
Print Assumptions C31_optimal.

(** C31: distances to an empty representation raise ValueError. *)
Theorem C31_empty : forall (C : Type) (add : C -> C -> C) (leb : C -> C -> bool) (divn : C -> nat -> C)
  (F : Type) (metric : list F -> list F -> res (list (list C))) x y normalized empty,
  x = [] \/ y = [] -> dtw add leb divn x y metric normalized empty = Err ValueError.
Proof. exact dtw_empty. Qed.
Example C31_empty_ex : dtw Z.add Z.leb zdiv ex_x [] diffs true zero_costs = Err ValueError.
Proof. reflexivity. Qed.
Print Assumptions C31_empty.

(** C32: the normalised value is the value divided by the length of an alignment of minimal
    cost, which is between the longer length and the sum of the lengths less one. *)
Theorem C32_normalised : forall (C : Type) (add : C -> C -> C) (leb : C -> C -> bool) (divn : C -> nat -> C),
  ordered add leb -> forall (F : Type) (metric : list F -> list F -> res (list (list C))) z x y dist empty,
  x <> [] -> y <> [] -> metric x y = Ok dist -> shape (length x) (length y) dist ->
  exists c p, dtw add leb divn x y metric false empty = Ok c /\ dtw add leb divn x y metric true empty = Ok (divn c (length p)) /\
    optimal add leb (entry z dist) (length x - 1, length y - 1) p /\
    Nat.max (length x) (length y) <= length p <= length x + length y - 1.
Proof. exact dtw_normalised. Qed.
Example C32_normalised_ex :
  ordered Qplus Qle_bool /\
  dtw Qplus Qle_bool qdiv ex_x ex_y qdiffs false qzero_costs = Ok 3%Q /\
  dtw Qplus Qle_bool qdiv ex_x ex_y qdiffs true qzero_costs = Ok (3 # 4)%Q /\
  (alignment (2, 3) ex_p /\ cost_of Z.add (entry 0%Z [[0; 1; 0; 2]; [2; 1; 2; 0]; [0; 1; 0; 2]]%Z) ex_p = Some 3%Z) /\
  (alignment (2, 3) ex_q /\ cost_of Z.add (entry 0%Z [[0; 1; 0; 2]; [2; 1; 2; 0]; [0; 1; 0; 2]]%Z) ex_q = Some 3%Z) /\
  length ex_p = 5 /\ length ex_q = 4.
Proof.
  split; [exact ordered_Q|]. split; [vm_compute; reflexivity|]. split; [vm_compute; reflexivity|].
  split; [exact ex_p_alignment|]. split; [exact ex_q_alignment|]. split; reflexivity.
Qed.
Print Assumptions C32_normalised.

(** C33: without normalisation, exchanging the sequences does not change the value, for local
    distances that are symmetric. *)
Theorem C33_symmetric : forall (C : Type) (add : C -> C -> C) (leb : C -> C -> bool) (divn : C -> nat -> C),
  ordered add leb -> forall (F : Type) (metric : list F -> list F -> res (list (list C))),
  (forall a b, leb a b = true -> leb b a = true -> a = b) -> forall z x y dist dist' empty empty',
  metric x y = Ok dist -> metric y x = Ok dist' ->
  shape (length x) (length y) dist -> shape (length y) (length x) dist' -> transposed z dist dist' ->
  dtw add leb divn x y metric false empty = dtw add leb divn y x metric false empty'.
Proof. exact dtw_symmetric. Qed.
Example C33_symmetric_ex :
  (forall x y, exists dist dist', diffs x y = Ok dist /\ diffs y x = Ok dist' /\
     shape (length x) (length y) dist /\ shape (length y) (length x) dist' /\ transposed 0%Z dist dist') /\
  dtw Z.add Z.leb zdiv ex_x ex_y diffs false zero_costs = Ok 3%Z /\
  dtw Z.add Z.leb zdiv ex_y ex_x diffs false zero_costs = Ok 3%Z.
Proof.
  split; [|split; vm_compute; reflexivity]. intros x y.
  destruct (diffs_shape x y) as (dist & E & S). destruct (diffs_shape y x) as (dist' & E' & S').
  exists dist, dist'. split; [exact E|]. split; [exact E'|]. split; [exact S|]. split; [exact S'|].
  injection E as <-. injection E' as <-. apply diffs_transposed.
Qed.
Print Assumptions C33_symmetric.

(** C33: nor does it with normalisation, when all the alignments of minimal cost have the same
    length. Missing: the other cases (false, see below). *)
Theorem C33_normalised_partial : forall (C : Type) (add : C -> C -> C) (leb : C -> C -> bool) (divn : C -> nat -> C),
  ordered add leb -> forall (F : Type) (metric : list F -> list F -> res (list (list C))),
  (forall a b, leb a b = true -> leb b a = true -> a = b) -> forall z x y dist dist' empty empty',
  metric x y = Ok dist -> metric y x = Ok dist' ->
  shape (length x) (length y) dist -> shape (length y) (length x) dist' -> transposed z dist dist' ->
  (forall p q, optimal add leb (entry z dist) (length x - 1, length y - 1) p ->
     optimal add leb (entry z dist) (length x - 1, length y - 1) q -> length p = length q) ->
  dtw add leb divn x y metric true empty = dtw add leb divn y x metric true empty'.
Proof. exact dtw_normalised_symmetric. Qed.
Example C33_normalised_partial_ex :
  (forall p q, optimal Z.add Z.leb (entry 0%Z [[4]; [1]; [9]]%Z) (2, 0) p -> optimal Z.add Z.leb (entry 0%Z [[4]; [1]; [9]]%Z) (2, 0) q ->
     length p = length q) /\ diffs [4; 1; 9]%Z [0]%Z = Ok [[4]; [1]; [9]]%Z /\
  dtw Z.add Z.leb zdiv [4; 1; 9]%Z [0]%Z diffs true zero_costs = Ok 4%Z /\
  dtw Z.add Z.leb zdiv [0]%Z [4; 1; 9]%Z diffs true zero_costs = Ok 4%Z.
Proof.
  split; [|split; [reflexivity|split; vm_compute; reflexivity]].
  intros p q [A _] [B _]. pose proof (alignment_length _ _ A) as LA. pose proof (alignment_length _ _ B) as LB. cbn in LA, LB.
  lia.
Qed.
Print Assumptions C33_normalised_partial.

(** C33 is false with normalisation: two alignments of minimal cost have different lengths,
    and the one that is traced back depends on the order of the sequences. *)
Theorem C33_normalised_refuted :
  dtw Qplus Qle_bool qdiv ex_x ex_y qdiffs true qzero_costs = Ok (qdiv (inject_Z 3) 4) /\
  dtw Qplus Qle_bool qdiv ex_y ex_x qdiffs true qzero_costs = Ok (qdiv (inject_Z 3) 5) /\
  qdiffs ex_x ex_y = Ok (map (map inject_Z) [[0; 1; 0; 2]; [2; 1; 2; 0]; [0; 1; 0; 2]]%Z) /\
  qdiffs ex_y ex_x = Ok (map (map inject_Z) [[0; 2; 0]; [1; 1; 1]; [0; 2; 0]; [2; 0; 2]]%Z) /\
  ~ (qdiv (inject_Z 3) 4 == qdiv (inject_Z 3) 5)%Q.
Proof. exact normalised_refuted. Qed.
Example C33_normalised_refuted_ex : ex_x = [0; 2; 0]%Z /\ ex_y = [0; 1; 0; 2]%Z.
Proof. split; reflexivity. Qed.
Print Assumptions C33_normalised_refuted.
