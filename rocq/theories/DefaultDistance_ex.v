(** Concrete items for the examples of [Props_DefaultDistance]. *)
From Coq Require Import Reals List Bool Arith Lia Lra.
From Verif Require Import Prelude Metrics Metrics_spec Metrics_proofs Metrics_cosine Metrics_ex Dtw Dtw_spec DefaultDistance
  DefaultDistance_spec DefaultDistance_proofs.
Import ListNotations.
Local Open Scope R_scope.

Definition ex_item1 : list frame := [[1; 0]; [0; 0]].
Definition ex_item2 : list frame := [[0; 2]; [3; 0]; [-1; 0]; [0; 0]].
(** What happens to be in the memory. *)
Definition ex_memory : costs num := fun i j => if (i =? j)%nat then None else Some (-7).

Ltac decide_all := repeat (match goal with |- context [Rle_dec ?a ?b] => destruct (Rle_dec a b); try lra end; cbn).

Lemma default_example :
  default_distance ex_memory (array Float64 2 ex_item1) (array Float64 2 ex_item2) false = Ok (Value (Some (3 / 2))) /\
  default_distance ex_memory (array Float64 2 ex_item1) (array Float64 2 ex_item2) true = Ok (Value (Some (3 / 8))).
Proof.
  unfold ex_item1, ex_item2, default_distance; rewrite cosine_example; split; cbn; unfold ndivn, min3, less, nle; cbn; decide_all.
  - do 3 f_equal; lra.
  - destruct (Req_EM_T (1 + 1 + 1 + 1) 0); [lra|]. do 3 f_equal; lra.
Qed.

(** The same directions, warped. *)
Definition ex_item3 : list frame := [[1; 1]; [0; 2]].
Definition ex_item4 : list frame := [[2; 2]; [5; 5]; [0; 1]].

Lemma same_direction_example :
  whole ex_item3 ex_item4 [(1, 2); (0, 1); (0, 0)]%nat /\ matches same_direction ex_item3 ex_item4 [(1, 2); (0, 1); (0, 0)]%nat.
Proof.
  split.
  - eapply al_move; [eapply al_move; [constructor|constructor]|constructor].
  - assert (A : ~ zero_frame [1; 1]) by (apply not_zero_1; left; lra).
    assert (B : ~ zero_frame [0; 2]) by (apply not_zero_1; right; lra).
    apply Forall_cons; [|apply Forall_cons; [|apply Forall_cons; [|constructor]]]; right; cbn; (split; [assumption|]).
    + exists (/ 2). split; [lra|]. unfold scale. cbn. repeat f_equal; lra.
    + exists 5. split; [lra|]. unfold scale. cbn. repeat f_equal; lra.
    + exists 2. split; [lra|]. unfold scale. cbn. repeat f_equal; lra.
Qed.

Lemma usable_2 a b : 0 <= a -> 0 <= b -> 0 < a + b -> usable true [a; b].
Proof. intros. split; [apply nonnegative_2; assumption|cbn; lra]. Qed.

Definition ex_kl_heap : heap := [array Float32 2 [[1; 3]; [1; 0]]; array Float32 2 []; array Float32 2 [[2; 6]; [0; 5]; [0; 7]]].

Lemma ex_kl_usable : precision Float32 (/ 2 ^ 23) /\ frames_of 2 [[1; 3]; [1; 0]] /\ frames_of 2 [[2; 6]; [0; 5]; [0; 7]] /\
  Forall (usable true) [[1; 3]; [1; 0]] /\ Forall (usable true) [[2; 6]; [0; 5]; [0; 7]].
Proof.
  split; [right; split; reflexivity|]. split; [repeat constructor|]. split; [repeat constructor|].
  split; repeat (apply Forall_cons; [apply usable_2; lra|]); constructor.
Qed.
