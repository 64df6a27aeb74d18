(** Dynamic time warping of sequences of numbers, for the examples and the refutation. *)
From Coq Require Import List ZArith QArith Qabs Lia Lqa.
From Verif Require Import Prelude Dtw Dtw_spec Dtw_proofs.
Import ListNotations.

(** The matrix of the absolute differences. *)
Definition diffs (x y : list Z) : res (list (list Z)) := Ok (map (fun a => map (fun b => Z.abs (a - b)) y) x).
Definition qdiffs (x y : list Z) : res (list (list Q)) := Ok (map (fun a => map (fun b => inject_Z (Z.abs (a - b))) y) x).

Definition zdiv (c : Z) (n : nat) : Z := Z.div c (Z.of_nat n).
Definition qdiv (c : Q) (n : nat) : Q := c / inject_Z (Z.of_nat n).

Definition zero_costs : costs Z := fun _ _ => 0%Z.
Definition other_costs : costs Z := fun i j => Z.of_nat (i + j).
Definition qzero_costs : costs Q := fun _ _ => 0%Q.

Lemma ordered_Z : ordered Z.add Z.leb.
Proof.
  constructor.
  - intros a b. rewrite !Z.leb_le. lia.
  - intros a b c. rewrite !Z.leb_le. lia.
  - intros d a b. rewrite !Z.leb_le. lia.
Qed.

Lemma antisym_Z a b : Z.leb a b = true -> Z.leb b a = true -> a = b.
Proof. rewrite !Z.leb_le. lia. Qed.

Lemma ordered_Q : ordered Qplus Qle_bool.
Proof.
  constructor.
  - intros a b. rewrite !Qle_bool_iff. lra.
  - intros a b c. rewrite !Qle_bool_iff. lra.
  - intros d a b. rewrite !Qle_bool_iff. lra.
Qed.

(** An addition rounded to a multiple of four. *)
Definition round4 (c : Z) : Z := (4 * (c / 4))%Z.
Definition add4 (a b : Z) : Z := round4 (a + b).

Lemma ordered_4 : ordered add4 Z.leb.
Proof.
  constructor.
  - intros a b. rewrite !Z.leb_le. lia.
  - intros a b c. rewrite !Z.leb_le. lia.
  - intros d a b. rewrite !Z.leb_le. intros H. unfold add4, round4.
    assert ((d + a) / 4 <= (d + b) / 4)%Z by (apply Z.div_le_mono; lia). lia.
Qed.

Definition ex_x : list Z := [0; 2; 0]%Z.
Definition ex_y : list Z := [0; 1; 0; 2]%Z.

Lemma diffs_shape x y : exists dist, diffs x y = Ok dist /\ shape (length x) (length y) dist.
Proof.
  eexists. split; [reflexivity|]. split; [apply map_length|]. intros row Hr. apply in_map_iff in Hr.
  destruct Hr as (a & <- & _). apply map_length.
Qed.

Lemma diffs_entry x y i j : entry 0%Z (map (fun a => map (fun b => Z.abs (a - b)) y) x) i j =
  match nth_error x i, nth_error y j with Some a, Some b => Z.abs (a - b) | _, _ => 0%Z end.
Proof.
  unfold entry. revert i. induction x as [|a x IH]; intros i; [destruct i; cbn; destruct j; reflexivity|].
  destruct i as [|i]; cbn [map nth nth_error]; [|apply IH]. clear. revert j.
  induction y as [|b y IH]; intros j; [destruct j; reflexivity|]. destruct j as [|j]; [reflexivity|]. cbn. apply IH.
Qed.

Lemma diffs_transposed x y : transposed 0%Z (map (fun a => map (fun b => Z.abs (a - b)) y) x) (map (fun a => map (fun b => Z.abs (a - b)) x) y).
Proof.
  intros i j. rewrite !diffs_entry. destruct (nth_error x j), (nth_error y i); try reflexivity. lia.
Qed.

Ltac steps := repeat match goal with |- alignment _ (_ :: ?a :: _) => apply (@al_move a); [|constructor] end.

(** Two alignments of the example. *)
Definition ex_p : list (nat * nat) := [(2, 3); (1, 3); (0, 2); (0, 1); (0, 0)]%nat.
Definition ex_q : list (nat * nat) := [(2, 3); (2, 2); (1, 1); (0, 0)]%nat.

Lemma ex_p_alignment : alignment (2, 3)%nat ex_p /\ cost_of Z.add (entry 0%Z [[0; 1; 0; 2]; [2; 1; 2; 0]; [0; 1; 0; 2]]%Z) ex_p = Some 3%Z.
Proof.
  split; [|reflexivity]. unfold ex_p.
  steps. constructor.
Qed.
Lemma ex_q_alignment : alignment (2, 3)%nat ex_q /\ cost_of Z.add (entry 0%Z [[0; 1; 0; 2]; [2; 1; 2; 0]; [0; 1; 0; 2]]%Z) ex_q = Some 3%Z.
Proof.
  split; [|reflexivity]. unfold ex_q.
  steps. constructor.
Qed.

Lemma normalised_refuted :
  dtw Qplus Qle_bool qdiv ex_x ex_y qdiffs true qzero_costs = Ok (qdiv (inject_Z 3) 4) /\
  dtw Qplus Qle_bool qdiv ex_y ex_x qdiffs true qzero_costs = Ok (qdiv (inject_Z 3) 5) /\
  qdiffs ex_x ex_y = Ok (map (map inject_Z) [[0; 1; 0; 2]; [2; 1; 2; 0]; [0; 1; 0; 2]]%Z) /\
  qdiffs ex_y ex_x = Ok (map (map inject_Z) [[0; 2; 0]; [1; 1; 1]; [0; 2; 0]; [2; 0; 2]]%Z) /\
  ~ (qdiv (inject_Z 3) 4 == qdiv (inject_Z 3) 5)%Q.
Proof.
  split; [vm_compute; reflexivity|]. split; [vm_compute; reflexivity|]. split; [reflexivity|]. split; [reflexivity|].
  intros C. vm_compute in C. discriminate.
Qed.
