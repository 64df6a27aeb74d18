(** Property theorems: external sort (C17-C19). [argsort] is any function returning a
    sorting permutation (numpy does not specify the order of ties). *)
From Verif Require Import Prelude ExtSort ExtSort_spec ExtSort_proofs.

(** C17: when the sort returns, the keys are in order and are the original keys. *)
Theorem C17_keys_sorted :
  forall (argsort : list Z -> list nat) (V : Type) (vz : V) (fuel : nat)
         (buffer_b o_buffer_b line_weight : Z) (keys : list Z) (vals : list (list V)) keys' vals',
    argsort_spec argsort -> (0 < line_weight)%Z -> (0 <= buffer_b)%Z -> (0 <= o_buffer_b)%Z ->
    length keys < fuel ->
    h5sort_fuel argsort vz fuel buffer_b o_buffer_b line_weight keys vals = Ok (keys', vals') ->
    StronglySorted Z.le keys' /\ Permutation keys' keys.
Proof. exact h5sort_keys. Qed.
Print Assumptions C17_keys_sorted.

Example C17_keys_sorted_ex :
  argsort_spec argsort_ins /\
  h5sort argsort_ins 0 64 32 16 [5; 3; 9; 1; 1; 7; 3; 8; 2; 2; 6; 4; 0]%Z []
  = Ok ([0; 1; 1; 2; 2; 3; 3; 4; 5; 6; 7; 8; 9]%Z, []).
Proof. split; [exact argsort_ins_spec|vm_compute; reflexivity]. Qed.

(** C18: one permutation of the rows is applied to the keys and to every companion. *)
Theorem C18_companions_follow :
  forall (argsort : list Z -> list nat) (V : Type) (vz : V) (fuel : nat)
         (buffer_b o_buffer_b line_weight : Z) (keys : list Z) (vals : list (list V)) keys' vals',
    argsort_spec argsort -> (0 < line_weight)%Z -> (0 <= buffer_b)%Z -> (0 <= o_buffer_b)%Z ->
    length keys < fuel ->
    h5sort_fuel argsort vz fuel buffer_b o_buffer_b line_weight keys vals = Ok (keys', vals') ->
    sorted_together keys vals keys' vals'.
Proof. exact h5sort_sound. Qed.
Print Assumptions C18_companions_follow.

Example C18_companions_follow_ex :
  h5sort argsort_ins 0 64 32 16 [5; 3; 9; 1; 1; 7; 3; 8; 2; 2; 6; 4; 0]%Z
    [[1; 2; 3; 4; 5; 6; 7; 8; 9; 10; 11; 12; 13]; [21; 22; 23; 24; 25; 26; 27; 28; 29; 30; 31; 32; 33]]
  = Ok ([0; 1; 1; 2; 2; 3; 3; 4; 5; 6; 7; 8; 9]%Z,
        [[13; 4; 5; 9; 10; 2; 7; 12; 1; 11; 6; 8; 3]; [33; 24; 25; 29; 30; 22; 27; 32; 21; 31; 26; 28; 23]]).
Proof. vm_compute. reflexivity. Qed.

(** C18, row by row: the rows (key and all companion values) of the result are the rows
    of the input, permuted. *)
Theorem C18_rows_permuted :
  forall (V : Type) (keys : list Z) (vals : list (list V)) keys' vals',
    sorted_together keys vals keys' vals' ->
    Permutation (map (row keys' vals') (seq 0 (length keys'))) (map (row keys vals) (seq 0 (length keys))).
Proof. exact sorted_together_rows. Qed.
Print Assumptions C18_rows_permuted.

Example C18_rows_permuted_ex : sorted_together [2; 1]%Z [[7; 8]] [1; 2]%Z [[8; 7]].
Proof.
  split; [repeat constructor; lia|]. exists [1; 0]. split; [apply perm_swap|].
  split; [reflexivity|]. constructor; [reflexivity|constructor].
Qed.

(** C19: the exact outcome for every dataset and every memory budget of at least half a
    row: an empty dataset raises ZeroDivisionError, too many chunks for the budget or an
    output budget of at most half a row raise AssertionError, and otherwise the datasets
    are sorted. *)
Theorem C19_sort_outcome :
  forall (argsort : list Z -> list nat) (V : Type) (vz : V)
         (buffer_b o_buffer_b line_weight : Z) (keys : list Z) (vals : list (list V)),
    argsort_spec argsort -> (0 < line_weight)%Z -> (0 <= buffer_b)%Z -> (0 <= o_buffer_b)%Z ->
    Forall (fun v => length v = length keys) vals ->
    let buf_rows := Z.to_nat (round_div buffer_b line_weight) in
    let n_chunks := (length keys + buf_rows - 1) / buf_rows in
    (line_weight < 2 * buffer_b)%Z ->
    if (length keys =? 0)
    then h5sort argsort vz buffer_b o_buffer_b line_weight keys vals = Err ZeroDivisionError
    else if (2 * buf_rows <=? n_chunks) || (2 * o_buffer_b <=? line_weight)%Z
    then h5sort argsort vz buffer_b o_buffer_b line_weight keys vals = Err AssertionError
    else exists keys' vals',
      h5sort argsort vz buffer_b o_buffer_b line_weight keys vals = Ok (keys', vals') /\
      sorted_together keys vals keys' vals'.
Proof. exact h5sort_top. Qed.
Print Assumptions C19_sort_outcome.

Example C19_sort_outcome_ex :
  h5sort argsort_ins 0 16 16 8 [2; 1; 4; 3]%Z [[1; 2; 3; 4]] = Ok ([1; 2; 3; 4]%Z, [[2; 1; 4; 3]]) /\
  h5sort argsort_ins 0 8 16 8 [2; 1; 4; 3]%Z [[1; 2; 3; 4]] = Err AssertionError /\
  h5sort argsort_ins 0 16 4 8 [2; 1; 4; 3]%Z [[1; 2; 3; 4]] = Err AssertionError /\
  h5sort argsort_ins 0 16 16 8 [] [[]] = Err ZeroDivisionError.
Proof. vm_compute. repeat split; reflexivity. Qed.

(** C19: datasets of different lengths are refused. *)
Theorem C19_length_mismatch_raises :
  forall (argsort : list Z -> list nat) (V : Type) (vz : V) (fuel : nat)
         (buffer_b o_buffer_b line_weight : Z) (keys : list Z) (vals : list (list V)),
    ~ Forall (fun v => length v = length keys) vals ->
    h5sort_fuel argsort vz fuel buffer_b o_buffer_b line_weight keys vals = Err IOError.
Proof. exact h5sort_mismatch. Qed.
Print Assumptions C19_length_mismatch_raises.

Example C19_length_mismatch_raises_ex : ~ Forall (fun v => length v = length [1; 2]%Z) [[1; 2]; [3]].
Proof. intros H. inversion H as [|? ? _ H']. inversion H' as [|? ? E _]. discriminate. Qed.

(** C19 is false for smaller budgets: with at most half a row of memory the sort cuts
    empty chunks for ever, whatever the number of iterations allowed. *)
Theorem C19_tiny_budget_never_returns_refuted :
  forall (argsort : list Z -> list nat) (V : Type) (vz : V) (fuel : nat)
         (buffer_b o_buffer_b line_weight : Z) (keys : list Z) (vals : list (list V)),
    argsort_spec argsort -> (0 < line_weight)%Z -> (0 <= buffer_b)%Z ->
    Forall (fun v => length v = length keys) vals -> (2 * buffer_b <= line_weight)%Z ->
    h5sort_fuel argsort vz fuel buffer_b o_buffer_b line_weight keys vals = Err OutOfFuel.
Proof. exact h5sort_loops_top. Qed.
Print Assumptions C19_tiny_budget_never_returns_refuted.

Example C19_tiny_budget_never_returns_refuted_ex :
  h5sort_fuel argsort_ins 0 1000 1000 1000 4000 [2; 1]%Z [[1; 2]] = Err OutOfFuel.
Proof. vm_compute. reflexivity. Qed.
