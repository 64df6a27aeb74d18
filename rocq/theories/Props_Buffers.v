(** Property theorems: buffered reading and writing of HDF5 datasets (C20-C23). *)
From Verif Require Import Prelude H52np H52np_spec H52np_proofs Np2h5 Np2h5_spec Np2h5_proofs.

(** C20: iterating over a dataset or a sub-range yields non-empty blocks, each no larger
    than the buffer, whose concatenation is exactly the requested rows. [num / den] is
    the occupancy threshold under which the buffer is refilled (1/4 in the code). *)
Theorem C20_iteration_yields_the_rows :
  forall (A : Type) (zero : A) (num den : nat), 0 < num -> num <= den ->
  forall (buflen : nat) (range : option (nat * nat)) (d : list A),
    0 < buflen ->
    (forall i0 i1, range = Some (i0, i1) -> i0 <= i1 <= length d) ->
    exists blocks,
      read_blocks zero num den buflen range d = Ok blocks /\
      concat blocks = rows_of range d /\
      Forall (fun l => l <> [] /\ length l <= buflen) blocks.
Proof. exact read_blocks_spec. Qed.
Print Assumptions C20_iteration_yields_the_rows.

Example C20_iteration_yields_the_rows_ex :
  read_blocks 0 1 4 4 (Some (2, 9)) [10; 11; 12; 13; 14; 15; 16; 17; 18; 19; 20]
  = Ok [[12; 13; 14; 15]; [16; 17; 18]].
Proof. vm_compute. reflexivity. Qed.

(** C20: successive explicit reads return the next rows, as many as asked for while
    there are enough left; reading stops at the end of the range. *)
Theorem C20_read_returns_the_next_rows :
  forall (A : Type) (zero : A) (num den buflen : nat) (range : option (nat * nat))
         (d : list A) (amounts : list nat),
    0 < num -> num <= den -> 0 < buflen ->
    (forall i0 i1, range = Some (i0, i1) -> i0 <= i1 <= length d) ->
    Forall (fun n => 0 < n) amounts ->
    (s <- rbuf_open zero num den buflen range d ;; read_seq num den s amounts)
    = Ok (cut amounts (rows_of range d)).
Proof. exact read_amounts_top. Qed.
Print Assumptions C20_read_returns_the_next_rows.

Example C20_read_returns_the_next_rows_ex :
  (s <- rbuf_open 0 1 4 3 None [1; 2; 3; 4; 5; 6; 7; 8] ;; read_seq 1 4 s [2; 5; 4; 1])
  = Ok [[1; 2]; [3; 4; 5; 6; 7]; [8]].
Proof. vm_compute. reflexivity. Qed.

(** C20: asking for zero rows is an error, not an empty answer. *)
Theorem C20_reading_zero_rows_raises :
  forall (A : Type) (num den : nat) (s : rbuf A), rbuf_read num den s (Some 0) = Err ValueError.
Proof. exact read_zero_top. Qed.
Print Assumptions C20_reading_zero_rows_raises.

Example C20_reading_zero_rows_raises_ex :
  exists s, rbuf_open 0 1 4 3 None [1; 2; 3; 4] = Ok s /\ rbuf_read 1 4 s (Some 0) = Err ValueError.
Proof. eexists. split; vm_compute; reflexivity. Qed.

(** C20: the buffer holds the rows that fit in the memory budget, to the nearest row. *)
Theorem C20_buffer_uses_the_budget :
  forall (size row : Z) (n : nat),
    (0 < row)%Z -> (0 <= size)%Z -> read_buf_len size row = Ok n ->
    (2 * size - row <= 2 * row * Z.of_nat n <= 2 * size + row)%Z.
Proof. exact read_buf_len_spec. Qed.
Print Assumptions C20_buffer_uses_the_budget.

Example C20_buffer_uses_the_budget_ex : read_buf_len 1000 16 = Ok 62.
Proof. vm_compute. reflexivity. Qed.

(** C21: growable dataset: after any sequence of writes and flushes, leaving the context
    leaves exactly the written rows, followed by the pre-allocated zero rows if fewer
    rows than announced were written; no error is raised. *)
Theorem C21_growable_holds_what_was_written :
  forall (A : Type) (zero : A) (buflen chunk n0 : nat) (ops : list (wop A)),
    0 < buflen -> 0 < chunk -> forallb plain ops = true ->
    session zero false false buflen chunk n0 None ops
    = (None, Some (written ops ++ repeat zero (n0 - length (written ops)))).
Proof. exact session_growable. Qed.
Print Assumptions C21_growable_holds_what_was_written.

Example C21_growable_holds_what_was_written_ex :
  session 0 false false 2 1 7 None [WWrite [1; 2; 3]; WFlush; WWrite [4]; WWrite [5]]
  = (None, Some [1; 2; 3; 4; 5; 0; 0]).
Proof. vm_compute. reflexivity. Qed.

(** C21: the use made by task generation: writing, then resizing the dataset to the
    number of rows written, while part of the rows is still in the buffer. *)
Theorem C21_resized_holds_what_was_written :
  forall (A : Type) (zero : A) (buflen chunk n0 : nat) (ops : list (wop A)),
    0 < buflen -> 0 < chunk -> forallb plain ops = true ->
    session zero false false buflen chunk n0 None (ops ++ [WResize (length (written ops))])
    = (None, Some (written ops)).
Proof. exact session_resized. Qed.
Print Assumptions C21_resized_holds_what_was_written.

Example C21_resized_holds_what_was_written_ex :
  session 0 false false 3 1 9 None [WWrite [1; 2; 3; 4]; WWrite [5]; WResize 5]
  = (None, Some [1; 2; 3; 4; 5]).
Proof. vm_compute. reflexivity. Qed.

(** C21, C22: fixed-size dataset (new, or overwritten with the same number of rows): if
    exactly the announced rows are written, the dataset holds them and nothing is raised. *)
Theorem C22_complete_fixed_size_is_accepted :
  forall (A : Type) (zero : A) (buflen : nat) (overwrite : bool) (chunk n0 : nat)
         (existing : option (list A)) (ops : list (wop A)),
    0 < buflen -> 0 < n0 ->
    (existing = None \/ exists d, existing = Some d /\ overwrite = true /\ length d = n0) ->
    forallb plain ops = true -> length (written ops) = n0 ->
    session zero true overwrite buflen chunk n0 existing ops = (None, Some (written ops)).
Proof. exact session_fixed_ok. Qed.
Print Assumptions C22_complete_fixed_size_is_accepted.

Example C22_complete_fixed_size_is_accepted_ex :
  session 0 true true 2 1 3 (Some [7; 8; 9]) [WWrite [1; 2]; WWrite [3]]
  = (None, Some [1; 2; 3]).
Proof. vm_compute. reflexivity. Qed.

(** C22: any other number of rows (fewer or more) raises, whatever the buffer size and
    the way the rows are cut into writes. *)
Theorem C22_incomplete_fixed_size_is_reported :
  forall (A : Type) (zero : A) (buflen : nat) (overwrite : bool) (chunk n0 : nat)
         (existing : option (list A)) (ops : list (wop A)),
    forallb plain ops = true -> length (written ops) <> n0 ->
    exists e, fst (session zero true overwrite buflen chunk n0 existing ops) = Some e.
Proof. exact session_fixed_fail. Qed.
Print Assumptions C22_incomplete_fixed_size_is_reported.

Example C22_incomplete_fixed_size_is_reported_ex :
  fst (session 0 true false 2 1 4 None [WWrite [1; 2]; WWrite [3]]) = Some UserWarning /\
  fst (session 0 true false 2 1 2 None [WWrite [1; 2]; WWrite [3; 4]]) = Some UserWarning.
Proof. vm_compute. split; reflexivity. Qed.

(** C23 is false: when an exception leaves the context the dataset is still in the file
    (only a Python reference is deleted), with everything written before the exception... *)
Theorem C23_dataset_survives_a_failure_refuted :
  forall (A : Type) (zero : A) (buflen chunk n0 : nat) (ops : list (wop A)) (e : exn),
    0 < buflen -> 0 < chunk -> forallb plain ops = true ->
    session zero false false buflen chunk n0 None (ops ++ [WRaise e])
    = (Some e, Some (written ops ++ repeat zero (n0 - length (written ops)))).
Proof. exact session_error_keeps. Qed.
Print Assumptions C23_dataset_survives_a_failure_refuted.

Example C23_dataset_survives_a_failure_refuted_ex :
  session 0 false false 2 1 3 None [WWrite [1; 2; 3; 4]; WRaise KeyError]
  = (Some KeyError, Some [1; 2; 3; 4]).
Proof. vm_compute. reflexivity. Qed.

(** ... so that running the operation again fails. *)
Theorem C23_second_attempt_fails_refuted :
  exists (ops : list (wop nat)) (left_over : list nat),
    session 0 false false 2 1 3 None (ops ++ [WRaise KeyError]) = (Some KeyError, Some left_over) /\
    session 0 false false 2 1 3 (Some left_over) ops = (Some IOError, Some left_over).
Proof. exists [WWrite [1; 2; 3; 4]], [1; 2; 3; 4]. vm_compute. split; reflexivity. Qed.
Print Assumptions C23_second_attempt_fails_refuted.

(** C21: the buffer holds the rows that fit in the memory budget, to the nearest row; the
    number of lines is computed with a division by the row size. *)
Theorem C21_buffer_uses_the_budget :
  forall (item cols mem : Z) (n : nat),
    (0 < item)%Z -> (0 < cols)%Z -> (0 <= mem)%Z -> nb_lines item cols mem = Ok n ->
    (2 * (mem * 1000) - item * cols <= 2 * (item * cols) * Z.of_nat n
     <= 2 * (mem * 1000) + item * cols)%Z.
Proof. exact nb_lines_spec. Qed.
Print Assumptions C21_buffer_uses_the_budget.

Example C21_buffer_uses_the_budget_ex : nb_lines 8 3 100 = Ok 4167%nat.
Proof. vm_compute. reflexivity. Qed.

(** C21 does not extend to rows larger than twice the budget (empty buffer): for a
    fixed-size dataset the write never returns, however many iterations are allowed. *)
Theorem C21_empty_buffer_never_returns_refuted :
  forall (A : Type) (zero : A) (n0 fuel : nat) (data : list A),
    wbuf_write_fuel zero fuel
      {| w_fixed := true; w_buflen := 0; w_buf := []; w_bufix := 0;
         w_dset := repeat zero n0; w_dsetix := 0; w_nrows := n0 |} data = Err OutOfFuel.
Proof. exact write_empty_buffer. Qed.
Print Assumptions C21_empty_buffer_never_returns_refuted.

Example C21_empty_buffer_never_returns_refuted_ex : nb_lines 8 1000 3 = Ok 0 /\
  exists s, wbuf_new 0 true false 0 0 5 None = Ok s /\ wbuf_write 0 s [1; 2] = Err OutOfFuel.
Proof. split; [vm_compute; reflexivity|]. eexists. split; vm_compute; reflexivity. Qed.
