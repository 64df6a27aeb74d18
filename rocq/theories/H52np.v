(** Model of ABXpy/h5tools/h52np.py: buffered reading of HDF5 datasets. *)
From Verif Require Import Prelude.
Set Implicit Arguments.

Section H52np.
(** A row of the dataset, and the all-zero row of [np.zeros]. *)
Variable A : Type.
Variable zero : A.
(** minimum_occupied_portion = [occ_num / occ_den] (h52np.py line 58: 0.25). *)
Variables occ_num occ_den : nat.

(** State of a H52NPbuffer (h52np.py lines 83-114) or H5dataset2NPbuffer (lines
    211-252); the two classes only differ in the initial range, and the latter's
    [dataset_end] always equals its [n_rows]. *)
Record rbuf : Type := mk_rbuf {
  r_dset : list A;     (* self.dataset[...] *)
  r_nrows : nat;       (* self.n_rows (end of the range) *)
  r_dsetix : nat;      (* self.dataset_ix *)
  r_buflen : nat;      (* self.buf_len *)
  r_bufix : nat;       (* self.buf_ix: number of free rows, at the front *)
  r_buf : list A       (* self.buf *)
}.

(** h52np.py lines 105-108: number of rows of the buffer for a buffer of [buf_size_b]
    bytes ([buf_size] kilobytes) and rows of [row_bytes] bytes. *)
Definition read_buf_len (buf_size_b row_bytes : Z) : res nat :=
  if (row_bytes =? 0)%Z then Err ZeroDivisionError
  else Ok (Z.to_nat (round_div buf_size_b row_bytes)).

(** h52np.py lines 184-194. *)
Definition isempty (s : rbuf) : bool := (r_dsetix s =? r_nrows s) && (r_bufix s =? r_buflen s).
Definition buffer_empty (s : rbuf) : bool := r_bufix s =? r_buflen s.
Definition dataset_empty (s : rbuf) : bool := r_dsetix s =? r_nrows s.

(** h52np.py lines 154-175 (and 259-280): [refill_buffer]. The float test
    [1. - buf_ix/buf_len < minimum_occupied_portion] is written with integers. The
    two slice assignments need equal shapes (else numpy raises ValueError). *)
Definition refill_buffer (s : rbuf) : res rbuf :=
  if negb (r_dsetix s =? r_nrows s) then
    if r_buflen s =? 0 then Err ZeroDivisionError
    else if occ_den * (r_buflen s - r_bufix s) <? occ_num * r_buflen s then
      let curr_ix := r_dsetix s in
      let next_ix0 := curr_ix + r_bufix s in
      let next_buf_ix := next_ix0 - r_nrows s in   (* max(., 0) is nat subtraction *)
      let amount_in_buffer := r_buflen s - r_bufix s in
      let next_ix := Nat.min next_ix0 (r_nrows s) in
      let buf1 := splice next_buf_ix (skipn (r_bufix s) (r_buf s)) (r_buf s) in
      let new := slice curr_ix next_ix (r_dset s) in
      if length new =? r_buflen s - (next_buf_ix + amount_in_buffer) then
        Ok {| r_dset := r_dset s; r_nrows := r_nrows s; r_dsetix := next_ix;
              r_buflen := r_buflen s; r_bufix := next_buf_ix;
              r_buf := splice (next_buf_ix + amount_in_buffer) new buf1 |}
      else Err ValueError
    else Ok s
  else Ok s.

(** h52np.py lines 84-114: [H52NPbuffer.__init__] ([range = None]) and lines 214-252:
    [H5dataset2NPbuffer.__init__] ([range = Some (start, end)]). *)
Definition rbuf_open (buflen : nat) (range : option (nat * nat)) (d : list A) : res rbuf :=
  let '(i0, i1) := match range with Some r => r | None => (0, length d) end in
  refill_buffer {| r_dset := d; r_nrows := i1; r_dsetix := i0; r_buflen := buflen;
                   r_bufix := buflen; r_buf := repeat zero buflen |}.

(** h52np.py lines 132-151: the loop of [read]; [found] is [amount_found], [data] the
    blocks gathered so far, concatenated. *)
Fixpoint read_loop (fuel : nat) (s : rbuf) (amount found : nat) (data : list A)
  : res (list A * rbuf) :=
  match fuel with
  | O => Err OutOfFuel
  | S fuel' =>
    if (found <? amount) && negb (isempty s) then
      let needed := amount - found in
      let amount_in_buffer := r_buflen s - r_bufix s in
      let '(next_buf_ix, found') :=
        if needed <? amount_in_buffer then (r_bufix s + needed, amount)
        else (r_buflen s, found + amount_in_buffer) in
      let block := slice (r_bufix s) next_buf_ix (r_buf s) in
      s' <- refill_buffer
              {| r_dset := r_dset s; r_nrows := r_nrows s; r_dsetix := r_dsetix s;
                 r_buflen := r_buflen s; r_bufix := next_buf_ix; r_buf := r_buf s |} ;;
      read_loop fuel' s' amount found' (data ++ block)
    else Ok (data, s)
  end.

(** Result of [read]: StopIteration is not an error for the iterator protocol. *)
Inductive read_result : Type :=
| Stop
| Data (l : list A) (s : rbuf).

(** h52np.py lines 118-152: [read(amount)]; [amount = None] reads the buffer. *)
Definition rbuf_read (s : rbuf) (amount : option nat) : res read_result :=
  match amount with
  | Some 0 => Err ValueError
  | _ =>
    let n := match amount with Some n => n | None => r_buflen s - r_bufix s end in
    if isempty s then Ok Stop
    else
      p <- read_loop (S n) s n 0 [] ;;
      Ok (Data (fst p) (snd p))
  end.

(** [for data in buffer: ...] (lines 177-181): the list of blocks produced. *)
Fixpoint iterate (fuel : nat) (s : rbuf) : res (list (list A)) :=
  match fuel with
  | O => Err OutOfFuel
  | S fuel' =>
    r <- rbuf_read s None ;;
    match r with
    | Stop => Ok []
    | Data l s' => ls <- iterate fuel' s' ;; Ok (l :: ls)
    end
  end.

(** Opening a dataset (or a sub-range) and iterating over it to the end. *)
Definition read_blocks (buflen : nat) (range : option (nat * nat)) (d : list A)
  : res (list (list A)) :=
  s <- rbuf_open buflen range d ;;
  iterate (S (length d)) s.

(** A sequence of explicit reads, with the rows each returned. *)
Fixpoint read_seq (s : rbuf) (amounts : list nat) : res (list (list A)) :=
  match amounts with
  | [] => Ok []
  | a :: amounts' =>
    r <- rbuf_read s (Some a) ;;
    match r with
    | Stop => Ok []
    | Data l s' => ls <- read_seq s' amounts' ;; Ok (l :: ls)
    end
  end.

End H52np.


Arguments Stop {A}.
Arguments Data {A} l s.
