(** Model of ABXpy/h5tools/np2h5.py: buffered writing of numpy blocks to HDF5. *)
From Verif Require Import Prelude.
Set Implicit Arguments.

Section Np2h5.
(** A row of the dataset, and the all-zero row with which HDF5 and [np.zeros]
    initialise memory. *)
Variable A : Type.
Variable zero : A.

(** State of one NP2H5buffer (np2h5.py lines 95-158) together with the HDF5 dataset
    it writes to. The column count and item type only enter through [w_buflen]. *)
Record wbuf : Type := mk_wbuf {
  w_fixed : bool;      (* self.fixed_size *)
  w_buflen : nat;      (* self.buf_len *)
  w_buf : list A;      (* self.buf *)
  w_bufix : nat;       (* self.buf_ix *)
  w_dset : list A;     (* self.dataset[...] *)
  w_dsetix : nat;      (* self.dataset_ix *)
  w_nrows : nat        (* self.n_rows *)
}.

(** np2h5.py lines 217-218: [nb_lines]; [Err] for the float division by zero. *)
Definition nb_lines (item_size n_columns size_in_mem : Z) : res nat :=
  if (item_size * n_columns =? 0)%Z then Err ZeroDivisionError
  else Ok (Z.to_nat (round_div (size_in_mem * 1000) (item_size * n_columns))).

(** h5py [dataset.resize]: truncate or extend with zeros. *)
Definition h5_resize (n : nat) (d : list A) : list A :=
  firstn n d ++ repeat zero (n - length d).

(** h5py [dataset[start:start+len(new)] = new]. The selection is clipped to the
    dataset: nothing is selected (and nothing written) if it starts at or after the
    end; a partially clipped selection cannot be broadcast. *)
Definition h5_assign (start : nat) (new d : list A) : res (list A) :=
  if start + length new <=? length d then Ok (splice start new d)
  else if length d <=? start then Ok d
  else Err TypeError.

(** np2h5.py lines 99-158: [NP2H5buffer.__init__]. [existing] is the content of the
    dataset if it is already in the file; [chunk_lines] is line 149. The dtype and
    column checks of line 132 are not modelled (only the row count). *)
Definition wbuf_new (fixed overwrite : bool) (buflen chunk_lines n_rows : nat)
                    (existing : option (list A)) : res wbuf :=
  if (n_rows =? 0) && fixed then Err ValueError
  else if overwrite && negb fixed then Err ValueError
  else
    d <- match existing with
         | Some d => if overwrite
                     then if length d =? n_rows then Ok d else Err IOError
                     else Err IOError
         | None => if negb fixed && (chunk_lines =? 0) then Err ValueError
                   else Ok (repeat zero n_rows)
         end ;;
    Ok {| w_fixed := fixed; w_buflen := buflen; w_buf := repeat zero buflen; w_bufix := 0;
          w_dset := d; w_dsetix := 0; w_nrows := n_rows |}.

(** np2h5.py lines 175-191: dump full buffers, then keep the rest. *)
Fixpoint write_loop (fuel : nat) (s : wbuf) (data : list A) (target : nat) : res wbuf :=
  match fuel with
  | O => Err OutOfFuel
  | S fuel' =>
    if w_buflen s <=? target then
      let space := w_buflen s - w_bufix s in
      let buf := splice (w_bufix s) (firstn space data) (w_buf s) in
      d <- h5_assign (w_dsetix s) buf (w_dset s) ;;
      write_loop fuel'
        {| w_fixed := w_fixed s; w_buflen := w_buflen s; w_buf := buf; w_bufix := 0;
           w_dset := d; w_dsetix := w_dsetix s + w_buflen s; w_nrows := w_nrows s |}
        (skipn space data) (target - w_buflen s)
    else
      Ok {| w_fixed := w_fixed s; w_buflen := w_buflen s;
            w_buf := splice (w_bufix s) data (w_buf s); w_bufix := target;
            w_dset := w_dset s; w_dsetix := w_dsetix s; w_nrows := w_nrows s |}
  end.

(** np2h5.py lines 160-174: [NP2H5buffer.write]; the growth of a non fixed dataset.
    The open-file check (line 162) is the session below. *)
Definition wbuf_write_fuel (fuel : nat) (s : wbuf) (data : list A) : res wbuf :=
  let target := w_bufix s + length data in
  if negb (w_fixed s) then
    if w_buflen s =? 0 then Err ZeroDivisionError
    else
      let necessary := w_dsetix s + w_buflen s * (target / w_buflen s) in
      let s' := if w_nrows s <? necessary
                then {| w_fixed := w_fixed s; w_buflen := w_buflen s; w_buf := w_buf s;
                        w_bufix := w_bufix s; w_dset := h5_resize necessary (w_dset s);
                        w_dsetix := w_dsetix s; w_nrows := necessary |}
                else s in
      write_loop fuel s' data target
  else write_loop fuel s data target.

Definition wbuf_write (s : wbuf) (data : list A) : res wbuf :=
  wbuf_write_fuel (S (w_bufix s + length data)) s data.

(** np2h5.py lines 193-202: [NP2H5buffer.flush]. *)
Definition wbuf_flush (s : wbuf) : res wbuf :=
  if 0 <? w_bufix s then
    let ix_end := w_dsetix s + w_bufix s in
    let d0 := if negb (w_fixed s) && (w_nrows s <? ix_end)
              then h5_resize ix_end (w_dset s) else w_dset s in
    d <- h5_assign (w_dsetix s) (firstn (w_bufix s) (w_buf s)) d0 ;;
    Ok {| w_fixed := w_fixed s; w_buflen := w_buflen s; w_buf := w_buf s; w_bufix := 0;
          w_dset := d; w_dsetix := ix_end; w_nrows := w_nrows s |}
  else Ok s.

(** np2h5.py lines 208-213: [NP2H5buffer.iscomplete]. *)
Definition wbuf_iscomplete (s : wbuf) : bool :=
  if w_fixed s then w_dsetix s =? w_nrows s else true.

(** np2h5.py lines 204-206: [NP2H5buffer.delete] executes [del self.dataset], which
    removes the Python attribute; the dataset stays in the file. The result is the
    content of the file. *)
Definition wbuf_delete (s : wbuf) : option (list A) := Some (w_dset s).

(** np2h5.py lines 47-79: [NP2H5.__exit__] without a pending exception, for all the
    buffers of the file object: flush all, then completeness check. *)
Definition exit_normal (bufs : list wbuf) : res (list wbuf) :=
  bufs' <- mapM wbuf_flush bufs ;;
  if forallb wbuf_iscomplete bufs' then Ok bufs' else Err UserWarning.

(** np2h5.py lines 47-79: [NP2H5.__exit__] with a pending exception, for one buffer:
    flush (an exception of the flush is swallowed, lines 72-77), then delete. *)
Definition exit_error (s : wbuf) : option (list A) :=
  match wbuf_flush s with
  | Ok s' => wbuf_delete s'
  | Err _ => Some (w_dset s)
  end.

(** A client of one buffer inside a [with] block: any sequence of writes, explicit
    flushes, resizes of the dataset through h5py (as task.py line 799 does), possibly
    ended by an exception raised by the client. *)
Inductive wop : Type :=
| WWrite (data : list A)
| WFlush
| WResize (n : nat)
| WRaise (e : exn).

Definition wbuf_step (s : wbuf) (o : wop) : res wbuf :=
  match o with
  | WWrite data => wbuf_write s data
  | WFlush => wbuf_flush s
  | WResize n => Ok {| w_fixed := w_fixed s; w_buflen := w_buflen s; w_buf := w_buf s;
                       w_bufix := w_bufix s; w_dset := h5_resize n (w_dset s);
                       w_dsetix := w_dsetix s; w_nrows := w_nrows s |}
  | WRaise e => Err e
  end.

(** Run the client; on an exception keep the state reached. *)
Fixpoint run_ops (ops : list wop) (s : wbuf) : wbuf * option exn :=
  match ops with
  | [] => (s, None)
  | o :: ops' => match wbuf_step s o with
                 | Ok s' => run_ops ops' s'
                 | Err e => (s, Some e)
                 end
  end.

(** A whole [with NP2H5(file) as f: f.add_dataset(...); ops] on one dataset: the
    exception it raises (if any) and the dataset in the file afterwards. A failing
    write may have modified the dataset before raising; the model keeps the state
    before the failing write in that case. *)
Definition session (fixed overwrite : bool) (buflen chunk_lines n_rows : nat)
                   (existing : option (list A)) (ops : list wop)
  : option exn * option (list A) :=
  match wbuf_new fixed overwrite buflen chunk_lines n_rows existing with
  | Err e => (Some e, existing)
  | Ok s0 =>
    match run_ops ops s0 with
    | (s, Some e) => (Some e, exit_error s)
    | (s, None) =>
      match exit_normal [s] with
      | Ok bufs => (None, match bufs with s' :: _ => Some (w_dset s') | [] => None end)
      | Err e => (Some e, match wbuf_flush s with
                          | Ok s' => Some (w_dset s')
                          | Err _ => Some (w_dset s)
                          end)
      end
    end
  end.

End Np2h5.




Arguments WWrite {A} data.
Arguments WFlush {A}.
Arguments WResize {A} n.
Arguments WRaise {A} e.
