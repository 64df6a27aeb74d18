(** Model of ABXpy/h5tools/h5_handler.py: external sort of HDF5 datasets. *)
From Verif Require Import Prelude H52np Np2h5.
Set Implicit Arguments.

Section ExtSort.
(** [np.argsort]; a row of a companion dataset, and its all-zero row. *)
Variable argsort : list Z -> list nat.
Variable V : Type.
Variable vz : V.

(** The key dataset (h5_handler.py line 47: first of the sources; one column, see the
    asserts of h52np.py lines 197-208) and the companion datasets. *)
Definition chunk : Type := list Z * list (list V).

(** h5_handler.py lines 220-236: [extract_chunk]. *)
Definition extract_chunk (keys : list Z) (vals : list (list V)) (i_start i_end : nat) : res chunk :=
  let key := slice i_start i_end keys in
  let order := argsort key in
  ck <- gather key order ;;
  cvs <- mapM (fun d => gather (slice i_start i_end d) order) vals ;;
  Ok (ck, cvs).

(** h5_handler.py lines 101-108: cut the datasets in chunks of [buf_rows] rows, plus a
    shorter last one. The chunks are listed in order (chunk [c] is [name_c]). *)
Fixpoint chunk_loop (fuel : nat) (keys : list Z) (vals : list (list V))
         (n_row buf_rows row : nat) : res (list chunk) :=
  match fuel with
  | O => Err OutOfFuel
  | S fuel' =>
    if row + buf_rows <=? n_row then
      c <- extract_chunk keys vals row (row + buf_rows) ;;
      cs <- chunk_loop fuel' keys vals n_row buf_rows (row + buf_rows) ;;
      Ok (c :: cs)
    else if row <? n_row then
      c <- extract_chunk keys vals row n_row ;; Ok [c]
    else Ok []
  end.

(** h52np.py lines 196-201: [current_tail], the last key of the buffer. *)
Definition current_tail (b : rbuf Z) : res Z := nth_res (r_buf b) (length (r_buf b) - 1).

(** h52np.py lines 205-208: [nb_lower_than], number of keys of the buffer not greater
    than [x] (bisection in the sorted buffer). *)
Definition nb_lower_than (b : rbuf Z) (x : Z) : nat :=
  bisect_right (skipn (r_bufix b) (r_buf b)) x.

(** Python's [min] of a list. *)
Definition min_list (l : list Z) : res Z :=
  match l with
  | [] => Err ValueError
  | x :: l' => Ok (fold_left Z.min l' x)
  end.

(** [np.concatenate] refuses an empty list. *)
Definition np_concat {A : Type} (blocks : list (list A)) : res (list A) :=
  match blocks with [] => Err ValueError | _ => Ok (concat blocks) end.

(** [buf.read(amount)] as a statement: at the end of the data StopIteration escapes.
    The occupancy threshold is the default 0.25 (h52np.py line 58). *)
Definition sread {A : Type} (b : rbuf A) (amount : option nat) : res (list A * rbuf A) :=
  r <- rbuf_read 1 4 b amount ;;
  match r with Stop => Err StopIteration | Data l b' => Ok (l, b') end.

(** h5_handler.py lines 165-168 and 180-183: read [amounts] from the buffers. *)
Fixpoint read_each {A : Type} (bufs : list (rbuf A)) (amounts : list nat)
  : res (list (list A) * list (rbuf A)) :=
  match bufs, amounts with
  | b :: bufs', a :: amounts' =>
    p <- (if 0 <? a then q <- sread b (Some a) ;; Ok ([fst q], snd q) else Ok ([], b)) ;;
    r <- read_each bufs' amounts' ;;
    Ok (fst p ++ fst r, snd p :: snd r)
  | _, _ => Ok ([], [])
  end.

(** h5_handler.py lines 188-193 and 200-205: read what is left in the buffers. *)
Fixpoint read_rest {A : Type} (bufs : list (rbuf A)) : res (list (list A)) :=
  match bufs with
  | [] => Ok []
  | b :: bufs' =>
    p <- (if negb (buffer_empty b) then q <- sread b None ;; Ok [fst q] else Ok []) ;;
    r <- read_rest bufs' ;;
    Ok (p ++ r)
  end.

(** State of the merge: input and output buffers of the keys and of the companions, and
    the Python variable [order] ([None]: not assigned yet). *)
Record merge : Type := mk_merge {
  m_ikeys : list (rbuf Z);                        (* i_buf[0] *)
  m_okey : wbuf Z;                                (* o_buf[0] *)
  m_comp : list (list (rbuf V) * wbuf V);         (* (i_buf[d], o_buf[d]), d >= 1 *)
  m_order : option (list nat)
}.

(** h5_handler.py lines 175-185, one companion dataset. *)
Definition merge_companion (order amounts : list nat) (io : list (rbuf V) * wbuf V)
  : res (list (rbuf V) * wbuf V) :=
  p <- read_each (fst io) amounts ;;
  data <- np_concat (fst p) ;;
  sorted <- gather data order ;;
  o' <- wbuf_write vz (snd io) sorted ;;
  Ok (snd p, o').

(** h5_handler.py lines 152-185: one iteration of the merge loop. *)
Definition merge_step (m : merge) : res merge :=
  tails <- mapM current_tail (filter (fun b => negb (isempty b)) (m_ikeys m)) ;;
  min_tail <- min_list tails ;;
  let amounts := map (fun b => nb_lower_than b min_tail) (m_ikeys m) in
  p <- read_each (m_ikeys m) amounts ;;
  data <- np_concat (fst p) ;;
  let order := argsort data in
  sorted <- gather data order ;;
  okey <- wbuf_write 0%Z (m_okey m) sorted ;;
  comp <- mapM (merge_companion order amounts) (m_comp m) ;;
  Ok {| m_ikeys := snd p; m_okey := okey; m_comp := comp; m_order := Some order |}.

(** h5_handler.py line 150: loop until every chunk is entirely in its buffer. *)
Fixpoint merge_loop (fuel : nat) (m : merge) : res merge :=
  match fuel with
  | O => Err OutOfFuel
  | S fuel' =>
    if forallb (@dataset_empty Z) (m_ikeys m) then Ok m
    else m' <- merge_step m ;; merge_loop fuel' m'
  end.

(** h5_handler.py lines 199-208, one companion dataset. *)
Definition flush_companion (order : option (list nat)) (io : list (rbuf V) * wbuf V)
  : res (wbuf V) :=
  blocks <- read_rest (fst io) ;;
  match blocks with
  | [] => Ok (snd io)
  | _ =>
    match order with
    | None => Err NameError
    | Some order =>
      sorted <- gather (concat blocks) order ;;
      wbuf_write vz (snd io) sorted
    end
  end.

(** h5_handler.py lines 187-208: write what is left in the input buffers. *)
Definition flush_all (m : merge) : res (wbuf Z * list (wbuf V)) :=
  blocks <- read_rest (m_ikeys m) ;;
  ko <- match blocks with
        | [] => Ok (m_okey m, m_order m)
        | _ =>
          let data := concat blocks in
          let order := argsort data in
          sorted <- gather data order ;;
          okey <- wbuf_write 0%Z (m_okey m) sorted ;;
          Ok (okey, Some order)
        end ;;
  comp <- mapM (flush_companion (snd ko)) (m_comp m) ;;
  Ok (fst ko, comp).

(** Leaving the [with] block of the output file: flush and completeness check
    (np2h5.py lines 47-79, see [Np2h5.exit_normal]). *)
Definition close_outputs (okey : wbuf Z) (comp : list (wbuf V)) : res (list Z * list (list V)) :=
  okey' <- wbuf_flush 0%Z okey ;;
  comp' <- mapM (wbuf_flush vz) comp ;;
  if wbuf_iscomplete okey' && forallb (@wbuf_iscomplete V) comp'
  then Ok (w_dset okey', map (@w_dset V) comp')
  else Err UserWarning.

(** h5_handler.py lines 112-208: merge the sorted chunks. The byte sizes of lines
    130-145 give buffers of exactly [i_buf_rows] and [o_buf_rows] rows. *)
Definition merge_chunks (n_row i_buf_rows o_buf_rows : nat) (keys : list Z)
                        (vals : list (list V)) (chunks : list chunk)
  : res (list Z * list (list V)) :=
  if i_buf_rows =? 0 then Err AssertionError
  else
    ikeys <- mapM (fun c => rbuf_open 0%Z 1 4 i_buf_rows None (fst c)) chunks ;;
    ivals <- mapM (fun d => mapM (fun c => v <- nth_res (snd c) d ;;
                                           rbuf_open vz 1 4 i_buf_rows None v) chunks)
                  (seq 0 (length vals)) ;;
    if o_buf_rows =? 0 then Err AssertionError
    else
      okey <- wbuf_new 0%Z true true o_buf_rows 0 n_row (Some keys) ;;
      ovals <- mapM (fun v => wbuf_new vz true true o_buf_rows 0 n_row (Some v)) vals ;;
      m <- merge_loop (S n_row) {| m_ikeys := ikeys; m_okey := okey;
                                   m_comp := combine ivals ovals; m_order := None |} ;;
      f <- flush_all m ;;
      close_outputs (fst f) (snd f).

(** h5_handler.py lines 56-208: [sort]. [buffer_b], [o_buffer_b] are the buffer sizes in
    bytes ([buffer_size * 1000]) and [line_weight] the bytes per line over all datasets
    (lines 89-92). [fuel] bounds the chunk loop only. The backup directory and the
    temporary file are not modelled. *)
Definition h5sort_fuel (fuel : nat) (buffer_b o_buffer_b line_weight : Z)
                       (keys : list Z) (vals : list (list V)) : res (list Z * list (list V)) :=
  let n_row := length keys in
  if forallb (fun v => length v =? n_row) vals then
    if (line_weight =? 0)%Z then Err OverflowError
    else
      let buf_rows := Z.to_nat (round_div buffer_b line_weight) in
      chunks <- chunk_loop fuel keys vals n_row buf_rows 0 ;;
      let n_chunks := length chunks in
      if n_chunks =? 0 then Err ZeroDivisionError
      else
        let i_buf_rows := Z.to_nat (round_div (Z.of_nat buf_rows) (Z.of_nat n_chunks)) in
        let o_buf_rows := Z.to_nat (round_div o_buffer_b line_weight) in
        merge_chunks n_row i_buf_rows o_buf_rows keys vals chunks
  else Err IOError.

(** The chunk loop makes at most [n_row + 1] tests when it terminates. *)
Definition h5sort (buffer_b o_buffer_b line_weight : Z) (keys : list Z) (vals : list (list V)) :=
  h5sort_fuel (S (length keys)) buffer_b o_buffer_b line_weight keys vals.

End ExtSort.

Arguments chunk V : clear implicits.
