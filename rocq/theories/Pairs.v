(** Model of the pair part of ABXpy/task.py ([_generate_pairs], [sort_pairs]) and of the
    decoding of the pairs in ABXpy/distances/distances.py. *)
From Verif Require Import Prelude TypeFitting H52np Np2h5 ExtSort.
Set Implicit Arguments.
Open Scope Z_scope.

(** A row of the dataset /triplets/data: the items A, B and X. *)
Definition triplet : Type := Z * Z * Z.

(** np.max of an array (ValueError when empty). *)
Definition np_max (l : list Z) : res Z :=
  match l with
  | [] => Err ValueError
  | x :: l' => Ok (fold_left Z.max l' x)
  end.

(** task.py lines 895-898 (and score.py lines 105-109): [a + base * x] with [a], [x]
    already of type [t]; [base] is a numpy scalar that fits in [t] (numpy < 2 then
    computes in [t]), so product and sum wrap around in [t]. *)
Definition pair_code (t : itype) (base a x : Z) : Z := cast t (a + cast t (base * x)).

(** task.py lines 878-898: the AX and BX codes of a block of triplets, interleaved;
    [pair_key_type(data)] converts the triplets. *)
Definition pair_codes (t : itype) (base : Z) (rows : list triplet) : list Z :=
  flat_map (fun r => let '(a, b, x) := r in
                     [pair_code t base (cast t a) (cast t x);
                      pair_code t base (cast t b) (cast t x)]) rows.

Section Pairs.
Variable argsort : list Z -> list nat.
(** Number of rows of a reading buffer, a writing buffer and a chunk, as a function of
    the bytes per row ([H52np.read_buf_len], [Np2h5.nb_lines] with the default sizes 100,
    100 and 10 kB in the code). *)
Variables rlen wlen clen : Z -> nat.
(** [memory] of task.py line 1208 (1000 MB) and [o_buffer_size] of h5_handler.py line 56
    (1000 kB), in bytes. *)
Variables memory o_buffer : Z.

Definition width (t : itype) : Z := Z.of_nat (itemsize t).

(** h52np: iterate over a dataset (or a range of it) of [cols] columns of type [t]. *)
Definition read_all {A : Type} (zero : A) (t : itype) (cols : Z) (range : option (nat * nat))
                    (d : list A) : res (list (list A)) :=
  read_blocks zero 1 4 (rlen (cols * width t)) range d.

(** np2h5: a new growable dataset with one column of type [t] and [n_rows] announced rows,
    to which the blocks are written one after the other. *)
Definition write_all (t : itype) (n_rows : nat) (blocks : list (list Z)) : res (list Z) :=
  match session 0 false false (wlen (width t)) (clen (width t)) n_rows None
                (map (fun b => WWrite (map (cast t) b)) blocks) with
  | (None, Some d) => Ok d
  | (Some e, _) => Err e
  | (None, None) => Err KeyError
  end.

(** task.py lines 1208-1251: [sort_pairs]. All byte counts are multiplied by 120 to stay
    in the integers ([amount / 30.] and [0.75 * memory]). *)
Definition sort_pairs (t : itype) (codes : list Z) : res (list Z) :=
  let amount := 120 * (Z.of_nat (length codes) * width t) in
  let limit := 90 * memory in
  let buffer_size :=
    if amount <=? limit then amount
    else if amount <=? 30 * limit then amount / 30
    else limit in
  r <- h5sort argsort 0 buffer_size (120 * o_buffer) (120 * width t) codes [] ;;
  Ok (fst r).

(** task.py lines 912-922: number of distinct codes, counted block by block. *)
Definition count_step (s : nat * Z) (block : list Z) : res (nat * Z) :=
  let n := (fst s + length (np_unique block))%nat in
  first <- nth_res block 0 ;;
  let n' := if first =? snd s then (n - 1)%nat else n in
  Ok (n', if (0 <? length block)%nat then last block (snd s) else snd s).
Definition count_unique (blocks : list (list Z)) : res nat :=
  s <- foldM count_step blocks (0%nat, -1) ;; Ok (fst s).

(** task.py lines 937-946: the blocks of distinct codes that are written. *)
Definition unique_step (s : list (list Z) * Z) (block : list Z) : res (list (list Z) * Z) :=
  let u := np_unique block in
  first <- nth_res u 0 ;;
  let u' := if first =? snd s then skipn 1 u else u in
  if (0 <? length u')%nat then Ok (fst s ++ [u'], last u' (snd s)) else Ok s.
Definition unique_blocks (blocks : list (list Z)) : res (list (list Z)) :=
  s <- foldM unique_step blocks ([], -1) ;; Ok (fst s).

(** task.py lines 861-946, for one by: labels of the by dataframe and range of its
    triplets; [tt] is the type of /triplets/data. The result is the temporary dataset
    unique_pairs/by, [max_ind], [n_pairs] and the type of the codes. *)
Record by_pairs : Type := mk_by_pairs {
  bp_unique : list Z; bp_max : Z; bp_n : nat; bp_type : itype
}.
Definition pairs_of_by (tt : itype) (triplets : list triplet) (by_ : list Z * (nat * nat))
  : res by_pairs :=
  max_ind <- np_max (fst by_) ;;
  t <- fit_integer_type ((max_ind + 1) ^ 2 - 1) false ;;
  blocks <- read_all (0, 0, 0) tt 3 (Some (snd by_)) triplets ;;
  codes <- write_all t 0 (map (pair_codes t (max_ind + 1)) blocks) ;;
  sorted <- sort_pairs t codes ;;
  blocks1 <- read_all 0 t 1 None sorted ;;
  n <- count_unique blocks1 ;;
  blocks2 <- read_all 0 t 1 None sorted ;;
  ublocks <- unique_blocks blocks2 ;;
  u <- write_all t n ublocks ;;
  Ok {| bp_unique := u; bp_max := max_ind; bp_n := n; bp_type := t |}.

(** task.py lines 967-982: the blocks copied to unique_pairs/data, and the attribute
    (base, start, stop) of every by. *)
Fixpoint merge_pairs (bys : list (list Z * (nat * nat))) (per : list by_pairs) (by_index : nat)
  : res (list (list Z) * list (Z * nat * nat)) :=
  match bys, per with
  | by_ :: bys', p :: per' =>
    if (fst (snd by_) =? snd (snd by_))%nat then merge_pairs bys' per' by_index
    else
      blocks <- read_all 0 (bp_type p) 1 None (bp_unique p) ;;
      r <- merge_pairs bys' per' (by_index + bp_n p) ;;
      Ok (blocks ++ fst r,
          (bp_max p + 1, by_index, (by_index + bp_n p)%nat) :: snd r)
  | _, _ => Ok ([], [])
  end.

(** task.py lines 848-986: [_generate_pairs]: dataset unique_pairs/data and its
    attributes, for the bys in order. The temporary file and the copy of the feature
    dataframes (lines 948-956) are not modelled. *)
Definition generate_pairs (tt : itype) (triplets : list triplet)
                          (bys : list (list Z * (nat * nat)))
  : res (list Z * list (Z * nat * nat)) :=
  per <- mapM (pairs_of_by tt triplets) bys ;;
  m <- merge_pairs bys per 0 ;;
  data <- write_all I64 (sumn (map bp_n per)) (fst m) ;;
  Ok (data, snd m).

End Pairs.

(** distances.py lines 216-218: the items A and X of the pairs ([np.mod] and [//] on
    int64, divisor not zero). *)
Definition decode_pair (base code : Z) : Z * Z := (code mod base, code / base).
