(** Model of ABXpy/task.py: preparation of the item table, statistics, generation of the
    triplets and of their regressors. The pairs are in Pairs.v. *)
From Coq Require Import Ascii String.
From Verif Require Import Prelude TypeFitting Sampler.
Set Implicit Arguments.
Open Scope Z_scope.

(** A line of the item file: its value in each column. The values of a column are coded
    by integers (the code only compares them for equality, and sorts them). *)
Definition row := string -> Z.

(** A pandas frame: (index label, line) pairs, in order. *)
Definition frame := list (Z * row).

Definition key := list Z.
Definition key_dec : forall k k' : key, {k = k'} + {k <> k'} := list_eq_dec Z.eq_dec.
Definition key_eqb (k k' : key) : bool := if key_dec k k' then true else false.

Definition set_cell (r : row) (c : string) (v : Z) : row :=
  fun c' => if string_dec c' c then v else r c'.

Definition proj (cols : list string) (r : row) : key := map r cols.

Definition labels (fr : frame) : list Z := map fst fr.

(** [df.loc[l]]: access by label (the first line carrying it). *)
Fixpoint loc (fr : frame) (l : Z) : res row :=
  match fr with
  | [] => Err KeyError
  | (l', r) :: fr' => if l' =? l then Ok r else loc fr' l
  end.

(** [df.iloc[i]]: access by position. *)
Definition iloc (fr : frame) (i : Z) : res row :=
  if i <? 0 then Err IndexError else p <- nth_res fr (Z.to_nat i) ;; Ok (snd p).

(** [df.reset_index(drop=True)]. *)
Definition reset_index (rows : list row) : frame :=
  combine (map Z.of_nat (seq 0 (length rows))) rows.

(** Labels of the lines whose key on [cols] is [k]: [df.groupby(cols).groups[k]]. *)
Definition group (cols : list string) (fr : frame) (k : key) : list Z :=
  labels (filter (fun p => key_eqb (proj cols (snd p)) k) fr).

(** The distinct keys of a table on [cols]. *)
Definition keys (cols : list string) (rows : list row) : list key :=
  nodup key_dec (map (proj cols) rows).

Definition mem (l : list Z) (x : Z) : bool := existsb (Z.eqb x) l.
(** [set.difference] and [&]. *)
Definition set_diff (l l' : list Z) : list Z := filter (fun x => negb (mem l' x)) l.
Definition set_inter (l l' : list Z) : list Z := filter (mem l') l.

(** The filters of a task, by stage (side_operations_manager.py decides the stage; see
    SideOps.v for the managers themselves). A filter of the stages A, B, X or ABX is
    given the values of the current on/across/by block and those of the items; [None] when
    the task has no filter of this stage. *)
Record filters := mk_filters {
  f_by : row -> bool;
  f_generic : row -> row -> bool;
  f_oab : row -> bool;
  f_A : option (row -> row -> bool);
  f_B : option (row -> row -> bool);
  f_X : option (row -> row -> bool);
  f_ABX : option (row -> row -> row -> row -> bool)
}.

(** The regressors, by stage: name and value. [r_ABX] tells whether there is a regressor
    of the last stage. *)
Record regressors := mk_regressors {
  r_by : list (string * (row -> Z));
  r_oab : list (string * (row -> Z));
  r_A : list (string * (row -> row -> Z));
  r_B : list (string * (row -> row -> Z));
  r_X : list (string * (row -> row -> Z));
  r_ABX : bool
}.

Record task := mk_task {
  t_on : string;
  t_across : list string;
  t_by : list string;
  t_filters : filters;
  t_regressors : regressors
}.

(** One entry of [self.by_dbs], with [self.types]. *)
Record by_block := mk_by { b_key : key; b_frame : frame; b_type : itype }.

Definition triplet : Type := (Z * Z * Z)%type.

(* ------------------------------------------------------------------ *)
(** ** Checks and dummy columns *)

Definition has_char (c : Ascii.ascii) (s : string) : bool :=
  existsb (Ascii.eqb c) (list_ascii_of_string s).

Definition mem_string (l : list string) (s : string) : bool := existsb (String.eqb s) l.

(** task.py lines 258-283: [_init_check_database]. *)
Definition check_database (cols : list string) (on : string) (across by_ : list string)
  : res unit :=
  assert! mem_string cols on else AssertionError ;;
  assert! forallb (mem_string cols) across else AssertionError ;;
  assert! forallb (mem_string cols) by_ else AssertionError ;;
  assert! forallb (fun c => negb (has_char "_"%char c) && negb (has_char "#"%char c)) cols
    else AssertionError ;;
  Ok tt.

(** task.py lines 213-219: dummy columns when there is no by or no across. *)
Definition with_dummies (T : task) (db : list row) : task * list row :=
  let db1 := match t_by T with [] => map (fun r => set_cell r "#by" 0) db | _ => db end in
  let by1 := match t_by T with [] => ["#by"%string] | b => b end in
  let db2 := match t_across T with
             | [] => map (fun p => set_cell (snd p) "#across" (fst p)) (reset_index db1)
             | _ => db1
             end in
  let across1 := match t_across T with [] => ["#across"%string] | a => a end in
  (mk_task (t_on T) across1 by1 (t_filters T) (t_regressors T), db2).

Section Task.

(** Order in which pandas lists the groups of a table, and in which Python lists the
    elements of a set; [np.argsort]; random numbers, and the number of rounds of the
    random loops. *)
Variable korder : list key -> list key.
Variable enum : list Z -> list Z.
Variable argsort : list Z -> list nat.
Variable R : rng.
Variable fuel : nat.

(** [df.groupby(cols)] on a list of lines. *)
Definition groupby_rows (cols : list string) (rows : list row) : list (key * list row) :=
  map (fun k => (k, filter (fun r => key_eqb (proj cols r) k) rows)) (korder (keys cols rows)).

(** [df.groupby(cols).groups]. *)
Definition groups (cols : list string) (fr : frame) : list (key * list Z) :=
  map (fun k => (k, group cols fr k)) (korder (keys cols (map snd fr))).

(** task.py lines 293-325 for one by group: [None] when the by filter drops it. The
    groupings of lines 323-334 are functions of the frame and are recomputed where they
    are used. *)
Definition prepare_by (T : task) (g : key * list row) : res (option (key * frame)) :=
  by_values <- nth_res (snd g) 0 ;;
  if f_by (t_filters T) by_values
  then Ok (Some (fst g, filter (fun p => f_generic (t_filters T) by_values (snd p))
                               (reset_index (snd g))))
  else Ok None.

(** task.py lines 336-347: [_init_prepare_types]; [np.max] refuses an empty array. *)
Definition prepare_type (p : key * frame) : res by_block :=
  match snd p with
  | [] => Err ValueError
  | _ => t <- fit_integer_type (maxZ (labels (snd p))) false ;;
         Ok (mk_by (fst p) (snd p) t)
  end.

Fixpoint somes {A} (l : list (option A)) : list A :=
  match l with
  | [] => []
  | Some a :: l' => a :: somes l'
  | None :: l' => somes l'
  end.

(** task.py lines 285-347: [_init_prepare_database] and [_init_prepare_types]. *)
Definition prepare_database (T : task) (db : list row) : res (list by_block) :=
  gs <- mapM (prepare_by T) (groupby_rows (t_by T) db) ;;
  mapM prepare_type (somes gs).

(* ------------------------------------------------------------------ *)
(** ** Triplets of one on/across/by block *)

Definition no_across (T : task) : bool :=
  match t_across T with [c] => if string_dec c "#across" then true else false | _ => false end.

(** task.py lines 329-334: labels of the items that differ from [k] in every across
    column. *)
Definition antiacross (T : task) (fr : frame) (k : key) : list Z :=
  labels (filter (fun p => forallb (fun cv => negb (snd p (fst cv) =? snd cv))
                                   (combine (t_across T) k)) fr).

(** task.py lines 502-527: the candidate A, B and X of a block. [block_key] is the on
    value followed by the across values. *)
Definition candidates (T : task) (b : by_block) (block_key : key) (block : list Z)
  : list Z * list Z * list Z :=
  let c := map (cast (b_type b)) in
  let on_key := firstn 1 block_key in
  let across_key := skipn 1 block_key in
  let A := c block in
  let on_set := group [t_on T] (b_frame b) on_key in
  let B := if no_across T
           then c (enum (set_diff (labels (b_frame b)) on_set))
           else c (enum (set_diff (group (t_across T) (b_frame b) across_key) A)) in
  let X := if (1 <? length across_key)%nat
           then c (enum (set_inter (antiacross T (b_frame b) across_key) on_set))
           else c (enum (set_diff on_set A)) in
  (A, B, X).

(** filter_manager.py lines 62-78 on elementwise filters: positions in [l] of the items
    that pass. The lines are accessed by label. *)
Definition single_filter (f : row -> row -> bool) (v : row) (fr : frame) (l : list Z)
  : res (list nat) :=
  rs <- mapM (loc fr) l ;; Ok (np_where (map (f v) rs)).

(** task.py lines 531-539. *)
Definition filter_items (f : option (row -> row -> bool)) (v : row) (fr : frame) (l : list Z)
  : res (list Z) :=
  match f with
  | None => Ok l
  | Some f => idx <- single_filter f v fr l ;; gather l idx
  end.

(** filter_manager.py lines 80-84 on elementwise filters. *)
Definition ABX_filter (f : row -> row -> row -> row -> bool) (v : row) (fr : frame)
           (ts : list triplet) : res (list nat) :=
  mask <- mapM (fun t : triplet => let '(a, b, x) := t in
                 ra <- loc fr a ;; rb <- loc fr b ;; rx <- loc fr x ;; Ok (f v ra rb rx)) ts ;;
  Ok (np_where mask).

(** The factorial design of a block: triplets, positions of their items in A, B and X,
    and positions kept by the ABX filters when there are some. *)
Record design := mk_design {
  d_A : list Z; d_B : list Z; d_X : list Z;
  d_iA : list nat; d_iB : list nat; d_iX : list nat;
  d_ABX : option (list nat);
  d_triplets : list triplet
}.

Definition zip3 (A B X : list Z) : list triplet := combine (combine A B) X.

(** task.py lines 549-567 and 626-641, up to the sort. *)
Definition factorial (T : task) (fr : frame) (v : row) (A B X : list Z) : res design :=
  let nB := Z.of_nat (length B) in
  let nX := Z.of_nat (length X) in
  let size := Z.of_nat (length A) * nB * nX in
  if 0 <? size then
    ind_type <- fit_integer_type size false ;;
    let indices := map (fun i => cast ind_type (Z.of_nat i)) (seq 0 (Z.to_nat size)) in
    let iX := map (fun i => Z.to_nat (i mod nX)) indices in
    let iB := map (fun i => Z.to_nat ((i / nX) mod nB)) indices in
    let iA := map (fun i => Z.to_nat (i / (nB * nX))) indices in
    cA <- gather A iA ;;
    cB <- gather B iB ;;
    cX <- gather X iX ;;
    let ts := zip3 cA cB cX in
    match f_ABX (t_filters T) with
    | None => Ok (mk_design A B X iA iB iX None ts)
    | Some f => ind <- ABX_filter f v fr ts ;;
                ts' <- gather ts ind ;;
                Ok (mk_design A B X iA iB iX (Some ind) ts')
    end
  else Ok (mk_design A B X [] [] []
                     (match f_ABX (t_filters T) with None => None | Some _ => Some [] end) []).

(** task.py lines 502-567: everything before the regressors. *)
Definition block_design (T : task) (b : by_block) (v : row) (block_key : key) (block : list Z)
  : res design :=
  let '(A, B, X) := candidates T b block_key block in
  A <- filter_items (f_A (t_filters T)) v (b_frame b) A ;;
  B <- filter_items (f_B (t_filters T)) v (b_frame b) B ;;
  X <- filter_items (f_X (t_filters T)) v (b_frame b) X ;;
  factorial T (b_frame b) v A B X.

(** task.py lines 465-644 with [with_regressors=False]. *)
Definition on_across_triplets_only (T : task) (b : by_block) (v : row) (block_key : key)
           (block : list Z) : res (list triplet) :=
  d <- block_design T b v block_key block ;; Ok (d_triplets d).

(* ------------------------------------------------------------------ *)
(** ** Statistics *)

Record by_stats := mk_by_stats {
  st_nb_items : Z;
  st_nb_on_levels : Z;
  st_nb_across_levels : Z;
  st_nb_on_across_levels : Z;
  st_block_sizes : list (key * Z);
  st_nb_triplets : Z;
  st_nb_across_pairs : Z;
  st_nb_on_pairs : Z
}.

Definition has_item_filters (F : filters) : bool :=
  match f_A F, f_B F, f_X F, f_ABX F with None, None, None, None => false | _, _, _, _ => true end.

Definition Zlen {A} (l : list A) : Z := Z.of_nat (length l).

(** task.py lines 409-456: one step of the loop over the on/across blocks of a by. *)
Definition stats_step (T : task) (approximate : bool) (b : by_block) (st : by_stats)
           (kb : key * list Z) : res by_stats :=
  let '(block_key, block) := kb in
  l0 <- nth_res block 0 ;;
  v <- iloc (b_frame b) l0 ;;
  let on_key := firstn 1 block_key in
  let across_key := skipn 1 block_key in
  if f_oab (t_filters T) v then
    let n_A := Zlen block in
    let n_X := Zlen (group [t_on T] (b_frame b) on_key) in
    let n_B := if no_across T then st_nb_items st - n_X
               else Zlen (group (t_across T) (b_frame b) across_key) - n_A in
    let n_X := n_X - n_A in
    n <- (if (approximate || negb (has_item_filters (t_filters T)))
             && negb (1 <? length across_key)%nat
          then Ok (n_A * n_B * n_X)
          else ts <- on_across_triplets_only T b v block_key block ;; Ok (Zlen ts)) ;;
    Ok (mk_by_stats (st_nb_items st) (st_nb_on_levels st) (st_nb_across_levels st)
                    (st_nb_on_across_levels st) (st_block_sizes st ++ [(block_key, n)])
                    (st_nb_triplets st + n) (st_nb_across_pairs st + n_A * n_B)
                    (st_nb_on_pairs st + n_A * n_X))
  else
    Ok (mk_by_stats (st_nb_items st) (st_nb_on_levels st) (st_nb_across_levels st)
                    (st_nb_on_across_levels st) (st_block_sizes st ++ [(block_key, 0)])
                    (st_nb_triplets st) (st_nb_across_pairs st) (st_nb_on_pairs st)).

(** task.py lines 376-389 and 401-456: statistics of a by. *)
Definition stats_by (T : task) (approximate : bool) (b : by_block) : res by_stats :=
  let fr := b_frame b in
  foldM (stats_step T approximate b) (groups (t_on T :: t_across T) fr)
        (mk_by_stats (Zlen fr) (Zlen (groups [t_on T] fr)) (Zlen (groups (t_across T) fr))
                     (Zlen (groups (t_on T :: t_across T) fr)) [] 0 0 0).

Record stats := mk_stats {
  s_approximate : bool;
  s_approximate_nb_triplets : bool;
  s_nb_by_levels : Z;
  s_nb_blocks : Z;
  s_nb_triplets : Z;
  s_by : list by_stats
}.

(** task.py lines 349-463: [compute_statistics]. *)
Definition compute_statistics (T : task) (approximate : bool) (bs : list by_block) : res stats :=
  sts <- mapM (stats_by T approximate) bs ;;
  Ok (mk_stats (has_item_filters (t_filters T))
               (approximate && has_item_filters (t_filters T))
               (Zlen bs)
               (sumZ (map st_nb_on_across_levels sts))
               (sumZ (map st_nb_triplets sts))
               sts).

(* ------------------------------------------------------------------ *)
(** ** Sorting by regressors, threshold *)

(** [flag = [True] + (s[1:] != s[:-1]) + [True]]. *)
Fixpoint changes (s : list Z) : list bool :=
  match s with
  | x :: ((y :: _) as s') => negb (y =? x) :: changes s'
  | _ => []
  end.

(** Lengths of the consecutive intervals. *)
Fixpoint diffs (l : list nat) : list nat :=
  match l with
  | x :: ((y :: _) as l') => (y - x)%nat :: diffs l'
  | _ => []
  end.

(** task.py lines 1183-1187. *)
Definition run_starts (sorted_index : list Z) : list nat :=
  np_where (true :: changes sorted_index ++ [true]).

(** task.py lines 1196-1204: the loop over the runs; [i] is the start of the current one
    and [c] the state of the random source. The additions to the sample are made in the
    element type of the sample. *)
Fixpoint threshold_runs (permut : list nat) (ind_type : itype) (threshold : option Z)
         (counts : list nat) (i : nat) (c : nat) : res (list nat * nat) :=
  match counts with
  | [] => Ok ([], c)
  | n :: counts' =>
    let sampling := match threshold with
                    | Some t => negb (t =? 0) && (t <? Z.of_nat n)
                    | None => false
                    end in
    r <- (if sampling then
            s <- sample_without_replacement R fuel c
                   (match threshold with Some t => t | None => 0 end) (Z.of_nat n) ind_type ;;
            l <- gather permut (map (fun x => Z.to_nat (cast ind_type (x + Z.of_nat i))) (fst s)) ;;
            Ok (l, snd s)
          else Ok (slice i (i + n) permut, c)) ;;
    r2 <- threshold_runs permut ind_type threshold counts' (i + n) (snd r) ;;
    Ok (fst r ++ fst r2, snd r2)
  end.

(** task.py lines 1181-1205: [sort_and_threshold] with [count_only=False]. *)
Definition sort_and_threshold (permut : list nat) (new_index : list Z) (ind_type : itype)
           (threshold : option Z) (c : nat) : res (list nat * list nat * nat) :=
  sorted_index <- gather new_index permut ;;
  let unique_idx := run_starts sorted_index in
  r <- threshold_runs permut ind_type threshold (diffs unique_idx) 0 c ;;
  Ok (fst r, unique_idx, snd r).

(** task.py lines 1189-1192: [sort_and_threshold] with [count_only=True]. *)
Definition count_after_threshold (permut : list nat) (new_index : list Z) (threshold : Z)
  : res Z :=
  sorted_index <- gather new_index permut ;;
  let counts := map Z.of_nat (diffs (run_starts sorted_index)) in
  let sampled := filter (fun n => threshold <? n) counts in
  Ok (Zlen new_index - sumZ sampled + threshold * Zlen sampled).

(* ------------------------------------------------------------------ *)
(** ** Regressors *)

(** regressor_manager.py [set_A_regressors] etc. on elementwise regressors. *)
Definition item_regressors (rs : list (string * (row -> row -> Z))) (v : row) (fr : frame)
           (l : list Z) : res (list (string * list Z)) :=
  mapM (fun nf : string * (row -> row -> Z) =>
          vals <- mapM (fun x => r <- loc fr x ;; Ok (snd nf v r)) l ;; Ok (fst nf, vals)) rs.

(** task.py lines 603-605: mixed radix code of the regressors of every triplet ([cols] lists
    the columns). The first product is made in [ind_type] and the following ones on 64 bits
    (simplification: when [ind_type] has 64 bits numpy computes in floating point, and the
    model on exact integers). *)
Definition widen (ind_type : itype) (first : bool) (x : Z) : Z :=
  match ind_type with
  | U64 => x
  | t => cast (if first then t else I64) x
  end.

Fixpoint fold_index (ind_type : itype) (first : bool) (cols : list (Z * list Z))
         (idx : list Z) : list Z :=
  match cols with
  | [] => idx
  | (n, col) :: cols' =>
    fold_index ind_type false cols'
      (map (fun p => widen ind_type false (fst p + widen ind_type first (n * snd p)))
           (combine col idx))
  end.

Definition regressor_index (ind_type : itype) (cols : list (Z * list Z)) : list Z :=
  match cols with
  | [] => []
  | (_, col) :: cols' => fold_index ind_type true cols' (map (cast ind_type) col)
  end.

(** The columns of [regs] (lines 580-590): positions of the item of each triplet, then the
    ABX filters. *)
Definition spread (idx : list nat) (abx : option (list nat)) (col : list Z) : res (list Z) :=
  c <- gather col idx ;;
  match abx with None => Ok c | Some ind => gather c ind end.

(** task.py lines 580-624: sort by regressors and threshold; returns the permutation, the
    block index and the triplets. *)
Definition sort_design (threshold : option Z) (d : design) (Bregs Xregs : list (string * list Z))
           (c : nat) : res (list nat * list nat * list triplet * nat) :=
  Bc <- mapM (fun nr => spread (d_iB d) (d_ABX d) (snd nr)) Bregs ;;
  Xc <- mapM (fun nr => spread (d_iX d) (d_ABX d) (snd nr)) Xregs ;;
  let cols := Bc ++ Xc in
  match cols, d_triplets d with
  | [], _ | _, [] => Ok ([], [0%nat], d_triplets d, c)
  | _, _ =>
    let ns := map (fun col => maxZ col + 1) cols in
    let prod := cast I64 (prodZ ns) in
    ind_type <- fit_integer_type prod false ;;
    let new_index := regressor_index ind_type (combine ns cols) in
    let permut := argsort new_index in
    r <- sort_and_threshold permut new_index ind_type threshold c ;;
    let '(thr, index, c') := r in
    ts <- gather (d_triplets d) thr ;;
    Ok (thr, index, ts, c')
  end.

(** task.py lines 1111-1166: [_compute_regressors]. The A regressors only go through the
    permutation when there is an ABX filter. *)
Definition compute_regressors (d : design) (thr : list nat) (n : nat)
           (scalars : list (string * Z)) (Aregs Bregs Xregs : list (string * list Z))
  : res (list (string * list Z)) :=
  let S := map (fun nv : string * Z => (fst nv, repeat (snd nv) n)) scalars in
  As <- mapM (fun nr : string * list Z =>
                c <- spread (d_iA d) (d_ABX d) (snd nr) ;;
                c <- match d_ABX d with None => Ok c | Some _ => gather c thr end ;;
                Ok (fst nr, c)) Aregs ;;
  Bs <- mapM (fun nr : string * list Z =>
                c <- spread (d_iB d) (d_ABX d) (snd nr) ;; c <- gather c thr ;; Ok (fst nr, c)) Bregs ;;
  Xs <- mapM (fun nr : string * list Z =>
                c <- spread (d_iX d) (d_ABX d) (snd nr) ;; c <- gather c thr ;; Ok (fst nr, c)) Xregs ;;
  Ok (S ++ As ++ Bs ++ Xs).

Definition scalar_regressors (rs : list (string * (row -> Z))) (v : row) : list (string * Z) :=
  map (fun nf => (fst nf, snd nf v)) rs.

(** What a block adds to the task file. *)
Record block_out := mk_block_out {
  o_triplets : list triplet;
  o_regressors : list (string * list Z);
  o_index : list nat
}.

(** task.py lines 465-663: [on_across_triplets] with the regressors. [sc] are the values of
    the by regressors. The block index of an empty block is [0] (line 550); with an empty
    block the regressors are gathered with empty index arrays (lines 634-641). *)
Definition on_across_triplets (T : task) (threshold : option Z) (b : by_block) (v : row)
           (block_key : key) (block : list Z) (sc : list (string * Z)) (c : nat)
  : res (block_out * nat) :=
  let G := t_regressors T in
  d <- block_design T b v block_key block ;;
  Ar <- item_regressors (r_A G) v (b_frame b) (d_A d) ;;
  Br <- item_regressors (r_B G) v (b_frame b) (d_B d) ;;
  Xr <- item_regressors (r_X G) v (b_frame b) (d_X d) ;;
  r <- sort_design threshold d Br Xr c ;;
  let '(thr, index, ts, c') := r in
  if r_ABX G then Err ValueError
  else
    regs <- compute_regressors d thr (length ts) sc Ar Br Xr ;;
    Ok (mk_block_out ts regs index, c').

(* ------------------------------------------------------------------ *)
(** ** The task file *)

(** task.py lines 808-844: [_compute_triplets], one on/across block. *)
Definition block_step (T : task) (threshold : option Z) (b : by_block) (byr : list (string * Z))
           (acc : list block_out * nat) (kb : key * list Z) : res (list block_out * nat) :=
  let '(outs, c) := acc in
  let '(block_key, block) := kb in
  l0 <- nth_res block 0 ;;
  v <- iloc (b_frame b) l0 ;;
  if f_oab (t_filters T) v then
    o <- on_across_triplets T threshold b v block_key block
           (byr ++ scalar_regressors (r_oab (t_regressors T)) v) c ;;
    Ok (outs ++ [fst o], snd o)
  else Ok (outs, c).

Definition compute_triplets (T : task) (threshold : option Z) (b : by_block) (c : nat)
  : res (list block_out * nat) :=
  by_values <- iloc (b_frame b) 0 ;;
  foldM (block_step T threshold b (scalar_regressors (r_by (t_regressors T)) by_values))
        (groups (t_on T :: t_across T) (b_frame b)) ([], c).

(** The file: triplets (as stored), bounds and names of the by, start positions of the
    groups of each block, and for each by processed the regressors of its blocks (what
    [H5IO] does with them is in H5io.v; here the columns are kept block by block). *)
Record task_file := mk_file {
  fl_triplets : list triplet;
  fl_by_index : list (Z * Z);
  fl_bys : list key;
  fl_block_index : list Z;
  fl_regressors : list (key * list (list (string * list Z)))
}.

Definition cast3 (t : itype) (x : triplet) : triplet :=
  let '(a, b, c) := x in (cast t a, cast t b, cast t c).

(** State of the loop of lines 757-782. *)
Record gen_state := mk_gen {
  g_triplets : list triplet;     (* rows written so far, before storage *)
  g_index : list nat;
  g_regs : list (key * list (list (string * list Z)));
  g_bounds : list Z;             (* [by_block_indices], most recent first *)
  g_bys : list key;              (* [bys], most recent first *)
  g_empty : list key;
  g_rng : nat
}.

(** task.py lines 757-782: one by. *)
Definition by_step (T : task) (threshold : option Z) (g : gen_state) (b : by_block)
  : res gen_state :=
  r <- compute_triplets T threshold b (g_rng g) ;;
  let '(outs, c') := r in
  let ts := g_triplets g ++ concat (map o_triplets outs) in
  let idx := g_index g ++ concat (map o_index outs) in
  let regs := g_regs g ++ [(b_key b, map o_regressors outs)] in
  if Zlen ts =? hd 0 (g_bounds g)
  then Ok (mk_gen ts idx regs (g_bounds g) (g_bys g) (g_empty g ++ [b_key b]) c')
  else Ok (mk_gen ts idx regs (Zlen ts :: g_bounds g) (b_key b :: g_bys g) (g_empty g) c').

Fixpoint pairs_of_bounds (l : list Z) : list (Z * Z) :=
  match l with
  | x :: ((y :: _) as l') => (x, y) :: pairs_of_bounds l'
  | _ => []
  end.

Definition mem_key (l : list key) (k : key) : bool := existsb (key_eqb k) l.

(** task.py lines 673-799: [generate_triplets] up to the pairs; the output file does not
    exist yet. [None] when there is no triplet (a warning is issued). Returns the by
    blocks that remain in the Task object and the file. Writing a dataset through the
    buffers is appending the rows, converted to the type of the dataset (proved in
    Props_Buffers.v). *)
Definition generate_triplets (T : task) (threshold : option Z) (bs : list by_block)
           (st : stats) (c : nat) : res (list by_block * option task_file) :=
  if s_nb_triplets st =? 0 then Ok (bs, None)
  else
    data_type <- fit_integer_type (s_nb_triplets st) true ;;
    index_type <- fit_integer_type (s_nb_blocks st) true ;;
    g <- foldM (by_step T threshold) bs (mk_gen [] [] [] [0] [] [] c) ;;
    bound_type <- fit_integer_type (hd 0 (g_bounds g)) true ;;
    let bounds := map (cast bound_type) (rev (g_bounds g)) in
    Ok (filter (fun b => negb (mem_key (g_empty g) (b_key b))) bs,
        Some (mk_file (map (cast3 data_type) (g_triplets g))
                      (pairs_of_bounds bounds)
                      (rev (g_bys g))
                      (map (fun i => cast index_type (Z.of_nat i)) (g_index g))
                      (g_regs g))).

(** task.py lines 187-246: [__init__] on a loaded table: checks, dummy columns,
    preparation, statistics. *)
Definition task_init (T : task) (cols : list string) (db : list row)
  : res (task * list by_block * stats) :=
  _ <- check_database cols (t_on T) (t_across T) (t_by T) ;;
  let '(T', db') := with_dummies T db in
  bs <- prepare_database T' db' ;;
  st <- compute_statistics T' false bs ;;
  Ok (T', bs, st).

End Task.
