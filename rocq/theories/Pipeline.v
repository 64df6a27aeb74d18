(** Model of what passes from a step to the next through the task file: ABXpy/task.py
    (generate_triplets and _generate_pairs) as distances.py, score.py and analyze.py read it.
    The steps themselves are in Task.v, Pairs.v, H5io.v, Distances.v, Score.v and Analyze.v. *)
From Coq Require Import String.
From Coq Require Import List ZArith.
From Verif Require Import Prelude TypeFitting Sampler Pairs Distances Score Analyze H5io Task.
Import ListNotations.
Local Open Scope Z_scope.
Local Open Scope list_scope.
Set Implicit Arguments.

Section Pipeline.
(** Times (onsets and offsets), and labels of the levels of the regressors. *)
Variables tm L : Type.
Variable leq : forall x y : L, {x = y} + {x <> y}.
(** See H5io.v. *)
Variable plain : L -> bool.
(** [str(by)]. *)
Variable name : key -> string.
(** Order in which h5py lists the groups of /regressors. *)
Variable gorder : list (string * by_group L) -> list (string * by_group L).
(** See Task.v and Pairs.v. *)
Variable korder : list key -> list key.
Variable enum : list Z -> list Z.
Variable argsort : list Z -> list nat.
Variable R : rng.
Variable fuel : nat.
Variables rlen wlen clen : Z -> nat.
Variables memory o_buffer : Z.

(** task.py lines 307 and 316: [feat_db.iloc[by_frame.index]] with a new index; [places] is
    the table of the locations of the items, line by line like the table of the items. *)
Definition feat_db (T : task) (db : list row) (places : list (Distances.item tm)) (k : key)
  : list (Z * Distances.item tm) :=
  let '(T', db') := with_dummies T db in
  let rows := map snd (filter (fun p => key_eqb (proj (t_by T') (fst p)) k) (combine db' places)) in
  combine (map Z.of_nat (seq 0 (length rows))) rows.

(** regressor_manager.py lines 98-115: the names given by [get_regressor_info]; there is no
    regressor on whole triplets. The names of regressors that return several columns are
    those of their columns. *)
Definition regressor_names (G : regressors) : list string :=
  map fst (r_by G) ++ map fst (r_oab G) ++ map fst (r_A G) ++ map fst (r_B G) ++ map fst (r_X G).

(** task.py lines 764-771 and 833: the group /regressors/by of a by, written block by block
    with [indexed=True]. When nothing is written there is no indexed_data in the group;
    then it is not read. *)
Definition regressor_group (names : list string) (indexes : list (string * list L))
           (blocks : list (list (string * list Z))) : res (by_group L) :=
  H <- init plain (DList names) indexes [] ;;
  o <- H5io.write_all leq H None
         (map (fun cols => (InDict (map (fun nc : string * list Z => (fst nc, Ints L (snd nc))) cols), true)) blocks) ;;
  let '(t, rows) := match o with
                    | Some o => match o_indexed o with Some tr => tr | None => (U8, []) end
                    | None => (U8, [])
                    end in
  Ok (mk_group t (length (h_non_fused H)) rows (map fst (h_indexed H)) (h_indexes H)).

(** The task file. *)
Record abx_file := mk_abx {
  x_bys : list string;                               (* bys *)
  x_type : itype;                                    (* triplets/data and its type *)
  x_triplets : list triplet;
  x_by_index : list (Z * Z);                         (* triplets/by_index *)
  x_attrs : list (string * (Z * Z * Z));             (* attributes of unique_pairs *)
  x_pairs : list Z;                                  (* unique_pairs/data *)
  x_items : list (string * list (Z * Distances.item tm));   (* feat_dbs *)
  x_groups : list (string * by_group L)              (* regressors *)
}.

Definition nat_range (ij : Z * Z) : nat * nat := (Z.to_nat (fst ij), Z.to_nat (snd ij)).

(** What distances.py (lines 54-61, 158, 205-212), score.py (lines 79-101) and analyze.py
    (lines 67-81, 95-98, 157-161) read. *)
Definition for_distances (x : abx_file) : pair_file tm :=
  mk_pair_file (x_bys x) (x_attrs x) (x_pairs x) (x_items x).
Definition for_score (x : abx_file) : scored_task :=
  mk_scored (x_bys x) (x_type x) (x_triplets x) (map nat_range (x_by_index x)) (x_attrs x) (x_pairs x).
Definition for_analysis (x : abx_file) : analyzed_task L :=
  mk_analyzed (x_bys x) (map nat_range (x_by_index x)) (x_groups x).

(** task.py lines 187-246 and 673-799: a task made from a table, and its file. [None]: no
    file, since there is no triplet. The regressors are written after the triplets and not at
    the same time (which matters only when something is raised). *)
Definition make_file (T : task) (cols : list string) (db : list row)
           (places : list (Distances.item tm)) (indexes : list (string * list L))
           (threshold : option Z) (c : nat) : res (option abx_file) :=
  t <- task_init korder enum T cols db ;;
  let '(T', bs, st) := t in
  g <- generate_triplets korder enum argsort R fuel T' threshold bs st c ;;
  match g with
  | (_, None) => Ok None
  | (bs', Some f) =>
    groups <- mapM (fun kb : key * list (list (string * list Z)) =>
                      g <- regressor_group (regressor_names (t_regressors T')) indexes (snd kb) ;;
                      Ok (name (fst kb), g)) (fl_regressors f) ;;
    data_type <- fit_integer_type (s_nb_triplets st) true ;;
    p <- generate_pairs argsort rlen wlen clen memory o_buffer data_type (fl_triplets f)
           (combine (map (fun b => labels (b_frame b)) bs') (map nat_range (fl_by_index f))) ;;
    let '(pairs, attrs) := p in
    Ok (Some (mk_abx (map name (fl_bys f)) data_type (fl_triplets f) (fl_by_index f)
                     (combine (map (fun b => name (b_key b)) bs')
                              (map (fun a : Z * nat * nat =>
                                      let '(base, s, e) := a in (base, Z.of_nat s, Z.of_nat e)) attrs))
                     pairs
                     (map (fun b => (name (b_key b), feat_db T db places (b_key b))) bs')
                     (gorder groups)))
  end.

End Pipeline.
