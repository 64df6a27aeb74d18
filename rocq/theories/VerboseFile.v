(** Model of what ABXpy/task.py does and prints with [verbose=True], continued: the pairs, the whole task
    file, and the number of levels. *)
From Coq Require Import String.
From Verif Require Import Prelude TypeFitting Sampler Pairs Distances Score Analyze H5io Task Levels Pipeline Progress Verbose.
Set Implicit Arguments.
Local Open Scope string_scope.
Local Open Scope list_scope.
Local Open Scope Z_scope.

Section VerboseFile.
(** As in Pipeline.v and Verbose.v. *)
Variables tm L : Type.
Variable leq : forall x y : L, {x = y} + {x <> y}.
Variable plain : L -> bool.
Variable name : key -> string.
Variable gorder : list (string * by_group L) -> list (string * by_group L).
Variable korder : list key -> list key.
Variable enum : list Z -> list Z.
Variable argsort : list Z -> list nat.
Variable R : rng.
Variable fuel : nat.
Variables rlen wlen clen : Z -> nat.
Variables memory o_buffer : Z.
Variable verbose : bool.
Variable stdin : res bool.

(** task.py lines 848-986: [_generate_pairs], with the simplifications of Pairs.v. *)
Definition generate_pairs_said (tt : itype) (triplets : list triplet) (bys : list (list Z * (nat * nat)))
  : said (list Z * list (Z * nat * nat)) :=
  say_then
    (say_loop (fun per by_ =>
       say_then (say verbose "Writing AX/BX pairs to task file...") (fun _ =>
       say_then (silent (pairs_of_by argsort rlen wlen clen memory o_buffer tt triplets by_)) (fun p =>
       silent (Ok (per ++ [p]))))) bys []) (fun per =>
  say_then (silent (m <- merge_pairs rlen bys per 0 ;;
                    data <- Pairs.write_all wlen clen I64 (sumn (map bp_n per)) (fst m) ;;
                    Ok (data, snd m))) (fun r =>
  say_then (say verbose "done.") (fun _ => silent (Ok r)))).

(** task.py lines 187-246 and 673-806: a task made from the item file [database], and its file [output],
    which does not exist yet; with the simplifications of [Pipeline.make_file]. *)
Definition make_file_said (database output : string) (T : task) (cols : list string) (db : list row)
           (places : list (Distances.item tm)) (indexes : list (string * list L))
           (threshold : option Z) (c : nat) : said (option (abx_file tm L)) :=
  say_then (task_init_said korder enum verbose stdin database T cols db) (fun t =>
  let '(T', bs, st) := t in
  say_then (generate_triplets_said korder enum argsort R fuel verbose stdin output T' threshold bs st
              (combine (map b_key bs) (s_by st)) c) (fun g =>
  match g with
  | (_, None) => silent (Ok None)
  | (bs', Some f) =>
    say_then (silent (
      groups <- mapM (fun kb : key * list (list (string * list Z)) =>
                        g <- regressor_group leq plain (regressor_names (t_regressors T')) indexes (snd kb) ;;
                        Ok (name (fst kb), g)) (fl_regressors f) ;;
      data_type <- fit_integer_type (s_nb_triplets st) true ;;
      Ok (groups, data_type))) (fun gd =>
    say_then (generate_pairs_said (snd gd) (fl_triplets f)
                (combine (map (fun b => labels (b_frame b)) bs') (map nat_range (fl_by_index f)))) (fun p =>
    let '(pairs, attrs) := p in
    silent (Ok (Some (mk_abx (map name (fl_bys f)) (snd gd) (fl_triplets f) (fl_by_index f)
                     (combine (map (fun b => name (b_key b)) bs')
                              (map (fun a : Z * nat * nat =>
                                      let '(base, s, e) := a in (base, Z.of_nat s, Z.of_nat e)) attrs))
                     pairs
                     (map (fun b => (name (b_key b), feat_db T db places (b_key b))) bs')
                     (gorder (fst gd)))))))
  end)).

(** Whether pandas has [DataFrame.ix], see Levels.v. *)
Variable has_ix : bool.

(** task.py lines 1008-1058. *)
Fixpoint levels_loop_said (T : task) (bs : list by_block) (lv : list (option Z)) (d : option progress)
  : list string * (list (option Z) * res unit) :=
  match bs with
  | [] => ([], (lv, Ok tt))
  | b :: bs' =>
    let m := say_block d in
    match snd m with
    | Err e => (fst m, (lv, Err e))
    | Ok d' =>
      match levels_by korder enum has_ix T b with
      | Err e => (fst m, (lv, Err e))
      | Ok n => let '(o, (lv', r)) := levels_loop_said T bs' (tl lv) d' in (fst m ++ o, (Some n :: lv', r))
      end
    end
  end.

(** task.py lines 997-1062: [compute_nb_levels]; [st] is [self.stats]. *)
Definition compute_nb_levels_said (T : task) (bs : list by_block) (st : stats) (lv : levels)
  : list string * (levels * res unit) :=
  if has_item_filters (t_filters T) then ([], (lv, Err ValueError))
  else
    let m := open_progress verbose stdin [("block", "Computing nb_levels for by block", s_nb_by_levels st)] in
    match snd m with
    | Err e => (fst m, (lv, Err e))
    | Ok d =>
      let '(o, (l, r)) := levels_loop_said T bs (lv_by lv) d in
      (fst m ++ o,
       match r with
       | Err e => (mk_levels l (lv_total lv), Err e)
       | Ok _ => (mk_levels l (Some (sumZ (somes l))), Ok tt)
       end)
    end.

End VerboseFile.
