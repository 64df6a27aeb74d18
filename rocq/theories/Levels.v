(** Model of ABXpy/task.py: the number of levels, and the statistics that are printed. *)
From Coq Require Import String.
From Verif Require Import Prelude TypeFitting Task.
Set Implicit Arguments.
Open Scope Z_scope.

Section Levels.
Variable korder : list key -> list key.
Variable enum : list Z -> list Z.
(** Whether pandas still has [DataFrame.ix]: it was removed in pandas 1.0 (setup.py line 41
    accepts any version from 0.13.1). *)
Variable has_ix : bool.

(** [df.ix[l]]: access by label, as the index holds integers. *)
Definition ix (fr : frame) (l : Z) : res row := if has_ix then loc fr l else Err AttributeError.

(** task.py lines 1054-1055: [len(db.iloc[l].groupby(grouping).groups)]. *)
Definition nb_groups (grouping : list string) (fr : frame) (l : list Z) : res Z :=
  rs <- mapM (iloc fr) l ;; Ok (Zlen (keys grouping rs)).

(** task.py lines 1020-1045: the items B and X of a block. [block_key] is the on value followed
    by the across values. *)
Definition level_items (T : task) (b : by_block) (block_key : key) (block : list Z)
  : list Z * list Z :=
  let c := map (cast (b_type b)) in
  let A := c block in
  let on_set := group [t_on T] (b_frame b) (firstn 1 block_key) in
  let B := if no_across T
           then c (enum (set_diff (labels (b_frame b)) on_set))
           else c (enum (set_diff (group (t_across T) (b_frame b) (skipn 1 block_key)) A)) in
  let X := c (enum (set_diff on_set A)) in
  (B, X).

(** task.py lines 1011-1056: one step of the loop over the blocks of a by. *)
Definition levels_step (T : task) (b : by_block) (n : Z) (kb : key * list Z) : res Z :=
  let '(block_key, block) := kb in
  l0 <- nth_res block 0 ;;
  v <- ix (b_frame b) l0 ;;
  if f_oab (t_filters T) v then
    let '(B, X) := level_items T b block_key block in
    if (0 <? Zlen B) && (0 <? Zlen X) then
      let grouping := if no_across T then [t_on T] else t_on T :: t_across T in
      n_level_B <- nb_groups grouping (b_frame b) B ;;
      n_level_X <- nb_groups grouping (b_frame b) X ;;
      Ok (n + n_level_B * n_level_X)
    else Ok n
  else Ok n.

(** task.py lines 1008-1058. *)
Definition levels_by (T : task) (b : by_block) : res Z :=
  foldM (levels_step T b) (groups korder (t_on T :: t_across T) (b_frame b)) 0.

(** The entries ['nb_levels'] of [self.by_stats] (in the order of [self.by_dbs]) and of
    [self.stats], when they are there. *)
Record levels := mk_levels { lv_by : list (option Z); lv_total : option Z }.

Fixpoint levels_loop (T : task) (bs : list by_block) (lv : list (option Z))
  : list (option Z) * res unit :=
  match bs with
  | [] => (lv, Ok tt)
  | b :: bs' =>
    match levels_by T b with
    | Err e => (lv, Err e)
    | Ok n => let '(lv', r) := levels_loop T bs' (tl lv) in (Some n :: lv', r)
    end
  end.

(** task.py lines 997-1062: [compute_nb_levels]. *)
Definition compute_nb_levels (T : task) (bs : list by_block) (lv : levels) : levels * res unit :=
  if has_item_filters (t_filters T) then (lv, Err ValueError)
  else
    let '(l, r) := levels_loop T bs (lv_by lv) in
    match r with
    | Err e => (mk_levels l (lv_total lv), Err e)
    | Ok _ => (mk_levels l (Some (sumZ (somes l))), Ok tt)
    end.

(** What is written to the stream: the dictionary of all statistics, the titles of the by
    groups, the dictionary of a by group, and lines "name: number". *)
Inductive out :=
| Global (st : stats) (nb_levels : option Z)
| ByBlocks
| ByLevel (k : key)
| AllOf (s : by_stats) (nb_levels : option Z)
| Number (name : string) (n : Z).

Definition summary (k : key) (s : by_stats) (nb_levels : option Z) : list out :=
  [ByLevel k; Number "nb_triplets" (st_nb_triplets s)] ++
  match nb_levels with None => [] | Some n => [Number "nb_levels" n] end ++
  [Number "nb_across_pairs" (st_nb_across_pairs s); Number "nb_on_pairs" (st_nb_on_pairs s);
   Number "nb_on_levels" (st_nb_on_levels s); Number "nb_across_levels" (st_nb_across_levels s);
   Number "nb_on_across_levels" (st_nb_on_across_levels s)].

Definition by_entries (bs : list by_block) (st : stats) (lv : levels) : list (key * by_stats * option Z) :=
  combine (combine (map b_key bs) (s_by st)) (lv_by lv).

(** task.py lines 1074-1109: [print_stats_to_stream]; what was written also when an exception is
    raised. (The format of [pprint] is not modelled.) *)
Definition print_stats (T : task) (bs : list by_block) (st : stats) (lv : levels) (summarized : bool)
  : list out * levels * res unit :=
  let start := [Global st (lv_total lv); ByBlocks] in
  if negb summarized then
    (start ++ flat_map (fun e => [ByLevel (fst (fst e)); AllOf (snd (fst e)) (snd e)]) (by_entries bs st lv), lv, Ok tt)
  else
    let '(lv', r) := compute_nb_levels T bs lv in
    match r with
    | Err ValueError | Ok _ =>
      (start ++ flat_map (fun e => summary (fst (fst e)) (snd (fst e)) (snd e)) (by_entries bs st lv'), lv', Ok tt)
    | Err e => (start, lv', Err e)
    end.

End Levels.
