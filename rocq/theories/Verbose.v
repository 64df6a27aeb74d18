(** Model of what ABXpy/task.py does and prints with [verbose=True]: the functions of Task.v
    again, with the uses of [print] and of [ProgressDisplay]. *)
From Coq Require Import String.
From Verif Require Import Prelude TypeFitting Sampler Task Progress.
Set Implicit Arguments.
Local Open Scope string_scope.
Local Open Scope list_scope.
Local Open Scope Z_scope.

(** What a piece of program writes to the standard output, and how it ends. *)
Definition said (A : Type) : Type := (list string * res A)%type.

Definition say_then {A B} (m : said A) (k : A -> said B) : said B :=
  match snd m with
  | Ok a => (fst m ++ fst (k a), snd (k a))
  | Err e => (fst m, Err e)
  end.

Definition silent {A} (r : res A) : said A := ([], r).

Fixpoint say_loop {S A} (f : S -> A -> said S) (l : list A) (s : S) : said S :=
  match l with
  | [] => silent (Ok s)
  | a :: l' => say_then (f s a) (say_loop f l')
  end.

Section Verbose.
(** As in Task.v. *)
Variable korder : list key -> list key.
Variable enum : list Z -> list Z.
Variable argsort : list Z -> list nat.
Variable R : rng.
Variable fuel : nat.
(** [self.verbose], and what [os.isatty(sys.stdin.fileno())] gives. *)
Variable verbose : bool.
Variable stdin : res bool.

(** [if self.verbose: print(s)]. *)
Definition say (s : string) : said unit := if verbose then ([(s ++ endl)%string], Ok tt) else silent (Ok tt).

(** [if self.verbose: display = ProgressDisplay(); display.add(...)]; the local variable
    [display] is [None] otherwise. *)
Definition open_progress (entries : list (string * string * Z)) : said (option progress) :=
  if verbose then
    silent (p <- new_progress stdin ;;
            Ok (Some (fold_left (fun p e => add_progress p (fst (fst e)) (snd (fst e)) (snd e)) entries p)))
  else silent (Ok None).

(** [if self.verbose: display.update(name, amount)]. *)
Definition say_update (d : option progress) (name : string) (amount : Z) : said (option progress) :=
  match d with
  | Some p => silent (p' <- update_progress p name amount ;; Ok (Some p'))
  | None => silent (Ok None)
  end.

(** [if self.verbose: display.display()]. *)
Definition say_display (d : option progress) : said (option progress) :=
  match d with
  | Some p => ([fst (display p)], Ok (Some (snd (display p))))
  | None => silent (Ok None)
  end.

(** Both, for one block. *)
Definition say_block (d : option progress) : said (option progress) :=
  say_then (say_update d "block" 1) say_display.

(** task.py lines 258-283: [_init_check_database] of the item file [database]. *)
Definition check_database_said (database : string) (cols : list string) (on : string) (across by_ : list string)
  : said unit :=
  say_then (say ("checking input database " ++ database)) (fun _ =>
  say_then (silent (check_database cols on across by_)) (fun _ =>
  say "input database verified")).

(** task.py lines 285-347: [_init_prepare_database] and [_init_prepare_types]. *)
Definition prepare_database_said (T : task) (db : list row) : said (list by_block) :=
  let by_groups := groupby_rows korder (t_by T) db in
  say_then (open_progress [("block", "Preprocessing by block", Zlen by_groups)]) (fun d =>
  say_then
    (say_loop (fun (s : option progress * list (option (key * frame))) g =>
       say_then (say_block (fst s)) (fun d =>
       say_then (silent (prepare_by T g)) (fun o => silent (Ok (d, snd s ++ [o])))))
     by_groups (d, [])) (fun s =>
  silent (mapM prepare_type (somes (snd s))))).

(** task.py lines 382-389: the statistics of a by made in the first loop. *)
Definition by_levels (T : task) (b : by_block) : by_stats :=
  let fr := b_frame b in
  mk_by_stats (Zlen fr) (Zlen (groups korder [t_on T] fr)) (Zlen (groups korder (t_across T) fr))
              (Zlen (groups korder (t_on T :: t_across T) fr)) [] 0 0 0.

(** task.py lines 401-456: those made in the second. *)
Definition stats_by_said (T : task) (approximate : bool) (s : option progress * list by_stats)
           (b : by_block) : said (option progress * list by_stats) :=
  say_then
    (say_loop (fun (s : option progress * by_stats) kb =>
       say_then (say_block (fst s)) (fun d =>
       say_then (silent (stats_step enum T approximate b (snd s) kb)) (fun st => silent (Ok (d, st)))))
     (groups korder (t_on T :: t_across T) (b_frame b)) (fst s, by_levels T b))
    (fun r => silent (Ok (fst r, snd s ++ [snd r]))).

(** task.py lines 349-463: [compute_statistics]. *)
Definition compute_statistics_said (T : task) (approximate : bool) (bs : list by_block) : said stats :=
  say_then (open_progress [("block", "Computing statistics for by block", Zlen bs)]) (fun d =>
  say_then (say_loop (fun d b => say_block d) bs d) (fun _ =>
  let nb_blocks := sumZ (map (fun b => st_nb_on_across_levels (by_levels T b)) bs) in
  say_then (open_progress [("block", "Computing statistics for by/on/across block", nb_blocks)]) (fun d =>
  say_then (say_loop (stats_by_said T approximate) bs (d, [])) (fun r =>
  silent (Ok (mk_stats (has_item_filters (t_filters T))
                       (approximate && has_item_filters (t_filters T))
                       (Zlen bs) nb_blocks
                       (sumZ (map st_nb_triplets (snd r))) (snd r))))))).

(** task.py lines 187-246: [__init__] on a loaded table. *)
Definition task_init_said (database : string) (T : task) (cols : list string) (db : list row)
  : said (task * list by_block * stats) :=
  say_then (check_database_said database cols (t_on T) (t_across T) (t_by T)) (fun _ =>
  let '(T', db') := with_dummies T db in
  say_then (prepare_database_said T' db') (fun bs =>
  say_then (compute_statistics_said T' false bs) (fun st =>
  silent (Ok (T', bs, st))))).

(** [d[k]] of a dictionary whose keys are labels. *)
Fixpoint key_get {A} (k : key) (d : list (key * A)) : res A :=
  match d with
  | [] => Err KeyError
  | (k', a) :: d' => if key_eqb k' k then Ok a else key_get k d'
  end.

(** task.py lines 815-844: one on/across block; [sts] is [self.by_stats]. *)
Definition block_step_said (T : task) (threshold : option Z) (sts : list (key * by_stats)) (b : by_block)
           (byr : list (string * Z)) (s : option progress * (list block_out * nat)) (kb : key * list Z)
  : said (option progress * (list block_out * nat)) :=
  let '(outs, c) := snd s in
  let '(block_key, block) := kb in
  say_then (say_update (fst s) "block" 1) (fun d =>
  say_then (silent (l0 <- nth_res block 0 ;; iloc (b_frame b) l0)) (fun v =>
  say_then
    (if f_oab (t_filters T) v then
       say_then (silent (on_across_triplets enum argsort R fuel T threshold b v block_key block
                           (byr ++ scalar_regressors (r_oab (t_regressors T)) v) c)) (fun o =>
       say_then
         (match d with
          | Some _ =>
            say_then (silent (st <- key_get (b_key b) sts ;; key_get block_key (st_block_sizes st))) (fun n =>
            say_update d "triplets" n)
          | None => silent (Ok None)
          end) (fun d =>
       silent (Ok (d, (outs ++ [fst o], snd o)))))
     else silent (Ok (d, (outs, c)))) (fun r =>
  say_then (say_display (fst r)) (fun d => silent (Ok (d, snd r)))))).

(** task.py lines 808-844: [_compute_triplets]. *)
Definition compute_triplets_said (T : task) (threshold : option Z) (sts : list (key * by_stats)) (b : by_block)
           (d : option progress) (c : nat) : said (option progress * (list block_out * nat)) :=
  say_then (silent (iloc (b_frame b) 0)) (fun by_values =>
  say_loop (block_step_said T threshold sts b (scalar_regressors (r_by (t_regressors T)) by_values))
           (groups korder (t_on T :: t_across T) (b_frame b)) (d, ([], c))).

(** task.py lines 757-782: one by. *)
Definition by_step_said (T : task) (threshold : option Z) (sts : list (key * by_stats))
           (s : option progress * gen_state) (b : by_block) : said (option progress * gen_state) :=
  let g := snd s in
  say_then (say "Writing ABX triplets to task file...") (fun _ =>
  say_then (compute_triplets_said T threshold sts b (fst s) (g_rng g)) (fun r =>
  let '(d, (outs, c')) := r in
  let ts := g_triplets g ++ concat (map o_triplets outs) in
  let idx := g_index g ++ concat (map o_index outs) in
  let regs := g_regs g ++ [(b_key b, map o_regressors outs)] in
  silent (Ok (d,
    if Zlen ts =? hd 0 (g_bounds g)
    then mk_gen ts idx regs (g_bounds g) (g_bys g) (g_empty g ++ [b_key b]) c'
    else mk_gen ts idx regs (Zlen ts :: g_bounds g) (b_key b :: g_bys g) (g_empty g) c')))).

(** task.py lines 673-802: [generate_triplets] up to the pairs, whose messages are left out;
    the file [output] does not exist yet. *)
Definition generate_triplets_said (output : string) (T : task) (threshold : option Z) (bs : list by_block)
           (st : stats) (sts : list (key * by_stats)) (c : nat) : said (list by_block * option task_file) :=
  if s_nb_triplets st =? 0 then silent (Ok (bs, None))
  else
    say_then (say ("writing output to " ++ output)) (fun _ =>
    say_then (open_progress [("block", "Computing triplets for by/on/across block", s_nb_blocks st);
                             ("triplets", "Triplets considered:", s_nb_triplets st)]) (fun d =>
    say_then (silent (data_type <- fit_integer_type (s_nb_triplets st) true ;;
                      index_type <- fit_integer_type (s_nb_blocks st) true ;;
                      Ok (data_type, index_type))) (fun types =>
    say_then (say_loop (by_step_said T threshold sts) bs (d, mk_gen [] [] [] [0] [] [] c)) (fun r =>
    let g := snd r in
    say_then (silent (
      bound_type <- fit_integer_type (hd 0 (g_bounds g)) true ;;
      let bounds := map (cast bound_type) (rev (g_bounds g)) in
      Ok (filter (fun b => negb (mem_key (g_empty g) (b_key b))) bs,
          Some (mk_file (map (cast3 (fst types)) (g_triplets g))
                        (pairs_of_bounds bounds)
                        (rev (g_bys g))
                        (map (fun i => cast (snd types) (Z.of_nat i)) (g_index g))
                        (g_regs g))))) (fun f =>
    say_then (say "done.") (fun _ => silent (Ok f))))))).

End Verbose.
