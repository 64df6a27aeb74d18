(** Property theorems: what verbose tasks do and print (C86). *)
From Coq Require Import Ascii String.
From Verif Require Import Prelude TypeFitting Sampler Sampler_proofs Task Task_spec Task_ex Progress Progress_spec Progress_proofs
  Verbose Verbose_spec Verbose_main.
Open Scope string_scope.
Open Scope list_scope.
Open Scope Z_scope.

(** C86: a progress display writes, at each display, a line for each thing counted, in the order
    in which they were added: its message, the sum of the amounts since it was added, its total.
    Counting something that was not added raises KeyError. *)
Theorem C86_displays :
  forall (tty : bool) calls,
    fst (run_progress (Ok tty) calls) = fst (texts tty [] calls) /\
    match snd (run_progress (Ok tty) calls) with
    | Ok _ => snd (texts tty [] calls) = None
    | Err e => snd (texts tty [] calls) = Some e
    end.
Proof. exact progress_texts. Qed.
Print Assumptions C86_displays.

Example C86_displays_ex :
  texts true [] [Add "b" "Blocks" 3; Add "t" "Triplets:" 50; Update "b" 1; Display; Update "t" 7; Update "b" 1;
                 Update "t" 5; Display; Add "b" "Others" 4; Display; Update "z" 1; Display] =
  (["Blocks 1 on 3" ++ line_feed ++ "Triplets: 0 on 50" ++ line_feed;
    String "027" "[<2>ABlocks 2 on 3" ++ line_feed ++ "Triplets: 12 on 50" ++ line_feed;
    String "027" "[<2>AOthers 0 on 4" ++ line_feed ++ "Triplets: 12 on 50" ++ line_feed]%string, Some KeyError).
Proof. vm_compute. reflexivity. Qed.

(** On a terminal, the same lines are shown as elsewhere: the control sequence is of no effect... *)
Theorem C86_terminal :
  forall calls, Forall plain_message calls ->
    screen (fst (run_progress (Ok true) calls)) = screen (fst (run_progress (Ok false) calls)).
Proof. exact terminal_same. Qed.
Print Assumptions C86_terminal.

Example C86_terminal_ex :
  Forall plain_message [Add "b" "Blocks" 2; Update "b" 1; Display; Update "b" 1; Display] /\
  fst (run_progress (Ok true) [Add "b" "Blocks" 2; Update "b" 1; Display; Update "b" 1; Display]) <>
  fst (run_progress (Ok false) [Add "b" "Blocks" 2; Update "b" 1; Display; Update "b" 1; Display]) /\
  screen (fst (run_progress (Ok true) [Add "b" "Blocks" 2; Update "b" 1; Display; Update "b" 1; Display])) =
  ["Blocks 1 on 2"; "Blocks 2 on 2"].
Proof.
  split; [|split; [vm_compute; discriminate|vm_compute; reflexivity]].
  repeat constructor; vm_compute; intuition discriminate.
Qed.

(** ... so that it is not true that a display replaces the one before it. *)
Theorem C86_terminal_refuted :
  exists calls, Forall plain_message calls /\
    texts true [] calls = (["Blocks 1 on 2" ++ line_feed; String "027" "[<1>ABlocks 2 on 2" ++ line_feed]%string, None) /\
    screen (fst (run_progress (Ok true) calls)) <> ["Blocks 2 on 2"] /\
    screen ["Blocks 1 on 2" ++ line_feed; String "027" "[1ABlocks 2 on 2" ++ line_feed]%string = ["Blocks 2 on 2"].
Proof.
  exists [Add "b" "Blocks" 2; Update "b" 1; Display; Update "b" 1; Display].
  split; [repeat constructor; vm_compute; intuition discriminate|].
  split; [vm_compute; reflexivity|]. split; [vm_compute; discriminate|vm_compute; reflexivity].
Qed.
Print Assumptions C86_terminal_refuted.

(** A task is the same whether it is verbose or not, when it is known whether the standard input is
    a terminal... *)
Theorem C86_same_task :
  forall korder enum (verbose : bool) stdin tty database T cols db,
    (verbose = true -> stdin = Ok tty) ->
    snd (task_init_said korder enum verbose stdin database T cols db) = task_init korder enum T cols db.
Proof. exact same_task. Qed.
Print Assumptions C86_same_task.

Example C86_same_task_ex :
  is_ok (task_init idk idz ex_task ex_cols ex_db) = true /\
  is_ok (task_init idk idz (mk_task "phone" ["accent"] ["lang"] ex_filters no_regressors) ex_cols ex_db) = false /\
  (true = true -> Ok true = Ok true).
Proof. vm_compute. auto. Qed.

(** ... what is printed is the number of by groups, of those kept and of blocks done so far... *)
Theorem C86_task_text :
  forall korder enum, lists_keys korder ->
  forall tty database T cols db T' bs st l,
    task_init korder enum T cols db = Ok (T', bs, st) -> lists_labels (t_by T) db l ->
    fst (task_init_said korder enum true (Ok tty) database T cols db) =
    init_text tty database (length l) (length bs) (Z.to_nat (s_nb_blocks st)).
Proof. exact task_text. Qed.
Print Assumptions C86_task_text.

Example C86_task_text_ex :
  lists_labels (t_by ex_task) ex_db [[5]; [6]; [7]; [8]] /\
  match task_init idk idz ex_task ex_cols ex_db with
  | Ok (_, bs, st) => length bs = 3%nat /\ s_nb_blocks st = 9
  | Err _ => False
  end /\
  init_text true "d.item" 2 1 2 =
  ["checking input database d.item" ++ line_feed; "input database verified" ++ line_feed;
   "Preprocessing by block 1 on 2" ++ line_feed; String "027" "[<1>APreprocessing by block 2 on 2" ++ line_feed;
   "Computing statistics for by block 1 on 1" ++ line_feed;
   "Computing statistics for by/on/across block 1 on 2" ++ line_feed;
   String "027" "[<1>AComputing statistics for by/on/across block 2 on 2" ++ line_feed]%string.
Proof.
  split; [|split; [vm_compute; auto|vm_compute; reflexivity]].
  split; [repeat constructor; cbn; intuition discriminate|].
  intros k. cbn [In t_by ex_task]. split.
  - intros [<- | [<- | [<- | [<- | []]]]];
      [exists (ln 1 1 5 10)|exists (ln 3 3 6 14)|exists (ln 1 1 7 0)|exists (ln 1 1 8 5)];
      (split; [cbn; tauto|reflexivity]).
  - intros (r & I & <-). cbn in I. repeat destruct I as [<- | I]; try (vm_compute; tauto).
Qed.

(** ... and nothing is printed by a task that is not verbose. *)
Theorem C86_quiet_task :
  forall korder enum stdin database T cols db r,
    task_init korder enum T cols db = Ok r -> fst (task_init_said korder enum false stdin database T cols db) = [].
Proof. exact quiet_task. Qed.
Print Assumptions C86_quiet_task.

Example C86_quiet_task_ex : is_ok (task_init idk idz ex_task ex_cols ex_db) = true.
Proof. vm_compute. reflexivity. Qed.

(** When the standard input is closed, or is not a file, a verbose task cannot be made... *)
Theorem C86_closed_task :
  forall korder enum e database T cols db,
    task_init_said korder enum true (Err e) database T cols db =
    match check_database cols (t_on T) (t_across T) (t_by T) with
    | Ok _ => (["checking input database " ++ database ++ line_feed; "input database verified" ++ line_feed]%string, Err e)
    | Err e' => (["checking input database " ++ database ++ line_feed]%string, Err e')
    end.
Proof. exact closed_task. Qed.
Print Assumptions C86_closed_task.

Example C86_closed_task_ex : check_database ex_cols (t_on ex_task) (t_across ex_task) (t_by ex_task) = Ok tt.
Proof. vm_compute. reflexivity. Qed.

(** ... so that it is not true that the option only adds messages. *)
Theorem C86_stdin_refuted :
  exists T cols db stdin,
    is_ok (task_init idk idz T cols db) = true /\
    snd (task_init_said idk idz true stdin "d.item" T cols db) = Err AttributeError.
Proof. exists ex_task, ex_cols, ex_db, (Err AttributeError). vm_compute. auto. Qed.
Print Assumptions C86_stdin_refuted.

(** The file made by a verbose task is the same too, for the by of the task or for those that
    remain after a first generation, with the exact or the approximate statistics... *)
Theorem C86_same_file :
  forall korder enum, lists_keys korder -> forall argsort R fuel T cols db T' bs0 st0 st ap,
    task_init korder enum T cols db = Ok (T', bs0, st0) ->
    compute_statistics korder enum T' ap bs0 = Ok st ->
  forall (verbose : bool) stdin tty output thr bs c,
    (verbose = true -> stdin = Ok tty) -> incl bs bs0 ->
    snd (generate_triplets_said korder enum argsort R fuel verbose stdin output T' thr bs st
           (combine (map b_key bs0) (s_by st)) c) =
    generate_triplets korder enum argsort R fuel T' thr bs st c.
Proof. exact same_generation. Qed.
Print Assumptions C86_same_file.

Example C86_same_file_ex :
  lists_keys idk /\
  match task_init idk idz ex_task ex_cols ex_db with
  | Ok (T', bs0, _) =>
    match compute_statistics idk idz T' true bs0 with
    | Ok st => is_ok (generate_triplets idk idz argsort_ins ex_rng 9 T' None bs0 st 0) = true /\ incl (tl bs0) bs0 /\
        is_ok (generate_triplets idk idz argsort_ins ex_rng 9 T' None (tl bs0) st 0) = true
    | Err _ => False
    end
  | Err _ => False
  end.
Proof. split; [intros l; apply Permutation_refl|]. vm_compute. intuition. Qed.

(** ... and what is printed is the number of blocks and of triplets done so far. *)
Theorem C86_file_text :
  forall korder enum, lists_keys korder -> forall argsort R fuel T cols db T' bs0 st0 st ap,
    task_init korder enum T cols db = Ok (T', bs0, st0) ->
    compute_statistics korder enum T' ap bs0 = Ok st ->
  forall tty output thr bs ss c bs' f,
    Forall2 (fun b s => In (b, s) (combine bs0 (s_by st))) bs ss ->
    generate_triplets korder enum argsort R fuel T' thr bs st c = Ok (bs', f) ->
    fst (generate_triplets_said korder enum argsort R fuel true (Ok tty) output T' thr bs st
           (combine (map b_key bs0) (s_by st)) c) =
    match f with
    | Some _ => generation_text tty output (s_nb_blocks st) (s_nb_triplets st)
                  (map (fun s => map snd (st_block_sizes s)) ss)
    | None => []
    end.
Proof. exact generation_said. Qed.
Print Assumptions C86_file_text.

Example C86_file_text_ex :
  match task_init idk idz ex_task ex_cols ex_db with
  | Ok (T', bs0, st) =>
    map (fun s => map snd (st_block_sizes s)) (s_by st) = [[2; 2; 1; 4]; [0]; [1; 0; 0; 0]]
  | Err _ => False
  end /\
  generation_text false "d.abx" 3 5 [[2; 0]; [3]] =
  ["writing output to d.abx" ++ line_feed;
   "Writing ABX triplets to task file..." ++ line_feed;
   "Computing triplets for by/on/across block 1 on 3" ++ line_feed ++ "Triplets considered: 2 on 5" ++ line_feed;
   "Computing triplets for by/on/across block 2 on 3" ++ line_feed ++ "Triplets considered: 2 on 5" ++ line_feed;
   "Writing ABX triplets to task file..." ++ line_feed;
   "Computing triplets for by/on/across block 3 on 3" ++ line_feed ++ "Triplets considered: 5 on 5" ++ line_feed;
   "done." ++ line_feed]%string.
Proof. vm_compute. auto. Qed.

Theorem C86_quiet_file :
  forall korder enum, lists_keys korder -> forall argsort R fuel T cols db T' bs0 st0 st ap,
    task_init korder enum T cols db = Ok (T', bs0, st0) ->
    compute_statistics korder enum T' ap bs0 = Ok st ->
  forall stdin output thr bs c bs' f, incl bs bs0 ->
    generate_triplets korder enum argsort R fuel T' thr bs st c = Ok (bs', f) ->
    fst (generate_triplets_said korder enum argsort R fuel false stdin output T' thr bs st
           (combine (map b_key bs0) (s_by st)) c) = [].
Proof. exact quiet_generation. Qed.
Print Assumptions C86_quiet_file.

Example C86_quiet_file_ex :
  match task_init idk idz ex_task ex_cols ex_db with
  | Ok (T', bs0, st) => is_ok (generate_triplets idk idz argsort_ins ex_rng 9 T' None bs0 st 0) = true
  | Err _ => False
  end.
Proof. vm_compute. reflexivity. Qed.

(** The last message of the first generation says that all blocks and all triplets are done. *)
Theorem C86_finished :
  forall korder enum, lists_keys korder -> forall argsort R fuel T cols db T' bs0 st0 st ap,
    task_init korder enum T cols db = Ok (T', bs0, st0) ->
    compute_statistics korder enum T' ap bs0 = Ok st ->
  forall (tty : bool) output thr c bs' f,
    generate_triplets korder enum argsort R fuel T' thr bs0 st c = Ok (bs', Some f) ->
    exists before,
      fst (generate_triplets_said korder enum argsort R fuel true (Ok tty) output T' thr bs0 st
             (combine (map b_key bs0) (s_by st)) c) =
      before ++ [((if tty && negb (s_nb_blocks st =? 1)%Z then marker 2 else "")
                  ++ "Computing triplets for by/on/across block " ++ decimal (s_nb_blocks st) ++ " on "
                  ++ decimal (s_nb_blocks st) ++ line_feed
                  ++ "Triplets considered: " ++ decimal (s_nb_triplets st) ++ " on " ++ decimal (s_nb_triplets st)
                  ++ line_feed)%string; ("done." ++ line_feed)%string].
Proof. exact generation_finished. Qed.
Print Assumptions C86_finished.

Example C86_finished_ex :
  match task_init idk idz ex_task ex_cols ex_db with
  | Ok (T', bs0, st) =>
    match generate_triplets idk idz argsort_ins ex_rng 9 T' None bs0 st 0 with
    | Ok (_, Some _) =>
      nth 12 (fst (generate_triplets_said idk idz argsort_ins ex_rng 9 true (Ok false) "d.abx" T' None bs0 st
         (combine (map b_key bs0) (s_by st)) 0)) "" =
      ("Computing triplets for by/on/across block 9 on 9" ++ line_feed ++ "Triplets considered: 10 on 10" ++ line_feed)%string
    | _ => False
    end
  | Err _ => False
  end.
Proof. vm_compute. reflexivity. Qed.

(** It is not true of a second generation: the by without triplets are gone, and are still counted. *)
Theorem C86_again_refuted :
  exists T cols db,
    match task_init idk idz T cols db with
    | Ok (T', bs0, st) =>
      match generate_triplets idk idz argsort_ins ex_rng 9 T' None bs0 st 0 with
      | Ok (bs', Some f) =>
        match generate_triplets idk idz argsort_ins ex_rng 9 T' None bs' st 0 with
        | Ok (_, Some f') =>
          fl_triplets f' = fl_triplets f /\
          last (removelast (fst (generate_triplets_said idk idz argsort_ins ex_rng 9 true (Ok false) "d.abx" T' None bs' st
             (combine (map b_key bs0) (s_by st)) 0))) "" =
          ("Computing triplets for by/on/across block 8 on 9" ++ line_feed ++ "Triplets considered: 10 on 10" ++ line_feed)%string
        | _ => False
        end
      | _ => False
      end
    | _ => False
    end.
Proof. exists ex_task, ex_cols, ex_db. vm_compute. split; reflexivity. Qed.
Print Assumptions C86_again_refuted.

(** When the standard input is closed, nothing is generated and no file is made. *)
Theorem C86_closed_file :
  forall korder enum argsort R fuel T' bs0 st,
  forall e output thr bs c, s_nb_triplets st <> 0 ->
    generate_triplets_said korder enum argsort R fuel true (Err e) output T' thr bs st
      (combine (map b_key bs0) (s_by st)) c =
    (["writing output to " ++ output ++ line_feed]%string, Err e).
Proof. exact closed_generation. Qed.
Print Assumptions C86_closed_file.

Example C86_closed_file_ex :
  match task_init idk idz ex_task ex_cols ex_db with
  | Ok (_, _, st) => s_nb_triplets st = 10
  | Err _ => False
  end.
Proof. vm_compute. reflexivity. Qed.
