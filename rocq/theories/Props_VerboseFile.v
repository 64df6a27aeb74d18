(** Property theorems: what verbose tasks do and print, continued: whole task files, and the number of levels (C86). *)
From Coq Require Import Ascii String.
From Verif Require Import Prelude TypeFitting Sampler Sampler_proofs Task Task_spec Task_ex Task_reg_ex Levels Levels_ex H5io Pipeline Pipeline_ex
  Progress Progress_spec Verbose Verbose_spec VerboseFile VerboseFile_spec VerboseFile_main.
Open Scope string_scope.
Open Scope list_scope.
Open Scope Z_scope.

(** C86: from the item file to the task file, a verbose task does what a quiet one does, errors included... *)
Theorem C86_same_whole_file :
  forall tm L leq plain name gorder korder enum, lists_keys korder ->
  forall argsort R fuel rlen wlen clen memory o_buffer T cols db places indexes thr c (verbose : bool) stdin tty database output,
    (verbose = true -> stdin = Ok tty) ->
    snd (@make_file_said tm L leq plain name gorder korder enum argsort R fuel rlen wlen clen memory o_buffer verbose stdin
           database output T cols db places indexes thr c) =
    make_file leq plain name gorder korder enum argsort R fuel rlen wlen clen memory o_buffer T cols db places indexes thr c.
Proof. exact same_made. Qed.
Print Assumptions C86_same_whole_file.

Example C86_same_whole_file_ex :
  is_ok pl_make = true /\
  snd (make_file_said string_dec plain_text pl_name (@rev _) idk idz argsort_ins ex_rng 9 pl_len pl_len pl_len 1000 100
         true (Ok true) "d.item" "d.abx" ex_task_reg ex_cols ex_db pl_places pl_indexes None 0) = Ok (Some pl_file) /\
  snd (make_file_said string_dec plain_text pl_name (@rev _) idk idz argsort_ins ex_rng 9 pl_len pl_len pl_len 1000 0
         true (Ok true) "d.item" "d.abx" ex_task_reg ex_cols ex_db pl_places pl_indexes None 0) =
  make_file string_dec plain_text pl_name (@rev _) idk idz argsort_ins ex_rng 9 pl_len pl_len pl_len 1000 0
         ex_task_reg ex_cols ex_db pl_places pl_indexes None 0.
Proof. vm_compute. auto. Qed.

(** ... all that is printed is: the messages of the task, those of the triplets, one message for the pairs of each
    by value of the file, and a last word; those of the task alone when there is no triplet... *)
Theorem C86_whole_text :
  forall tm L leq plain name gorder korder enum, lists_keys korder ->
  forall argsort R fuel rlen wlen clen memory o_buffer T cols db places indexes thr c tty database output x T' bs st l,
    task_init korder enum T cols db = Ok (T', bs, st) -> lists_labels (t_by T) db l ->
    make_file leq plain name gorder korder enum argsort R fuel rlen wlen clen memory o_buffer T cols db places indexes thr c = Ok x ->
    fst (@make_file_said tm L leq plain name gorder korder enum argsort R fuel rlen wlen clen memory o_buffer true (Ok tty)
           database output T cols db places indexes thr c) =
    init_text tty database (length l) (length bs) (Z.to_nat (s_nb_blocks st)) ++
    match x with
    | Some x => generation_text tty output (s_nb_blocks st) (s_nb_triplets st)
                  (map (fun s => map snd (st_block_sizes s)) (s_by st)) ++
                pairs_text (length (x_bys x))
    | None => []
    end.
Proof. exact made_text. Qed.
Print Assumptions C86_whole_text.

Example C86_whole_text_ex :
  match task_init idk idz ex_task_reg ex_cols ex_db with
  | Ok (_, bs, st) => length bs = 3%nat /\ s_nb_blocks st = 9 /\ s_nb_triplets st = 10
  | Err _ => False
  end /\ is_ok pl_make = true /\ length (x_bys pl_file) = 2%nat /\
  skipn 30 (fst (make_file_said string_dec plain_text pl_name (@rev _) idk idz argsort_ins ex_rng 9 pl_len pl_len pl_len 1000 100
         true (Ok false) "d.item" "d.abx" ex_task_reg ex_cols ex_db pl_places pl_indexes None 0)) =
  ["Computing triplets for by/on/across block 9 on 9" ++ line_feed ++ "Triplets considered: 10 on 10" ++ line_feed;
   "done." ++ line_feed;
   "Writing AX/BX pairs to task file..." ++ line_feed;
   "Writing AX/BX pairs to task file..." ++ line_feed;
   "done." ++ line_feed]%string.
Proof. vm_compute. auto 10. Qed.

(** ... and a quiet task prints nothing. *)
Theorem C86_quiet_whole :
  forall tm L leq plain name gorder korder enum, lists_keys korder ->
  forall argsort R fuel rlen wlen clen memory o_buffer T cols db places indexes thr c stdin database output x,
    make_file leq plain name gorder korder enum argsort R fuel rlen wlen clen memory o_buffer T cols db places indexes thr c = Ok x ->
    fst (@make_file_said tm L leq plain name gorder korder enum argsort R fuel rlen wlen clen memory o_buffer false stdin
           database output T cols db places indexes thr c) = [].
Proof. exact quiet_made. Qed.
Print Assumptions C86_quiet_whole.

Example C86_quiet_whole_ex : is_ok pl_make = true.
Proof. vm_compute. reflexivity. Qed.

(** Counting the levels gives the same counts and the same errors... *)
Theorem C86_same_levels :
  forall korder enum has_ix (verbose : bool) stdin tty T bs st lv,
    (verbose = true -> stdin = Ok tty) ->
    snd (compute_nb_levels_said korder enum verbose stdin has_ix T bs st lv) = compute_nb_levels korder enum has_ix T bs lv.
Proof. exact same_levels. Qed.
Print Assumptions C86_same_levels.

Example C86_same_levels_ex :
  match task_init idk idz (lv_task ["talker"]) ex_cols ex_db with
  | Ok (T', bs, st) =>
    snd (compute_nb_levels idk idz true T' bs (mk_levels [None; None; None] None)) = Ok tt /\
    snd (compute_nb_levels idk idz false T' bs (mk_levels [None; None; None] None)) = Err AttributeError
  | Err _ => False
  end.
Proof. vm_compute. auto. Qed.

(** ... with one message for each by value, numbered from one, out of the number of by values of the statistics... *)
Theorem C86_levels_text :
  forall korder enum has_ix (verbose : bool) stdin tty T bs st lv,
    (verbose = true -> stdin = Ok tty) ->
    snd (compute_nb_levels korder enum has_ix T bs lv) = Ok tt ->
    fst (compute_nb_levels_said korder enum verbose stdin has_ix T bs st lv) =
    if verbose then counts_text tty "Computing nb_levels for by block" (s_nb_by_levels st) (length bs) else [].
Proof. exact levels_text. Qed.
Print Assumptions C86_levels_text.

Example C86_levels_text_ex :
  match task_init idk idz (lv_task ["talker"]) ex_cols ex_db with
  | Ok (T', bs, st) =>
    snd (compute_nb_levels idk idz true T' bs (mk_levels [None; None; None] None)) = Ok tt /\ length bs = 3%nat /\
    fst (compute_nb_levels_said idk idz true (Ok false) true T' bs st (mk_levels [None; None; None] None)) =
    ["Computing nb_levels for by block 1 on 3" ++ line_feed;
     "Computing nb_levels for by block 2 on 3" ++ line_feed;
     "Computing nb_levels for by block 3 on 3" ++ line_feed]%string
  | Err _ => False
  end.
Proof. vm_compute. auto. Qed.

(** ... unless the standard input is closed: then nothing is counted. *)
Theorem C86_levels_closed :
  forall korder enum has_ix e T bs st lv, has_item_filters (t_filters T) = false ->
    compute_nb_levels_said korder enum true (Err e) has_ix T bs st lv = ([], (lv, Err e)).
Proof. exact levels_closed. Qed.
Print Assumptions C86_levels_closed.

Example C86_levels_closed_ex :
  match task_init idk idz (lv_task ["talker"]) ex_cols ex_db with
  | Ok (T', bs, st) => has_item_filters (t_filters T') = false /\ snd (compute_nb_levels idk idz true T' bs (mk_levels [None; None; None] None)) = Ok tt
  | Err _ => False
  end.
Proof. vm_compute. auto. Qed.
