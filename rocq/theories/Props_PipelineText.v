(** Property theorems: the result file of a whole evaluation (C40). *)
From Coq Require Import Ascii String.
From Coq Require Import List ZArith QArith Permutation.
From Verif Require Import Prelude TypeFitting Sampler Sampler_spec Sampler_proofs Task Task_spec Task_sort Task_main Task_ex Task_reg_ex
  Task_reg_spec Distances Distances_spec Score Score_spec Analyze Rounding H5io Pipeline Pipeline_spec Pipeline_proofs Pipeline_ex
  AnalyzeText AnalyzeText_spec AnalyzeText_ex Pipeline_text.
Import ListNotations.
Open Scope string_scope.
Open Scope list_scope.
Open Scope Z_scope.

(** C40: the result file of a whole evaluation, read as lines of fields separated by tabs, is a
    header with the names of the analysed regressors and one row for each line of the definition of
    the ABX task (see [C40_result]), when no name and no label has a tab or a newline. *)
Theorem C40_result_file :
  forall (tm L : Type) (leq : forall x y : L, {x = y} + {x <> y}) (plain : L -> bool) (name : key -> string),
    (forall k k', name k = name k' -> k = k') ->
  forall gorder : list (string * by_group L) -> list (string * by_group L), (forall l, Permutation (gorder l) l) ->
  forall korder enum argsort (R : rng) (fuel : nat), lists_keys korder -> lists_set enum -> argsort_spec argsort ->
  forall rlen wlen clen : Z -> nat,
    (forall z, (0 < rlen z)%nat) -> (forall z, (0 < wlen z)%nat) -> (forall z, (0 < clen z)%nat) ->
  forall memory o_buffer : Z, 8 <= o_buffer ->
  forall T cols db (places : list (Distances.item tm)) (indexes : list (string * list L)) thr c,
    reads cols (t_filters T) -> determined T db -> kept_first T db ->
    reg_reads cols (t_regressors T) -> reg_determined T db ->
    length places = length db -> Zlen db <= 94906265 -> A_fine T -> levels_ok plain T db indexes ->
  forall x : abx_file tm L,
    make_file leq plain name gorder korder enum argsort R fuel rlen wlen clen memory o_buffer T cols db places indexes thr c
      = Ok (Some x) ->
    storable T db (capacity (Zlen (x_triplets x))) ->
    64 * Zlen (x_triplets x) <= 3 * memory \/ 10 ^ 9 <= memory /\ Zlen (x_triplets x) <= 10 ^ 14 ->
  forall (F V : Type) (tle : tm -> tm -> bool) (vlt : V -> V -> bool)
    (distance : option bool -> list F -> list F -> res V) (files : list (feature_data tm F)) (normalize : option Z),
    features_ok files ->
  forall (zero : V) dfuel n_cpu df0 df' s0 s rnd slen stem,
    no_threshold thr \/ of_BX (t_regressors T) = [] ->
    (1 <= n_cpu)%nat ->
    compute_distances zero argsort dfuel (mk_setting (for_distances x) files normalize) df0 n_cpu = (df', Ok s0) ->
    reaches tle distance (mk_setting (for_distances x) files normalize) s0 s -> s_main s = M_returned ->
    exact53 rnd -> (forall z, (0 < slen z)%nat) -> (forall d d', vlt d d' = true -> vlt d' d = false) ->
  forall (str_label : L -> string) (str_float : Q -> string),
    Forall field (map fst indexes) -> (forall s levels l, In (s, levels) indexes -> In l levels -> field (str_label l)) ->
    (forall k t, is_wanted T db k t -> field (name k)) -> (forall q, field (str_float q)) ->
    exists dis, d_data (s_file s) = Some dis /\
    forall k tf dfn sf,
      lookup (k_tasks k) tf = Ok (for_score x) -> lookup (k_distances k) dfn = Ok dis ->
      ~ there k (score_name stem tf dfn sf) ->
      exists k' scores lines rows text,
        score vlt rnd slen stem k tf dfn sf = (k', Ok tt) /\
        lookup (k_scores k') (score_name stem tf dfn sf) = Ok scores /\
        analyze_text rnd argsort str_label str_float (for_analysis x) scores = (text, Ok tt) /\
        table_of text = Some ((map fst indexes ++ ["by"; "score"; "n"]%string) :: rows) /\
        Forall2 (row_of str_label str_float) lines rows /\
        result_of tle vlt distance name T db places files normalize indexes lines.
Proof. exact evaluation_text. Qed.
Print Assumptions C40_result_file.

Example C40_result_file_ex :
  (forall k k', pl_name k = pl_name k' -> k = k') /\ reads ex_cols (t_filters ex_task_reg) /\
  determined ex_task_reg ex_db /\ kept_first ex_task_reg ex_db /\
  reg_reads ex_cols (t_regressors ex_task_reg) /\ reg_determined ex_task_reg ex_db /\
  length pl_places = length ex_db /\ A_fine ex_task_reg /\ levels_ok plain_text ex_task_reg ex_db pl_indexes /\
  pl_make = Ok (Some pl_file) /\ length (x_triplets pl_file) = 10%nat /\
  storable ex_task_reg ex_db (capacity (Zlen (x_triplets pl_file))) /\
  64 * Zlen (x_triplets pl_file) <= 3 * 1000 /\ features_ok pl_files /\
  (exists df', compute_distances 0 argsort_ins 100 pl_setting (mk_dist_file None None) 2 = (df', Ok pl_start)) /\
  reaches Z.leb pl_distance pl_setting pl_start pl_end /\ s_main pl_end = M_returned /\ exact53 rnd64 /\
  d_data (s_file pl_end) = Some [1; 8; 5; 1; 8; 5; 8; 8; 3; 6; 3; 2; 5; 5; 3; 4] /\
  (exists k', score Z.ltb rnd64 pl_len (fun s => s) pl_disk "t.abx" "d.distance" None = (k', Ok tt) /\
     lookup (k_scores k') "t.abx_d.distance.score" = Ok [0; -1; -1; -1; 0; 1; -1; 1; 1; 1]) /\
  Forall field (map fst pl_indexes) /\ (forall s levels l, In (s, levels) pl_indexes -> In l levels -> field l) /\
  Forall field (x_bys pl_file) /\
  table_of (fst (analyze_text rnd64 argsort_ins (fun s => s) ex_float (for_analysis pl_file) [0; -1; -1; -1; 0; 1; -1; 1; 1; 1])) =
    Some [["phone_B"; "talker_X"; "phone_1"; "by"; "score"; "n"]; ["a"; "ann"; "b"; "+11;"; "0/1"; "2"]; ["a"; "bob"; "b"; "+11;"; "1/4"; "2"];
          ["b"; "ann"; "a"; "+11;"; "3/4"; "4"]; ["b"; "bob"; "a"; "+11;"; "1/2"; "1"]; ["b"; "cid"; "a"; "+000;"; "1/1"; "1"]].
Proof.
  split; [exact pl_name_inj|]. split; [exact ex_reads|]. split; [exact ex_reg_determined|].
  split; [exact ex_reg_kept_first|]. split; [exact ex_reg_reads|]. split; [apply ex_reg_regs_determined; reflexivity|].
  split; [reflexivity|]. split; [exact pl_A_fine|]. split; [exact pl_levels|]. split; [exact pl_made|].
  split; [reflexivity|]. split; [apply storable_small; vm_compute; discriminate|]. split; [vm_compute; discriminate|].
  split; [exact pl_features_ok|]. split; [eexists; vm_compute; reflexivity|].
  split; [eexists; reflexivity|]. split; [vm_compute; reflexivity|]. split; [exact rnd64_exact|].
  split; [vm_compute; reflexivity|]. split; [eexists; split; vm_compute; reflexivity|].
  split; [repeat (apply Forall_cons; [apply field_of; reflexivity|]); apply Forall_nil|].
  split; [intros s levels l [E|[E|[E|[]]]] Hl; injection E as <- <-; repeat (destruct Hl as [<-|Hl]; [apply field_of; reflexivity|]); destruct Hl|].
  split; [repeat (apply Forall_cons; [apply field_of; reflexivity|]); apply Forall_nil|]. vm_compute. reflexivity.
Qed.

(** C40: with a threshold, the result file can be read and contains the lines of the definition for the
    triplets that were chosen (C40_threshold_chosen says which). *)
Theorem C40_threshold_file :
  forall (tm L : Type) (leq : forall x y : L, {x = y} + {x <> y}) (plain : L -> bool) (name : key -> string),
    (forall k k', name k = name k' -> k = k') ->
  forall gorder : list (string * by_group L) -> list (string * by_group L), (forall l, Permutation (gorder l) l) ->
  forall korder enum argsort (R : rng) (fuel : nat), lists_keys korder -> lists_set enum -> argsort_spec argsort ->
  forall rlen wlen clen : Z -> nat,
    (forall z, (0 < rlen z)%nat) -> (forall z, (0 < wlen z)%nat) -> (forall z, (0 < clen z)%nat) ->
  forall memory o_buffer : Z, 8 <= o_buffer ->
  forall T cols db (places : list (Distances.item tm)) (indexes : list (string * list L)) thr c,
    reads cols (t_filters T) -> determined T db -> kept_first T db ->
    reg_reads cols (t_regressors T) -> reg_determined T db ->
    length places = length db -> Zlen db <= 94906265 -> A_fine T -> levels_ok plain T db indexes ->
  forall x : abx_file tm L,
    make_file leq plain name gorder korder enum argsort R fuel rlen wlen clen memory o_buffer T cols db places indexes thr c
      = Ok (Some x) ->
    storable T db (capacity (Zlen (x_triplets x))) ->
    64 * Zlen (x_triplets x) <= 3 * memory \/ 10 ^ 9 <= memory /\ Zlen (x_triplets x) <= 10 ^ 14 ->
  forall (F V : Type) (tle : tm -> tm -> bool) (vlt : V -> V -> bool)
    (distance : option bool -> list F -> list F -> res V) (files : list (feature_data tm F)) (normalize : option Z),
    features_ok files ->
  forall t, rng_ok R -> room T db -> 0 < t -> of_BX (t_regressors T) <> [] -> thr = Some t ->
  forall (zero : V) dfuel n_cpu df0 df' s0 s rnd slen stem,
    (1 <= n_cpu)%nat ->
    compute_distances zero argsort dfuel (mk_setting (for_distances x) files normalize) df0 n_cpu = (df', Ok s0) ->
    reaches tle distance (mk_setting (for_distances x) files normalize) s0 s -> s_main s = M_returned ->
    exact53 rnd -> (forall z, (0 < slen z)%nat) -> (forall d d', vlt d d' = true -> vlt d' d = false) ->
  forall (str_label : L -> string) (str_float : Q -> string),
    Forall field (map fst indexes) -> (forall s levels l, In (s, levels) indexes -> In l levels -> field (str_label l)) ->
    (forall k t, is_wanted T db k t -> field (name k)) -> (forall q, field (str_float q)) ->
    exists dis, d_data (s_file s) = Some dis /\
    forall k tf dfn sf,
      lookup (k_tasks k) tf = Ok (for_score x) -> lookup (k_distances k) dfn = Ok dis ->
      ~ there k (score_name stem tf dfn sf) ->
      exists k' scores lines rows text,
        score vlt rnd slen stem k tf dfn sf = (k', Ok tt) /\
        lookup (k_scores k') (score_name stem tf dfn sf) = Ok scores /\
        analyze_text rnd argsort str_label str_float (for_analysis x) scores = (text, Ok tt) /\
        table_of text = Some ((map fst indexes ++ ["by"; "score"; "n"]%string) :: rows) /\
        Forall2 (row_of str_label str_float) lines rows /\
        result_among tle vlt distance name (listed name (x_bys x) (x_by_index x) (x_triplets x))
          T db places files normalize indexes lines.
Proof. exact threshold_text. Qed.
Print Assumptions C40_threshold_file.

Example C40_threshold_file_ex :
  (forall k k', pl_name k = pl_name k' -> k = k') /\ reads ex_cols (t_filters ex_task_reg) /\
  determined ex_task_reg ex_db /\ kept_first ex_task_reg ex_db /\
  reg_reads ex_cols (t_regressors ex_task_reg) /\ reg_determined ex_task_reg ex_db /\
  A_fine ex_task_reg /\ levels_ok plain_text ex_task_reg ex_db pl_indexes /\
  pt_make = Ok (Some pt_file) /\ storable ex_task_reg ex_db (capacity (Zlen (x_triplets pt_file))) /\
  rng_ok ex_rng /\ room ex_task_reg ex_db /\ of_BX (t_regressors ex_task_reg) <> [] /\
  (exists df', compute_distances 0 argsort_ins 100 pt_setting (mk_dist_file None None) 2 = (df', Ok pt_start)) /\
  reaches Z.leb pl_distance pt_setting pt_start pt_end /\ s_main pt_end = M_returned /\
  (exists k', score Z.ltb rnd64 pl_len (fun s => s) pt_disk "t.abx" "d.distance" None = (k', Ok tt) /\
     lookup (k_scores k') "t.abx_d.distance.score" = Ok [0; -1; -1; -1; 0; 1; 1; 1]) /\
  table_of (fst (analyze_text rnd64 argsort_ins (fun s => s) ex_float (for_analysis pt_file) [0; -1; -1; -1; 0; 1; 1; 1])) =
    Some [["phone_B"; "talker_X"; "phone_1"; "by"; "score"; "n"]; ["a"; "ann"; "b"; "+11;"; "0/1"; "2"]; ["a"; "bob"; "b"; "+11;"; "1/4"; "2"];
          ["b"; "ann"; "a"; "+11;"; "1/1"; "2"]; ["b"; "bob"; "a"; "+11;"; "1/2"; "1"]; ["b"; "cid"; "a"; "+000;"; "1/1"; "1"]].
Proof.
  split; [exact pl_name_inj|]. split; [exact ex_reads|]. split; [exact ex_reg_determined|].
  split; [exact ex_reg_kept_first|]. split; [exact ex_reg_reads|]. split; [apply ex_reg_regs_determined; reflexivity|].
  split; [exact pl_A_fine|]. split; [exact pl_levels|].
  split; [exact pt_made|]. split; [apply storable_small; vm_compute; discriminate|]. split; [exact ex_rng_ok|].
  split; [exact pl_room|]. split; [discriminate|]. split; [eexists; vm_compute; reflexivity|].
  split; [eexists; reflexivity|]. split; [vm_compute; reflexivity|]. split; [eexists; split; vm_compute; reflexivity|].
  vm_compute. reflexivity.
Qed.
