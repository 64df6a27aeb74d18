(** Property theorems: a whole evaluation (C40). *)
From Coq Require Import String.
From Coq Require Import List ZArith QArith Permutation.
From Verif Require Import Prelude TypeFitting Sampler Sampler_spec Sampler_proofs Task Task_spec Task_sort Task_main Task_ex Task_reg_ex
  Task_reg_spec Distances Distances_spec Score Score_spec Analyze Rounding H5io Pipeline Pipeline_spec Pipeline_proofs Pipeline_ex.
Import ListNotations.
Open Scope string_scope.
Open Scope list_scope.
Open Scope Z_scope.

(** C40: a task file is made for a table of items, without a threshold or without regressors of B
    and X; the distances are computed on it by any number
    of processes in any order; then scoring and analysing cannot fail, and the lines of the
    analysis are, for each by that has triplets and each combination of values of the analysed
    regressors, the labels, the number of triplets and the proportion of right answers (a tie
    counts for a half) of the definition of the ABX task. *)
Theorem C40_result :
  forall (tm L : Type) (leq : forall x y : L, {x = y} + {x <> y}) (plain : L -> bool) (name : key -> string),
    (forall k k', name k = name k' -> k = k') ->
  forall gorder : list (string * by_group L) -> list (string * by_group L), (forall l, Permutation (gorder l) l) ->
  forall korder enum argsort (R : rng) (fuel : nat), lists_keys korder -> lists_set enum -> argsort_spec argsort ->
  forall rlen wlen clen : Z -> nat,
    (forall z, (0 < rlen z)%nat) -> (forall z, (0 < wlen z)%nat) -> (forall z, (0 < clen z)%nat) ->
  forall memory o_buffer : Z, 8 <= o_buffer ->
  forall T cols db (places : list (Distances.item tm)) (indexes : list (string * list L)) thr c,
    reads cols (t_filters T) -> determined T db -> kept_first T db ->
    reg_reads cols (t_regressors T) -> reg_determined T db ->
    length places = length db -> Zlen db <= 94906265 -> A_fine T -> levels_ok plain T db indexes ->
  forall x : abx_file tm L,
    make_file leq plain name gorder korder enum argsort R fuel rlen wlen clen memory o_buffer T cols db places indexes thr c
      = Ok (Some x) ->
    storable T db (capacity (Zlen (x_triplets x))) ->
    64 * Zlen (x_triplets x) <= 3 * memory \/ 10 ^ 9 <= memory /\ Zlen (x_triplets x) <= 10 ^ 14 ->
  forall (F V : Type) (tle : tm -> tm -> bool) (vlt : V -> V -> bool)
    (distance : option bool -> list F -> list F -> res V) (files : list (feature_data tm F)) (normalize : option Z),
    features_ok files ->
  forall (zero : V) dfuel n_cpu df0 df' s0 s rnd slen stem,
    no_threshold thr \/ of_BX (t_regressors T) = [] ->
    (1 <= n_cpu)%nat ->
    compute_distances zero argsort dfuel (mk_setting (for_distances x) files normalize) df0 n_cpu = (df', Ok s0) ->
    reaches tle distance (mk_setting (for_distances x) files normalize) s0 s -> s_main s = M_returned ->
    exact53 rnd -> (forall z, (0 < slen z)%nat) -> (forall d d', vlt d d' = true -> vlt d' d = false) ->
    exists dis, d_data (s_file s) = Some dis /\
    forall k tf dfn sf,
      lookup (k_tasks k) tf = Ok (for_score x) -> lookup (k_distances k) dfn = Ok dis ->
      ~ there k (score_name stem tf dfn sf) ->
      exists k' scores lines,
        score vlt rnd slen stem k tf dfn sf = (k', Ok tt) /\
        lookup (k_scores k') (score_name stem tf dfn sf) = Ok scores /\
        analyze rnd argsort (for_analysis x) scores = Ok (map fst indexes, lines) /\
        result_of tle vlt distance name T db places files normalize indexes lines.
Proof. exact evaluation_result. Qed.
Print Assumptions C40_result.

Example C40_result_ex :
  (forall k k', pl_name k = pl_name k' -> k = k') /\ reads ex_cols (t_filters ex_task_reg) /\
  determined ex_task_reg ex_db /\ kept_first ex_task_reg ex_db /\
  reg_reads ex_cols (t_regressors ex_task_reg) /\ reg_determined ex_task_reg ex_db /\
  length pl_places = length ex_db /\ A_fine ex_task_reg /\ levels_ok plain_text ex_task_reg ex_db pl_indexes /\
  pl_make = Ok (Some pl_file) /\ length (x_triplets pl_file) = 10%nat /\
  storable ex_task_reg ex_db (capacity (Zlen (x_triplets pl_file))) /\
  64 * Zlen (x_triplets pl_file) <= 3 * 1000 /\ features_ok pl_files /\
  (exists df', compute_distances 0 argsort_ins 100 pl_setting (mk_dist_file None None) 2 = (df', Ok pl_start)) /\
  reaches Z.leb pl_distance pl_setting pl_start pl_end /\ s_main pl_end = M_returned /\ exact53 rnd64 /\
  d_data (s_file pl_end) = Some [1; 8; 5; 1; 8; 5; 8; 8; 3; 6; 3; 2; 5; 5; 3; 4] /\
  (exists k', score Z.ltb rnd64 pl_len (fun s => s) pl_disk "t.abx" "d.distance" None = (k', Ok tt) /\
     lookup (k_scores k') "t.abx_d.distance.score" = Ok [0; -1; -1; -1; 0; 1; -1; 1; 1; 1]) /\
  analyze rnd64 argsort_ins (for_analysis pl_file) [0; -1; -1; -1; 0; 1; -1; 1; 1; 1] =
    Ok (["phone_B"; "talker_X"; "phone_1"],
        [mk_line ["a"; "ann"; "b"] "+11;" (0 # 4) 2; mk_line ["a"; "bob"; "b"] "+11;" (1 # 4) 2;
         mk_line ["b"; "ann"; "a"] "+11;" (6 # 8) 4; mk_line ["b"; "bob"; "a"] "+11;" (1 # 2) 1;
         mk_line ["b"; "cid"; "a"] "+000;" (2 # 2) 1]).
Proof.
  split; [exact pl_name_inj|]. split; [exact ex_reads|]. split; [exact ex_reg_determined|].
  split; [exact ex_reg_kept_first|]. split; [exact ex_reg_reads|]. split; [apply ex_reg_regs_determined; reflexivity|].
  split; [reflexivity|]. split; [exact pl_A_fine|]. split; [exact pl_levels|]. split; [exact pl_made|].
  split; [reflexivity|]. split; [apply storable_small; vm_compute; discriminate|]. split; [vm_compute; discriminate|].
  split; [exact pl_features_ok|]. split; [eexists; vm_compute; reflexivity|].
  split; [eexists; reflexivity|]. split; [vm_compute; reflexivity|]. split; [exact rnd64_exact|].
  split; [vm_compute; reflexivity|]. split; [eexists; split; vm_compute; reflexivity|]. vm_compute. reflexivity.
Qed.

(** C40: the task file is made, whatever the sampler and the orders, when the triplets fit in the
    memory and the item numbers in their type; there is no file exactly when there is no triplet. *)
Theorem C40_task_file_made :
  forall (tm L : Type) (leq : forall x y : L, {x = y} + {x <> y}) (plain : L -> bool) (name : key -> string),
    (forall k k', name k = name k' -> k = k') ->
  forall (gorder : list (string * by_group L) -> list (string * by_group L))
    korder enum argsort (R : rng) (fuel : nat), lists_keys korder -> lists_set enum -> argsort_spec argsort ->
  forall rlen wlen clen : Z -> nat,
    (forall z, (0 < rlen z)%nat) -> (forall z, (0 < wlen z)%nat) -> (forall z, (0 < clen z)%nat) ->
  forall memory o_buffer : Z, 8 <= o_buffer ->
  forall T cols db (places : list (Distances.item tm)) (indexes : list (string * list L)) thr c,
    reads cols (t_filters T) -> determined T db -> kept_first T db ->
    reg_reads cols (t_regressors T) -> reg_determined T db ->
    length places = length db -> Zlen db <= 94906265 -> A_fine T -> levels_ok plain T db indexes ->
  forall T' bs st,
    no_threshold thr \/ of_BX (t_regressors T) = [] ->
    task_init korder enum T cols db = Ok (T', bs, st) ->
    Zlen db * Zlen db * Zlen db < 2 ^ 63 -> r_ABX (t_regressors T) = false ->
    storable T db (capacity (s_nb_triplets st)) ->
    64 * s_nb_triplets st <= 3 * memory \/ 10 ^ 9 <= memory /\ s_nb_triplets st <= 10 ^ 14 ->
    exists o : option (abx_file tm L),
      make_file leq plain name gorder korder enum argsort R fuel rlen wlen clen memory o_buffer T cols db places indexes thr c
        = Ok o /\
      (o = None <-> forall k t, ~ is_wanted T db k t) /\
      forall x, o = Some x -> Zlen (x_triplets x) = s_nb_triplets st.
Proof. exact file_made. Qed.
Print Assumptions C40_task_file_made.

Example C40_task_file_made_ex :
  reads ex_cols (t_filters ex_task_reg) /\ determined ex_task_reg ex_db /\ kept_first ex_task_reg ex_db /\
  reg_reads ex_cols (t_regressors ex_task_reg) /\ reg_determined ex_task_reg ex_db /\
  A_fine ex_task_reg /\ levels_ok plain_text ex_task_reg ex_db pl_indexes /\
  (exists T' bs st, task_init idk idz ex_task_reg ex_cols ex_db = Ok (T', bs, st) /\ s_nb_triplets st = 10) /\
  r_ABX (t_regressors ex_task_reg) = false /\ storable ex_task_reg ex_db (capacity 10) /\
  x_bys pl_file = ["+11;"; "+000;"] /\ pl_make = Ok (Some pl_file).
Proof.
  split; [exact ex_reads|]. split; [exact ex_reg_determined|].
  split; [exact ex_reg_kept_first|]. split; [exact ex_reg_reads|]. split; [apply ex_reg_regs_determined; reflexivity|].
  split; [exact pl_A_fine|]. split; [exact pl_levels|].
  split; [do 3 eexists; split; [vm_compute; reflexivity|reflexivity]|]. split; [reflexivity|].
  split; [apply storable_small; vm_compute; discriminate|]. split; [reflexivity|]. exact pl_made.
Qed.

(** C40: on such a task file, when every triplet has an answer, the computation of the distances
    starts, can always end, and when it has ended it has returned. *)
Theorem C40_distances_return :
  forall (tm L : Type) (leq : forall x y : L, {x = y} + {x <> y}) (plain : L -> bool) (name : key -> string),
    (forall k k', name k = name k' -> k = k') ->
  forall gorder : list (string * by_group L) -> list (string * by_group L), (forall l, Permutation (gorder l) l) ->
  forall korder enum argsort (R : rng) (fuel : nat), lists_keys korder -> lists_set enum -> argsort_spec argsort ->
  forall rlen wlen clen : Z -> nat,
    (forall z, (0 < rlen z)%nat) -> (forall z, (0 < wlen z)%nat) -> (forall z, (0 < clen z)%nat) ->
  forall memory o_buffer : Z, 8 <= o_buffer ->
  forall T cols db (places : list (Distances.item tm)) (indexes : list (string * list L)) thr c,
    reads cols (t_filters T) -> determined T db -> kept_first T db ->
    length places = length db -> Zlen db <= 94906265 ->
  forall x : abx_file tm L,
    make_file leq plain name gorder korder enum argsort R fuel rlen wlen clen memory o_buffer T cols db places indexes thr c
      = Ok (Some x) ->
    storable T db (capacity (Zlen (x_triplets x))) ->
    64 * Zlen (x_triplets x) <= 3 * memory \/ 10 ^ 9 <= memory /\ Zlen (x_triplets x) <= 10 ^ 14 ->
  forall (F V : Type) (tle : tm -> tm -> bool) (vlt : V -> V -> bool)
    (distance : option bool -> list F -> list F -> res V) (files : list (feature_data tm F)) (normalize : option Z),
    features_ok files ->
  forall (zero : V) dfuel n_cpu df0,
    no_threshold thr \/ of_BX (t_regressors T) = [] ->
    (1 <= n_cpu)%nat -> d_data df0 = None -> (length (x_pairs x) <= dfuel)%nat ->
    answerable tle vlt distance T db places files normalize -> blocks_fit (for_distances x) n_cpu ->
    exists df' s0,
      compute_distances zero argsort dfuel (mk_setting (for_distances x) files normalize) df0 n_cpu = (df', Ok s0) /\
      forall s, reaches tle distance (mk_setting (for_distances x) files normalize) s0 s ->
        (exists s', reaches tle distance (mk_setting (for_distances x) files normalize) s s' /\ ended s') /\
        (ended s -> s_main s = M_returned).
Proof. exact distances_return. Qed.
Print Assumptions C40_distances_return.

Example C40_distances_return_ex :
  pl_make = Ok (Some pl_file) /\ features_ok pl_files /\ length (x_pairs pl_file) = 16%nat /\
  answerable Z.leb Z.ltb pl_distance ex_task_reg ex_db pl_places pl_files (Some 1) /\
  blocks_fit (for_distances pl_file) 2 /\ ended pl_end /\ s_main pl_end = M_returned.
Proof.
  split; [exact pl_made|]. split; [exact pl_features_ok|]. split; [reflexivity|]. split; [exact (pl_answerable (Some 1))|].
  split; [exact pl_fit|]. split; [vm_compute; discriminate|]. vm_compute. reflexivity.
Qed.

(** C40: with a threshold [t] and at least one regressor of B or X, the triplets that the task file
    lists for a by are triplets of this by; of those of a block with given values of these
    regressors there are min(t, number of them); and every by with triplets has some. *)
Theorem C40_threshold_chosen :
  forall (tm L : Type) (leq : forall x y : L, {x = y} + {x <> y}) (plain : L -> bool) (name : key -> string),
    (forall k k', name k = name k' -> k = k') ->
  forall (gorder : list (string * by_group L) -> list (string * by_group L))
    korder enum argsort (R : rng) (fuel : nat), lists_keys korder -> lists_set enum -> argsort_spec argsort ->
  forall (rlen wlen clen : Z -> nat) (memory o_buffer : Z) T cols db (places : list (Distances.item tm)) (indexes : list (string * list L)) thr c,
    reads cols (t_filters T) -> determined T db -> kept_first T db ->
    reg_reads cols (t_regressors T) -> reg_determined T db ->
  forall x : abx_file tm L,
    make_file leq plain name gorder korder enum argsort R fuel rlen wlen clen memory o_buffer T cols db places indexes thr c
      = Ok (Some x) ->
    storable T db (capacity (Zlen (x_triplets x))) ->
  forall t, rng_ok R -> room T db -> 0 < t -> of_BX (t_regressors T) <> [] -> thr = Some t ->
    at_most t T db (listed name (x_bys x) (x_by_index x) (x_triplets x)) /\
    forall k, (exists s, listed name (x_bys x) (x_by_index x) (x_triplets x) k s) <-> exists s, is_wanted T db k s.
Proof. exact threshold_chosen. Qed.
Print Assumptions C40_threshold_chosen.

Example C40_threshold_chosen_ex :
  (forall k k', pl_name k = pl_name k' -> k = k') /\ reads ex_cols (t_filters ex_task_reg) /\
  determined ex_task_reg ex_db /\ kept_first ex_task_reg ex_db /\
  reg_reads ex_cols (t_regressors ex_task_reg) /\ reg_determined ex_task_reg ex_db /\
  pt_make = Ok (Some pt_file) /\ storable ex_task_reg ex_db (capacity (Zlen (x_triplets pt_file))) /\
  rng_ok ex_rng /\ room ex_task_reg ex_db /\ of_BX (t_regressors ex_task_reg) <> [] /\
  length (x_triplets pl_file) = 10%nat /\
  x_triplets pt_file = [(2, 0, 3); (2, 4, 3); (3, 1, 2); (3, 5, 2); (0, 2, 5); (1, 3, 0); (5, 3, 0); (0, 2, 3)] /\
  x_bys pt_file = ["+11;"; "+000;"] /\ x_by_index pt_file = [(0, 7); (7, 8)].
Proof.
  split; [exact pl_name_inj|]. split; [exact ex_reads|]. split; [exact ex_reg_determined|].
  split; [exact ex_reg_kept_first|]. split; [exact ex_reg_reads|]. split; [apply ex_reg_regs_determined; reflexivity|].
  split; [exact pt_made|]. split; [apply storable_small; vm_compute; discriminate|]. split; [exact ex_rng_ok|].
  split; [exact pl_room|]. split; [discriminate|]. repeat split; reflexivity.
Qed.

(** C40: ... scoring and analysing cannot fail, and the lines of the analysis are those of the
    definition of the ABX task for the triplets listed. *)
Theorem C40_threshold_result :
  forall (tm L : Type) (leq : forall x y : L, {x = y} + {x <> y}) (plain : L -> bool) (name : key -> string),
    (forall k k', name k = name k' -> k = k') ->
  forall gorder : list (string * by_group L) -> list (string * by_group L), (forall l, Permutation (gorder l) l) ->
  forall korder enum argsort (R : rng) (fuel : nat), lists_keys korder -> lists_set enum -> argsort_spec argsort ->
  forall rlen wlen clen : Z -> nat,
    (forall z, (0 < rlen z)%nat) -> (forall z, (0 < wlen z)%nat) -> (forall z, (0 < clen z)%nat) ->
  forall memory o_buffer : Z, 8 <= o_buffer ->
  forall T cols db (places : list (Distances.item tm)) (indexes : list (string * list L)) thr c,
    reads cols (t_filters T) -> determined T db -> kept_first T db ->
    reg_reads cols (t_regressors T) -> reg_determined T db ->
    length places = length db -> Zlen db <= 94906265 -> A_fine T -> levels_ok plain T db indexes ->
  forall x : abx_file tm L,
    make_file leq plain name gorder korder enum argsort R fuel rlen wlen clen memory o_buffer T cols db places indexes thr c
      = Ok (Some x) ->
    storable T db (capacity (Zlen (x_triplets x))) ->
    64 * Zlen (x_triplets x) <= 3 * memory \/ 10 ^ 9 <= memory /\ Zlen (x_triplets x) <= 10 ^ 14 ->
  forall (F V : Type) (tle : tm -> tm -> bool) (vlt : V -> V -> bool)
    (distance : option bool -> list F -> list F -> res V) (files : list (feature_data tm F)) (normalize : option Z),
    features_ok files ->
  forall t, rng_ok R -> room T db -> 0 < t -> of_BX (t_regressors T) <> [] -> thr = Some t ->
  forall (zero : V) dfuel n_cpu df0 df' s0 s rnd slen stem,
    (1 <= n_cpu)%nat ->
    compute_distances zero argsort dfuel (mk_setting (for_distances x) files normalize) df0 n_cpu = (df', Ok s0) ->
    reaches tle distance (mk_setting (for_distances x) files normalize) s0 s -> s_main s = M_returned ->
    exact53 rnd -> (forall z, (0 < slen z)%nat) -> (forall d d', vlt d d' = true -> vlt d' d = false) ->
    exists dis, d_data (s_file s) = Some dis /\
    forall k tf dfn sf,
      lookup (k_tasks k) tf = Ok (for_score x) -> lookup (k_distances k) dfn = Ok dis ->
      ~ there k (score_name stem tf dfn sf) ->
      exists k' scores lines,
        score vlt rnd slen stem k tf dfn sf = (k', Ok tt) /\
        lookup (k_scores k') (score_name stem tf dfn sf) = Ok scores /\
        analyze rnd argsort (for_analysis x) scores = Ok (map fst indexes, lines) /\
        result_among tle vlt distance name (listed name (x_bys x) (x_by_index x) (x_triplets x))
          T db places files normalize indexes lines.
Proof. exact threshold_result. Qed.
Print Assumptions C40_threshold_result.

Example C40_threshold_result_ex :
  length pl_places = length ex_db /\ A_fine ex_task_reg /\ levels_ok plain_text ex_task_reg ex_db pl_indexes /\
  pt_make = Ok (Some pt_file) /\ 64 * Zlen (x_triplets pt_file) <= 3 * 1000 /\ features_ok pl_files /\
  (exists df', compute_distances 0 argsort_ins 100 pt_setting (mk_dist_file None None) 2 = (df', Ok pt_start)) /\
  reaches Z.leb pl_distance pt_setting pt_start pt_end /\ s_main pt_end = M_returned /\ exact53 rnd64 /\
  d_data (s_file pt_end) = Some [1; 8; 5; 1; 8; 5; 8; 8; 3; 5; 5; 3; 4] /\
  (exists k', score Z.ltb rnd64 pl_len (fun s => s) pt_disk "t.abx" "d.distance" None = (k', Ok tt) /\
     lookup (k_scores k') "t.abx_d.distance.score" = Ok [0; -1; -1; -1; 0; 1; 1; 1]) /\
  analyze rnd64 argsort_ins (for_analysis pt_file) [0; -1; -1; -1; 0; 1; 1; 1] =
    Ok (["phone_B"; "talker_X"; "phone_1"],
        [mk_line ["a"; "ann"; "b"] "+11;" (0 # 4) 2; mk_line ["a"; "bob"; "b"] "+11;" (1 # 4) 2;
         mk_line ["b"; "ann"; "a"] "+11;" (4 # 4) 2; mk_line ["b"; "bob"; "a"] "+11;" (1 # 2) 1;
         mk_line ["b"; "cid"; "a"] "+000;" (2 # 2) 1]).
Proof.
  split; [reflexivity|]. split; [exact pl_A_fine|]. split; [exact pl_levels|]. split; [exact pt_made|].
  split; [vm_compute; discriminate|]. split; [exact pl_features_ok|]. split; [eexists; vm_compute; reflexivity|].
  split; [eexists; reflexivity|]. split; [vm_compute; reflexivity|]. split; [exact rnd64_exact|].
  split; [vm_compute; reflexivity|]. split; [eexists; split; vm_compute; reflexivity|]. vm_compute. reflexivity.
Qed.

(** C40: ... and the computation of the distances starts, can always end, and when it has ended it
    has returned. *)
Theorem C40_threshold_distances_return :
  forall (tm L : Type) (leq : forall x y : L, {x = y} + {x <> y}) (plain : L -> bool) (name : key -> string),
    (forall k k', name k = name k' -> k = k') ->
  forall gorder : list (string * by_group L) -> list (string * by_group L), (forall l, Permutation (gorder l) l) ->
  forall korder enum argsort (R : rng) (fuel : nat), lists_keys korder -> lists_set enum -> argsort_spec argsort ->
  forall rlen wlen clen : Z -> nat,
    (forall z, (0 < rlen z)%nat) -> (forall z, (0 < wlen z)%nat) -> (forall z, (0 < clen z)%nat) ->
  forall memory o_buffer : Z, 8 <= o_buffer ->
  forall T cols db (places : list (Distances.item tm)) (indexes : list (string * list L)) thr c,
    reads cols (t_filters T) -> determined T db -> kept_first T db ->
    reg_reads cols (t_regressors T) -> reg_determined T db ->
    length places = length db -> Zlen db <= 94906265 ->
  forall x : abx_file tm L,
    make_file leq plain name gorder korder enum argsort R fuel rlen wlen clen memory o_buffer T cols db places indexes thr c
      = Ok (Some x) ->
    storable T db (capacity (Zlen (x_triplets x))) ->
    64 * Zlen (x_triplets x) <= 3 * memory \/ 10 ^ 9 <= memory /\ Zlen (x_triplets x) <= 10 ^ 14 ->
  forall (F V : Type) (tle : tm -> tm -> bool) (vlt : V -> V -> bool)
    (distance : option bool -> list F -> list F -> res V) (files : list (feature_data tm F)) (normalize : option Z),
    features_ok files ->
  forall t, rng_ok R -> room T db -> 0 < t -> of_BX (t_regressors T) <> [] -> thr = Some t ->
  forall (zero : V) dfuel n_cpu df0,
    (1 <= n_cpu)%nat -> d_data df0 = None -> (length (x_pairs x) <= dfuel)%nat ->
    answerable tle vlt distance T db places files normalize -> blocks_fit (for_distances x) n_cpu ->
    exists df' s0,
      compute_distances zero argsort dfuel (mk_setting (for_distances x) files normalize) df0 n_cpu = (df', Ok s0) /\
      forall s, reaches tle distance (mk_setting (for_distances x) files normalize) s0 s ->
        (exists s', reaches tle distance (mk_setting (for_distances x) files normalize) s s' /\ ended s') /\
        (ended s -> s_main s = M_returned).
Proof. exact threshold_return. Qed.
Print Assumptions C40_threshold_distances_return.

Example C40_threshold_distances_return_ex :
  pt_make = Ok (Some pt_file) /\ features_ok pl_files /\ length (x_pairs pt_file) = 13%nat /\
  answerable Z.leb Z.ltb pl_distance ex_task_reg ex_db pl_places pl_files (Some 1) /\
  blocks_fit (for_distances pt_file) 2 /\ ended pt_end /\ s_main pt_end = M_returned.
Proof.
  split; [exact pt_made|]. split; [exact pl_features_ok|]. split; [reflexivity|]. split; [exact (pl_answerable (Some 1))|].
  split; [left; vm_compute; discriminate|]. split; [vm_compute; discriminate|]. vm_compute. reflexivity.
Qed.
