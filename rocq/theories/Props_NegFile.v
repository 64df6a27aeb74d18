(** C91: what a negative threshold does, continued: the evaluation of a task file without triplets. *)
From Coq Require Import Ascii String.
From Coq Require Import List ZArith Permutation.
From Verif Require Import Prelude TypeFitting Sampler Sampler_spec Sampler_proofs Task Task_spec Task_main Task_reg_spec TaskIndex_spec Task_ex Task_reg_ex
  Task_thr_ex Expect_ex Distances Score Score_spec Analyze H5io H5io_ex Pipeline Pipeline_spec Pipeline_ex Task_neg Task_neg_ex NegFile NegFile_ex.
Import ListNotations.
Open Scope string_scope.
Open Scope list_scope.
Open Scope Z_scope.

(** C91: with a negative threshold, when all groups have more than 100 triplets, the whole task file is made, without
    triplets, pairs or items; then computing the distances raises a [NameError] (an [UnboundLocalError]) and leaves a
    distance file that is not done and has no distances; and the scores and the analysis do not notice: they give no
    score, and a result file with a header and no line. *)
Theorem C91_negative_file :
  forall (tm L : Type) (leq : forall x y : L, {x = y} + {x <> y}) (plain : L -> bool) (name : key -> string),
    (forall k k', name k = name k' -> k = k') ->
  forall gorder : list (string * by_group L) -> list (string * by_group L), (forall l, Permutation (gorder l) l) ->
  forall korder enum argsort, lists_keys korder -> lists_set enum -> argsort_spec argsort ->
  forall rlen wlen clen : Z -> nat,
    (forall z, (0 < rlen z)%nat) -> (forall z, (0 < wlen z)%nat) -> (forall z, (0 < clen z)%nat) ->
  forall (memory o_buffer : Z) T cols db (places : list (Distances.item tm)) (indexes : list (string * list L)) T' bs st,
    reads cols (t_filters T) -> determined T db -> kept_first T db ->
    reg_reads cols (t_regressors T) -> reg_determined T db ->
    task_init korder enum T cols db = Ok (T', bs, st) -> coded T db ->
    Zlen db * Zlen db * Zlen db < 2 ^ 63 -> r_ABX (t_regressors T) = false -> of_BX (t_regressors T) <> [] ->
    List.length places = List.length db -> A_fine T -> levels_ok plain T db indexes -> storable T db (capacity (s_nb_triplets st)) ->
  forall t, t < 0 ->
    (forall k s grp, is_wanted T db k s ->
      lists_that (fun u => is_wanted T db k u /\ same_group T (by_rows T db k) u s) grp -> 100 < Zlen grp) ->
    (exists k s, is_wanted T db k s) ->
  forall R fuel c, exists x,
    make_file leq plain name gorder korder enum argsort R (S fuel) rlen wlen clen memory o_buffer T cols db places indexes (Some t) c = Ok (Some x) /\
    x_bys x = [] /\ x_triplets x = [] /\ x_by_index x = [] /\ x_attrs x = [] /\ x_pairs x = [] /\ x_items x = [] /\
    (forall F V (zero : V) dfuel files normalize n_cpu,
       compute_distances zero argsort dfuel (@mk_setting tm F (for_distances x) files normalize) (mk_dist_file None None) n_cpu =
       (mk_dist_file (Some false) None, Err NameError)) /\
    (forall V (vlt : V -> V -> bool) rnd slen stem (k : disk V) tf dfn sf,
       lookup (k_tasks k) tf = Ok (for_score x) -> there k dfn -> ~ there k (score_name stem tf dfn sf) ->
       exists k', score vlt rnd slen stem k tf dfn sf = (k', Ok tt) /\ lookup (k_scores k') (score_name stem tf dfn sf) = Ok [] /\
         forall rnd', analyze rnd' argsort (for_analysis x) [] = Ok (map fst indexes, [])).
Proof. exact negative_file. Qed.
Print Assumptions C91_negative_file.

(** The task of 448 triplets again; see C91_negative_empty_ex for the first conditions. *)
Example C91_negative_file_ex :
  (forall k k', pl_name k = pl_name k' -> k = k') /\
  List.length neg_places = List.length stuck_db /\ A_fine wrap_task /\ levels_ok plain_text wrap_task stuck_db neg_indexes /\
  (exists T' bs st, task_init idk idz wrap_task ex_cols stuck_db = Ok (T', bs, st) /\ s_nb_triplets st = 448) /\
  storable wrap_task stuck_db (capacity 448) /\ is_wanted wrap_task stuck_db [7] (0, 8, 16) /\
  exists x, make_file string_dec plain_text pl_name (@rev (string * by_group string)) idk idz argsort_ins ex_rng 1 pl_len pl_len pl_len 1000 100
    wrap_task ex_cols stuck_db neg_places neg_indexes (Some (-1)) 0 = Ok (Some x) /\ x_triplets x = [] /\ List.length (x_groups x) = 1%nat.
Proof.
  split; [exact pl_name_inj|]. split; [reflexivity|]. split; [left; reflexivity|]. split; [exact neg_levels|].
  split; [destruct stuck_init as (T' & b & st & H & E & _); eauto|]. split; [exact neg_storable|]. split; [exact stuck_wanted|exact neg_made].
Qed.
