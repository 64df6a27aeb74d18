(** Property theorems: labels and names out of ASCII (C68). *)
From Coq Require Import Ascii String.
From Coq Require Import List ZArith Permutation.
From Verif Require Import Prelude Sampler Sampler_spec Sampler_proofs Task Task_spec Task_sort Task_main Task_ex Task_reg_ex Task_reg_spec
  Distances Analyze H5io H5io_spec H5io_ex Pipeline Pipeline_spec Pipeline_ex Pipeline_ascii Ascii_ex.
Import ListNotations.
Open Scope string_scope.
Open Scope list_scope.
Open Scope Z_scope.

(** C68: when a task file is made, all the names of the regressors are in ASCII and all the labels
    are ones that the file can hold. *)
Theorem C68_only_ascii :
  forall (tm L : Type) (leq : forall x y : L, {x = y} + {x <> y}) (plain : L -> bool) (name : key -> string)
    (gorder : list (string * by_group L) -> list (string * by_group L))
    korder enum argsort (R : rng) (fuel : nat) (rlen wlen clen : Z -> nat) (memory o_buffer : Z)
    T cols db (places : list (Distances.item tm)) (indexes : list (string * list L)) thr c (x : abx_file tm L),
    make_file leq plain name gorder korder enum argsort R fuel rlen wlen clen memory o_buffer T cols db places indexes thr c
      = Ok (Some x) ->
    (forall s, In s (map fst (all_regressors (t_regressors T))) -> ascii_only s) /\ labels_plain plain indexes.
Proof. exact file_plain. Qed.
Print Assumptions C68_only_ascii.

Example C68_only_ascii_ex : ac_make pl_indexes = Ok (Some pl_file) /\ (forall s : string, plain_text s = true <-> ascii_only s).
Proof. split; [exact pl_made|exact H5io_use.plain_text_iff]. Qed.

(** C68: with a label that the file cannot hold or a name out of ASCII, when there is a triplet,
    ValueError is raised. *)
Theorem C68_others_rejected :
  forall (tm L : Type) (leq : forall x y : L, {x = y} + {x <> y}) (plain : L -> bool) (name : key -> string)
    (gorder : list (string * by_group L) -> list (string * by_group L))
    korder enum argsort (R : rng) (fuel : nat) (rlen wlen clen : Z -> nat) (memory o_buffer : Z)
    T cols db (places : list (Distances.item tm)) (indexes : list (string * list L)) thr c,
    lists_keys korder -> lists_set enum -> argsort_spec argsort ->
    reads cols (t_filters T) -> determined T db -> kept_first T db ->
  forall T' bs st k t,
    no_threshold thr \/ of_BX (t_regressors T) = [] ->
    task_init korder enum T cols db = Ok (T', bs, st) ->
    Zlen db * Zlen db * Zlen db < 2 ^ 63 -> r_ABX (t_regressors T) = false ->
    is_wanted T db k t ->
    all_regressors (t_regressors T) <> [] -> (forall s levels, In (s, levels) indexes -> levels <> []) ->
    (exists s, In s (map fst (all_regressors (t_regressors T))) /\ ~ ascii_only s) \/
    (exists s levels label, In (s, levels) indexes /\ In label levels /\ plain label = false) ->
    make_file leq plain name gorder korder enum argsort R fuel rlen wlen clen memory o_buffer T cols db places indexes thr c
      = Err ValueError.
Proof. exact not_plain. Qed.
Print Assumptions C68_others_rejected.

Example C68_others_rejected_ex :
  reads ex_cols (t_filters ex_task_reg) /\ determined ex_task_reg ex_db /\ kept_first ex_task_reg ex_db /\
  is_wanted ex_task_reg ex_db [7] (2, 0, 3) /\
  (exists T' bs st, task_init idk idz ex_task_reg ex_cols ex_db = Ok (T', bs, st)) /\
  r_ABX (t_regressors ex_task_reg) = false /\ all_regressors (t_regressors ex_task_reg) <> [] /\
  In ("phone_B", ["?"; "a"; "b"; acute]) ac_indexes /\ plain_text acute = false /\ ac_make ac_indexes = Err ValueError.
Proof.
  split; [exact ex_reads|]. split; [exact ex_reg_determined|]. split; [exact ex_reg_kept_first|].
  split; [exact ac_wanted|]. split; [do 3 eexists; vm_compute; reflexivity|]. split; [reflexivity|].
  split; [discriminate|]. split; [left; reflexivity|]. split; [reflexivity|exact ac_refused].
Qed.

(** C68 is false: a task whose labels are changed by one accent cannot be generated any more. *)
Theorem C68_any_label_refuted :
  ac_make pl_indexes = Ok (Some pl_file) /\ map fst ac_indexes = map fst pl_indexes /\
  map (fun ix => length (snd ix)) ac_indexes = map (fun ix => length (snd ix)) pl_indexes /\
  ac_make ac_indexes = Err ValueError.
Proof. exact (conj pl_made (conj eq_refl (conj eq_refl ac_refused))). Qed.
Example C68_any_label_refuted_ex : nat_of_ascii "195" = 195%nat /\ ~ ascii_only acute.
Proof. split; [reflexivity|]. intros H. specialize (H "195"%char (or_introl eq_refl)). vm_compute in H. repeat (apply le_S_n in H). inversion H. Qed.
Print Assumptions C68_any_label_refuted.
