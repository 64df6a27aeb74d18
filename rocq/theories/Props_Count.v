(** C92: sort_and_threshold as a function of its own. *)
From Coq Require Import Ascii String.
From Verif Require Import Prelude Sampler Sampler_spec Sampler_proofs Task Task_count.
Open Scope list_scope.
Open Scope Z_scope.

(** C92: counting without drawing gives, for every threshold, the sum over the distinct codes of the smaller of
    the threshold and the number of times the code occurs. *)
Theorem C92_counted :
  forall permut idx, idx <> [] -> Permutation permut (seq 0 (length idx)) ->
  StronglySorted Z.le (map (fun i => nth i idx 0) permut) ->
  forall vals, NoDup vals -> (forall v, In v vals <-> In v idx) ->
  forall t, count_after_threshold permut idx t =
    Ok (sumZ (map (fun v => Z.min t (Zlen (filter (Z.eqb v) idx))) vals)).
Proof. exact counted. Qed.
Print Assumptions C92_counted.

(** Three codes 5, two codes 6 and a code 7, at most two of each. *)
Example C92_counted_ex :
  Permutation [0; 2; 4; 1; 5; 3]%nat (seq 0 6) /\ StronglySorted Z.le (map (fun i => nth i [5; 6; 5; 7; 5; 6] 0) [0; 2; 4; 1; 5; 3]%nat) /\
  NoDup [7; 5; 6] /\ (forall v, In v [7; 5; 6] <-> In v [5; 6; 5; 7; 5; 6]) /\
  count_after_threshold [0; 2; 4; 1; 5; 3]%nat [5; 6; 5; 7; 5; 6] 2 = Ok 5.
Proof.
  split; [apply NoDup_Permutation; [repeat constructor; cbn; lia|apply seq_NoDup|intros i; rewrite in_seq; cbn; lia]|].
  split; [cbn; repeat first [apply SSorted_nil | apply SSorted_cons | apply Forall_nil | apply Forall_cons | lia]|]. split; [repeat constructor; cbn; lia|].
  split; [intros v; cbn; tauto|reflexivity].
Qed.

(** C92: with a threshold above 0, different positions are kept, in the order of their codes, as many of each code as
    the threshold or all when there are fewer; counting without drawing gives their number. *)
Theorem C92_kept :
  forall R, rng_ok R -> forall permut idx, idx <> [] -> Permutation permut (seq 0 (length idx)) ->
  StronglySorted Z.le (map (fun i => nth i idx 0) permut) ->
  forall ty, Zlen idx - 1 <= tmax ty -> forall t, 0 < t -> forall fuel c l ui c',
  sort_and_threshold R fuel permut idx ty (Some t) c = Ok (l, ui, c') ->
  NoDup l /\ (forall i, In i l -> (i < length idx)%nat) /\
  StronglySorted Z.le (map (fun i => nth i idx 0) l) /\
  (forall v, Zlen (filter (fun i => nth i idx 0 =? v) l) = Z.min t (Zlen (filter (Z.eqb v) idx))) /\
  count_after_threshold permut idx t = Ok (Zlen l).
Proof. exact kept_positions. Qed.
Print Assumptions C92_kept.

Example C92_kept_ex :
  rng_ok ex_rng /\ Zlen [5; 6; 5; 7; 5; 6] - 1 <= tmax U8 /\
  exists l ui c', sort_and_threshold ex_rng 9 [0; 2; 4; 1; 5; 3]%nat [5; 6; 5; 7; 5; 6] U8 (Some 2) 0 = Ok (l, ui, c') /\ Zlen l = 5 /\ c' <> 0%nat.
Proof.
  split; [exact ex_rng_ok|]. split; [vm_compute; discriminate|]. eexists. eexists. eexists. split; [vm_compute; reflexivity|]. split; [reflexivity|discriminate].
Qed.

(** C92: without a threshold, or with 0, the given order is returned as it is and no random number is drawn. *)
Theorem C92_all :
  forall R fuel permut idx, idx <> [] -> Permutation permut (seq 0 (length idx)) ->
  forall ty thr, thr = None \/ thr = Some 0 -> forall c,
  exists ui, sort_and_threshold R fuel permut idx ty thr c = Ok (permut, ui, c).
Proof. exact kept_all. Qed.
Print Assumptions C92_all.

Example C92_all_ex : sort_and_threshold ex_rng 9 [0; 2; 1]%nat [5; 6; 5] U8 None 3 = Ok ([0; 2; 1]%nat, [0; 2; 3]%nat, 3%nat).
Proof. reflexivity. Qed.

(** C92: the second result is the list of the bounds of the runs of equal codes among all positions, also those that
    the threshold leaves out. *)
Theorem C92_bounds :
  forall R fuel permut idx, idx <> [] -> Permutation permut (seq 0 (length idx)) ->
  forall ty thr c l ui c', sort_and_threshold R fuel permut idx ty thr c = Ok (l, ui, c') ->
  let s := map (fun i => nth i idx 0) permut in
  StronglySorted lt ui /\
  forall i, In i ui <-> i = 0%nat \/ i = length idx \/ (0 < i < length idx)%nat /\ nth i s 0 <> nth (i - 1) s 0.
Proof. exact run_bounds. Qed.
Print Assumptions C92_bounds.

Example C92_bounds_ex :
  exists l c', sort_and_threshold ex_rng 9 [0; 2; 4; 1; 5; 3]%nat [5; 6; 5; 7; 5; 6] U8 (Some 2) 0 = Ok (l, [0; 3; 5; 6]%nat, c') /\ Zlen l = 5.
Proof. eexists. eexists. split; [vm_compute; reflexivity|reflexivity]. Qed.

(** C92: with a threshold of 0 the count is not that of what is kept.  The statement "counting gives the number of
    positions kept" is false there: 0 is counted, all three are kept. *)
Theorem C92_zero_refuted :
  forall R fuel c, count_after_threshold [0; 2; 1]%nat [5; 6; 5] 0 = Ok 0 /\
  sort_and_threshold R fuel [0; 2; 1]%nat [5; 6; 5] U8 (Some 0) c = Ok ([0; 2; 1]%nat, [0; 2; 3]%nat, c).
Proof. exact zero_counted. Qed.
Print Assumptions C92_zero_refuted.
