(** C74: generating the triplets with a threshold ends, and without exception. *)
From Coq Require Import Ascii String.
From Verif Require Import Prelude Sampler Sampler_spec Sampler_proofs Task Task_spec Task_reg_spec TaskIndex_spec
  Task_main Task_ex Task_reg_ex TaskIndex_ex Task_thr_spec Task_thr_total Task_thr_ends Task_thr_ex.
Open Scope Z_scope.
Open Scope string_scope.

(** C74: whatever the threshold (0 or more), the triplets are generated without exception; there is
    no file exactly when no triplet is wanted. *)
Theorem C74_never_raises :
  forall korder enum argsort (R : rng) (fuel : nat),
    lists_keys korder -> lists_set enum -> argsort_spec argsort -> rng_ok R ->
  forall T cols db T' bs st,
    reads cols (t_filters T) -> determined T db -> kept_first T db ->
    task_init korder enum T cols db = Ok (T', bs, st) ->
    Zlen db * Zlen db * Zlen db < 2 ^ 63 -> r_ABX (t_regressors T) = false ->
  forall thr c, (forall t, thr = Some t -> 0 <= t) ->
    match generate_triplets korder enum argsort R fuel T' thr bs st c with
    | Ok (_, of) => of = None <-> forall k a b x, ~ wanted T db k a b x
    | Err e => e = OutOfFuel
    end.
Proof. exact generate_never_raises. Qed.
Print Assumptions C74_never_raises.

(** It is not so of negative thresholds. *)
Example C74_never_raises_ex :
  reads ex_cols (t_filters small_task) /\ determined small_task small_db /\ kept_first small_task small_db /\
  rng_ok ex_rng /\ Zlen small_db * Zlen small_db * Zlen small_db < 2 ^ 63 /\ r_ABX (t_regressors small_task) = false /\
  (exists f, run ex_rng 9 small_task (Some 1) small_db = Ok (12, Some f)) /\
  run ex_rng 9 small_task (Some (-1)) small_db = Err ValueError.
Proof.
  split; [apply unfiltered_reads|]. split; [apply (unfiltered_determined small_task)|].
  split; [apply (@unfiltered_kept_first small_task)|]. split; [exact ex_rng_ok|].
  split; [vm_compute; reflexivity|]. split; [reflexivity|].
  split; [eexists; vm_compute; reflexivity|vm_compute; reflexivity].
Qed.

(** C74: when no group asks for more triplets than the type chosen for the number of combinations of
    regressors has values ([overfull]), the generation ends, for every source of random numbers that
    goes on giving all the numbers. *)
Theorem C74_ends :
  forall korder enum argsort (R : rng),
    lists_keys korder -> lists_set enum -> argsort_spec argsort -> rng_ok R -> (forall N, 0 < N -> fair R N) ->
  forall T cols db T' bs st,
    reads cols (t_filters T) -> determined T db -> kept_first T db ->
    reg_reads cols (t_regressors T) -> reg_determined T db ->
    task_init korder enum T cols db = Ok (T', bs, st) ->
    Zlen db * Zlen db * Zlen db < 2 ^ 63 -> r_ABX (t_regressors T) = false ->
  forall t, 0 < t -> coded T db -> ~ overfull T db t ->
  forall c, exists n r, forall fuel, (n <= fuel)%nat ->
    generate_triplets korder enum argsort R fuel T' (Some t) bs st c = Ok r.
Proof. exact otherwise_ends. Qed.
Print Assumptions C74_ends.

Example C74_ends_ex :
  rng_ok ex_rng /\ (forall N, 0 < N -> fair ex_rng N) /\
  reg_reads ex_cols (t_regressors wrap_task) /\ reg_determined wrap_task stuck_db /\ coded wrap_task stuck_db /\
  ~ overfull wrap_task stuck_db 256 /\
  exists f, run ex_rng 400 wrap_task (Some 256) stuck_db = Ok (448, Some f) /\ Zlen (fl_triplets f) = 256.
Proof.
  split; [exact ex_rng_ok|]. split; [intros N _; apply ex_rng_fair|]. split; [exact wrap_reg_reads|].
  split; [apply wrap_reg_determined|]. split; [exact stuck_coded|].
  split; [intros H; apply overfull_large in H; revert H; vm_compute; discriminate|].
  eexists. split; vm_compute; reflexivity.
Qed.

(** C74: when a group does, the generation never ends, whatever the random numbers. *)
Theorem C74_never_ends :
  forall korder enum argsort (R : rng),
    lists_keys korder -> lists_set enum -> argsort_spec argsort -> rng_ok R ->
  forall T cols db T' bs st,
    reads cols (t_filters T) -> determined T db -> kept_first T db ->
    reg_reads cols (t_regressors T) -> reg_determined T db ->
    task_init korder enum T cols db = Ok (T', bs, st) ->
    Zlen db * Zlen db * Zlen db < 2 ^ 63 -> r_ABX (t_regressors T) = false ->
  forall t, 0 < t -> coded T db -> of_BX (t_regressors T) <> [] -> overfull T db t ->
  forall fuel c, generate_triplets korder enum argsort R fuel T' (Some t) bs st c = Err OutOfFuel.
Proof. exact overfull_never_ends. Qed.
Print Assumptions C74_never_ends.

Example C74_never_ends_ex :
  reads ex_cols (t_filters wrap_task) /\ determined wrap_task stuck_db /\ kept_first wrap_task stuck_db /\
  reg_reads ex_cols (t_regressors wrap_task) /\ reg_determined wrap_task stuck_db /\ coded wrap_task stuck_db /\
  of_BX (t_regressors wrap_task) <> [] /\ overfull wrap_task stuck_db 257 /\
  run ex_rng 400 wrap_task (Some 257) stuck_db = Err OutOfFuel.
Proof.
  split; [apply (unfiltered_reads wrap_task)|]. split; [apply (unfiltered_determined wrap_task)|].
  split; [apply (@unfiltered_kept_first wrap_task)|]. split; [exact wrap_reg_reads|].
  split; [apply wrap_reg_determined|]. split; [exact stuck_coded|]. split; [discriminate|].
  split; [exact stuck_overfull|vm_compute; reflexivity].
Qed.

(** C74 is false: of 448 triplets with the same regressors, 256 are kept at once and 257 never. *)
Theorem C74_ends_refuted :
  exists T db T' bs st,
    reads ex_cols (t_filters T) /\ determined T db /\ kept_first T db /\
    reg_reads ex_cols (t_regressors T) /\ reg_determined T db /\ coded T db /\
    task_init idk idz T ex_cols db = Ok (T', bs, st) /\ s_nb_triplets st = 448 /\
    (exists bs' f, generate_triplets idk idz argsort_ins ex_rng 400 T' (Some 256) bs st 0 = Ok (bs', Some f) /\
       Zlen (fl_triplets f) = 256) /\
    forall R, rng_ok R -> forall fuel c,
      generate_triplets idk idz argsort_ins R fuel T' (Some 257) bs st c = Err OutOfFuel.
Proof. exact threshold_stuck. Qed.
Print Assumptions C74_ends_refuted.
