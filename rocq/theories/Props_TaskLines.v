(** C94: the triplets of a task as lines of the item file, and what changes with the columns by and across. *)
From Coq Require Import String.
From Coq Require Import List ZArith.
From Verif Require Import Prelude TypeFitting Sampler Sampler_proofs Task Task_spec Task_main Task_ex TaskLines_spec TaskLines_ex TaskLines_main.
Import ListNotations.
Open Scope string_scope.
Open Scope list_scope.
Open Scope Z_scope.

(** C94: found back in the item table, the triplets of the file are the triples of lines with the same by values that are ABX
    triplets accepted by the filters, and the announced number is their number. *)
Theorem C94_lines :
  forall korder enum argsort, lists_keys korder -> lists_set enum -> argsort_spec argsort ->
  forall T cols db n o, fine cols T db -> generated korder enum argsort T cols db n o ->
    (forall l, has T db o l <-> abx_lines T db l) /\
    (forall L, NoDup L -> (forall l, In l L <-> abx_lines T db l) -> n = Zlen L) /\
    n = match o with None => 0 | Some f => Zlen (fl_triplets f) end.
Proof. exact file_lines. Qed.
Print Assumptions C94_lines.

Example C94_lines_ex :
  fine ex_cols ex_task ex_db /\
  generated idk idz argsort_ins ex_task ex_cols ex_db 10 (li_file ex_task) /\
  map fst (group_lines ex_task ex_db [8]) = [4; 5; 6; 8; 14]%nat /\
  has ex_task ex_db (li_file ex_task) (4, 6, 8)%nat.
Proof.
  split; [split; [exact ex_reads|split; [exact ex_determined|exact ex_kept_first]]|].
  split; [apply run_generated; [vm_compute; reflexivity|discriminate]|]. split; [vm_compute; reflexivity|].
  cbn [has]. unfold li_file. destruct (run ex_rng 9 ex_task None ex_db) as [[n [f|]]|] eqn:E; [|vm_compute in E; discriminate..].
  exists [8], (9, 10), 0, 2, 3. vm_compute in E. injection E as <- <-. split; [cbn; auto|]. split; [left; reflexivity|].
  unfold on_line. repeat split; try discriminate; eexists; reflexivity.
Qed.

(** C94: with a threshold, all triplets of the file are such triples; ... *)
Theorem C94_threshold :
  forall korder enum argsort T cols db T' bs st R fuel thr c bs' o,
    lists_keys korder -> lists_set enum -> argsort_spec argsort -> fine cols T db ->
    task_init korder enum T cols db = Ok (T', bs, st) ->
    generate_triplets korder enum argsort R fuel T' thr bs st c = Ok (bs', o) ->
    storable T db (capacity (s_nb_triplets st)) ->
    forall l, has T db o l -> abx_lines T db l.
Proof. exact threshold_lines. Qed.
Print Assumptions C94_threshold.

Example C94_threshold_ex :
  fine ex_cols thr_task ex_db /\
  exists T' bs st bs' f, task_init idk idz thr_task ex_cols ex_db = Ok (T', bs, st) /\ s_nb_triplets st = 19 /\
    generate_triplets idk idz argsort_ins ex_rng 9 T' (Some 1) bs st 0 = Ok (bs', Some f) /\ (length (fl_triplets f) < 19)%nat.
Proof.
  split; [apply (unfiltered_fine thr_task)|]. do 5 eexists. split; [vm_compute; reflexivity|]. split; [vm_compute; reflexivity|].
  split; [vm_compute; reflexivity|]. vm_compute. repeat constructor.
Qed.

(** C94: ... with more by columns, the triplets are those whose three items have the same values in these columns; ... *)
Theorem C94_finer_by :
  forall korder enum argsort, lists_keys korder -> lists_set enum -> argsort_spec argsort ->
  forall T m cols db n n' o o',
    fine cols T db -> fine cols (with_by T m) db ->
    generated korder enum argsort T cols db n o -> generated korder enum argsort (with_by T m) cols db n' o' ->
    (forall l, has (with_by T m) db o' l <-> has T db o l /\ agree_on db m l) /\ n' <= n.
Proof. exact finer_by. Qed.
Print Assumptions C94_finer_by.

Example C94_finer_by_ex :
  fine ex_cols li_task ex_db /\ fine ex_cols (with_by li_task ["lang"]) ex_db /\
  generated idk idz argsort_ins li_task ex_cols ex_db 156 (li_file li_task) /\
  generated idk idz argsort_ins (with_by li_task ["lang"]) ex_cols ex_db 19 (li_file (with_by li_task ["lang"])).
Proof.
  split; [apply unfiltered_fine|]. split; [apply (unfiltered_fine (mk_task "phone" ["talker"] ["lang"] ex_filters no_regressors))|].
  split; (apply run_generated; [vm_compute; reflexivity|discriminate]).
Qed.

(** C94: ... with more across columns, they are those where also A and B have the same values in these and X other ones; ... *)
Theorem C94_more_across :
  forall korder enum argsort, lists_keys korder -> lists_set enum -> argsort_spec argsort ->
  forall T m cols db n n' o o',
    fine cols T db -> fine cols (with_across T m) db ->
    generated korder enum argsort T cols db n o -> generated korder enum argsort (with_across T m) cols db n' o' ->
    (forall l, has (with_across T m) db o' l <-> has T db o l /\ across_on db m l) /\ n' <= n.
Proof. exact more_across. Qed.
Print Assumptions C94_more_across.

Example C94_more_across_ex :
  fine ex_cols li_free ex_db /\ fine ex_cols (with_across li_free ["talker"]) ex_db /\
  generated idk idz argsort_ins li_free ex_cols ex_db 52 (li_file li_free) /\
  generated idk idz argsort_ins (with_across li_free ["talker"]) ex_cols ex_db 19 (li_file (with_across li_free ["talker"])) /\
  generated idk idz argsort_ins (with_across li_task ["lang"]) ex_cols ex_db 33 (li_file (with_across li_task ["lang"])).
Proof.
  split; [apply unfiltered_fine|]. split; [apply (unfiltered_fine (mk_task "phone" ["talker"] ["lang"] ex_filters no_regressors))|].
  split; [|split]; (apply run_generated; [vm_compute; reflexivity|discriminate]).
Qed.

(** C94: ... and without across column and filter, A and X can be exchanged, so the announced number is even. *)
Theorem C94_exchange :
  forall korder enum argsort, lists_keys korder -> lists_set enum -> argsort_spec argsort ->
  forall T cols db n o,
    t_across T = [] -> (forall ra rb rx, passes (t_filters T) ra rb rx) ->
    fine cols T db -> generated korder enum argsort T cols db n o ->
    (forall na nb nx, has T db o (na, nb, nx) <-> has T db o (nx, nb, na)) /\ Z.even n = true.
Proof. exact exchange. Qed.
Print Assumptions C94_exchange.

Example C94_exchange_ex :
  t_across li_free = [] /\ (forall ra rb rx, passes (t_filters li_free) ra rb rx) /\ fine ex_cols li_free ex_db /\
  generated idk idz argsort_ins li_free ex_cols ex_db 52 (li_file li_free).
Proof.
  split; [reflexivity|]. split; [intros; cbn; repeat split|]. split; [apply unfiltered_fine|].
  apply run_generated; [vm_compute; reflexivity|discriminate].
Qed.
