(** C93: the forms, order and repetition of the columns given to a task, and columns given twice. *)
From Coq Require Import Ascii String.
From Coq Require Import List ZArith Permutation.
From Verif Require Import Prelude TypeFitting Sampler Sampler_proofs Task Task_spec Task_sort Task_main Task_ex TaskArgs TaskArgs_spec TaskArgs_main.
Import ListNotations.
Open Scope string_scope.
Open Scope list_scope.
Open Scope Z_scope.

(** C93: a column alone is the same as a list of this column, and no argument the same as an empty list. *)
Theorem C93_forms :
  forall korder enum isfile load name on a a' b b' la lb F G,
    names a la -> names a' la -> names b lb -> names b' lb ->
    new_task korder enum isfile load name on a b F G = new_task korder enum isfile load name on a' b' F G.
Proof. exact forms. Qed.
Print Assumptions C93_forms.

Example C93_forms_ex :
  names (AStr "talker") ["talker"] /\ names (AList ["talker"]) ["talker"] /\ names ANone [] /\ names (AList []) [] /\
  exists T bs st,
    new_task idk idz (String.eqb "ex.item") (fun _ => Ok (ex_cols, ex_db)) "ex.item" (AStr "phone") (AStr "talker") ANone ex_filters no_regressors =
      Ok (T, bs, st) /\ t_across T = ["talker"] /\ t_by T = ["#by"] /\ s_nb_triplets st = 83.
Proof. repeat split. do 3 eexists. split; [vm_compute; reflexivity|]. vm_compute. auto. Qed.

(** C93: the task is made from the columns named, when they are columns of the item file and no column of it has an
    underscore or a hash in its name; otherwise an [AssertionError] is raised. *)
Theorem C93_accepted :
  forall korder enum isfile load name on a b la lb F G cols db,
    isfile name = true -> names a la -> names b lb -> load name = Ok (cols, db) ->
    (In on cols /\ incl la cols /\ incl lb cols /\ (forall c, In c cols -> usable c) ->
       new_task korder enum isfile load name (AStr on) a b F G = task_init korder enum (mk_task on la lb F G) cols db) /\
    (~ (In on cols /\ incl la cols /\ incl lb cols /\ (forall c, In c cols -> usable c)) ->
       new_task korder enum isfile load name (AStr on) a b F G = Err AssertionError).
Proof. exact new_given. Qed.
Print Assumptions C93_accepted.

Example C93_accepted_ex :
  new_task idk idz (String.eqb "ex.item") (fun _ => Ok (ex_cols, ex_db)) "ex.item" (AStr "phone") (AStr "talker") (AStr "lang") ex_filters no_regressors =
    task_init idk idz ex_task ex_cols ex_db /\
  is_ok (task_init idk idz ex_task ex_cols ex_db) = true /\
  new_task idk idz (String.eqb "ex.item") (fun _ => Ok (ex_cols, ex_db)) "ex.item" (AStr "phone") (AStr "speaker") ANone ex_filters no_regressors =
    Err AssertionError /\
  new_task idk idz (String.eqb "ex.item") (fun _ => Ok ("my_column" :: ex_cols, ex_db)) "ex.item" (AStr "phone") ANone ANone ex_filters no_regressors =
    Err AssertionError.
Proof. split; [reflexivity|]. split; [vm_compute; reflexivity|]. split; vm_compute; reflexivity. Qed.

(** C93: it is refused with an [AssertionError] when there is no item file or when on is not a string, with the exception of
    the reading of the item file when this fails, and with a [TypeError] when across or by is neither a string nor iterable. *)
Theorem C93_refused :
  forall korder enum isfile load name on a b F G,
    (isfile name = false -> new_task korder enum isfile load name on a b F G = Err AssertionError) /\
    ((forall s, on <> AStr s) -> new_task korder enum isfile load name on a b F G = Err AssertionError) /\
    (forall s e, isfile name = true -> on = AStr s -> load name = Err e ->
       new_task korder enum isfile load name on a b F G = Err e) /\
    (forall s cols db, isfile name = true -> on = AStr s -> load name = Ok (cols, db) ->
       (a = AOther -> In s cols -> new_task korder enum isfile load name on a b F G = Err TypeError) /\
       (forall la, b = AOther -> names a la -> In s cols -> incl la cols ->
          new_task korder enum isfile load name on a b F G = Err TypeError)).
Proof. exact new_refused. Qed.
Print Assumptions C93_refused.

Example C93_refused_ex :
  new_task idk idz (String.eqb "ex.item") (fun _ => Ok (ex_cols, ex_db)) "other.item" (AStr "phone") ANone ANone ex_filters no_regressors =
    Err AssertionError /\
  new_task idk idz (String.eqb "ex.item") (fun _ => Ok (ex_cols, ex_db)) "ex.item" (AList ["phone"]) ANone ANone ex_filters no_regressors =
    Err AssertionError /\
  new_task idk idz (String.eqb "ex.item") (fun _ => Err IOError) "ex.item" (AStr "phone") ANone ANone ex_filters no_regressors = Err IOError /\
  new_task idk idz (String.eqb "ex.item") (fun _ => Ok (ex_cols, ex_db)) "ex.item" (AStr "phone") ANone AOther ex_filters no_regressors = Err TypeError.
Proof. repeat split. Qed.

(** C93: a task with a column given for two of on, across and by has no triplet: it announces none, and no task file
    is written, whatever the threshold; nothing else tells that the task makes no sense. *)
Theorem C93_overlap :
  forall korder enum argsort, lists_keys korder -> lists_set enum ->
  forall T cols db T' bs st,
    reads cols (t_filters T) -> determined T db -> kept_first T db -> overlapping T ->
    task_init korder enum T cols db = Ok (T', bs, st) ->
    s_nb_triplets st = 0 /\
    forall R fuel thr c, generate_triplets korder enum argsort R fuel T' thr bs st c = Ok (bs, None).
Proof. exact overlap_empty. Qed.
Print Assumptions C93_overlap.

Example C93_overlap_ex :
  (forall on across by_, reads ex_cols (t_filters (unfiltered (mk_task on across by_ ex_filters no_regressors)))) /\
  overlapping (unfiltered (mk_task "phone" ["phone"] ["lang"] ex_filters no_regressors)) /\
  overlapping (unfiltered (mk_task "phone" ["talker"] ["lang"; "phone"] ex_filters no_regressors)) /\
  overlapping (unfiltered (mk_task "phone" ["talker"; "lang"] ["lang"] ex_filters no_regressors)) /\
  run ex_rng 9 (unfiltered (mk_task "phone" ["phone"] ["lang"] ex_filters no_regressors)) None ex_db = Ok (0, None) /\
  run ex_rng 9 (unfiltered (mk_task "phone" ["talker"] ["lang"; "phone"] ex_filters no_regressors)) (Some 3) ex_db = Ok (0, None) /\
  run ex_rng 9 (unfiltered (mk_task "phone" ["talker"; "lang"] ["lang"] ex_filters no_regressors)) None ex_db = Ok (0, None) /\
  exists f, run ex_rng 9 (unfiltered (mk_task "phone" ["talker"] ["lang"] ex_filters no_regressors)) None ex_db = Ok (19, Some f).
Proof.
  split; [intros; apply unfiltered_reads|]. split; [left; cbn; auto|]. split; [right; left; cbn; auto|].
  split; [right; right; exists "lang"; cbn; auto|]. split; [vm_compute; reflexivity|]. split; [vm_compute; reflexivity|].
  split; [vm_compute; reflexivity|]. eexists. vm_compute. reflexivity.
Qed.

(** C93: the order of the columns of across and by, and their repetition, change nothing but the keys of the by groups:
    both tasks are made, they announce the same number of triplets, and their files have the same triplets for the same groups. *)
Theorem C93_same_columns :
  forall korder enum argsort, lists_keys korder -> lists_set enum -> argsort_spec argsort ->
  forall T1 T2 cols db, same_columns T1 T2 ->
    reads cols (t_filters T1) -> determined T1 db -> kept_first T1 db -> none_emptied T1 db ->
    check_database cols (t_on T1) (t_across T1) (t_by T1) = Ok tt ->
    Zlen db * Zlen db * Zlen db < 2 ^ 63 -> r_ABX (t_regressors T1) = false ->
    exists T1' bs1 st1 T2' bs2 st2,
      task_init korder enum T1 cols db = Ok (T1', bs1, st1) /\ task_init korder enum T2 cols db = Ok (T2', bs2, st2) /\
      s_nb_triplets st1 = s_nb_triplets st2 /\
      forall R1 R2 fuel thr c1 c2, no_threshold thr -> storable T1 db (capacity (s_nb_triplets st1)) ->
        exists bs1' of1 bs2' of2,
          generate_triplets korder enum argsort R1 fuel T1' thr bs1 st1 c1 = Ok (bs1', of1) /\
          generate_triplets korder enum argsort R2 fuel T2' thr bs2 st2 c2 = Ok (bs2', of2) /\
          match of1, of2 with
          | None, None => True
          | Some f1, Some f2 => same_triplets T1 T2 db f1 f2
          | _, _ => False
          end.
Proof. exact same_task. Qed.
Print Assumptions C93_same_columns.

Example C93_same_columns_ex :
  same_columns ex_task (mk_task "phone" ["talker"; "talker"] ["lang"; "lang"] ex_filters no_regressors) /\
  reads ex_cols (t_filters ex_task) /\ determined ex_task ex_db /\ kept_first ex_task ex_db /\ none_emptied ex_task ex_db /\
  check_database ex_cols (t_on ex_task) (t_across ex_task) (t_by ex_task) = Ok tt /\
  exists f1 f2, run ex_rng 9 ex_task None ex_db = Ok (10, Some f1) /\
    run ex_rng 9 (mk_task "phone" ["talker"; "talker"] ["lang"; "lang"] ex_filters no_regressors) None ex_db = Ok (10, Some f2) /\
    fl_bys f1 = [[7]; [8]] /\ fl_bys f2 = [[7; 7]; [8; 8]] /\ fl_triplets f1 = fl_triplets f2 /\
  exists g1 g2, run ex_rng 9 (unfiltered (mk_task "phone" ["talker"; "lang"] [] ex_filters no_regressors)) None (firstn 8 ex_db) = Ok (6, Some g1) /\
    run ex_rng 9 (unfiltered (mk_task "phone" ["lang"; "talker"] [] ex_filters no_regressors)) None (firstn 8 ex_db) = Ok (6, Some g2) /\
    fl_triplets g1 = [(1, 3, 4); (3, 1, 6); (4, 6, 1); (6, 4, 3); (0, 2, 5); (7, 2, 5)] /\ List.length (fl_triplets g2) = 6%nat.
Proof.
  split; [repeat split; cbn; tauto|]. split; [exact ex_reads|]. split; [exact ex_determined|]. split; [exact ex_kept_first|].
  split; [exact ex_none_emptied|]. split; [reflexivity|]. do 2 eexists. split; [vm_compute; reflexivity|].
  split; [vm_compute; reflexivity|]. split; [reflexivity|]. split; [reflexivity|]. split; [reflexivity|].
  do 2 eexists. split; [vm_compute; reflexivity|]. split; [vm_compute; reflexivity|]. split; reflexivity.
Qed.
