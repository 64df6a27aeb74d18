(** Property theorems: what the result of a whole evaluation depends on (C76, C77, C78). *)
From Coq Require Import String.
From Coq Require Import List ZArith QArith Permutation.
From Verif Require Import Prelude Task Task_spec Task_ex Task_sort Task_reg_ex Sampler_proofs Distances Distances_spec Score Score_spec Analyze Rounding
  H5io H5io_ex Pipeline Pipeline_spec Pipeline_ex Pipeline_same_spec Pipeline_same_main Pipeline_same_ex.
Import ListNotations.
Open Scope string_scope.
Open Scope list_scope.
Open Scope Z_scope.

(** C76: two evaluations of the same items, features and distance have the same lines, whatever
    the random numbers, the memory, the buffers, the number of processes, their interleaving, the
    order in which the groups are listed and the way equal numbers are sorted; the lines of a by
    are in the same order in both. *)
Theorem C76_repeat :
  forall (tm L F V : Type) (leq : forall x y : L, {x = y} + {x <> y}) (plain : L -> bool) (name : key -> string),
    (forall k k', name k = name k' -> k = k') ->
  forall tle (vlt : V -> V -> bool) (distance : option bool -> list F -> list F -> res V), asymmetric vlt ->
  forall T cols db (places : list (Distances.item tm)) (indexes : list (string * list L)) files normalize,
    evaluable plain T cols db places indexes files ->
  forall lines lines',
    evaluated leq plain name tle vlt distance T cols db places indexes files normalize lines ->
    evaluated leq plain name tle vlt distance T cols db places indexes files normalize lines' ->
    same_lines lines lines' /\ forall k, Forall2 (@line_same L) (of_by (name k) lines) (of_by (name k) lines').
Proof. exact repeat_same. Qed.
Print Assumptions C76_repeat.

Example C76_repeat_ex :
  evaluable plain_text ex_task_reg ex_cols ex_db pl_places pl_indexes pl_files /\ asymmetric Z.ltb /\
  evaluated string_dec plain_text pl_name Z.leb Z.ltb pl_distance ex_task_reg ex_cols ex_db pl_places pl_indexes pl_files (Some 1) p0_lines /\
  p0_lines =
    [mk_line ["a"; "ann"; "b"] "+11;" (0 # 4) 2; mk_line ["a"; "bob"; "b"] "+11;" (1 # 4) 2;
     mk_line ["b"; "ann"; "a"] "+11;" (6 # 8) 4; mk_line ["b"; "bob"; "a"] "+11;" (1 # 2) 1;
     mk_line ["b"; "cid"; "a"] "+000;" (2 # 2) 1] /\
  map (@l_n string) (of_by (pl_name [7]) p0_lines) = [2; 2; 4; 1].
Proof.
  split; [exact p0_evaluable|]. split; [exact lt_asym|]. split; [exact p0_evaluated|]. split; reflexivity.
Qed.

(** C76: ... the order of the lines of the item file does not change the result either, when in
    both orders the lines that the generic filters keep come first in each by. *)
Theorem C76_order :
  forall (tm L F V : Type) (leq : forall x y : L, {x = y} + {x <> y}) (plain : L -> bool) (name : key -> string),
    (forall k k', name k = name k' -> k = k') ->
  forall tle (vlt : V -> V -> bool) (distance : option bool -> list F -> list F -> res V), asymmetric vlt ->
  forall T cols db db' (places places' : list (Distances.item tm)) (indexes : list (string * list L)) files normalize,
    evaluable plain T cols db places indexes files -> evaluable plain T cols db' places' indexes files ->
    Permutation (combine db places) (combine db' places') ->
  forall lines lines',
    evaluated leq plain name tle vlt distance T cols db places indexes files normalize lines ->
    evaluated leq plain name tle vlt distance T cols db' places' indexes files normalize lines' ->
    same_lines lines lines' /\ forall k, Forall2 (@line_same L) (of_by (name k) lines) (of_by (name k) lines').
Proof. exact order_same. Qed.
Print Assumptions C76_order.

Example C76_order_ex :
  evaluable plain_text ex_task_reg ex_cols ex_db pl_places pl_indexes pl_files /\
  evaluable plain_text ex_task_reg ex_cols p1_db p1_places pl_indexes pl_files /\ asymmetric Z.ltb /\
  Permutation (combine ex_db pl_places) (combine p1_db p1_places) /\
  map (fun r => r "n") ex_db = [0; 1; 2; 4; 5; 6; 7; 8; 9; 10; 11; 12; 13; 14; 77] /\
  map (fun r => r "n") p1_db = [14; 13; 12; 11; 10; 9; 8; 7; 6; 5; 4; 2; 1; 0; 77] /\
  evaluated string_dec plain_text pl_name Z.leb Z.ltb pl_distance ex_task_reg ex_cols ex_db pl_places pl_indexes pl_files (Some 1) p0_lines /\
  evaluated string_dec plain_text pl_name Z.leb Z.ltb pl_distance ex_task_reg ex_cols p1_db p1_places pl_indexes pl_files (Some 1) p1_lines /\
  x_triplets p1_file <> x_triplets pl_file /\ p1_lines = p0_lines.
Proof.
  split; [exact p0_evaluable|]. split; [exact p1_evaluable|]. split; [exact lt_asym|]. split; [exact p1_items|].
  split; [reflexivity|]. split; [reflexivity|]. split; [exact p0_evaluated|]. split; [exact p1_evaluated|].
  split; [vm_compute; discriminate|reflexivity].
Qed.

(** C76: without the condition on the generic filters, an order of the lines can make the generation
    of the task file fail although another order does not. *)
Theorem C76_order_refuted :
  exists (db db' : list row) (places places' : list (Distances.item Z)) (x : abx_file Z string),
    evaluable plain_text ex_task_reg ex_cols db places pl_indexes pl_files /\
    Permutation (combine db places) (combine db' places') /\ length places' = length db' /\
    make_file string_dec plain_text pl_name (@rev _) idk idz argsort_ins ex_rng 9 pl_len pl_len pl_len 1000 100
      ex_task_reg ex_cols db places pl_indexes None 0 = Ok (Some x) /\
    make_file string_dec plain_text pl_name (@rev _) idk idz argsort_ins ex_rng 9 pl_len pl_len pl_len 1000 100
      ex_task_reg ex_cols db' places' pl_indexes None 0 = Err IndexError.
Proof.
  exists ex_db, p5_db, pl_places, p5_places, pl_file. split; [exact p0_evaluable|]. split; [exact p5_items|].
  split; [reflexivity|]. split; [exact pl_made|]. vm_compute. reflexivity.
Qed.
Print Assumptions C76_order_refuted.

(** C77: only the order of the distances counts: with distances that are the image of the others by
    a function that keeps the order, even of another type, compared another way or computed with
    another normalization, the result is the same. *)
Theorem C77_distances :
  forall (tm L F V V' : Type) (leq : forall x y : L, {x = y} + {x <> y}) (plain : L -> bool) (name : key -> string),
    (forall k k', name k = name k' -> k = k') ->
  forall tle (vlt : V -> V -> bool) (vlt' : V' -> V' -> bool) (distance : option bool -> list F -> list F -> res V)
    (distance' : option bool -> list F -> list F -> res V') (f : V -> V') normalize normalize',
    asymmetric vlt -> asymmetric vlt' -> (forall d d', vlt' (f d) (f d') = vlt d d') ->
    (forall m m' d, distance (meant normalize) m m' = Ok d -> distance' (meant normalize') m m' = Ok (f d)) ->
  forall T cols db (places : list (Distances.item tm)) (indexes : list (string * list L)) files,
    evaluable plain T cols db places indexes files ->
  forall lines lines',
    evaluated leq plain name tle vlt distance T cols db places indexes files normalize lines ->
    evaluated leq plain name tle vlt' distance' T cols db places indexes files normalize' lines' ->
    same_lines lines lines' /\ forall k, Forall2 (@line_same L) (of_by (name k) lines) (of_by (name k) lines').
Proof. exact distances_same. Qed.
Print Assumptions C77_distances.

Example C77_distances_ex :
  asymmetric Z.ltb /\ asymmetric Z.gtb /\ (forall d d', Z.gtb (10 - 3 * d) (10 - 3 * d') = Z.ltb d d') /\
  (forall m m' d, pl_distance (meant (Some 1)) m m' = Ok d -> p2_distance (meant None) m m' = Ok (10 - 3 * d)) /\
  evaluable plain_text ex_task_reg ex_cols ex_db pl_places pl_indexes pl_files /\
  evaluated string_dec plain_text pl_name Z.leb Z.ltb pl_distance ex_task_reg ex_cols ex_db pl_places pl_indexes pl_files (Some 1) p0_lines /\
  evaluated string_dec plain_text pl_name Z.leb Z.gtb p2_distance ex_task_reg ex_cols ex_db pl_places pl_indexes pl_files None p2_lines /\
  p2_lines = p0_lines.
Proof.
  split; [exact lt_asym|]. split; [exact gt_asym|]. split; [exact p2_order|]. split; [exact p2_distances|].
  split; [exact p0_evaluable|]. split; [exact p0_evaluated|]. split; [exact p2_evaluated|reflexivity].
Qed.

(** C77: ... and of the features only the frames inside the items count: the result is the same with
    other feature files that have these frames. *)
Theorem C77_features :
  forall (tm L F V : Type) (leq : forall x y : L, {x = y} + {x <> y}) (plain : L -> bool) (name : key -> string),
    (forall k k', name k = name k' -> k = k') ->
  forall tle (vlt : V -> V -> bool) (distance : option bool -> list F -> list F -> res V), asymmetric vlt ->
  forall T cols db (places : list (Distances.item tm)) (indexes : list (string * list L)) files files' normalize,
    evaluable plain T cols db places indexes files -> features_ok files' ->
    (forall p m, In p places -> matrix_of tle files p m -> matrix_of tle files' p m) ->
  forall lines lines',
    evaluated leq plain name tle vlt distance T cols db places indexes files normalize lines ->
    evaluated leq plain name tle vlt distance T cols db places indexes files' normalize lines' ->
    same_lines lines lines' /\ forall k, Forall2 (@line_same L) (of_by (name k) lines) (of_by (name k) lines').
Proof. exact features_same. Qed.
Print Assumptions C77_features.

Example C77_features_ex :
  asymmetric Z.ltb /\ evaluable plain_text ex_task_reg ex_cols ex_db pl_places pl_indexes pl_files /\ features_ok p3_files /\
  (forall p m, In p pl_places -> matrix_of Z.leb pl_files p m -> matrix_of Z.leb p3_files p m) /\
  evaluated string_dec plain_text pl_name Z.leb Z.ltb pl_distance ex_task_reg ex_cols ex_db pl_places pl_indexes pl_files (Some 1) p0_lines /\
  evaluated string_dec plain_text pl_name Z.leb Z.ltb pl_distance ex_task_reg ex_cols ex_db pl_places pl_indexes p3_files (Some 1) p3_lines /\
  p3_lines = p0_lines.
Proof.
  split; [exact lt_asym|]. split; [exact p0_evaluable|]. split; [exact p3_features_ok|]. split; [exact p3_matrix|].
  split; [exact p0_evaluated|]. split; [exact p3_evaluated|reflexivity].
Qed.

(** C78: the lines of a by depend on the items of this by only: they are the same in the results of
    two item files with the same items, in any order, for this by. *)
Theorem C78_bys :
  forall (tm L F V : Type) (leq : forall x y : L, {x = y} + {x <> y}) (plain : L -> bool) (name : key -> string),
    (forall k k', name k = name k' -> k = k') ->
  forall tle (vlt : V -> V -> bool) (distance : option bool -> list F -> list F -> res V), asymmetric vlt ->
  forall T cols db db' (places places' : list (Distances.item tm)) (indexes : list (string * list L)) files normalize k,
    evaluable plain T cols db places indexes files -> evaluable plain T cols db' places' indexes files ->
    Permutation (items_of T db places k) (items_of T db' places' k) ->
  forall lines lines',
    evaluated leq plain name tle vlt distance T cols db places indexes files normalize lines ->
    evaluated leq plain name tle vlt distance T cols db' places' indexes files normalize lines' ->
    Forall2 (@line_same L) (of_by (name k) lines) (of_by (name k) lines').
Proof. exact bys_same. Qed.
Print Assumptions C78_bys.

Example C78_bys_ex :
  asymmetric Z.ltb /\ evaluable plain_text ex_task_reg ex_cols ex_db pl_places pl_indexes pl_files /\
  evaluable plain_text ex_task_reg ex_cols p4_db p4_places pl_indexes pl_files /\
  Permutation (items_of ex_task_reg ex_db pl_places [7]) (items_of ex_task_reg p4_db p4_places [7]) /\
  length (items_of ex_task_reg ex_db pl_places [7]) = 6%nat /\
  evaluated string_dec plain_text pl_name Z.leb Z.ltb pl_distance ex_task_reg ex_cols ex_db pl_places pl_indexes pl_files (Some 1) p0_lines /\
  evaluated string_dec plain_text pl_name Z.leb Z.ltb pl_distance ex_task_reg ex_cols p4_db p4_places pl_indexes pl_files (Some 1) p4_lines /\
  map (@l_by string) p0_lines = ["+11;"; "+11;"; "+11;"; "+11;"; "+000;"] /\
  map (@l_by string) p4_lines = ["+11;"; "+11;"; "+11;"; "+11;"; "+100;"] /\
  of_by (pl_name [7]) p4_lines = of_by (pl_name [7]) p0_lines.
Proof.
  split; [exact lt_asym|]. split; [exact p0_evaluable|]. split; [exact p4_evaluable|]. split; [exact p4_same|].
  split; [reflexivity|]. split; [exact p0_evaluated|]. split; [exact p4_evaluated|]. split; [reflexivity|]. split; [reflexivity|].
  vm_compute. reflexivity.
Qed.
