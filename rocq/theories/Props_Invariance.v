(** Property theorems: changes of the features that the distances and the results do not see (C82). *)
From Coq Require Import String.
From Coq Require Import List ZArith QArith Reals Lra Permutation.
From Verif Require Import Prelude Task Task_spec Task_ex Task_sort Task_reg_spec Task_reg_ex Sampler_proofs Distances Distances_spec Score Score_spec Analyze Analyze_spec Rounding
  H5io H5io_ex Pipeline Pipeline_spec Pipeline_ex Pipeline_same_spec Pipeline_same_ex Pipeline_map_spec Pipeline_map
  Metrics Dtw DefaultDistance Invariance_spec Invariance_proofs Invariance_ex Pipeline_default Pipeline_default_ex.
Import ListNotations.
Open Scope string_scope.
Open Scope list_scope.
Open Scope Z_scope.

(** C82: the default distance does not change, and neither do its exceptions, when each frame is
    multiplied by a positive number of its own. *)
Theorem C82_scale_default : forall empty normalized x y x' y',
  rescaled (fun c => 0 < c)%R x x' -> rescaled (fun c => 0 < c)%R y y' ->
  call_default empty normalized x' y' = call_default empty normalized x y.
Proof. exact scale_default. Qed.
Print Assumptions C82_scale_default.

Example C82_scale_default_ex : forall empty,
  let x' := mk_mat Float64 2 (map z_loud [2; 0; 4; 3; 5]) in let y' := mk_mat Float64 2 (map z_loud [6; 1; 8; 7]) in
  rescaled (fun c => 0 < c)%R iv_x x' /\ rescaled (fun c => 0 < c)%R iv_y y' /\
  In [Some (5 * 1)%R; Some (5 * 0)%R] (m_rows x') /\ call_default empty (Some true) iv_x iv_y = Ok (Value (Some (1 / 12)%R)).
Proof.
  intros empty. split; [exact (z_loud_rescaled [2; 0; 4; 3; 5])|]. split; [exact (z_loud_rescaled [6; 1; 8; 7])|]. split; [left; reflexivity|apply iv_forwards].
Qed.

(** C82: the Kullback-Leibler distance does not change when each frame is multiplied by a number of
    its own, even negative, other than 0. *)
Theorem C82_scale_kl : forall empty normalized x y x' y',
  rescaled (fun c => c <> 0)%R x x' -> rescaled (fun c => c <> 0)%R y y' ->
  call_kl empty normalized x' y' = call_kl empty normalized x y.
Proof. exact scale_kl. Qed.
Print Assumptions C82_scale_kl.

Example C82_scale_kl_ex :
  rescaled (fun c => c <> 0)%R iv_x (mk_mat Float64 2 (map (times (-2)) (m_rows iv_x))) /\
  rescaled (fun c => c <> 0)%R iv_y (mk_mat Float64 2 (map (times 3) (m_rows iv_y))).
Proof.
  split; (constructor; [reflexivity..|]); cbn [iv_x iv_y m_rows map]; repeat constructor; eexists; (split; [|reflexivity]); lra.
Qed.

(** C82: these distances do not depend on the order of the columns of the features. *)
Theorem C82_columns_default : forall empty normalized s x y x' y',
  reordered s x x' -> reordered s y y' -> call_default empty normalized x' y' = call_default empty normalized x y.
Proof. exact order_default. Qed.
Print Assumptions C82_columns_default.

Example C82_columns_default_ex : forall empty,
  let x' := mk_mat Float64 2 (map z_swapped [2; 0; 4; 3; 5]) in let y' := mk_mat Float64 2 (map z_swapped [6; 1; 8; 7]) in
  reordered [1; 0]%nat iv_x x' /\ reordered [1; 0]%nat iv_y y' /\ m_rows x' = [e2; e2; e2; e1; e1] /\
  call_default empty (Some true) iv_x iv_y = Ok (Value (Some (1 / 12)%R)).
Proof.
  intros empty. split; [exact (z_swapped_reordered [2; 0; 4; 3; 5])|]. split; [exact (z_swapped_reordered [6; 1; 8; 7])|]. split; [reflexivity|apply iv_forwards].
Qed.

Theorem C82_columns_kl : forall empty normalized s x y x' y',
  reordered s x x' -> reordered s y y' -> call_kl empty normalized x' y' = call_kl empty normalized x y.
Proof. exact order_kl. Qed.
Print Assumptions C82_columns_kl.

Example C82_columns_kl_ex :
  reordered [1; 0]%nat iv_x (mk_mat Float64 2 (map z_swapped [2; 0; 4; 3; 5])) /\
  reordered [1; 0]%nat iv_y (mk_mat Float64 2 (map z_swapped [6; 1; 8; 7])).
Proof. exact (conj (z_swapped_reordered [2; 0; 4; 3; 5]) (z_swapped_reordered [6; 1; 8; 7])). Qed.

(** C82: the default distance that is not normalised is the same when both sequences are read
    backwards. *)
Theorem C82_backwards : forall empty empty' x y,
  call_default empty (Some false) (backwards x) (backwards y) = call_default empty' (Some false) x y.
Proof. exact backwards_default. Qed.
Print Assumptions C82_backwards.

Example C82_backwards_ex : forall empty,
  m_rows (backwards iv_x) = [e2; e2; e1; e1; e1] /\ call_default empty (Some false) iv_x iv_y = Ok (Value (Some (1 / 2)%R)).
Proof. intros empty. split; [reflexivity|apply iv_plain]. Qed.

(** C82: the normalised one is not, because the path by which the cost is divided is chosen from the
    end of the sequences. *)
Theorem C82_backwards_refuted : forall empty,
  ~ forall x y, call_default empty (Some true) (backwards x) (backwards y) = call_default empty (Some true) x y.
Proof. exact not_backwards. Qed.
Print Assumptions C82_backwards_refuted.

Example C82_backwards_refuted_ex : forall empty,
  call_default empty (Some true) iv_x iv_y = Ok (Value (Some (1 / 12)%R)) /\
  call_default empty (Some true) (backwards iv_x) (backwards iv_y) = Ok (Value (Some (1 / 10)%R)).
Proof. intros empty. exact (conj (iv_forwards empty) (iv_backwards empty)). Qed.

(** C82: two evaluations of the same items have the same results when a relation between the
    features of the items is enough for the distances to be ordered in the same way. *)
Theorem C82_evaluation :
  forall (tm L F F' V V' : Type) (leq : forall x y : L, {x = y} + {x <> y}) (plain : L -> bool) (name : key -> string),
    (forall k k', name k = name k' -> k = k') ->
  forall tle (vlt : V -> V -> bool) (vlt' : V' -> V' -> bool) (distance : option bool -> list F -> list F -> res V)
    (distance' : option bool -> list F' -> list F' -> res V') (f : V -> V') (alike : list F -> list F' -> Prop) normalize normalize',
    asymmetric vlt -> asymmetric vlt' -> (forall d d', vlt' (f d) (f d') = vlt d d') ->
    (forall m n m' n' d, alike m n -> alike m' n' -> distance (meant normalize) m m' = Ok d -> distance' (meant normalize') n n' = Ok (f d)) ->
  forall T cols db (places : list (Distances.item tm)) (indexes : list (string * list L)) files files',
    evaluable plain T cols db places indexes files -> features_ok files' ->
    (forall p m n, In p places -> matrix_of tle files p m -> matrix_of tle files' p n -> alike m n) ->
  forall lines lines',
    evaluated leq plain name tle vlt distance T cols db places indexes files normalize lines ->
    evaluated leq plain name tle vlt' distance' T cols db places indexes files' normalize' lines' ->
    same_lines lines lines' /\ forall k, Forall2 (@line_same L) (of_by (name k) lines) (of_by (name k) lines').
Proof. exact related_same. Qed.
Print Assumptions C82_evaluation.

Example C82_evaluation_ex : forall empty,
  let distance := default_on Float64 2 empty in
  let alike m n := exists l, m = map z_loud l /\ n = map z_swapped l in
  asymmetric below /\
  (forall m n m' n' d, alike m n -> alike m' n' -> distance (meant (Some 1)) m m' = Ok d -> distance (meant (Some 1)) n n' = Ok d) /\
  evaluable plain_text ex_task_reg ex_cols ex_db pl_places pl_indexes (with_frames z_loud pl_files) /\ features_ok (with_frames z_swapped pl_files) /\
  (forall p m n, In p pl_places -> matrix_of Z.leb (with_frames z_loud pl_files) p m -> matrix_of Z.leb (with_frames z_swapped pl_files) p n -> alike m n) /\
  evaluated string_dec plain_text pl_name Z.leb below distance ex_task_reg ex_cols ex_db pl_places pl_indexes (with_frames z_loud pl_files) (Some 1) z_lines /\
  evaluated string_dec plain_text pl_name Z.leb below distance ex_task_reg ex_cols ex_db pl_places pl_indexes (with_frames z_swapped pl_files) (Some 1) z_lines.
Proof.
  intros empty distance alike. split; [exact below_asym|]. split.
  { intros m n m' n' d (l & -> & ->) (l' & -> & ->) H. unfold distance in *. rewrite z_swapped_distance. rewrite z_loud_distance in H. exact H. }
  split; [apply with_frames_evaluable|]. split; [apply with_frames_ok|]. split; [intros p m n _; apply with_frames_alike|].
  exact (conj (z_loud_evaluated empty) (z_swapped_evaluated empty)).
Qed.

(** C82: an evaluation with the default distance gives the same results when the frames of the
    items are multiplied by positive numbers. *)
Theorem C82_louder :
  forall (tm L : Type) (leq : forall x y : L, {x = y} + {x <> y}) (plain : L -> bool) (name : key -> string),
    (forall k k', name k = name k' -> k = k') ->
  forall tle t w empty T cols db (places : list (Distances.item tm)) (indexes : list (string * list L)) files files' normalize,
    evaluable plain T cols db places indexes files -> features_ok files' ->
    (forall p m m', In p places -> matrix_of tle files p m -> matrix_of tle files' p m' ->
                    rescaled (fun c => 0 < c)%R (mk_mat t w m) (mk_mat t w m')) ->
  forall lines lines',
    evaluated leq plain name tle below (default_on t w empty) T cols db places indexes files normalize lines ->
    evaluated leq plain name tle below (default_on t w empty) T cols db places indexes files' normalize lines' ->
    same_lines lines lines' /\ forall k, Forall2 (@line_same L) (of_by (name k) lines) (of_by (name k) lines').
Proof. exact louder_same. Qed.
Print Assumptions C82_louder.

Example C82_louder_ex : forall empty,
  evaluable plain_text ex_task_reg ex_cols ex_db pl_places pl_indexes (with_frames z_frame pl_files) /\ features_ok (with_frames z_loud pl_files) /\
  (forall p m m', In p pl_places -> matrix_of Z.leb (with_frames z_frame pl_files) p m -> matrix_of Z.leb (with_frames z_loud pl_files) p m' ->
     rescaled (fun c => 0 < c)%R (mk_mat Float64 2 m) (mk_mat Float64 2 m')) /\
  evaluated string_dec plain_text pl_name Z.leb below (default_on Float64 2 empty) ex_task_reg ex_cols ex_db pl_places pl_indexes
            (with_frames z_frame pl_files) (Some 1) z_lines /\
  evaluated string_dec plain_text pl_name Z.leb below (default_on Float64 2 empty) ex_task_reg ex_cols ex_db pl_places pl_indexes
            (with_frames z_loud pl_files) (Some 1) z_lines /\
  map (@l_n string) z_lines = [2; 2; 4; 1; 1].
Proof.
  intros empty. split; [apply with_frames_evaluable|]. split; [apply with_frames_ok|]. split.
  { intros p m m' _ Hm Hm'. destruct (with_frames_alike _ _ _ _ _ _ _ Hm Hm') as (l & -> & ->). apply z_loud_rescaled. }
  split; [exact (z_frame_evaluated empty)|]. split; [exact (z_loud_evaluated empty)|reflexivity].
Qed.

(** C82: ... and when the columns of the features are in another order. *)
Theorem C82_columns :
  forall (tm L : Type) (leq : forall x y : L, {x = y} + {x <> y}) (plain : L -> bool) (name : key -> string),
    (forall k k', name k = name k' -> k = k') ->
  forall tle t w empty s T cols db (places : list (Distances.item tm)) (indexes : list (string * list L)) files files' normalize,
    evaluable plain T cols db places indexes files -> features_ok files' ->
    (forall p m m', In p places -> matrix_of tle files p m -> matrix_of tle files' p m' -> reordered s (mk_mat t w m) (mk_mat t w m')) ->
  forall lines lines',
    evaluated leq plain name tle below (default_on t w empty) T cols db places indexes files normalize lines ->
    evaluated leq plain name tle below (default_on t w empty) T cols db places indexes files' normalize lines' ->
    same_lines lines lines' /\ forall k, Forall2 (@line_same L) (of_by (name k) lines) (of_by (name k) lines').
Proof. exact columns_same. Qed.
Print Assumptions C82_columns.

Example C82_columns_ex : forall empty,
  evaluable plain_text ex_task_reg ex_cols ex_db pl_places pl_indexes (with_frames z_frame pl_files) /\ features_ok (with_frames z_swapped pl_files) /\
  (forall p m m', In p pl_places -> matrix_of Z.leb (with_frames z_frame pl_files) p m -> matrix_of Z.leb (with_frames z_swapped pl_files) p m' ->
     reordered [1; 0]%nat (mk_mat Float64 2 m) (mk_mat Float64 2 m')) /\
  evaluated string_dec plain_text pl_name Z.leb below (default_on Float64 2 empty) ex_task_reg ex_cols ex_db pl_places pl_indexes
            (with_frames z_frame pl_files) (Some 1) z_lines /\
  evaluated string_dec plain_text pl_name Z.leb below (default_on Float64 2 empty) ex_task_reg ex_cols ex_db pl_places pl_indexes
            (with_frames z_swapped pl_files) (Some 1) z_lines.
Proof.
  intros empty. split; [apply with_frames_evaluable|]. split; [apply with_frames_ok|]. split.
  { intros p m m' _ Hm Hm'. destruct (with_frames_alike _ _ _ _ _ _ _ Hm Hm') as (l & -> & ->). apply z_swapped_reordered. }
  split; [exact (z_frame_evaluated empty)|exact (z_swapped_evaluated empty)].
Qed.

(** C82: an evaluation takes place in the same way when frames and distances are replaced by their
    images, if the comparisons of distances and the exceptions are the same. *)
Theorem C82_same_way :
  forall (tm L F F' V V' : Type) (leq : forall x y : L, {x = y} + {x <> y}) (plain : L -> bool) (name : key -> string) (tle : tm -> tm -> bool)
    (f : F -> F') (g : V -> V') (vlt : V -> V -> bool) (vlt' : V' -> V' -> bool)
    (distance : option bool -> list F -> list F -> res V) (distance' : option bool -> list F' -> list F' -> res V') normalize normalize',
    (forall d d', vlt' (g d) (g d') = vlt d d') ->
    (forall m m', distance' (meant normalize') (map f m) (map f m') = on_result g (distance (meant normalize) m m')) ->
  forall T cols db (places : list (Distances.item tm)) (indexes : list (string * list L)) files lines,
    evaluated leq plain name tle vlt distance T cols db places indexes files normalize lines ->
    evaluated leq plain name tle vlt' distance' T cols db places indexes (with_frames f files) normalize' lines.
Proof. exact evaluated_map. Qed.
Print Assumptions C82_same_way.

Example C82_same_way_ex : forall empty,
  (forall d d', below (qvalue d) (qvalue d') = qlt d d') /\
  (forall m m', default_on Float64 2 empty (meant (Some 1)) (map z_loud m) (map z_loud m') = on_result qvalue (z_distance (meant (Some 1)) m m')) /\
  evaluated string_dec plain_text pl_name Z.leb qlt z_distance ex_task_reg ex_cols ex_db pl_places pl_indexes pl_files (Some 1) z_lines.
Proof.
  intros empty. split; [exact below_qvalue|]. split; [intros; apply z_loud_distance|exact z_evaluated].
Qed.
