(** An evaluation goes on in the same way when the frames and the distances are replaced by their
    images. *)
From Coq Require Import String.
From Coq Require Import List ZArith QArith Bool Lia Permutation.
From Verif Require Import Prelude Sampler Sampler_spec Sampler_proofs Pairs Task Task_spec Task_sort Task_main Task_reg_spec Distances Distances_spec
  Score Score_spec Analyze Rounding H5io Pipeline Pipeline_spec Pipeline_proofs Pipeline_same_spec Pipeline_map_spec.
Import ListNotations.
Local Open Scope Z_scope.
Local Open Scope list_scope.
Set Implicit Arguments.

Definition on_snd (K A B : Type) (f : A -> B) (l : list (K * A)) : list (K * B) := map (fun p => (fst p, f (snd p))) l.

Lemma mapM_on A B C (f : A -> res B) (g : A -> res C) (h : B -> C) l : (forall a, In a l -> g a = on_result h (f a)) ->
  mapM g l = on_result (map h) (mapM f l).
Proof.
  induction l as [|a l IH]; intros H; [reflexivity|]. cbn [mapM]. rewrite (H a (or_introl eq_refl)).
  destruct (f a) as [b|e]; [|reflexivity]. cbn [on_result bind]. rewrite IH by (intros; apply H; right; assumption).
  destruct (mapM f l); reflexivity.
Qed.

Lemma nth_res_map A B (f : A -> B) l i : nth_res (map f l) i = on_result f (nth_res l i).
Proof. unfold nth_res. rewrite nth_error_map. destruct (nth_error l i); reflexivity. Qed.

Lemma gather_map A B (f : A -> B) l idx : gather (map f l) idx = on_result (map f) (gather l idx).
Proof. unfold gather. apply mapM_on. intros i _. apply nth_res_map. Qed.

Lemma lookup_on A B (f : A -> B) l k : lookup (on_snd f l) k = on_result f (lookup l k).
Proof. induction l as [|[k' a] l IH]; [reflexivity|]. cbn. destruct (String.eqb k' k); [reflexivity|exact IH]. Qed.

Lemma lookupZ_on A B (f : A -> B) l k : lookupZ (on_snd f l) k = on_result f (lookupZ l k).
Proof. induction l as [|[k' a] l IH]; [reflexivity|]. cbn. destruct (k' =? k); [reflexivity|exact IH]. Qed.

Lemma slice_map A B (f : A -> B) i j l : slice i j (map f l) = map f (slice i j l).
Proof. unfold slice. rewrite skipn_map, firstn_map. reflexivity. Qed.

Lemma splice_map A B (f : A -> B) i n l : splice i (map f n) (map f l) = map f (splice i n l).
Proof. unfold splice. rewrite !map_app, firstn_map, skipn_map, map_length. reflexivity. Qed.

Lemma set_nth_map A B (f : A -> B) l : forall i v, set_nth (map f l) i (f v) = map f (set_nth l i v).
Proof. induction l as [|a l IH]; intros [|i] v; cbn; try reflexivity. rewrite IH. reflexivity. Qed.

Lemma on_snd_app K A B (f : A -> B) (l l' : list (K * A)) : on_snd f (l ++ l') = on_snd f l ++ on_snd f l'.
Proof. apply map_app. Qed.

Section Map.
Variables tm F F' V V' : Type.
Variable tle : tm -> tm -> bool.
Variables (zero : V) (phi : F -> F') (h : V -> V').
Variable distance : option bool -> list F -> list F -> res V.
Variable distance' : option bool -> list F' -> list F' -> res V'.
Variables normalize normalize' : option Z.
Hypothesis Hd : forall m m', distance' (meant normalize') (map phi m) (map phi m') = on_result h (distance (meant normalize) m m').

Definition on_data (fd : feature_data tm F) : feature_data tm F' := (fst fd, on_snd (map phi) (snd fd)).

Lemma merge_on files : merge_features (map on_data files) = on_result on_data (merge_features files).
Proof.
  unfold merge_features. change (@nil (string * list tm), @nil (string * list F')) with (on_data ([], [])).
  generalize (@nil (string * list tm), @nil (string * list F)). induction files as [|[t f] files IH]; intros [times frames]; [reflexivity|].
  cbn [map foldM on_data fst snd]. destruct (existsb _ _); [reflexivity|]. cbn [bind]. rewrite <- IH. unfold on_data, update. cbn [fst snd].
  rewrite on_snd_app. reflexivity.
Qed.

Lemma item_on fd it : item_features tle (on_data fd) it = on_result (map phi) (item_features tle fd it).
Proof.
  unfold item_features. cbn [on_data fst snd]. destruct (lookup (fst fd) (i_file it)) as [times|e]; [|reflexivity]. cbn [bind].
  rewrite lookup_on. destruct (lookup (snd fd) (i_file it)) as [frames|e]; [|reflexivity]. cbn [on_result bind]. apply gather_map.
Qed.

Lemma features_on fd items : get_features tle (on_data fd) items = on_result (on_snd (map phi)) (get_features tle fd items).
Proof.
  unfold get_features. change (@nil (Z * list F')) with (on_snd (map phi) (@nil (Z * list F))). generalize (@nil (Z * list F)).
  induction items as [|[l it] items IH]; intros d; [reflexivity|]. cbn [foldM fst snd]. rewrite item_on.
  destruct (item_features tle fd it) as [m|e]; [|reflexivity]. cbn [on_result bind]. rewrite <- IH. reflexivity.
Qed.

Lemma meant_arg n : normalized_arg n = meant n.
Proof. destruct n as [z|]; [|reflexivity]. cbn. destruct (Z.eqb_spec z 0), (Z.eqb_spec z 1); subst; reflexivity || lia. Qed.

Lemma distances_on features pairs :
  pair_distances distance' normalize' (on_snd (map phi) features) pairs = on_result (map h) (pair_distances distance normalize features pairs).
Proof.
  unfold pair_distances. apply mapM_on. intros [a b] _. cbn [fst snd]. rewrite !lookupZ_on, !meant_arg.
  destruct (lookupZ features a) as [m|e]; [|reflexivity]. cbn [on_result bind].
  destruct (lookupZ features b) as [m'|e]; [|reflexivity]. cbn [on_result bind]. apply Hd.
Qed.

Lemma block_on fd bd : compute_block tle distance' (on_data fd) normalize' bd = on_result (map h) (compute_block tle distance fd normalize bd).
Proof.
  unfold compute_block. cbv zeta. destruct (mapM _ _) as [items|e]; [|reflexivity]. cbn [bind]. rewrite features_on.
  destruct (get_features tle fd items) as [features|e]; [|reflexivity]. cbn [on_result bind]. apply distances_on.
Qed.

Definition on_file (df : dist_file V) : dist_file V' := mk_dist_file (d_done df) (option_map (map h) (d_data df)).

Definition on_worker (w : worker tm V) : worker tm V' :=
  match w with
  | W_init todo => W_init todo
  | W_start todo => W_start todo
  | W_read r todo => W_read r todo
  | W_comp r todo bd => W_comp r todo bd
  | W_store r todo first dis => W_store r todo first (map h dis)
  | W_write r todo first dis => W_write r todo first (map h dis)
  | W_failed e => W_failed e
  end.

Definition on_sys (s : sys tm V) : sys tm V' :=
  mk_sys (s_lock s) (on_file (s_file s)) (map on_worker (s_workers s)) (s_main s).

Lemma write_on first r dis df : write_block first r (map h dis) (on_file df) = on_result on_file (write_block first r dis df).
Proof.
  unfold write_block. cbn [on_file d_data d_done]. destruct (d_data df) as [data|]; [|reflexivity]. cbn [option_map]. cbv zeta.
  rewrite slice_map, !map_length. destruct (_ =? _)%nat; [|reflexivity]. cbn [on_result]. unfold on_file. cbn [d_done d_data option_map]. rewrite splice_map. reflexivity.
Qed.

Lemma with_worker_on s i w : on_sys (with_worker s i w) = with_worker (on_sys s) i (on_worker w).
Proof. unfold with_worker, on_sys. cbn. rewrite set_nth_map. reflexivity. Qed.

Lemma acquire_on sync s i : acquire sync (on_sys s) i = option_map on_sys (acquire sync s i).
Proof. unfold acquire. destruct sync; [|reflexivity]. cbn [on_sys s_lock]. destruct (s_lock s); reflexivity. Qed.

Lemma release_on sync s : release sync (on_sys s) = on_sys (release sync s).
Proof. destruct sync; reflexivity. Qed.

Variable pf : pair_file tm.
Variable files : list (feature_data tm F).
Local Notation c := (mk_setting pf files normalize).
Local Notation c' := (mk_setting pf (map on_data files) normalize').

Lemma worker_step_on sync s i w : worker_step tle distance' c' sync (on_sys s) i (on_worker w) = option_map on_sys (worker_step tle distance c sync s i w).
Proof.
  destruct w as [todo|[|r todo]|r todo|r todo bd|r todo first dis|r todo first dis|e]; cbn [on_worker worker_step c_files c_pairs c_normalize]; try reflexivity.
  - rewrite merge_on. destruct (merge_features files); cbn [on_result option_map]; rewrite with_worker_on; reflexivity.
  - rewrite acquire_on. destruct (acquire sync s i); [|reflexivity]. cbn [option_map]. rewrite with_worker_on. reflexivity.
  - destruct (read_block pf r) as [bd|e]; cbn [option_map].
    + rewrite <- release_on, with_worker_on. reflexivity.
    + rewrite with_worker_on. reflexivity.
  - rewrite merge_on. destruct (merge_features files) as [fd|e]; cbn [on_result bind].
    + rewrite block_on. destruct (compute_block tle distance fd normalize bd); cbn [on_result option_map]; rewrite with_worker_on; reflexivity.
    + cbn [option_map]. rewrite with_worker_on. reflexivity.
  - rewrite acquire_on. destruct (acquire sync s i); [|reflexivity]. cbn [option_map]. rewrite with_worker_on. reflexivity.
  - cbn [on_sys s_file]. rewrite write_on. destruct (write_block first r dis (s_file s)) as [f|e]; cbn [on_result option_map].
    + rewrite <- release_on, with_worker_on. reflexivity.
    + rewrite with_worker_on. reflexivity.
Qed.

Lemma finished_on w : finished (on_worker w) = finished w.
Proof. destruct w as [todo|todo|r todo|r todo bd|r todo first dis|r todo first dis|e]; reflexivity. Qed.

Lemma all_finished_on ws : forallb (@finished tm V') (map on_worker ws) = forallb (@finished tm V) ws.
Proof. induction ws as [|w ws IH]; [reflexivity|]. cbn [map forallb]. rewrite finished_on, IH. reflexivity. Qed.

Lemma failure_on ws : first_failure (map on_worker ws) = first_failure ws.
Proof. induction ws as [|w ws IH]; [reflexivity|]. destruct w; cbn [map on_worker first_failure]; congruence. Qed.

Lemma main_step_on s : main_step (on_sys s) = option_map on_sys (main_step s).
Proof.
  unfold main_step. cbn [on_sys s_main s_workers s_lock s_file]. destruct (s_main s); try reflexivity.
  rewrite all_finished_on, failure_on, map_length. destruct (forallb _ _); [|reflexivity]. destruct (first_failure (s_workers s)); [reflexivity|].
  destruct (1 <? length (s_workers s))%nat; reflexivity.
Qed.

Lemma step_on s who : step tle distance' c' (on_sys s) who = option_map on_sys (step tle distance c s who).
Proof.
  unfold step. cbn [on_sys s_workers]. rewrite nth_error_map, map_length. destruct (nth_error (s_workers s) who) as [w|]; cbn [option_map].
  - apply worker_step_on.
  - apply main_step_on.
Qed.

Lemma run_on schedule : forall s, run tle distance' c' (on_sys s) schedule = on_sys (run tle distance c s schedule).
Proof.
  unfold run. induction schedule as [|who schedule IH]; intros s; [reflexivity|]. cbn [fold_left]. rewrite <- IH. f_equal.
  unfold next. rewrite step_on. destruct (step tle distance c s who); reflexivity.
Qed.

Lemma reaches_on s s' : reaches tle distance c s s' -> reaches tle distance' c' (on_sys s) (on_sys s').
Proof. intros (schedule & ->). exists schedule. symmetry. apply run_on. Qed.

Lemma create_on df : create_output (h zero) pf (on_file df) =
  (on_file (fst (create_output zero pf df)), snd (create_output zero pf df)).
Proof.
  unfold create_output. destruct (pf_bys pf).
  - cbn [on_file d_data]. destruct (d_data df); reflexivity.
  - cbn [on_file d_data]. destruct (d_data df) as [d|]; [reflexivity|]. cbn [option_map fst snd]. unfold on_file. cbn [d_done d_data option_map].
    do 3 f_equal. induction (length (pf_data pf)) as [|n IH]; [reflexivity|]. cbn. rewrite IH. reflexivity.
Qed.

Lemma compute_on argsort fuel df n_cpu : compute_distances (h zero) argsort fuel c' (on_file df) n_cpu =
  (on_file (fst (compute_distances zero argsort fuel c df n_cpu)), on_result on_sys (snd (compute_distances zero argsort fuel c df n_cpu))).
Proof.
  unfold compute_distances, create_distance_jobs. cbn [c_pairs]. destruct (by_sizes pf) as [sizes|e]; [|reflexivity].
  rewrite create_on. destruct (create_output zero pf df) as [df' [u|e]]; [|reflexivity]. cbn [fst snd].
  destruct (distance_jobs argsort fuel n_cpu 100 sizes) as [jobs|e]; [|reflexivity]. cbn [fst snd on_result]. unfold on_sys. cbn.
  rewrite map_map. reflexivity.
Qed.

(** ** The scores *)
Variables (vlt : V -> V -> bool) (vlt' : V' -> V' -> bool) (rnd : Q -> Q) (rlen : Z -> nat).
Hypothesis Hlt : forall d d', vlt' (h d) (h d') = vlt d d'.

Lemma rows_on t base pairs dis rows : score_rows vlt' rnd t base pairs (map h dis) rows = score_rows vlt rnd t base pairs dis rows.
Proof.
  unfold score_rows. cbv zeta. rewrite !gather_map.
  destruct (gather dis _) as [a|e]; [|reflexivity]. cbn [on_result bind]. destruct (gather dis _) as [b|e]; [|reflexivity]. cbn [on_result bind].
  f_equal. revert b. induction a as [|u a IH]; intros [|v b]; cbn; try reflexivity. rewrite IH, !Hlt. reflexivity.
Qed.

Lemma blocks_on t base pairs dis blocks : forall i scores,
  score_blocks vlt' rnd t base pairs (map h dis) i blocks scores = score_blocks vlt rnd t base pairs dis i blocks scores.
Proof.
  induction blocks as [|rows blocks IH]; intros i scores; [reflexivity|]. cbn [score_blocks]. rewrite rows_on.
  destruct (score_rows _ _ _ _ _ _ _); [|reflexivity]. destruct (_ <=? _)%nat; [apply IH|reflexivity].
Qed.

Lemma bys_on (T : scored_task) dis bys : forall n scores,
  score_bys vlt' rnd rlen T (map h dis) n bys scores = score_bys vlt rnd rlen T dis n bys scores.
Proof.
  induction bys as [|b bys IH]; intros n scores; [reflexivity|]. cbn [score_bys].
  assert (score_by vlt' rnd rlen T (map h dis) n b scores = score_by vlt rnd rlen T dis n b scores) as ->.
  { unfold score_by, by_data. destruct (nth_res _ _) as [i|e]; [|reflexivity]. cbn [bind]. destruct (lookup _ _) as [[[base start] stop]|e]; [|reflexivity].
    cbn [bind]. destruct (TypeFitting.fit_integer_type _ _) as [t|e]; [|reflexivity]. cbn [bind]. destruct (read_all _ _ _ _ _ _) as [bl|e]; [|reflexivity].
    cbn [bind]. rewrite slice_map. apply blocks_on. }
  destruct (score_by vlt rnd rlen T dis n b scores) as [s [e|]]; [reflexivity|apply IH].
Qed.

Definition on_disk (k : disk V) : disk V' := mk_disk (k_tasks k) (on_snd (map h) (k_distances k)) (k_scores k) (k_others k).

Lemma exists_on k f : exists_file (on_disk k) f = exists_file k f.
Proof.
  unfold exists_file, on_disk, on_snd. cbn [k_tasks k_distances k_scores k_others]. rewrite map_map. reflexivity.
Qed.

Lemma score_on stem k tf dfn sf : score vlt' rnd rlen stem (on_disk k) tf dfn sf =
  (on_disk (fst (score vlt rnd rlen stem k tf dfn sf)), snd (score vlt rnd rlen stem k tf dfn sf)).
Proof.
  unfold score. cbv zeta. rewrite !exists_on. destruct (exists_file k tf); [|reflexivity]. destruct (exists_file k dfn); [|reflexivity].
  cbn [negb]. destruct (exists_file k _); [reflexivity|]. cbn [on_disk k_tasks k_distances k_scores k_others].
  destruct (lookup (k_tasks k) tf) as [T|e]; [|reflexivity]. rewrite lookup_on. destruct (sc_bys T) as [|b bys]; [reflexivity|].
  destruct (lookup (k_distances k) dfn) as [dis|e]; [|reflexivity]. cbn [on_result]. rewrite bys_on. reflexivity.
Qed.

End Map.

Theorem evaluated_map :
  forall (tm L F F' V V' : Type) (leq : forall x y : L, {x = y} + {x <> y}) (plain : L -> bool) (name : key -> string) (tle : tm -> tm -> bool)
    (f : F -> F') (g : V -> V') (vlt : V -> V -> bool) (vlt' : V' -> V' -> bool)
    (distance : option bool -> list F -> list F -> res V) (distance' : option bool -> list F' -> list F' -> res V') normalize normalize',
    (forall d d', vlt' (g d) (g d') = vlt d d') ->
    (forall m m', distance' (meant normalize') (map f m) (map f m') = on_result g (distance (meant normalize) m m')) ->
  forall T cols db (places : list (Distances.item tm)) (indexes : list (string * list L)) files lines,
    evaluated leq plain name tle vlt distance T cols db places indexes files normalize lines ->
    evaluated leq plain name tle vlt' distance' T cols db places indexes (with_frames f files) normalize' lines.
Proof.
  intros tm L F F' V V' leq plain name tle f g vlt vlt' distance distance' normalize normalize' Hlt Hd T cols db places indexes files lines H.
  destruct H as [gorder Hg korder enum argsort R fuel Hk He Ha rlen wlen clen Hr Hw Hc memory o_buffer Ho thr c x Hx Hst Hm Ht zero dfuel n_cpu df0 df' s0 s
    Hn E0 Hs Hret dis rnd slen stem k tf dfn sf k' scores names Hdis Hrnd Hsl Htf Hdf Hnew Hsc Hsf Han].
  pose proof (compute_on zero f g normalize normalize' (for_distances x) files argsort dfuel df0 n_cpu) as E1. rewrite E0 in E1. cbn [fst snd on_result] in E1.
  apply (@reaches_on tm F F' V V' tle f g distance distance' normalize normalize' Hd) in Hs.
  pose proof (score_on g vlt vlt' rnd slen Hlt stem k tf dfn sf) as E2. rewrite Hsc in E2. cbn [fst snd] in E2.
  refine (@Evaluated tm L leq plain name F' V' tle vlt' distance' T cols db places indexes (with_frames f files) normalize' lines gorder Hg korder enum argsort R fuel
    Hk He Ha rlen wlen clen Hr Hw Hc memory o_buffer Ho thr c x Hx Hst Hm Ht (g zero) dfuel n_cpu _ _ _ _ Hn E1 Hs Hret (map g dis) rnd slen stem
    (on_disk g k) tf dfn sf (on_disk g k') scores names _ Hrnd Hsl Htf _ _ E2 Hsf Han).
  - cbn [on_sys s_file on_file d_data]. rewrite Hdis. reflexivity.
  - cbn [on_disk k_distances]. rewrite lookup_on, Hdf. reflexivity.
  - intros Hex. apply Hnew. unfold there in *. cbn [on_disk k_tasks k_distances k_scores k_others] in Hex. unfold on_snd in Hex. rewrite map_map in Hex. exact Hex.
Qed.
