(** Proofs about the commands of the steps. *)
From Coq Require Import Ascii String List Bool ZArith Lia.
From Verif Require Import Prelude Text DistanceCommand Commands_spec StepCommands StepCommands_spec.
Import ListNotations.
Local Open Scope string_scope.

Lemma remove_without {C} (fs : files C) o : without fs (remove fs o) o.
Proof.
  unfold without, remove. rewrite String.eqb_refl. split; [reflexivity|]. intros n N.
  destruct (String.eqb_spec n o); [contradiction|reflexivity].
Qed.

Lemma clear_without {C} (fs : files C) o : without fs (if present fs o then remove fs o else fs) o.
Proof.
  unfold present. destruct (fs o) eqn:E; [apply remove_without|]. split; [exact E|reflexivity].
Qed.

Lemma present_true {C} (fs : files C) n : fs n <> None -> present fs n = true.
Proof. unfold present. destruct (fs n); [reflexivity|contradiction]. Qed.
Lemma present_false {C} (fs : files C) n : fs n = None -> present fs n = false.
Proof. unfold present. intros ->. reflexivity. Qed.

Lemma default_name dir s e : dir_part dir -> plain_stem s -> plain_ext e -> splitext (dir ++ s ++ "." ++ e) = dir ++ s.
Proof. intros Hd [H1 H2] H3. apply splitext_ext; assumption. Qed.

Section Commands.
Context {C Tk : Type}.
Variable make_task : task_call -> files C -> res Tk.
Variable nb_triplets : Tk -> Z.
Variable database : Tk -> string.
Variable print_stats : Tk -> res unit.
Variable write_task : Tk -> option Z -> option string -> option Z -> string -> world C -> files C * res unit.

Local Notation main := (task_main make_task nb_triplets database print_stats write_task).
Local Notation gen := (generate nb_triplets database write_task).

Lemma task_splits args (w : world C) : exists fs',
  cleared (w_files w) fs' (to_output args) /\
  main args w = (let w := mk_world fs' (w_dirs w) (w_seed w) in
  match make_task (to_call args) fs' with
  | Err e => (w, Raised e)
  | Ok T =>
    if to_stats_only args then (w, match print_stats T with Ok _ => Returned | Err e => Raised e end)
    else
      let w := match to_tempdir args with
               | Some d => if given d && negb (present fs' d || existsb (String.eqb d) (w_dirs w))
                           then mk_world fs' (d :: w_dirs w) (w_seed w) else w
               | None => w
               end in
      let '(w, r) := gen T (to_output args) (to_threshold args) (to_tempdir args) (to_seed args) w in
      (w, match r with Ok _ => Returned | Err e => Raised e end)
  end).
Proof.
  destruct w as [fs dirs sd]. unfold task_main. destruct (to_output args) as [o|] eqn:Eo.
  - unfold given; cbn [w_files]. destruct (String.eqb_spec o "") as [->|N]; cbn [negb andb].
    + exists fs. split; [left; auto|reflexivity].
    + exists (if present fs o then remove fs o else fs). split; [right; split; [exact N|apply clear_without]|].
      destruct (present fs o); reflexivity.
  - exists fs. split; reflexivity.
Qed.

Lemma tempdir_splits fs dirs sd tempdir : exists dirs', with_tempdir fs dirs dirs' tempdir /\
  match tempdir with
  | Some d => if given d && negb (present fs d || existsb (String.eqb d) dirs) then mk_world fs (d :: dirs) sd
              else mk_world fs dirs sd
  | None => mk_world fs dirs sd
  end = mk_world fs dirs' sd :> world C.
Proof.
  destruct tempdir as [d|]; [|exists dirs; split; reflexivity]. unfold given.
  destruct (String.eqb_spec d "") as [->|N]; cbn [negb andb]; [exists dirs; split; [left; auto|reflexivity]|].
  unfold present. destruct (fs d) eqn:E; cbn [orb negb].
  - exists dirs. split; [left; split; [right; left; congruence|reflexivity]|reflexivity].
  - destruct (existsb (String.eqb d) dirs) eqn:X; cbn [negb].
    + exists dirs. split; [left; split; [|reflexivity]|reflexivity]. right. right.
      apply existsb_exists in X. destruct X as (y & Hy & Q). apply String.eqb_eq in Q. congruence.
    + exists (d :: dirs). split; [right; split; [|reflexivity]|reflexivity]. split; [exact N|]. split; [exact E|].
      intros I. assert (Q : existsb (String.eqb d) dirs = true); [|congruence].
      apply existsb_exists. exists d. split; [exact I|apply String.eqb_refl].
Qed.

Lemma seed_good seed : good_seed seed ->
  match seed with Some s => (0 <=? s)%Z && (s <? 2 ^ 32)%Z | None => true end = true.
Proof. destruct seed as [s|]; [|reflexivity]. cbn. intros H. change (2 ^ 32)%Z with 4294967296%Z. lia. Qed.
Lemma seed_bad seed : ~ good_seed seed ->
  match seed with Some s => (0 <=? s)%Z && (s <? 2 ^ 32)%Z | None => true end = false.
Proof. destruct seed as [s|]; [|intros H; destruct (H I)]. cbn. intros H. change (2 ^ 32)%Z with 4294967296%Z. lia. Qed.

Lemma task_stops args (w : world C) : exists fs',
  cleared (w_files w) fs' (to_output args) /\
  forall e, make_task (to_call args) fs' = Err e ->
  main args w = (mk_world fs' (w_dirs w) (w_seed w), Raised e).
Proof.
  destruct (task_splits args w) as (fs' & Hc & ->). exists fs'. split; [exact Hc|]. intros e ->. reflexivity.
Qed.

Lemma task_stats args (w : world C) : to_stats_only args = true -> exists fs',
  cleared (w_files w) fs' (to_output args) /\
  forall T, make_task (to_call args) fs' = Ok T ->
  main args w = (mk_world fs' (w_dirs w) (w_seed w), match print_stats T with Ok _ => Returned | Err e => Raised e end).
Proof.
  intros S. destruct (task_splits args w) as (fs' & Hc & ->). exists fs'. split; [exact Hc|]. intros T ->. cbv zeta. rewrite S. reflexivity.
Qed.

Lemma task_runs args (w : world C) : to_stats_only args = false -> exists fs' dirs',
  cleared (w_files w) fs' (to_output args) /\ with_tempdir fs' (w_dirs w) dirs' (to_tempdir args) /\
  forall T, make_task (to_call args) fs' = Ok T ->
  (~ good_seed (to_seed args) -> main args w = (mk_world fs' dirs' (w_seed w), Raised ValueError)) /\
  (good_seed (to_seed args) -> let w' := mk_world fs' dirs' (to_seed args) in
   (nb_triplets T = 0%Z -> main args w = (w', Returned)) /\
   (nb_triplets T <> 0%Z -> forall o,
    to_output args = Some o \/
    to_output args = None /\ (exists dir s e, dir_part dir /\ plain_stem s /\ plain_ext e /\
                              database T = dir ++ s ++ "." ++ e /\ o = dir ++ s ++ ".abx") ->
    (fs' o <> None -> main args w = (w', Raised ValueError)) /\
    (fs' o = None ->
     let r := write_task T (to_threshold args) (to_tempdir args) (to_seed args) o w' in
     main args w = (mk_world (fst r) dirs' (to_seed args), match snd r with Ok _ => Returned | Err e => Raised e end)))).
Proof.
  intros S. destruct (task_splits args w) as (fs' & Hc & ->).
  destruct (tempdir_splits fs' (w_dirs w) (w_seed w) (to_tempdir args)) as (dirs' & Hd & E). exists fs', dirs'.
  split; [exact Hc|]. split; [exact Hd|]. intros T ->. cbv zeta. rewrite S. cbn [w_files w_dirs w_seed].
  rewrite E. unfold generate. split; [intros B; rewrite (seed_bad _ B); reflexivity|]. intros G. rewrite (seed_good _ G). cbn [negb w_files w_dirs].
  split; [intros ->; reflexivity|]. intros N o Ho. rewrite (proj2 (Z.eqb_neq _ _) N).
  assert (Q : match to_output args with Some o => o | None => splitext (database T) ++ ".abx" end = o).
  { destruct Ho as [-> | (-> & dir & s & e & H1 & H2 & H3 & -> & ->)]; [reflexivity|]. rewrite default_name by assumption.
    now rewrite app_assoc_s. }
  rewrite Q. split; intros F.
  - rewrite (present_true _ _ F). reflexivity.
  - rewrite (present_false _ _ F). reflexivity.
Qed.

(** ** Scores *)
Variable write_scores : string -> string -> string -> files C -> files C * res unit.

Lemma score_runs task distance s fs :
  exists fs', without fs fs' s /\
  (fs' task = None \/ fs' distance = None -> score_main write_scores task distance (Some s) fs = (fs', Raised AssertionError)) /\
  (fs' task <> None -> fs' distance <> None ->
   score_main write_scores task distance (Some s) fs =
   let r := write_scores task distance s fs' in (fst r, match snd r with Ok _ => Returned | Err e => Raised e end)).
Proof.
  assert (Q : exists fs', without fs fs' s /\ score_main write_scores task distance (Some s) fs = ends (score_files write_scores task distance (Some s) fs')).
  { eexists. split; [apply clear_without|reflexivity]. }
  destruct Q as (fs' & W & ->). exists fs'. split; [exact W|]. unfold score_files.
  destruct W as [W _]. cbv zeta. rewrite (present_false _ _ W). split.
  - intros H. destruct (present fs' task) eqn:P1; [|reflexivity]. destruct H as [H | H].
    + rewrite present_false in P1 by exact H. discriminate.
    + rewrite (present_false _ _ H). reflexivity.
  - intros H1 H2. rewrite (present_true _ _ H1), (present_true _ _ H2). reflexivity.
Qed.

Lemma score_omitted task distance fs : score_main write_scores task distance None fs = (fs, Raised TypeError).
Proof. reflexivity. Qed.

Lemma score_default dt st et dd sd ed fs :
  dir_part dt -> plain_stem st -> plain_ext et -> dir_part dd -> plain_stem sd -> plain_ext ed ->
  let task := dt ++ st ++ "." ++ et in let distance := dd ++ sd ++ "." ++ ed in
  let name := dt ++ st ++ "_" ++ dd ++ sd ++ ".score" in
  fs task <> None -> fs distance <> None ->
  (fs name <> None -> score_files write_scores task distance None fs = (fs, Err AssertionError)) /\
  (fs name = None -> score_files write_scores task distance None fs = write_scores task distance name fs).
Proof.
  intros H1 H2 H3 H4 H5 H6 task distance name P1 P2. unfold score_files.
  assert (E : splitext task ++ "_" ++ splitext distance ++ ".score" = name).
  { unfold task, distance, name. rewrite !default_name by assumption. now rewrite !app_assoc_s. }
  rewrite E, (present_true _ _ P1), (present_true _ _ P2). split; intros F.
  - rewrite (present_true _ _ F). reflexivity.
  - rewrite (present_false _ _ F). reflexivity.
Qed.

(** ** Analysis *)
Variable analyze : string -> string -> string -> files C -> files C * res unit.

Lemma analyze_missing score task result fs : fs score = None \/ fs task = None ->
  analyze_main analyze score task result fs = (fs, Exited).
Proof.
  intros H. unfold analyze_main. destruct (present fs score) eqn:P; [|reflexivity]. destruct H as [H | H].
  - rewrite present_false in P by exact H. discriminate.
  - rewrite (present_false _ _ H). reflexivity.
Qed.

Lemma analyze_runs score task result fs : fs score <> None -> fs task <> None ->
  exists fs', without fs fs' result /\
  analyze_main analyze score task result fs =
  let r := analyze task score result fs' in (fst r, match snd r with Ok _ => Returned | Err e => Raised e end).
Proof.
  intros H1 H2. exists (if present fs result then remove fs result else fs). split; [apply clear_without|].
  unfold analyze_main. rewrite (present_true _ _ H1), (present_true _ _ H2). reflexivity.
Qed.

End Commands.
