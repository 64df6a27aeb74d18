(** Lemmas behind the theorems on what a verbose task does and prints. *)
From Coq Require Import String.
From Verif Require Import Prelude TypeFitting Sampler Task Task_spec Progress Progress_spec Progress_proofs
  Verbose Verbose_spec.
Set Implicit Arguments.
Local Open Scope string_scope.
Local Open Scope list_scope.
Local Open Scope Z_scope.

Lemma say_ok {A B} (m : said A) (k : A -> said B) o a : m = (o, Ok a) -> say_then m k = (o ++ fst (k a), snd (k a)).
Proof. intros ->. reflexivity. Qed.

Lemma say_fail {A B} (m : said A) (k : A -> said B) e : snd m = Err e -> snd (say_then m k) = Err e.
Proof. unfold say_then. intros ->. reflexivity. Qed.

Lemma say_silent {A B} (a : A) (k : A -> said B) : say_then (silent (Ok a)) k = k a.
Proof. unfold say_then, silent. cbn. destruct (k a); reflexivity. Qed.

Lemma say_err {A B} e (k : A -> said B) : say_then (silent (Err e)) k = silent (Err e).
Proof. reflexivity. Qed.

Lemma say_app {A B} o (r : res A) (k : A -> said B) :
  say_then (o, r) k = (o ++ fst (say_then (silent r) k), snd (say_then (silent r) k)).
Proof. destruct r; unfold say_then, silent; cbn; [reflexivity|rewrite app_nil_r; reflexivity]. Qed.

(** The display when one or two things are counted. *)
Definition one (tty : bool) (message : string) (n : Z) (i : nat) : progress :=
  mk_progress [("block", message)] [("block", n)] [("block", Z.of_nat i)] (i =? 0)%nat tty.

Definition two (tty : bool) (n total : Z) (i : nat) (s : Z) : progress :=
  mk_progress [("block", "Computing triplets for by/on/across block"); ("triplets", "Triplets considered:")]
              [("block", n); ("triplets", total)] [("block", Z.of_nat i); ("triplets", s)] (i =? 0)%nat tty.

Definition step_text (tty : bool) (message : string) (n : Z) (i : nat) : string :=
  ((if tty && negb (i =? 1)%nat then marker 1 else "") ++ message ++ " " ++ decimal (Z.of_nat i)
                 ++ " on " ++ decimal n ++ line_feed)%string.

Lemma block_one tty message n i :
  say_block (Some (one tty message n i)) = ([step_text tty message n (S i)], Ok (Some (one tty message n (S i)))).
Proof.
  unfold say_block, say_update, one, update_progress. cbn [p_message p_total p_count p_init p_tty dict_get].
  change (String.eqb "block" "block") with true. cbn [bind]. rewrite say_silent. cbn [dict_put].
  change (String.eqb "block" "block") with true. cbn [say_display].
  replace (Z.of_nat i + 1) with (Z.of_nat (S i)) by lia.
  unfold display. cbn [fst snd p_message p_total p_count p_init p_tty dict_values map combine fold_left length].
  unfold step_text, progress_line. do 2 f_equal.
  destruct tty, i; reflexivity.
Qed.

Section Any.
Variable korder : list key -> list key.
Variable enum : list Z -> list Z.
Variable argsort : list Z -> list nat.
Variable R : rng.
Variable fuel : nat.
Variable tty : bool.
Variable verbose : bool.
Variable stdin : res bool.
Hypothesis stdin_ok : verbose = true -> stdin = Ok tty.

(** The display, or none. *)
Definition shows (p : progress) : option progress := if verbose then Some p else None.
Definition prints (l : list string) : list string := if verbose then l else [].

Lemma prints_app l m : prints l ++ prints m = prints (l ++ m).
Proof. unfold prints. case verbose; reflexivity. Qed.

Lemma say_prints s : say verbose s = (prints [(s ++ endl)%string], Ok tt).
Proof. unfold say, prints. case verbose; reflexivity. Qed.

Lemma open_one message n :
  open_progress verbose stdin [("block", message, n)] = silent (Ok (shows (one tty message n 0))).
Proof.
  unfold open_progress, shows. destruct verbose; [|reflexivity]. rewrite stdin_ok by reflexivity. cbn.
  destruct tty; reflexivity.
Qed.

Lemma open_two n total :
  open_progress verbose stdin [("block", "Computing triplets for by/on/across block", n);
                               ("triplets", "Triplets considered:", total)]
  = silent (Ok (shows (two tty n total 0 0))).
Proof.
  unfold open_progress, shows. destruct verbose; [|reflexivity]. rewrite stdin_ok by reflexivity. cbn.
  destruct tty; reflexivity.
Qed.

Lemma block_shows message n i :
  say_block (shows (one tty message n i))
  = (prints [step_text tty message n (S i)], Ok (shows (one tty message n (S i)))).
Proof. unfold shows, prints. case verbose; [apply block_one|reflexivity]. Qed.

(** The messages [i + 1], ..., [i + k]. *)
Definition some_steps message n i k : list string := map (step_text tty message n) (seq (S i) k).

Lemma some_steps_S message n i k :
  some_steps message n i (S k) = step_text tty message n (S i) :: some_steps message n (S i) k.
Proof. reflexivity. Qed.

Lemma some_steps_app message n i k k' :
  some_steps message n i (k + k') = some_steps message n i k ++ some_steps message n (i + k) k'.
Proof. unfold some_steps. rewrite seq_app, map_app. reflexivity. Qed.

(** A loop that shows a block and then does something silent. *)
Lemma loop_blocks {St A} (f : St -> A -> res St) message n l : forall i s,
  let m := say_loop (fun (x : option progress * St) a =>
             say_then (say_block (fst x)) (fun d =>
             say_then (silent (f (snd x) a)) (fun s' => silent (Ok (d, s'))))) l (shows (one tty message n i), s) in
  match foldM f l s with
  | Ok s' => m = (prints (some_steps message n i (length l)), Ok (shows (one tty message n (i + length l)), s'))
  | Err e => snd m = Err e
  end.
Proof.
  induction l as [|a l IH]; intros i s m; subst m; cbn [foldM say_loop length].
  - rewrite Nat.add_0_r. cbn. unfold silent, prints. case verbose; reflexivity.
  - destruct (f s a) as [s1|e] eqn:E; cbn [bind].
    + assert (E1 : say_then (say_block (fst (shows (one tty message n i), s))) (fun d =>
             say_then (silent (f (snd (shows (one tty message n i), s)) a)) (fun s' => silent (Ok (d, s'))))
           = (prints [step_text tty message n (S i)], Ok (shows (one tty message n (S i)), s1))).
      { cbn [fst snd]. rewrite (say_ok _ (block_shows message n i)), E, say_silent. unfold silent. cbn [fst snd].
        rewrite app_nil_r. reflexivity. }
      rewrite (say_ok _ E1). specialize (IH (S i) s1). cbn zeta in IH. destruct (foldM f l s1) as [s2|e].
      * rewrite IH. cbn [fst snd]. rewrite prints_app, some_steps_S, <- plus_n_Sm. reflexivity.
      * cbn [snd]. exact IH.
    + assert (E1 : snd (say_then (say_block (fst (shows (one tty message n i), s))) (fun d =>
             say_then (silent (f (snd (shows (one tty message n i), s)) a)) (fun s' => silent (Ok (d, s'))))) = Err e).
      { cbn [fst snd]. rewrite (say_ok _ (block_shows message n i)), E. reflexivity. }
      unfold say_then at 1. rewrite E1. reflexivity.
Qed.

Lemma foldM_snoc {A B} (f : A -> res B) l : forall acc,
  foldM (fun acc a => b <- f a ;; Ok (acc ++ [b])) l acc = (bs <- mapM f l ;; Ok (acc ++ bs)).
Proof.
  induction l as [|a l IH]; intros acc; cbn [foldM mapM bind]; [rewrite app_nil_r; reflexivity|].
  destruct (f a) as [b|e]; cbn [bind]; [|reflexivity]. rewrite IH. destruct (mapM f l); cbn [bind]; [|reflexivity].
  rewrite <- app_assoc. reflexivity.
Qed.

Lemma loop_ext {St A} (f g : St -> A -> said St) l : (forall s a, f s a = g s a) -> forall s, say_loop f l s = say_loop g l s.
Proof.
  intros H. induction l as [|a l IH]; intros s; cbn; [reflexivity|]. rewrite H. unfold say_then.
  destruct (snd (g s a)); [rewrite IH|]; reflexivity.
Qed.

Lemma prepare_said T db :
  let m := prepare_database_said korder verbose stdin T db in
  snd m = prepare_database korder T db /\
  forall bs, prepare_database korder T db = Ok bs ->
    fst m = prints (some_steps "Preprocessing by block" (Zlen (groupby_rows korder (t_by T) db)) 0
                               (length (groupby_rows korder (t_by T) db))).
Proof.
  intros m. subst m. unfold prepare_database_said, prepare_database. set (gs := groupby_rows korder (t_by T) db).
  rewrite open_one, say_silent.
  rewrite (loop_ext _ (fun (x : option progress * list (option (key * frame))) a =>
             say_then (say_block (fst x)) (fun d =>
             say_then (silent (b <- prepare_by T a ;; Ok (snd x ++ [b]))) (fun s' => silent (Ok (d, s')))))).
  2:{ intros s a. unfold say_then. destruct (snd (say_block (fst s))); [|reflexivity]. destruct (prepare_by T a); reflexivity. }
  pose proof (loop_blocks (fun acc a => b <- prepare_by T a ;; Ok (acc ++ [b])) "Preprocessing by block"
                (Zlen gs) gs 0 []) as H. cbn zeta in H.
  rewrite foldM_snoc in H. cbn [fst snd] in H |- *.
  destruct (mapM (prepare_by T) gs) as [os|e]; cbn [bind app] in H |- *.
  - rewrite (say_ok _ H). unfold silent. cbn [fst snd]. split; [reflexivity|].
    intros bs _. rewrite app_nil_r. reflexivity.
  - split; [apply say_fail; exact H|discriminate].
Qed.

Lemma stats_by_levels T ap b :
  stats_by korder enum T ap b = foldM (stats_step enum T ap b) (groups korder (t_on T :: t_across T) (b_frame b)) (by_levels korder T b).
Proof. reflexivity. Qed.

Lemma step_levels T ap b st kb st' : stats_step enum T ap b st kb = Ok st' ->
  st_nb_on_across_levels st' = st_nb_on_across_levels st.
Proof.
  unfold stats_step. destruct kb as [k block]. intros H.
  destruct (nth_res block 0) as [l0|]; cbn [bind] in H; [|discriminate H].
  destruct (iloc (b_frame b) l0) as [v|]; cbn [bind] in H; [|discriminate H].
  destruct (f_oab (t_filters T) v).
  - match type of H with bind ?x _ = _ => destruct x as [n|]; cbn [bind] in H; [|discriminate H] end.
    injection H as <-. reflexivity.
  - injection H as <-. reflexivity.
Qed.

Lemma fold_levels T ap b l : forall st st', foldM (stats_step enum T ap b) l st = Ok st' ->
  st_nb_on_across_levels st' = st_nb_on_across_levels st.
Proof.
  induction l as [|kb l IH]; intros st st' H; cbn [foldM] in H; [injection H as <-; reflexivity|].
  destruct (stats_step enum T ap b st kb) as [s|] eqn:E; cbn [bind] in H; [|discriminate H].
  rewrite (IH _ _ H). apply (step_levels _ _ _ _ _ E).
Qed.

Lemma levels_eq T ap b st : stats_by korder enum T ap b = Ok st ->
  st_nb_on_across_levels st = Zlen (groups korder (t_on T :: t_across T) (b_frame b)).
Proof. rewrite stats_by_levels. intros H. rewrite (fold_levels _ _ _ _ _ H). reflexivity. Qed.

(** The number of blocks of some by. *)
Definition n_blocks (T : task) (bs : list by_block) : nat :=
  sumn (map (fun b => length (groups korder (t_on T :: t_across T) (b_frame b))) bs).

Lemma n_blocks_Z T bs : sumZ (map (fun b => st_nb_on_across_levels (by_levels korder T b)) bs) = Z.of_nat (n_blocks T bs).
Proof.
  clear stdin_ok.
  unfold n_blocks. induction bs as [|b bs IH]; [reflexivity|]. cbn [map sumZ fold_right sumn].
  unfold sumZ, sumn in IH. rewrite IH. cbn [by_levels st_nb_on_across_levels]. unfold Zlen. lia.
Qed.

Lemma stats_loop T ap message n bs : forall i acc,
  let m := say_loop (stats_by_said korder enum T ap) bs (shows (one tty message n i), acc) in
  match mapM (stats_by korder enum T ap) bs with
  | Ok sts => m = (prints (some_steps message n i (n_blocks T bs)),
                   Ok (shows (one tty message n (i + n_blocks T bs)), acc ++ sts))
  | Err e => snd m = Err e
  end.
Proof.
  induction bs as [|b bs IH]; intros i acc m; subst m; cbn [mapM say_loop].
  - cbn. rewrite Nat.add_0_r, app_nil_r. unfold silent, prints. case verbose; reflexivity.
  - pose proof (loop_blocks (stats_step enum T ap b) message n
                  (groups korder (t_on T :: t_across T) (b_frame b)) i (by_levels korder T b)) as H.
    cbn zeta in H. rewrite stats_by_levels.
    destruct (foldM (stats_step enum T ap b) (groups korder (t_on T :: t_across T) (b_frame b)) (by_levels korder T b)) as [s|e];
      cbn [bind].
    + assert (E1 : stats_by_said korder enum T ap (shows (one tty message n i), acc) b
           = (prints (some_steps message n i (length (groups korder (t_on T :: t_across T) (b_frame b)))),
              Ok (shows (one tty message n (i + length (groups korder (t_on T :: t_across T) (b_frame b)))), acc ++ [s]))).
      { unfold stats_by_said. cbn [fst snd]. rewrite (say_ok _ H). unfold silent. cbn [fst snd]. rewrite app_nil_r. reflexivity. }
      rewrite (say_ok _ E1).
      set (k := length (groups korder (t_on T :: t_across T) (b_frame b))) in *.
      specialize (IH (i + k)%nat (acc ++ [s])). cbn zeta in IH.
      change (n_blocks T (b :: bs)) with (k + n_blocks T bs)%nat.
      destruct (mapM (stats_by korder enum T ap) bs) as [sts|e]; cbn [bind].
      * rewrite IH. cbn [fst snd]. rewrite prints_app, some_steps_app, <- app_assoc, Nat.add_assoc. reflexivity.
      * rewrite IH. reflexivity.
    + apply say_fail. unfold stats_by_said. apply say_fail. exact H.
Qed.

Lemma loop_display {A} message n (l : list A) : forall i,
  say_loop (fun d (_ : A) => say_block d) l (shows (one tty message n i))
  = (prints (some_steps message n i (length l)), Ok (shows (one tty message n (i + length l)))).
Proof.
  induction l as [|a l IH]; intros i; cbn [say_loop length].
  - rewrite Nat.add_0_r. unfold silent, prints. case verbose; reflexivity.
  - rewrite (say_ok _ (block_shows message n i)), IH. cbn [fst snd]. rewrite prints_app, some_steps_S.
    rewrite <- plus_n_Sm. reflexivity.
Qed.

Lemma mapM_levels T ap bs sts : mapM (stats_by korder enum T ap) bs = Ok sts ->
  map st_nb_on_across_levels sts = map (fun b => st_nb_on_across_levels (by_levels korder T b)) bs.
Proof.
  revert sts. induction bs as [|b bs IH]; intros sts H; cbn [mapM] in H; [injection H as <-; reflexivity|].
  destruct (stats_by korder enum T ap b) as [s|] eqn:E; cbn [bind] in H; [|discriminate H].
  destruct (mapM (stats_by korder enum T ap) bs) as [l|]; cbn [bind] in H; [|discriminate H].
  injection H as <-. cbn [map]. rewrite (levels_eq _ _ _ E), (IH l eq_refl). reflexivity.
Qed.

Lemma stats_said T ap bs :
  let m := compute_statistics_said korder enum verbose stdin T ap bs in
  snd m = compute_statistics korder enum T ap bs /\
  forall st, compute_statistics korder enum T ap bs = Ok st ->
    fst m = prints (some_steps "Computing statistics for by block" (Zlen bs) 0 (length bs)
                    ++ some_steps "Computing statistics for by/on/across block" (Z.of_nat (n_blocks T bs)) 0 (n_blocks T bs)).
Proof.
  intros m. subst m. unfold compute_statistics_said, compute_statistics.
  rewrite open_one, say_silent, (say_ok _ (loop_display _ _ bs 0)). cbn [fst snd].
  rewrite n_blocks_Z, open_one, say_silent.
  pose proof (stats_loop T ap "Computing statistics for by/on/across block" (Z.of_nat (n_blocks T bs)) bs 0 []) as H.
  cbn zeta in H. pose proof (@mapM_levels T ap bs) as L.
  destruct (mapM (stats_by korder enum T ap) bs) as [sts|e]; cbn [bind].
  - rewrite (say_ok _ H). unfold silent. cbn [fst snd app]. rewrite app_nil_r, prints_app. split; [|reflexivity].
    rewrite (L sts eq_refl), n_blocks_Z. reflexivity.
  - split; [apply say_fail; exact H|discriminate].
Qed.

(** [__init__]. *)
Lemma init_said database T cols db :
  let m := task_init_said korder enum verbose stdin database T cols db in
  snd m = task_init korder enum T cols db /\
  forall T' bs st, task_init korder enum T cols db = Ok (T', bs, st) ->
    exists gs, gs = groupby_rows korder (t_by T') (snd (with_dummies T db)) /\
    fst m = prints ([("checking input database " ++ database ++ endl)%string; ("input database verified" ++ endl)%string]
                    ++ some_steps "Preprocessing by block" (Zlen gs) 0 (length gs)
                    ++ some_steps "Computing statistics for by block" (Zlen bs) 0 (length bs)
                    ++ some_steps "Computing statistics for by/on/across block" (Z.of_nat (n_blocks T' bs)) 0 (n_blocks T' bs)).
Proof.
  intros m. subst m. unfold task_init_said, task_init, check_database_said.
  rewrite !say_prints. rewrite (say_ok (o := _) _ eq_refl). cbn [fst snd].
  destruct (check_database cols (t_on T) (t_across T) (t_by T)) as [u|e]; cbn [bind].
  2:{ cbn. split; [reflexivity|discriminate]. }
  rewrite say_silent. cbn [fst snd]. rewrite prints_app.
  rewrite (say_ok (o := _) _ eq_refl).
  destruct (with_dummies T db) as [T1 db1]. cbn [fst snd].
  destruct (prepare_said T1 db1) as [P1 P2].
  destruct (prepare_database_said korder verbose stdin T1 db1) as [o r]. cbn [fst snd] in P1, P2. subst r.
  destruct (prepare_database korder T1 db1) as [bs|e]; cbn [bind].
  2:{ cbn. split; [reflexivity|discriminate]. }
  specialize (P2 bs eq_refl). subst o.
  rewrite (say_ok (o := _) _ eq_refl). cbn [fst snd].
  destruct (stats_said T1 false bs) as [S1 S2].
  destruct (compute_statistics_said korder enum verbose stdin T1 false bs) as [o r]. cbn [fst snd] in S1, S2. subst r.
  destruct (compute_statistics korder enum T1 false bs) as [st|e]; cbn [bind].
  2:{ cbn. split; [reflexivity|discriminate]. }
  specialize (S2 st eq_refl). subst o.
  rewrite (say_ok (o := _) _ eq_refl). cbn [fst snd silent]. split; [reflexivity|].
  intros T' bs' st' H. injection H as <- <- <-. eexists. split; [reflexivity|].
  rewrite app_nil_r, !prints_app. f_equal.
Qed.

End Any.
