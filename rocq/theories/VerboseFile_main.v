(** The theorems on what verbose tasks print, continued. *)
From Coq Require Import String.
From Verif Require Import Prelude TypeFitting Sampler Pairs Distances Score Analyze H5io Task Task_spec Task_main Task_file Levels
  Pipeline Pipeline_file Progress Progress_spec Progress_proofs
  Verbose Verbose_spec Verbose_proofs Verbose_gen Verbose_main VerboseFile VerboseFile_spec.
Set Implicit Arguments.
Local Open Scope string_scope.
Local Open Scope list_scope.
Local Open Scope Z_scope.

Section Any.
Variables tm L : Type.
Variable leq : forall x y : L, {x = y} + {x <> y}.
Variable plain : L -> bool.
Variable name : key -> string.
Variable gorder : list (string * by_group L) -> list (string * by_group L).
Variable korder : list key -> list key.
Variable enum : list Z -> list Z.
Hypothesis korder_ok : lists_keys korder.
Variable argsort : list Z -> list nat.
Variable R : rng.
Variable fuel : nat.
Variables rlen wlen clen : Z -> nat.
Variables memory o_buffer : Z.

(** A loop that says the same thing at each step. *)
Lemma loop_says {A B} (verbose : bool) (s : string) (f : A -> res B) l : forall acc,
  let m := say_loop (fun acc a => say_then (say verbose s) (fun _ => say_then (silent (f a)) (fun b => silent (Ok (acc ++ [b]))))) l acc in
  match mapM f l with
  | Ok bs => m = (prints verbose (repeat (s ++ endl)%string (length l)), Ok (acc ++ bs))
  | Err e => snd m = Err e
  end.
Proof.
  induction l as [|a l IH]; intros acc m; subst m; cbn [mapM say_loop length repeat].
  - rewrite app_nil_r. unfold prints, silent. case verbose; reflexivity.
  - assert (E1 : say_then (say verbose s) (fun _ => say_then (silent (f a)) (fun b => silent (Ok (acc ++ [b])))) =
      (prints verbose [(s ++ endl)%string], b <- f a ;; Ok (acc ++ [b]))).
    { rewrite (say_ok _ (say_prints verbose s)). destruct (f a) as [b|e]; unfold say_then, silent; cbn; rewrite app_nil_r; reflexivity. }
    rewrite E1. destruct (f a) as [b|e]; cbn [bind]; [|reflexivity].
    rewrite (say_ok _ eq_refl). cbn [fst snd]. specialize (IH (acc ++ [b])). cbn zeta in IH.
    destruct (mapM f l) as [bs|e]; cbn [bind]; [|exact IH].
    rewrite IH. cbn [fst snd]. rewrite prints_app, <- app_assoc. reflexivity.
Qed.

Lemma pairs_said (verbose : bool) ty ts bys :
  let m := generate_pairs_said argsort rlen wlen clen memory o_buffer verbose ty ts bys in
  snd m = generate_pairs argsort rlen wlen clen memory o_buffer ty ts bys /\
  (is_ok (snd m) = true -> fst m = prints verbose (pairs_text (length bys))).
Proof.
  intros m. subst m. unfold generate_pairs_said, generate_pairs.
  pose proof (@loop_says (list Z * (nat * nat)) by_pairs verbose "Writing AX/BX pairs to task file..." (pairs_of_by argsort rlen wlen clen memory o_buffer ty ts) bys []) as H.
  cbn zeta in H. destruct (mapM (pairs_of_by argsort rlen wlen clen memory o_buffer ty ts) bys) as [per|e]; cbn [bind].
  - rewrite (say_ok _ H). cbn [app].
    destruct (merge_pairs rlen bys per 0) as [mm|e]; cbn [bind]; [|split; [reflexivity|intros X; discriminate X]].
    destruct (Pairs.write_all wlen clen I64 (sumn (map bp_n per)) (fst mm)) as [data|e]; cbn [bind]; [|split; [reflexivity|intros X; discriminate X]].
    rewrite say_silent. rewrite (say_ok _ (say_prints verbose "done.")). cbn [fst snd silent]. split; [reflexivity|]. intros _.
    rewrite app_nil_r, prints_app. reflexivity.
  - rewrite (say_fail _ _ H). split; [reflexivity|]. intros X. discriminate X.
Qed.

Section File.
Variables (T : task) (cols : list string) (db : list row) (places : list (Distances.item tm)) (indexes : list (string * list L)).
Variables (thr : option Z) (c : nat).
Notation made := (make_file leq plain name gorder korder enum argsort R fuel rlen wlen clen memory o_buffer T cols db places indexes thr c).
Notation made_said verbose stdin database output :=
  (make_file_said leq plain name gorder korder enum argsort R fuel rlen wlen clen memory o_buffer verbose stdin database output T cols db places indexes thr c).

Lemma init_counted T' bs st : task_init korder enum T cols db = Ok (T', bs, st) -> compute_statistics korder enum T' false bs = Ok st.
Proof. intros H. destruct (init_inv _ _ _ _ _ H) as (_ & -> & _ & Hs). exact Hs. Qed.

(** The same file. *)
Theorem same_made (verbose : bool) stdin tty database output :
  (verbose = true -> stdin = Ok tty) -> snd (made_said verbose stdin database output) = made.
Proof.
  intros V. unfold make_file_said, make_file.
  pose proof (same_task korder enum database T cols db V) as S1.
  unfold say_then at 1. rewrite S1. destruct (task_init korder enum T cols db) as [[[T' bs] st]|e] eqn:init; cbn [bind snd]; [|reflexivity].
  pose proof (same_generation enum korder_ok argsort R fuel _ _ _ false init (init_counted init) output thr c V (incl_refl bs)) as S2.
  unfold say_then at 1. rewrite S2. destruct (generate_triplets korder enum argsort R fuel T' thr bs st c) as [[bs' [f|]]|e]; cbn [bind snd]; try reflexivity.
  destruct (mapM _ (fl_regressors f)) as [groups|e]; cbn [bind]; [|reflexivity].
  destruct (fit_integer_type (s_nb_triplets st) true) as [dty|e]; cbn [bind]; [|reflexivity].
  rewrite say_silent. cbn [fst snd].
  destruct (pairs_said verbose dty (fl_triplets f) (combine (map (fun b => labels (b_frame b)) bs') (map nat_range (fl_by_index f)))) as [S3 _].
  unfold say_then at 1. rewrite S3. destruct (generate_pairs _ _ _ _ _ _ _ _ _) as [[pairs attrs]|e]; reflexivity.
Qed.

Lemma by_index_length T' bs st bs' f : task_init korder enum T cols db = Ok (T', bs, st) ->
  generate_triplets korder enum argsort R fuel T' thr bs st c = Ok (bs', Some f) ->
  length bs' = length (fl_bys f) /\ length (fl_by_index f) = length (fl_bys f).
Proof.
  intros init gen. destruct (remaining _ _ _ _ _ korder_ok T cols db _ _ _ _ _ init _ _ gen) as [_ H]. split; [rewrite <- H, map_length; reflexivity|].
  destruct (generate_ok _ _ _ _ _ _ _ _ _ _ gen) as (_ & outss & c' & _ & [_ Fb Fi _ _ _] & _).
  rewrite Fb, Fi. rewrite map_length. generalize (filter full (named bs outss)). intros l. clear.
  assert (G : forall s, length (pairs_of_bounds (s :: cum s (map (fun p : key * list block_out => all_triplets (snd p)) l))) = length l); [|apply G].
  induction l as [|p l IH]; intros s; [reflexivity|]. cbn [map cum length]. cbn [pairs_of_bounds length]. f_equal. apply IH.
Qed.

(** What is printed. *)
Lemma made_said_text (verbose : bool) stdin tty database output x : (verbose = true -> stdin = Ok tty) ->
  made = Ok x ->
  exists T' bs st, task_init korder enum T cols db = Ok (T', bs, st) /\
  forall o1 o2, fst (task_init_said korder enum verbose stdin database T cols db) = prints verbose o1 ->
   (forall bs' g, generate_triplets korder enum argsort R fuel T' thr bs st c = Ok (bs', g) ->
     fst (generate_triplets_said korder enum argsort R fuel verbose stdin output T' thr bs st (combine (map b_key bs) (s_by st)) c) =
       prints verbose (match g with Some _ => o2 | None => [] end)) ->
   fst (made_said verbose stdin database output) = prints verbose (o1 ++ match x with Some x => o2 ++ pairs_text (length (x_bys x)) | None => [] end).
Proof.
  intros V H. unfold make_file in H.
  destruct (task_init korder enum T cols db) as [[[T' bs] st]|e] eqn:init; cbn [bind] in H; [|discriminate].
  exists T', bs, st. split; [reflexivity|]. intros o1 o2 E1 E2. unfold make_file_said.
  pose proof (same_task korder enum database T cols db V) as S1. rewrite init in S1.
  pose proof (same_generation enum korder_ok argsort R fuel _ _ _ false init (init_counted init) output thr c V (incl_refl bs)) as S2.
  destruct (task_init_said korder enum verbose stdin database T cols db) as [w1 r1]. cbn [fst snd] in E1, S1. subst w1 r1.
  unfold say_then at 1. cbn [fst snd].
  destruct (generate_triplets korder enum argsort R fuel T' thr bs st c) as [[bs' g]|e] eqn:gen; cbn [bind] in H; [|discriminate].
  specialize (E2 bs' g eq_refl).
  destruct (generate_triplets_said korder enum argsort R fuel verbose stdin output T' thr bs st (combine (map b_key bs) (s_by st)) c) as [w2 r2].
  cbn [fst snd] in E2, S2. subst w2 r2. unfold say_then at 1. cbn [fst snd].
  destruct g as [f|].
  - destruct (mapM _ (fl_regressors f)) as [groups|e]; cbn [bind] in H |- *; [|discriminate].
    destruct (fit_integer_type (s_nb_triplets st) true) as [dty|e]; cbn [bind] in H |- *; [|discriminate].
    rewrite say_silent. cbn [fst snd].
    destruct (pairs_said verbose dty (fl_triplets f) (combine (map (fun b => labels (b_frame b)) bs') (map nat_range (fl_by_index f)))) as [S3 E3].
    rewrite <- S3 in H. destruct (generate_pairs_said _ _ _ _ _ _ _ _ _ _) as [w3 [[pairs attrs]|e]]; cbn [fst snd bind] in *; [|discriminate].
    specialize (E3 eq_refl). subst w3. unfold say_then. cbn [fst snd]. injection H as <-. cbn [x_bys]. unfold silent. cbn [fst].
    destruct (by_index_length init gen) as [L1 L2]. rewrite app_nil_r, !prints_app, map_length.
    rewrite combine_length, !map_length, L1, L2, Nat.min_id. reflexivity.
  - injection H as <-. unfold silent. cbn [fst]. rewrite !app_nil_r, prints_app, app_nil_r. reflexivity.
Qed.

Theorem made_text tty database output x T' bs st l :
  task_init korder enum T cols db = Ok (T', bs, st) -> lists_labels (t_by T) db l -> made = Ok x ->
  fst (made_said true (Ok tty) database output) =
  init_text tty database (length l) (length bs) (Z.to_nat (s_nb_blocks st)) ++
  match x with
  | Some x => generation_text tty output (s_nb_blocks st) (s_nb_triplets st) (map (fun s => map snd (st_block_sizes s)) (s_by st)) ++
              pairs_text (length (x_bys x))
  | None => []
  end.
Proof.
  intros init Hl H.
  destruct (@made_said_text true (Ok tty) tty database output x (fun _ => eq_refl) H) as (T1 & bs1 & st1 & init1 & K).
  rewrite init in init1. injection init1 as <- <- <-. apply (K _ (generation_text tty output (s_nb_blocks st) (s_nb_triplets st) (map (fun s => map snd (st_block_sizes s)) (s_by st)))).
  - exact (task_text enum korder_ok tty database T cols init Hl).
  - intros bs' g gen. rewrite (@generation_said korder enum korder_ok argsort R fuel T cols db T' bs st st false init (init_counted init) tty output thr bs (s_by st) c bs' g);
      [destruct g; reflexivity| |exact gen].
    assert (HL : length bs = length (s_by st)).
    { pose proof (stats_known _ _ _ _ _ (init_counted init)) as F. exact (Task_main.Forall2_len F). }
    revert HL. generalize (s_by st). clear. intros ss. 
    assert (G : forall (bs2 : list by_block) (ss2 : list by_stats) (all : list (by_block * by_stats)), length bs2 = length ss2 -> incl (combine bs2 ss2) all ->
      Forall2 (fun b s => In (b, s) all) bs2 ss2).
    { induction bs2 as [|b bs2 IH]; intros [|s ss2] all HL HI; try discriminate; constructor.
      - apply HI. left. reflexivity.
      - apply IH; [cbn in HL; lia|]. intros y Hy. apply HI. right. exact Hy. }
    intros HL. apply G; [exact HL|apply incl_refl].
Qed.

Theorem quiet_made stdin database output x : made = Ok x -> fst (made_said false stdin database output) = [].
Proof.
  intros H. assert (V : false = true -> stdin = Ok true) by discriminate.
  destruct (@made_said_text false stdin true database output x V H) as (T1 & bs1 & st1 & init1 & K).
  rewrite (K [] []); [reflexivity| |].
  - exact (quiet_task korder enum stdin database T cols db init1).
  - intros bs' g gen. rewrite (@quiet_generation korder enum korder_ok argsort R fuel T cols db T1 bs1 st1 st1 false init1 (init_counted init1) stdin output thr bs1 c bs' g (incl_refl _) gen). reflexivity.
Qed.

End File.

(* ------------------------------------------------------------------ *)
(** ** Levels *)

Lemma levels_said (verbose : bool) tty has_ix message n T bs : forall lv i,
  let m := levels_loop_said korder enum has_ix T bs lv (shows verbose (one tty message n i)) in
  snd m = levels_loop korder enum has_ix T bs lv /\
  (is_ok (snd (snd m)) = true -> fst m = prints verbose (some_steps tty message n i (length bs))).
Proof.
  induction bs as [|b bs IH]; intros lv i m; subst m; cbn [levels_loop_said levels_loop length].
  - split; [reflexivity|]. intros _. unfold prints. case verbose; reflexivity.
  - rewrite (block_shows tty verbose message n i). cbn [fst snd].
    destruct (levels_by korder enum has_ix T b) as [k|e]; [|split; [reflexivity|intros X; discriminate X]].
    specialize (IH (tl lv) (S i)). cbn zeta in IH.
    destruct (levels_loop_said korder enum has_ix T bs (tl lv) (shows verbose (one tty message n (S i)))) as [o [lv' r]].
    cbn [fst snd] in IH. destruct IH as [<- IH]. cbn [fst snd]. split; [reflexivity|]. intros Hr. rewrite (IH Hr), prints_app, some_steps_S. reflexivity.
Qed.

Theorem same_levels has_ix (verbose : bool) stdin tty T bs st lv : (verbose = true -> stdin = Ok tty) ->
  snd (compute_nb_levels_said korder enum verbose stdin has_ix T bs st lv) = compute_nb_levels korder enum has_ix T bs lv.
Proof.
  intros V. unfold compute_nb_levels_said, compute_nb_levels. destruct (has_item_filters (t_filters T)); [reflexivity|].
  rewrite (open_one V). cbn [silent fst snd].
  destruct (@levels_said verbose tty has_ix "Computing nb_levels for by block" (s_nb_by_levels st) T bs (lv_by lv) 0) as [E _].
  destruct (levels_loop_said _ _ _ _ _ _ _) as [o [l r]]. cbn [snd] in E. rewrite <- E. destruct r; reflexivity.
Qed.

Theorem levels_text has_ix (verbose : bool) stdin tty T bs st lv : (verbose = true -> stdin = Ok tty) ->
  snd (compute_nb_levels korder enum has_ix T bs lv) = Ok tt ->
  fst (compute_nb_levels_said korder enum verbose stdin has_ix T bs st lv) =
  if verbose then counts_text tty "Computing nb_levels for by block" (s_nb_by_levels st) (length bs) else [].
Proof.
  intros V. unfold compute_nb_levels_said, compute_nb_levels. destruct (has_item_filters (t_filters T)); [discriminate|].
  rewrite (open_one V). cbn [silent fst snd].
  destruct (@levels_said verbose tty has_ix "Computing nb_levels for by block" (s_nb_by_levels st) T bs (lv_by lv) 0) as [E F].
  destruct (levels_loop_said _ _ _ _ _ _ _) as [o [l r]]. cbn [fst snd] in E, F. rewrite <- E. destruct r; [|discriminate].
  intros _. cbn [fst app]. rewrite (F eq_refl). reflexivity.
Qed.

Theorem levels_closed has_ix e T bs st lv : has_item_filters (t_filters T) = false ->
  compute_nb_levels_said korder enum true (Err e) has_ix T bs st lv = ([], (lv, Err e)).
Proof. intros H. unfold compute_nb_levels_said. rewrite H. reflexivity. Qed.

End Any.
