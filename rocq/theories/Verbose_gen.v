(** Lemmas behind the theorems on what a verbose generation of triplets does and prints. *)
From Coq Require Import String.
From Verif Require Import Prelude TypeFitting Sampler Task Task_spec Task_blocks Task_gen Task_main Progress Progress_spec Progress_proofs
  Verbose Verbose_spec Verbose_proofs.
Set Implicit Arguments.
Local Open Scope string_scope.
Local Open Scope list_scope.
Local Open Scope Z_scope.

Lemma key_eqb_refl k : key_eqb k k = true.
Proof. unfold key_eqb. destruct (key_dec k k); congruence. Qed.

Lemma key_eqb_neq k k' : k <> k' -> key_eqb k k' = false.
Proof. unfold key_eqb. destruct (key_dec k k'); congruence. Qed.

Lemma key_get_in {A} k (a : A) d : NoDup (map fst d) -> In (k, a) d -> key_get k d = Ok a.
Proof.
  induction d as [|[k' a'] d IH]; intros N I; [destruct I|]. inversion N as [|? ? Nk Nd]; subst. cbn [key_get].
  destruct I as [E|I].
  - injection E as -> ->. rewrite key_eqb_refl. reflexivity.
  - rewrite key_eqb_neq; [auto|]. intros ->. apply Nk. apply in_map_iff. exists (k, a). auto.
Qed.

(** The sizes of the blocks are what the statistics of the by hold, in the order of the blocks;
    that of a block refused by a filter is 0. *)
Definition refused_empty (T : task) (b : by_block) (kb : key * list Z) (x : Z) : Prop :=
  forall l0 v, nth_res (snd kb) 0 = Ok l0 -> iloc (b_frame b) l0 = Ok v -> f_oab (t_filters T) v = false -> x = 0.

Lemma sizes_fold enum T ap b l : forall st st', foldM (stats_step enum T ap b) l st = Ok st' ->
  exists xs, st_block_sizes st' = st_block_sizes st ++ combine (map fst l) xs /\
    Forall2 (refused_empty T b) l xs /\ st_nb_triplets st' = st_nb_triplets st + sumZ xs.
Proof.
  induction l as [|[k block] l IH]; intros st st' H; cbn [foldM] in H.
  - injection H as <-. exists []. cbn. rewrite app_nil_r. split; [reflexivity|]. split; [constructor|lia].
  - destruct (stats_step enum T ap b st (k, block)) as [s1|] eqn:E; cbn [bind] in H; [|discriminate H].
    destruct (IH _ _ H) as (xs & E1 & E2 & E3).
    assert (X : exists x, st_block_sizes s1 = st_block_sizes st ++ [(k, x)] /\ refused_empty T b (k, block) x /\
              st_nb_triplets s1 = st_nb_triplets st + x).
    { unfold stats_step in E. destruct (nth_res block 0) as [l0|] eqn:N; cbn [bind] in E; [|discriminate E].
      destruct (iloc (b_frame b) l0) as [v|] eqn:V; cbn [bind] in E; [|discriminate E].
      destruct (f_oab (t_filters T) v) eqn:F.
      - match type of E with bind ?x _ = _ => destruct x as [n|]; cbn [bind] in E; [|discriminate E] end.
        injection E as <-. exists n. cbn. split; [reflexivity|]. split; [|reflexivity].
        intros l1 v1 N1 V1 F1. cbn in N1. rewrite N in N1. injection N1 as <-. rewrite V in V1. injection V1 as <-. congruence.
      - injection E as <-. exists 0. cbn. split; [reflexivity|]. split; [intros l1 v1 _ _ _; reflexivity|lia]. }
    destruct X as (x & X1 & X2 & X3). exists (x :: xs). rewrite E1, X1, E3, X3, <- app_assoc. cbn.
    split; [reflexivity|]. split; [constructor; assumption|]. unfold sumZ. lia.
Qed.

Lemma groups_NoDup korder cols fr : lists_keys korder -> NoDup (map fst (groups korder cols fr)).
Proof.
  intros K. unfold groups. rewrite map_map. cbn [fst]. rewrite map_id.
  apply (Permutation_NoDup (Permutation_sym (K _))), NoDup_keys.
Qed.

(** What is looked up for a block. *)
Definition size_of (sts : list (key * by_stats)) (T : task) (b : by_block) (kb : key * list Z) (x : Z) : Prop :=
  (st <- key_get (b_key b) sts ;; key_get (fst kb) (st_block_sizes st)) = Ok x /\ refused_empty T b kb x.

Lemma combine_fst {A B} (l : list A) (m : list B) : length l = length m -> map fst (combine l m) = l.
Proof. revert m. induction l as [|a l IH]; intros [|b m] H; cbn in *; try discriminate; [reflexivity|]. f_equal. apply IH. lia. Qed.

Lemma combine_snd {A B} (l : list A) (m : list B) : length l = length m -> map snd (combine l m) = m.
Proof. revert m. induction l as [|a l IH]; intros [|b m] H; cbn in *; try discriminate; [reflexivity|]. f_equal. apply IH. lia. Qed.

Lemma sizes_found korder enum T ap b st sts : lists_keys korder -> stats_by korder enum T ap b = Ok st ->
  key_get (b_key b) sts = Ok st ->
  Forall2 (size_of sts T b) (groups korder (t_on T :: t_across T) (b_frame b)) (map snd (st_block_sizes st)) /\
  st_nb_triplets st = sumZ (map snd (st_block_sizes st)).
Proof.
  intros K H G. rewrite stats_by_levels in H. destruct (sizes_fold _ _ _ _ _ _ H) as (xs & E & F & S).
  set (l := groups korder (t_on T :: t_across T) (b_frame b)) in *.
  assert (N : NoDup (map fst l)) by (apply groups_NoDup; exact K).
  assert (L : length l = length xs) by (apply (Forall2_len F)).
  cbn [by_levels st_block_sizes app] in E.
  assert (X : map snd (st_block_sizes st) = xs) by (rewrite E; apply combine_snd; rewrite map_length; exact L).
  rewrite X. split.
  2:{ rewrite S. cbn. lia. }
  assert (I : forall kb x, In (kb, x) (combine l xs) -> key_get (fst kb) (st_block_sizes st) = Ok x).
  { intros kb x I. apply key_get_in; [rewrite E, combine_fst by (rewrite map_length; exact L); exact N|].
    rewrite E. clear -I. revert xs I. induction l as [|a l IH]; intros [|y xs] I; cbn in *; try contradiction.
    destruct I as [I|I]; [injection I as -> ->; auto|auto]. }
  clear -F I G. revert I. induction F as [|kb x l xs Hr F IH]; intros I; constructor.
  - split; [rewrite G; cbn [bind]; apply I; left; reflexivity|exact Hr].
  - apply IH. intros kb' x' H. apply I. right. exact H.
Qed.

Section Any.
Variable korder : list key -> list key.
Variable enum : list Z -> list Z.
Variable argsort : list Z -> list nat.
Variable R : rng.
Variable fuel : nat.
Variable tty : bool.
Variable verbose : bool.
Variable stdin : res bool.
Hypothesis stdin_ok : verbose = true -> stdin = Ok tty.
Hypothesis korder_ok : lists_keys korder.

Notation shows := (shows verbose).
Notation prints := (prints verbose).

(** After the blocks have been counted, and before the display. *)
Definition halfway (n total : Z) (i : nat) (s : Z) : progress :=
  mk_progress [("block", "Computing triplets for by/on/across block"); ("triplets", "Triplets considered:")]
              [("block", n); ("triplets", total)] [("block", Z.of_nat (S i)); ("triplets", s)] (i =? 0)%nat tty.

Lemma update_block n total i s : say_update (shows (two tty n total i s)) "block" 1 = silent (Ok (shows (halfway n total i s))).
Proof.
  unfold Verbose_proofs.shows. case verbose; [|reflexivity]. unfold say_update, two, halfway, update_progress. cbn.
  replace (Z.of_nat i + 1) with (Z.pos (Pos.of_succ_nat i)) by lia. reflexivity.
Qed.

Lemma update_triplets n total i s x :
  say_update (shows (halfway n total i s)) "triplets" x = silent (Ok (shows (halfway n total i (s + x)))).
Proof. unfold Verbose_proofs.shows. case verbose; reflexivity. Qed.

Definition block_text (n total : Z) (i : nat) (s : Z) : string :=
  ((if tty && negb (i =? 0)%nat then marker 2 else "")
     ++ "Computing triplets for by/on/across block " ++ decimal (Z.of_nat (S i)) ++ " on " ++ decimal n ++ line_feed
     ++ "Triplets considered: " ++ decimal s ++ " on " ++ decimal total ++ line_feed)%string.

Lemma display_two n total i s :
  say_display (shows (halfway n total i s)) = (prints [block_text n total i s], Ok (shows (two tty n total (S i) s))).
Proof.
  unfold Verbose_proofs.shows, Verbose_proofs.prints. case verbose; [|reflexivity].
  unfold say_display, display, halfway, two, block_text.
  cbn [fst snd p_message p_total p_count p_init p_tty dict_values map combine fold_left length].
  unfold progress_line. change (percent_d) with decimal. change endl with line_feed. do 2 f_equal.
  set (a := decimal (Z.of_nat (S i))). set (b := decimal n). set (c := decimal s). set (d := decimal total).
  replace (if (i =? 0)%nat then "" else if tty then escape 2 else "") with (if tty && negb (i =? 0)%nat then marker 2 else "")
    by (destruct tty, i; reflexivity).
  rewrite !sapp_assoc. reflexivity.
Qed.

Notation block_step' := (block_step enum argsort R fuel).
Notation block_step_said' := (block_step_said enum argsort R fuel).

Lemma block_said T thr sts b byr n total i s acc kb x : size_of sts T b kb x ->
  match block_step' T thr b byr acc kb with
  | Ok acc' => block_step_said' T thr sts b byr (shows (two tty n total i s), acc) kb
               = (prints [block_text n total i (s + x)], Ok (shows (two tty n total (S i) (s + x)), acc'))
  | Err e => snd (block_step_said' T thr sts b byr (shows (two tty n total i s), acc) kb) = Err e
  end.
Proof.
  destruct acc as [outs c], kb as [k block]. intros [G Z0]. cbn [fst snd] in G.
  unfold block_step, block_step_said. cbn [fst snd]. rewrite update_block, say_silent.
  unfold refused_empty in Z0. cbn [snd] in Z0.
  destruct (nth_res block 0) as [l0|e]; cbn [bind]; [|reflexivity].
  specialize (Z0 l0). destruct (iloc (b_frame b) l0) as [v|e]; cbn [bind]; [|reflexivity].
  specialize (Z0 v eq_refl eq_refl).
  rewrite say_silent. destruct (f_oab (t_filters T) v).
  - destruct (on_across_triplets enum argsort R fuel T thr b v k block
                (byr ++ scalar_regressors (r_oab (t_regressors T)) v) c) as [o|e]; cbn [bind]; [|reflexivity].
    rewrite say_silent.
    assert (E : match shows (halfway n total i s) with
         | Some _ =>
             say_then (silent (st <- key_get (b_key b) sts;; key_get k (st_block_sizes st)))
               (fun n0 : Z => say_update (shows (halfway n total i s)) "triplets" n0)
         | None => silent (Ok None)
         end = silent (Ok (shows (halfway n total i (s + x))))).
    { rewrite G, say_silent, update_triplets. unfold Verbose_proofs.shows. case verbose; reflexivity. }
    rewrite E, !say_silent. cbn [fst snd]. rewrite (say_ok _ (display_two n total i (s + x))). cbn.
    rewrite app_nil_r. reflexivity.
  - rewrite (Z0 eq_refl), Z.add_0_r, say_silent. cbn [fst snd].
    rewrite (say_ok _ (display_two n total i s)). cbn. rewrite app_nil_r. reflexivity.
Qed.

Lemma blocks_said T thr sts b byr n total l xs : Forall2 (size_of sts T b) l xs -> forall i s acc,
  match foldM (block_step' T thr b byr) l acc with
  | Ok acc' => say_loop (block_step_said' T thr sts b byr) l (shows (two tty n total i s), acc)
               = (prints (blocks_text tty n total i s xs), Ok (shows (two tty n total (i + length xs) (s + sumZ xs)), acc'))
  | Err e => snd (say_loop (block_step_said' T thr sts b byr) l (shows (two tty n total i s), acc)) = Err e
  end.
Proof.
  induction 1 as [|kb x l xs Hx F IH]; intros i s acc; cbn [foldM say_loop].
  - cbn. rewrite Nat.add_0_r, Z.add_0_r. unfold silent, Verbose_proofs.prints. case verbose; reflexivity.
  - pose proof (block_said thr byr n total i s acc Hx) as B.
    destruct (block_step' T thr b byr acc kb) as [acc1|e]; cbn [bind]; [|apply say_fail; exact B].
    rewrite (say_ok _ B). specialize (IH (S i) (s + x) acc1).
    destruct (foldM (block_step' T thr b byr) l acc1) as [acc2|e]; [|exact IH].
    rewrite IH. cbn [fst snd]. rewrite prints_app. cbn [app blocks_text length sumZ fold_right].
    unfold sumZ. rewrite Z.add_assoc, <- plus_n_Sm. reflexivity.
Qed.

Lemma by_said T thr sts n total b st ap i s g : stats_by korder enum T ap b = Ok st -> key_get (b_key b) sts = Ok st ->
  let xs := map snd (st_block_sizes st) in
  let m := by_step_said korder enum argsort R fuel verbose T thr sts (shows (two tty n total i s), g) b in
  match by_step korder enum argsort R fuel T thr g b with
  | Ok g' => m = (prints (("Writing ABX triplets to task file..." ++ line_feed)%string :: blocks_text tty n total i s xs),
                  Ok (shows (two tty n total (i + length xs) (s + sumZ xs)), g'))
  | Err e => snd m = Err e
  end.
Proof.
  intros H G xs m. subst m. unfold by_step, by_step_said, compute_triplets, compute_triplets_said. cbn [fst snd].
  rewrite say_prints, (say_ok (o := _) _ eq_refl).
  destruct (iloc (b_frame b) 0) as [v|e]; cbn [bind]; [|reflexivity]. rewrite say_silent.
  edestruct (@sizes_found korder enum T ap b st sts korder_ok H G) as [F _]. fold xs in F.
  pose proof (blocks_said thr (scalar_regressors (r_by (t_regressors T)) v) n total F i s ([], g_rng g)) as B.
  destruct (foldM (block_step' T thr b (scalar_regressors (r_by (t_regressors T)) v))
             (groups korder (t_on T :: t_across T) (b_frame b)) ([], g_rng g)) as [[outs c']|e]; cbn [bind].
  - rewrite (say_ok _ B). cbn [fst snd silent].
    destruct (Zlen (g_triplets g ++ concat (map o_triplets outs)) =? hd 0 (g_bounds g));
      unfold silent; cbn [fst snd]; rewrite app_nil_r, prints_app; reflexivity.
  - cbn [snd]. apply say_fail. exact B.
Qed.

Lemma bys_said T thr sts n total ap bs ss :
  Forall2 (fun b s => stats_by korder enum T ap b = Ok s /\ key_get (b_key b) sts = Ok s) bs ss -> forall i s g,
  let bys := map (fun s => map snd (st_block_sizes s)) ss in
  let m := say_loop (by_step_said korder enum argsort R fuel verbose T thr sts) bs (shows (two tty n total i s), g) in
  match foldM (by_step korder enum argsort R fuel T thr) bs g with
  | Ok g' => exists d, m = (prints (bys_text tty n total i s bys), Ok (d, g'))
  | Err e => snd m = Err e
  end.
Proof.
  induction 1 as [|b st bs ss [H G] F IH]; intros i s g; cbn zeta; cbn [foldM say_loop map].
  - exists (shows (two tty n total i s)). unfold silent, Verbose_proofs.prints. case verbose; reflexivity.
  - pose proof (@by_said T thr sts n total b st ap i s g H G) as B. cbn zeta in B.
    destruct (by_step korder enum argsort R fuel T thr g b) as [g1|e]; cbn [bind]; [|apply say_fail; exact B].
    rewrite (say_ok _ B). cbn [snd fst].
    specialize (IH (i + length (map snd (st_block_sizes st)))%nat (s + sumZ (map snd (st_block_sizes st))) g1). cbn zeta in IH.
    destruct (foldM (by_step korder enum argsort R fuel T thr) bs g1) as [g2|e]; [|exact IH].
    destruct IH as [d IH]. exists d. rewrite IH. cbn [fst snd]. rewrite prints_app. reflexivity.
Qed.

Lemma generate_said output T thr sts ap bs ss st c :
  Forall2 (fun b s => stats_by korder enum T ap b = Ok s /\ key_get (b_key b) sts = Ok s) bs ss ->
  let bys := map (fun s => map snd (st_block_sizes s)) ss in
  let m := generate_triplets_said korder enum argsort R fuel verbose stdin output T thr bs st sts c in
  snd m = generate_triplets korder enum argsort R fuel T thr bs st c /\
  forall bs' f, generate_triplets korder enum argsort R fuel T thr bs st c = Ok (bs', f) ->
    fst m = match f with
            | Some _ => prints (generation_text tty output (s_nb_blocks st) (s_nb_triplets st) bys)
            | None => []
            end.
Proof.
  intros F bys m. subst m. unfold generate_triplets_said, generate_triplets.
  destruct (s_nb_triplets st =? 0).
  { cbn. split; [reflexivity|]. intros bs' f H. injection H as <- <-. reflexivity. }
  rewrite say_prints, (say_ok (o := _) _ eq_refl), (open_two stdin_ok), say_silent. cbn [fst snd].
  destruct (fit_integer_type (s_nb_triplets st) true) as [t1|e]; cbn [bind]; [|split; [reflexivity|discriminate]].
  destruct (fit_integer_type (s_nb_blocks st) true) as [t2|e]; cbn [bind]; [|split; [reflexivity|discriminate]].
  rewrite say_silent.
  pose proof (@bys_said T thr sts (s_nb_blocks st) (s_nb_triplets st) ap bs ss F 0%nat 0 (mk_gen [] [] [] [0] [] [] c)) as B.
  cbn zeta in B. fold bys in B.
  destruct (foldM (by_step korder enum argsort R fuel T thr) bs (mk_gen [] [] [] [0] [] [] c)) as [g|e]; cbn [bind].
  - destruct B as [d B]. rewrite (say_ok _ B). cbn [fst snd].
    destruct (fit_integer_type (hd 0 (g_bounds g)) true) as [t3|e]; cbn [bind]; [|split; [reflexivity|discriminate]].
    rewrite say_silent, say_prints, (say_ok (o := _) _ eq_refl). cbn [fst snd silent]. split; [reflexivity|].
    intros bs' f H. injection H as <- <-. unfold silent. cbn [fst]. rewrite app_nil_r, !prints_app. reflexivity.
  - split; [apply say_fail; exact B|discriminate].
Qed.

End Any.
