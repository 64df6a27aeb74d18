(** The theorems on verbose tasks. *)
From Coq Require Import String.
From Verif Require Import Prelude TypeFitting Sampler Task Task_spec Task_blocks Task_proofs Task_gen Task_main
  Progress Progress_spec Progress_proofs Verbose Verbose_spec Verbose_proofs Verbose_gen.
Set Implicit Arguments.
Local Open Scope string_scope.
Local Open Scope list_scope.
Local Open Scope Z_scope.

Section Any.
Variable korder : list key -> list key.
Variable enum : list Z -> list Z.
Hypothesis korder_ok : lists_keys korder.

(** Verbose or not, the task is the same. *)
Theorem same_task (verbose : bool) stdin tty database T cols db :
  (verbose = true -> stdin = Ok tty) ->
  snd (task_init_said korder enum verbose stdin database T cols db) = task_init korder enum T cols db.
Proof. intros H. apply (init_said korder enum H database T cols db). Qed.

Lemma steps_eq tty message n : some_steps tty message (Z.of_nat n) 0 n = steps_text tty message n.
Proof. reflexivity. Qed.

Lemma nodup_map_inj {A B} (da : forall x y : A, {x = y} + {x <> y}) (db : forall x y : B, {x = y} + {x <> y})
      (h : A -> B) l : (forall x y, In x l -> In y l -> h x = h y -> x = y) ->
  length (nodup db (map h l)) = length (nodup da l).
Proof.
  induction l as [|a l IH]; intros H; [reflexivity|]. cbn [map nodup].
  assert (H' : forall x y, In x l -> In y l -> h x = h y -> x = y) by (intros; apply H; [right|right|]; assumption).
  destruct (in_dec db (h a) (map h l)) as [i|i], (in_dec da a l) as [j|j]; cbn [length]; auto.
  - exfalso. apply in_map_iff in i as (x & E & I). apply j. rewrite (H a x); [exact I|left; reflexivity|right; exact I|].
    symmetry. exact E.
  - exfalso. apply i. apply in_map. exact j.
Qed.

Lemma groups_count T cols db l : check_database cols (t_on T) (t_across T) (t_by T) = Ok tt ->
  lists_labels (t_by T) db l ->
  length (groupby_rows korder (t_by (fst (with_dummies T db))) (snd (with_dummies T db))) = length l.
Proof.
  intros Hc [N I]. unfold groupby_rows. rewrite map_length.
  rewrite (Permutation_length (korder_ok _)). unfold keys.
  rewrite (dummies_db T cols db Hc).
  assert (X : map (proj (t_by (fst (with_dummies T db)))) (map (ext T) (reset_index db)) =
              map (fun k => match t_by T with [] => [0] | _ => k end) (map (fun r : row => map r (t_by T)) db)).
  { replace (map (fun r : row => map r (t_by T)) db) with (map (fun p : Z * row => map (snd p) (t_by T)) (reset_index db)).
    2:{ transitivity (map (fun r : row => map r (t_by T)) (map snd (reset_index db))); [symmetry; apply map_map|].
        f_equal. unfold reset_index. apply combine_snd. rewrite map_length, seq_length. reflexivity. }
    rewrite !map_map. apply map_ext. intros p. unfold with_dummies. cbn [fst t_by].
    destruct (t_by T) as [|c cs] eqn:E.
    - unfold proj. cbn [map]. f_equal. unfold ext. rewrite E. unfold set_cell. destruct (t_across T); reflexivity.
    - unfold proj. apply map_ext_in. intros d Hd.
      rewrite <- E in Hc. apply (ext_agree _ _ Hc p). destruct (check_inv _ _ Hc) as (_ & _ & C & _). rewrite E in C. apply C. exact Hd. }
  rewrite X, (nodup_map_inj key_dec).
  - apply Permutation_length. apply NoDup_Permutation; [apply NoDup_nodup|exact N|].
    intros k. rewrite nodup_In, I, in_map_iff. split; intros (r & A & B); exists r; auto.
  - intros x y Hx Hy. apply in_map_iff in Hx as (r & <- & _), Hy as (r' & <- & _). destruct (t_by T); auto.
Qed.

(** What is printed while the task is made. *)
Theorem task_text tty database T cols db T' bs st l :
  task_init korder enum T cols db = Ok (T', bs, st) -> lists_labels (t_by T) db l ->
  fst (task_init_said korder enum true (Ok tty) database T cols db) =
  init_text tty database (length l) (length bs) (Z.to_nat (s_nb_blocks st)).
Proof.
  intros H I. destruct (init_said korder enum (tty := tty) (verbose := true) (stdin := Ok tty) (fun _ => eq_refl) database T cols db) as [_ X].
  destruct (X _ _ _ H) as (gs & E & ->).
  destruct (init_inv _ _ _ _ _ H) as (Hc & -> & _ & Hs).
  rewrite E.
  unfold compute_statistics in Hs. destruct (mapM (stats_by korder enum (fst (with_dummies T db)) false) bs) as [sts|] eqn:M;
    cbn [bind] in Hs; [|discriminate Hs]. injection Hs as <-. cbn [s_nb_blocks].
  rewrite (@mapM_levels korder enum _ false bs sts M), n_blocks_Z, Nat2Z.id. unfold Zlen. rewrite (@groups_count T cols db l Hc I). reflexivity.
Qed.

(** Nothing is printed otherwise. *)
Theorem quiet_task stdin database T cols db r :
  task_init korder enum T cols db = Ok r -> fst (task_init_said korder enum false stdin database T cols db) = [].
Proof.
  intros H. destruct r as [[T' bs] st].
  assert (V : false = true -> stdin = Ok true) by discriminate.
  destruct (init_said korder enum V database T cols db) as [_ X].
  destruct (X _ _ _ H) as (gs & E & ->). reflexivity.
Qed.

(** When the standard input cannot be looked at, verbose tasks cannot be made. *)
Theorem closed_task e database T cols db :
  task_init_said korder enum true (Err e) database T cols db =
  match check_database cols (t_on T) (t_across T) (t_by T) with
  | Ok _ => ([("checking input database " ++ database ++ line_feed)%string; ("input database verified" ++ line_feed)%string], Err e)
  | Err e' => ([("checking input database " ++ database ++ line_feed)%string], Err e')
  end.
Proof.
  unfold task_init_said, check_database_said, say.
  destruct (check_database cols (t_on T) (t_across T) (t_by T)) as [u|e']; [|reflexivity].
  destruct (with_dummies T db) as [T1 db1]. reflexivity.
Qed.

(* ------------------------------------------------------------------ *)
(** ** Generation *)

Variable argsort : list Z -> list nat.
Variable R : rng.
Variable fuel : nat.

Section Generation.
Variables (T : task) (cols : list string) (db : list row) (T' : task) (bs0 : list by_block) (st0 st : stats) (ap : bool).
Hypothesis init : task_init korder enum T cols db = Ok (T', bs0, st0).
Hypothesis counted : compute_statistics korder enum T' ap bs0 = Ok st.

Notation sts := (combine (map b_key bs0) (s_by st)).

Lemma stats_known : Forall2 (fun b s => stats_by korder enum T' ap b = Ok s) bs0 (s_by st).
Proof.
  unfold compute_statistics in counted.
  destruct (mapM (stats_by korder enum T' ap) bs0) as [l|] eqn:M; cbn [bind] in counted; [|discriminate counted].
  injection counted as <-. cbn [s_by]. apply mapM_forall2. exact M.
Qed.

Lemma stats_found b s : In (b, s) (combine bs0 (s_by st)) ->
  stats_by korder enum T' ap b = Ok s /\ key_get (b_key b) sts = Ok s.
Proof.
  intros I. pose proof stats_known as F. pose proof (Forall2_len F) as L. split.
  - clear -F I. induction F as [|b0 s0 l m H F IH]; [destruct I|]. destruct I as [I|I]; [injection I as <- <-; exact H|auto].
  - apply key_get_in.
    + rewrite combine_fst by (rewrite map_length; exact L). apply (keys_NoDup _ korder_ok _ _ _ init).
    + clear -I. revert I. generalize (s_by st) as m. induction bs0 as [|b0 l IH]; intros [|s0 m] I; cbn in *; try contradiction.
      destruct I as [I|I]; [injection I as -> ->; auto|auto].
Qed.

Lemma counted_sums : s_nb_triplets st = sumZ (map (fun s => sumZ (map snd (st_block_sizes s))) (s_by st)) /\
  s_nb_blocks st = Z.of_nat (sumn (map (fun s => length (st_block_sizes s)) (s_by st))).
Proof.
  pose proof stats_known as F. unfold compute_statistics in counted.
  destruct (mapM (stats_by korder enum T' ap) bs0) as [l|] eqn:M; cbn [bind] in counted; [|discriminate counted].
  assert (E : s_nb_triplets st = sumZ (map st_nb_triplets (s_by st)) /\ s_nb_blocks st = sumZ (map st_nb_on_across_levels (s_by st)))
    by (injection counted as <-; split; reflexivity).
  destruct E as [-> ->]. clear -F korder_ok.
  assert (X : forall b s, stats_by korder enum T' ap b = Ok s ->
            st_nb_triplets s = sumZ (map snd (st_block_sizes s)) /\ st_nb_on_across_levels s = Zlen (st_block_sizes s)).
  { intros b s H. destruct (@sizes_found korder enum T' ap b s [(b_key b, s)] korder_ok H) as [A B].
    - cbn. rewrite key_eqb_refl. reflexivity.
    - split; [exact B|]. rewrite (@levels_eq korder enum T' ap b s H). pose proof (Forall2_len A) as L. rewrite map_length in L.
      unfold Zlen. rewrite L. reflexivity. }
  induction F as [|b s l m H F [IH1 IH2]]; [split; reflexivity|]. cbn [map sumZ fold_right sumn].
  destruct (X _ _ H) as [-> ->]. unfold sumZ, sumn in *. rewrite IH1, IH2. split; [reflexivity|]. unfold Zlen. lia.
Qed.

Lemma stats_listed bs : incl bs bs0 ->
  exists ss, Forall2 (fun b s => stats_by korder enum T' ap b = Ok s /\ key_get (b_key b) sts = Ok s) bs ss.
Proof.
  intros I. induction bs as [|b l IH]; [exists []; constructor|].
  destruct IH as [ss F]; [intros x Hx; apply I; right; exact Hx|].
  assert (Hb : In b bs0) by (apply I; left; reflexivity).
  assert (Y : exists s, In (b, s) (combine bs0 (s_by st))).
  { clear -Hb counted. pose proof (Forall2_len stats_known) as L. revert L Hb. generalize (s_by st) as m. clear counted.
    induction bs0 as [|b0 l0 IH]; intros [|s0 m] L Hb; cbn in *; try contradiction; try discriminate.
    destruct Hb as [->|Hb]; [exists s0; auto|]. destruct (IH m) as [s Hs]; [lia|exact Hb|]. exists s. auto. }
  destruct Y as [s Hs]. exists (s :: ss). constructor; [apply stats_found; exact Hs|exact F].
Qed.

(** Generation by a task whose by are [bs0], some of which may have been deleted since. *)
Theorem same_generation (verbose : bool) stdin tty output thr bs c :
  (verbose = true -> stdin = Ok tty) -> incl bs bs0 ->
  snd (generate_triplets_said korder enum argsort R fuel verbose stdin output T' thr bs st sts c) =
  generate_triplets korder enum argsort R fuel T' thr bs st c.
Proof.
  intros V I. destruct (stats_listed I) as [ss F].
  apply (generate_said enum argsort R fuel V korder_ok output T' thr _ ap st c F).
Qed.

Theorem generation_said tty output thr bs ss c bs' f :
  Forall2 (fun b s => In (b, s) (combine bs0 (s_by st))) bs ss ->
  generate_triplets korder enum argsort R fuel T' thr bs st c = Ok (bs', f) ->
  fst (generate_triplets_said korder enum argsort R fuel true (Ok tty) output T' thr bs st sts c) =
  match f with
  | Some _ => generation_text tty output (s_nb_blocks st) (s_nb_triplets st) (map (fun s => map snd (st_block_sizes s)) ss)
  | None => []
  end.
Proof.
  intros F H.
  assert (G : Forall2 (fun b s => stats_by korder enum T' ap b = Ok s /\ key_get (b_key b) sts = Ok s) bs ss).
  { clear -F init counted korder_ok. induction F; constructor; auto using stats_found. }
  destruct (generate_said enum argsort R fuel (verbose := true) (stdin := Ok tty) (tty := tty) (fun _ => eq_refl) korder_ok output T' thr _ ap st c G) as [_ X].
  rewrite (X _ _ H). reflexivity.
Qed.

Theorem quiet_generation stdin output thr bs c bs' f : incl bs bs0 ->
  generate_triplets korder enum argsort R fuel T' thr bs st c = Ok (bs', f) ->
  fst (generate_triplets_said korder enum argsort R fuel false stdin output T' thr bs st sts c) = [].
Proof.
  intros I H. destruct (stats_listed I) as [ss F].
  assert (V : false = true -> stdin = Ok true) by discriminate.
  destruct (generate_said enum argsort R fuel V korder_ok output T' thr _ ap st c F) as [_ X].
  rewrite (X _ _ H). destruct f; reflexivity.
Qed.

Theorem closed_generation e output thr bs c : s_nb_triplets st <> 0 ->
  generate_triplets_said korder enum argsort R fuel true (Err e) output T' thr bs st sts c =
  ([("writing output to " ++ output ++ line_feed)%string], Err e).
Proof.
  intros H. unfold generate_triplets_said. destruct (Z.eqb_spec (s_nb_triplets st) 0) as [E|_]; [contradiction|]. reflexivity.
Qed.

Lemma blocks_text_snoc tty n total l x : forall i s,
  blocks_text tty n total i s (l ++ [x]) =
  blocks_text tty n total i s l ++ [block_text tty n total (i + length l) (s + sumZ l + x)].
Proof.
  induction l as [|y l IH]; intros i s; cbn [app blocks_text length].
  - cbn. rewrite Nat.add_0_r, Z.add_0_r. reflexivity.
  - rewrite IH. f_equal. f_equal. unfold sumZ. cbn [fold_right]. f_equal. f_equal; lia.
Qed.

Lemma bys_text_app tty n total l l' : forall i s,
  bys_text tty n total i s (l ++ l') =
  bys_text tty n total i s l ++ bys_text tty n total (i + sumn (map (@length Z) l)) (s + sumZ (map sumZ l)) l'.
Proof.
  induction l as [|y l IH]; intros i s; cbn [app bys_text].
  - cbn. rewrite Nat.add_0_r, Z.add_0_r. reflexivity.
  - rewrite IH, <- Nat.add_assoc, <- Z.add_assoc, app_comm_cons, app_assoc. reflexivity.
Qed.

Lemma sumn_app l l' : sumn (l ++ l') = (sumn l + sumn l')%nat.
Proof. unfold sumn. induction l; cbn; [reflexivity|]. lia. Qed.

Lemma sumZ_app' l l' : sumZ (l ++ l') = sumZ l + sumZ l'.
Proof. unfold sumZ. induction l; cbn [fold_right app]; [reflexivity|]. lia. Qed.

(** The last message says that all has been done. *)
Theorem generation_finished tty output thr c bs' f :
  generate_triplets korder enum argsort R fuel T' thr bs0 st c = Ok (bs', Some f) ->
  exists before,
    fst (generate_triplets_said korder enum argsort R fuel true (Ok tty) output T' thr bs0 st sts c) =
    before ++ [((if tty && negb (s_nb_blocks st =? 1)%Z then marker 2 else "")
                ++ "Computing triplets for by/on/across block " ++ decimal (s_nb_blocks st) ++ " on "
                ++ decimal (s_nb_blocks st) ++ line_feed
                ++ "Triplets considered: " ++ decimal (s_nb_triplets st) ++ " on " ++ decimal (s_nb_triplets st)
                ++ line_feed)%string; ("done." ++ line_feed)%string].
Proof.
  intros H. pose proof stats_known as F. pose proof (Forall2_len F) as L.
  assert (FI : Forall2 (fun b s => In (b, s) (combine bs0 (s_by st))) bs0 (s_by st)).
  { clear -L. revert L. generalize (s_by st) as m. induction bs0 as [|b l IH]; intros [|s m] L; cbn in L; try discriminate; [constructor|].
    constructor; [left; reflexivity|].
    assert (Y : Forall2 (fun b s => In (b, s) (combine l m)) l m) by (apply IH; lia).
    assert (W : forall l' m', Forall2 (fun b s => In (b, s) (combine l m)) l' m' ->
              Forall2 (fun b0 s0 => In (b0, s0) (combine (b :: l) (s :: m))) l' m').
    { intros l' m'. induction 1; constructor; [right; assumption|assumption]. }
    apply W. exact Y. }
  rewrite (generation_said tty output thr c FI H). unfold generation_text.
  destruct counted_sums as [S1 S2].
  assert (NZ : s_nb_triplets st <> 0).
  { intros E. unfold generate_triplets in H. rewrite E in H. discriminate H. }
  destruct (exists_last (l := s_by st)) as (m & s & E).
  { intros E. rewrite E in S1. cbn in S1. contradiction. }
  assert (NE : map snd (st_block_sizes s) <> []).
  { assert (In s (s_by st)) as I by (rewrite E; apply in_or_app; right; left; reflexivity).
    assert (X : exists b, In b bs0 /\ stats_by korder enum T' ap b = Ok s).
    { clear -F I. induction F as [|b0 s0 l m H F IH]; [destruct I|]. destruct I as [->|I]; [exists b0; split; [left; reflexivity|exact H]|].
      destruct (IH I) as (b & Hb & Hs). exists b. split; [right; exact Hb|exact Hs]. }
    destruct X as (b & Hb & Hs). intros E0.
    destruct (@sizes_found korder enum T' ap b s [(b_key b, s)] korder_ok Hs) as [A _].
    { cbn. rewrite key_eqb_refl. reflexivity. }
    rewrite E0 in A. inversion A as [G|]. 
    destruct (bs_wf enum korder_ok T cols db init) as [_ W]. destruct (W b Hb) as [_ W2].
    unfold groups in G. symmetry in G. apply map_eq_nil in G. apply (f_equal (@length _)) in G.
    rewrite (Permutation_length (korder_ok _)) in G. destruct (b_frame b) as [|p fr]; [congruence|].
    assert (I2 : In (proj (t_on T' :: t_across T') (snd p)) (keys (t_on T' :: t_across T') (map snd (p :: fr)))).
    { unfold keys. apply nodup_In. left. reflexivity. }
    destruct (keys (t_on T' :: t_across T') (map snd (p :: fr))); [destruct I2|discriminate G]. }
  destruct (exists_last NE) as (xs & x & Ex).
  rewrite E, map_app. cbn [map]. rewrite Ex, bys_text_app. cbn [bys_text]. rewrite app_nil_r, blocks_text_snoc.
  rewrite E, map_app in S1, S2. cbn [map] in S1, S2. rewrite sumZ_app' in S1. rewrite sumn_app in S2.
  rewrite Ex in S1. rewrite sumZ_app' in S1.
  assert (L2 : length (st_block_sizes s) = S (length xs)).
  { rewrite <- (map_length snd), Ex, app_length. cbn. lia. }
  rewrite L2 in S2.
  set (i := (0 + sumn (map (@length Z) (map (fun s => map snd (st_block_sizes s)) m)))%nat).
  assert (Ei : i = sumn (map (fun s => length (st_block_sizes s)) m)).
  { unfold i. rewrite map_map. cbn [Nat.add]. f_equal. apply map_ext. intros z. apply map_length. }
  assert (B : (if tty && negb (s_nb_blocks st =? 1)%Z then marker 2 else "")
                = (if tty && negb (i + length xs =? 0)%nat then marker 2 else "")).
  { f_equal. f_equal. f_equal. rewrite S2, <- Ei. cbn [sumn fold_right]. destruct (Nat.eqb_spec (i + length xs) 0), (Z.eqb_spec (Z.of_nat (i + (S (length xs) + 0))) 1); try reflexivity; exfalso; lia. }
  eexists. rewrite B. unfold block_text.
  assert (N1 : Z.of_nat (S (i + length xs)) = s_nb_blocks st).
  { rewrite S2, <- Ei. cbn [sumn fold_right]. lia. }
  assert (N2 : 0 + sumZ (map sumZ (map (fun s => map snd (st_block_sizes s)) m)) + sumZ xs + x = s_nb_triplets st).
  { rewrite S1. rewrite map_map. unfold sumZ at 6 7. cbn [fold_right]. unfold sumZ. cbn [fold_right]. lia. }
  rewrite N1, N2, app_comm_cons, !app_assoc. rewrite <- (app_assoc _ [_] [_]). cbn [app]. rewrite app_comm_cons. reflexivity.
Qed.

End Generation.
End Any.
