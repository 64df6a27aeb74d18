(** Lemmas about the preparation of the table and about the task file. *)
From Coq Require Import String.
From Verif Require Import Prelude ListFacts TypeFitting TypeFitting_proofs
  Sampler Sampler_spec Sampler_proofs Task Task_spec Task_blocks Task_sort Task_regs Task_gen.
Set Implicit Arguments.
Open Scope Z_scope.

(* ------------------------------------------------------------------ *)
(** ** Preparation *)

Lemma mapM_total {A B} (f : A -> res B) l :
  (forall a, In a l -> exists b, f a = Ok b) -> exists l', mapM f l = Ok l'.
Proof.
  induction l as [|a l IH]; intros H; cbn; [eauto|].
  destruct (H a) as (b & ->); [left; reflexivity|].
  destruct IH as (l' & ->); [intros x Hx; apply H; right; exact Hx|]. cbn. eauto.
Qed.

Lemma filter_length_le {A} (f : A -> bool) l : (length (filter f l) <= length l)%nat.
Proof. induction l as [|a l IH]; [constructor|]. cbn. destruct (f a); cbn; lia. Qed.

Section Prepare.
Variable korder : list key -> list key.
Hypothesis korder_ok : lists_keys korder.
Variable T : task.
Variable db : list row.

Definition grp (k : key) : list row := filter (fun r => key_eqb (proj (t_by T) r) k) db.

Definition kept_frame (k : key) : frame :=
  match grp k with
  | [] => []
  | r0 :: _ => filter (fun p => f_generic (t_filters T) r0 (snd p)) (reset_index (grp k))
  end.

Definition by_kept (k : key) : bool :=
  match grp k with [] => false | r0 :: _ => f_by (t_filters T) r0 end.

Definition kept_keys : list key := filter by_kept (korder (keys (t_by T) db)).

Lemma grp_nonempty k : In k (keys (t_by T) db) -> grp k <> [].
Proof.
  intros Hk. apply In_keys in Hk as (r & Hr & E). intros Hn.
  assert (H : In r (grp k)).
  { unfold grp. apply filter_In. split; [exact Hr|]. apply key_eqb_spec. exact E. }
  rewrite Hn in H. destruct H.
Qed.

Lemma In_grp k r : In r (grp k) <-> In r db /\ proj (t_by T) r = k.
Proof. unfold grp. rewrite filter_In, key_eqb_spec. reflexivity. Qed.

Lemma kept_frame_nodup k : NoDup (labels (kept_frame k)).
Proof.
  unfold kept_frame. destruct (grp k) eqn:E; [constructor|]. rewrite <- E.
  apply NoDup_labels_filter, NoDup_reset_index.
Qed.

Lemma kept_frame_pos k l : In l (labels (kept_frame k)) -> 0 <= l.
Proof.
  unfold kept_frame. destruct (grp k) eqn:E; [intros []|]. rewrite <- E.
  intros H. apply In_labels_filter in H as (r' & H & _). apply reset_index_In in H. lia.
Qed.

Lemma somes_map_filter {A B} (f : A -> bool) (g : A -> B) l :
  somes (map (fun a => if f a then Some (g a) else None) l) = map g (filter f l).
Proof.
  induction l as [|a l IH]; [reflexivity|]. cbn. destruct (f a); cbn; rewrite IH; reflexivity.
Qed.

Lemma prepare_groups :
  mapM (prepare_by T) (groupby_rows korder (t_by T) db) =
  Ok (map (fun k => if by_kept k then Some (k, kept_frame k) else None) (korder (keys (t_by T) db))).
Proof.
  unfold groupby_rows.
  assert (H : incl (korder (keys (t_by T) db)) (keys (t_by T) db)).
  { intros k. apply Permutation_in, korder_ok. }
  revert H. generalize (korder (keys (t_by T) db)). intros ks.
  induction ks as [|k ks IH]; intros H; [reflexivity|]. cbn [map mapM].
  rewrite IH by (intros x Hx; apply H; right; exact Hx).
  unfold prepare_by. cbn [snd fst]. fold (grp k). unfold by_kept, kept_frame.
  destruct (grp k) as [|r0 g] eqn:E.
  - exfalso. apply (@grp_nonempty k); [apply H; left; reflexivity|exact E].
  - cbn [nth_res nth_error bind]. destruct (f_by (t_filters T) r0); reflexivity.
Qed.

Lemma prepare_ok bs :
  prepare_database korder T db = Ok bs ->
  map b_key bs = kept_keys /\
  Forall (fun b => wf_block b /\ b_frame b = kept_frame (b_key b) /\ b_frame b <> []) bs.
Proof.
  unfold prepare_database. rewrite prepare_groups. cbn [bind]. rewrite somes_map_filter.
  fold kept_keys. generalize kept_keys. intros ks. revert bs.
  induction ks as [|k ks IH]; cbn [map mapM]; intros bs H.
  - inversion H; subst. split; [reflexivity|constructor].
  - apply bind_ok in H as (b & Hb & H). apply bind_ok in H as (bs' & Hbs & H). inversion H; subst bs; clear H.
    apply IH in Hbs as [E F]. apply prepare_type_wf in Hb.
    + destruct Hb as (Hw & E1 & E2 & E3). cbn [fst snd] in *. split; [cbn; congruence|].
      constructor; [|exact F]. rewrite E1, E2. auto.
    + apply kept_frame_nodup.
    + apply kept_frame_pos.
Qed.

Lemma prepare_total :
  Zlen db < 2 ^ 64 ->
  (forall k, In k (keys (t_by T) db) -> by_kept k = true -> kept_frame k <> []) ->
  exists bs, prepare_database korder T db = Ok bs.
Proof.
  intros Hn Hne. unfold prepare_database. rewrite prepare_groups. cbn [bind]. rewrite somes_map_filter.
  apply mapM_total. intros p Hp. apply in_map_iff in Hp as (k & <- & Hk).
  apply filter_In in Hk as [Hk Hb]. apply (Permutation_in _ (korder_ok _)) in Hk.
  specialize (Hne k Hk Hb). unfold prepare_type. cbn [snd fst].
  destruct (kept_frame k) as [|q fr] eqn:E; [congruence|]. rewrite <- E.
  destruct (@fit_ok_unsigned (maxZ (labels (kept_frame k)))) as (t & Ht).
  - assert (Hl : In (maxZ (labels (kept_frame k))) (labels (kept_frame k))).
    { apply maxZ_In; [rewrite E; discriminate|apply kept_frame_pos]. }
    revert Hl. generalize (maxZ (labels (kept_frame k))). intros m Hl.
    unfold kept_frame in Hl. destruct (grp k) eqn:Eg; [destruct Hl|]. rewrite <- Eg in Hl.
    apply In_labels_filter in Hl as (r' & H & _). apply reset_index_In in H as [H0 H].
    assert (nth_error (grp k) (Z.to_nat m) <> None) by congruence.
    apply nth_error_Some in H1.
    assert (length (grp k) <= length db)%nat by apply filter_length_le. unfold Zlen in Hn. lia.
  - rewrite Ht. cbn [bind]. eexists. reflexivity.
Qed.

Lemma kept_keys_NoDup : NoDup kept_keys.
Proof. apply NoDup_filter, (Permutation_NoDup (Permutation_sym (korder_ok _))), NoDup_keys. Qed.

Lemma In_kept_keys k : In k kept_keys <-> In k (keys (t_by T) db) /\ by_kept k = true.
Proof.
  unfold kept_keys. rewrite filter_In. split; intros [H1 H2]; split; auto;
  revert H1; apply Permutation_in; [apply korder_ok|apply Permutation_sym, korder_ok].
Qed.

End Prepare.

(** A frame where the lines kept come first can be read by position. *)
Lemma aligned_prefix (P : row -> bool) rows :
  (forall i j ri rj, (i <= j)%nat -> nth_error rows i = Some ri -> nth_error rows j = Some rj ->
     P rj = true -> P ri = true) ->
  aligned (filter (fun p => P (snd p)) (reset_index rows)).
Proof.
  intros H. unfold aligned, reset_index.
  assert (G : forall rows s, (forall i j ri rj, (i <= j)%nat -> nth_error rows i = Some ri ->
                nth_error rows j = Some rj -> P rj = true -> P ri = true) ->
     forall l r, In (l, r) (filter (fun p => P (snd p)) (combine (map Z.of_nat (seq s (length rows))) rows)) ->
     (Z.of_nat s <= l) /\
     nth_error (filter (fun p => P (snd p)) (combine (map Z.of_nat (seq s (length rows))) rows))
               (Z.to_nat l - s) = Some (l, r)).
  { clear. induction rows as [|r0 rows IH]; intros s H l r; cbn [length seq map combine filter]; [intros []|].
    cbn [snd]. destruct (P r0) eqn:E.
    - intros [Hr|Hr].
      + inversion Hr; subst. split; [lia|]. rewrite Nat2Z.id, Nat.sub_diag. reflexivity.
      + apply IH in Hr.
        * destruct Hr as [H1 H2]. split; [lia|].
          replace (Z.to_nat l - s)%nat with (Datatypes.S (Z.to_nat l - Datatypes.S s)) by lia. exact H2.
        * intros i j ri rj Hij Hi Hj. apply (H (Datatypes.S i) (Datatypes.S j)); [lia|exact Hi|exact Hj].
    - intros Hr. exfalso. apply filter_In in Hr as [Hr Hp]. cbn in Hp. apply in_combine_r in Hr.
      apply In_nth_error in Hr as (j & Hj).
      assert (P r0 = true) by (apply (H 0%nat (Datatypes.S j) r0 r); [lia|reflexivity|exact Hj|exact Hp]).
      congruence. }
  intros l r Hin. destruct (G rows 0%nat H l r Hin) as [H1 H2].
  unfold iloc. destruct (Z.ltb_spec l 0); [lia|]. rewrite Nat.sub_0_r in H2. unfold nth_res. rewrite H2. reflexivity.
Qed.

(* ------------------------------------------------------------------ *)
(** ** Bounds *)

Fixpoint cum {A} (s : Z) (ls : list (list A)) : list Z :=
  match ls with
  | [] => []
  | l :: ls' => (s + Zlen l) :: cum (s + Zlen l) ls'
  end.

Lemma cum_app {A} s (l1 l2 : list (list A)) : cum s (l1 ++ l2) = cum s l1 ++ cum (s + Zlen (concat l1)) l2.
Proof.
  revert s. induction l1 as [|l l1 IH]; intros s; cbn [app cum concat].
  - unfold Zlen. cbn. rewrite Z.add_0_r. reflexivity.
  - rewrite IH. f_equal. f_equal. f_equal. unfold Zlen. rewrite app_length. lia.
Qed.

Lemma Zlen_nonneg {A} (l : list A) : 0 <= Zlen l.
Proof. unfold Zlen. lia. Qed.

Lemma Zlen_app {A} (l l' : list A) : Zlen (l ++ l') = Zlen l + Zlen l'.
Proof. unfold Zlen. rewrite app_length. lia. Qed.

Lemma cum_bound {A} s (ls : list (list A)) x :
  In x (cum s ls) -> s <= x <= s + Zlen (concat ls).
Proof.
  revert s. induction ls as [|l ls IH]; intros s; cbn [cum concat In]; [intros []|].
  rewrite Zlen_app. pose proof (Zlen_nonneg l). pose proof (Zlen_nonneg (concat ls)).
  intros [<-|H1]; [lia|]. apply IH in H1. lia.
Qed.

Lemma pairs_tiles {A} (ls : list (list A)) s :
  Forall (fun l => l <> []) ls ->
  tiles s (s + Zlen (concat ls)) (pairs_of_bounds (s :: cum s ls)).
Proof.
  revert s. induction ls as [|l ls IH]; intros s H; cbn [cum pairs_of_bounds concat].
  - cbn. unfold Zlen. cbn. lia.
  - inversion H as [|? ? H1 H2]; subst. cbn [tiles]. rewrite Zlen_app, Z.add_assoc.
    split; [reflexivity|]. split; [|apply IH; exact H2].
    destruct l; [congruence|]. unfold Zlen. cbn [length]. lia.
Qed.

Lemma pairs_rows {A} (ls : list (list A)) pre post :
  Forall2 (fun ij l => rows_of ij (pre ++ concat ls ++ post) = l)
          (pairs_of_bounds (Zlen pre :: cum (Zlen pre) ls)) ls.
Proof.
  revert pre. induction ls as [|l ls IH]; intros pre; cbn [cum pairs_of_bounds concat]; constructor.
  - unfold rows_of. cbn [fst snd].
    replace (Z.to_nat (Zlen pre)) with (length pre) by (unfold Zlen; lia).
    replace (Z.to_nat (Zlen pre + Zlen l - Zlen pre)) with (length l) by (unfold Zlen; lia).
    rewrite skipn_app, skipn_all, Nat.sub_diag. cbn [app skipn].
    rewrite <- app_assoc, firstn_app, firstn_all, Nat.sub_diag. cbn. apply app_nil_r.
  - specialize (IH (pre ++ l)). rewrite Zlen_app in IH. rewrite <- !app_assoc in *. exact IH.
Qed.

Lemma pairs_length s (l : list Z) : length (pairs_of_bounds (s :: l)) = length l.
Proof. revert s. induction l as [|x l IH]; intros s; [reflexivity|]. cbn in *. f_equal. apply IH. Qed.

Lemma rows_of_map {A B} (f : A -> B) ij l : rows_of ij (map f l) = map f (rows_of ij l).
Proof. unfold rows_of. rewrite skipn_map, firstn_map. reflexivity. Qed.

(* ------------------------------------------------------------------ *)
(** ** The loop over the by *)

Section Loop.
Variable korder : list key -> list key.
Variable enum : list Z -> list Z.
Variable argsort : list Z -> list nat.
Variable R : rng.
Variable fuel : nat.
Variable T : task.
Variable thr : option Z.

Local Notation compute := (compute_triplets korder enum argsort R fuel T thr).
Local Notation step := (by_step korder enum argsort R fuel T thr).

Definition all_triplets (outs : list block_out) : list triplet := concat (map o_triplets outs).
Definition is_nil {A} (l : list A) : bool := match l with [] => true | _ => false end.

(** What each by gives: its key and what its blocks give. *)
Definition named (bs : list by_block) (outss : list (list block_out)) : list (key * list block_out) :=
  combine (map b_key bs) outss.

Definition full (p : key * list block_out) : bool := negb (is_nil (all_triplets (snd p))).

Fixpoint chain_by (bs : list by_block) (c : nat) (outss : list (list block_out)) (c' : nat) : Prop :=
  match bs, outss with
  | [], [] => c' = c
  | b :: bs', outs :: outss' => exists c1, compute b c = Ok (outs, c1) /\ chain_by bs' c1 outss' c'
  | _, _ => False
  end.

Record loop_result (g : gen_state) (bs : list by_block) (g' : gen_state) (outss : list (list block_out)) : Prop :=
  mk_lr {
  lr_triplets : g_triplets g' = g_triplets g ++ concat (map (fun p => all_triplets (snd p)) (named bs outss));
  lr_index : g_index g' = g_index g ++ concat (map (fun o => concat (map o_index o)) outss);
  lr_regs : g_regs g' = g_regs g ++ map (fun p => (fst p, map o_regressors (snd p))) (named bs outss);
  lr_bounds : rev (g_bounds g') = rev (g_bounds g) ++
      cum (Zlen (g_triplets g)) (map (fun p => all_triplets (snd p)) (filter full (named bs outss)));
  lr_hd : hd 0 (g_bounds g') = Zlen (g_triplets g');
  lr_bys : rev (g_bys g') = rev (g_bys g) ++ map fst (filter full (named bs outss));
  lr_empty : g_empty g' = g_empty g ++ map fst (filter (fun p => negb (full p)) (named bs outss))
}.

Lemma loop_ok bs g g' :
  hd 0 (g_bounds g) = Zlen (g_triplets g) ->
  foldM step bs g = Ok g' ->
  exists outss, chain_by bs (g_rng g) outss (g_rng g') /\ loop_result g bs g' outss.
Proof.
  revert g. induction bs as [|b bs IH]; intros g Hg H; cbn [foldM] in H.
  - inversion H; subst. exists []. split; [reflexivity|]. constructor; cbn; rewrite ?app_nil_r; auto.
  - apply bind_ok in H as (g1 & H1 & H). unfold by_step in H1. apply bind_ok in H1 as ([outs c1] & Hc & H1).
    fold (all_triplets outs) in H1. cbv zeta in H1.
    destruct (Zlen (g_triplets g ++ all_triplets outs) =? hd 0 (g_bounds g)) eqn:E;
      inversion H1; subst g1; clear H1.
    + apply Z.eqb_eq in E. rewrite Hg, Zlen_app in E.
      assert (Hn : all_triplets outs = []).
      { destruct (all_triplets outs); [reflexivity|]. unfold Zlen in E. cbn [length] in E. lia. }
      apply IH in H; [|cbn; rewrite Hn, app_nil_r; exact Hg].
      destruct H as (outss & Hch & [L1 L2 L3 L4 L5 L6 L7]). exists (outs :: outss).
      split; [cbn; eauto|]. cbn [g_triplets g_index g_regs g_bounds g_bys g_empty g_rng] in *.
      assert (En : named (b :: bs) (outs :: outss) = (b_key b, outs) :: named bs outss) by reflexivity.
      assert (Hf : full (b_key b, outs) = false) by (unfold full; cbn [snd]; rewrite Hn; reflexivity).
      constructor; rewrite ?En; cbn [map concat filter snd fst]; rewrite ?Hf; cbn [negb map fst]; rewrite ?L1, ?L2, ?L3, ?L4, ?L6, ?L7, ?Hn;
        cbn [app]; rewrite ?app_nil_r, <- ?app_assoc; cbn [app]; auto.
      rewrite L5, L1, Hn, app_nil_r. reflexivity.
    + apply Z.eqb_neq in E. rewrite Hg, Zlen_app in E.
      assert (Hn : all_triplets outs <> []).
      { intros Hn. rewrite Hn in E. unfold Zlen in E. cbn [length] in E. lia. }
      apply IH in H; [|reflexivity].
      destruct H as (outss & Hch & [L1 L2 L3 L4 L5 L6 L7]). exists (outs :: outss).
      split; [cbn; eauto|]. cbn [g_triplets g_index g_regs g_bounds g_bys g_empty g_rng] in *.
      assert (En : named (b :: bs) (outs :: outss) = (b_key b, outs) :: named bs outss) by reflexivity.
      assert (Hf : full (b_key b, outs) = true).
      { unfold full. cbn [snd]. destruct (all_triplets outs); [congruence|reflexivity]. }
      constructor; rewrite ?En; cbn [map concat filter snd fst]; rewrite ?Hf; cbn [negb map fst snd cum]; rewrite ?L1, ?L2, ?L3, ?L4, ?L6, ?L7;
        cbn [rev]; rewrite <- ?app_assoc; cbn [app]; rewrite ?Zlen_app; auto.
      rewrite L5, L1, <- app_assoc. rewrite !Zlen_app; reflexivity.
Qed.

Lemma chain_by_each bs c outss c' :
  chain_by bs c outss c' ->
  Forall2 (fun b outs => exists c0 c1, compute b c0 = Ok (outs, c1)) bs outss.
Proof.
  revert c outss. induction bs as [|b bs IH]; intros c [|outs outss]; cbn; try tauto; [constructor|].
  intros (c1 & H1 & H2). constructor; eauto.
Qed.

Lemma loop_total bs g :
  (forall b c, In b bs -> exists r, compute b c = Ok r) ->
  exists g', foldM step bs g = Ok g'.
Proof.
  revert g. induction bs as [|b bs IH]; intros g H; cbn [foldM]; [eauto|].
  destruct (H b (g_rng g)) as ([outs c1] & E); [left; reflexivity|].
  assert (exists g1, step g b = Ok g1) as (g1 & E1).
  { unfold by_step. rewrite E. cbn [bind]. cbv zeta. destruct (_ =? _); eauto. }
  rewrite E1. cbn [bind]. apply IH. intros b' c Hb. apply H. right. exact Hb.
Qed.

(** The file in terms of what each by gives. *)
Record file_ok (bs : list by_block) (st : stats) (f : task_file) (outss : list (list block_out)) : Prop := mk_fo {
  fo_data : exists t, fit_integer_type (s_nb_triplets st) true = Ok t /\
     fl_triplets f = map (cast3 t) (concat (map (fun p => all_triplets (snd p)) (filter full (named bs outss))));
  fo_bys : fl_bys f = map fst (filter full (named bs outss));
  fo_index : fl_by_index f =
     pairs_of_bounds (0 :: cum 0 (map (fun p => all_triplets (snd p)) (filter full (named bs outss))));
  fo_regs : fl_regressors f = map (fun p => (fst p, map o_regressors (snd p))) (named bs outss);
  fo_blocks : exists t, fit_integer_type (s_nb_blocks st) true = Ok t /\
     fl_block_index f = map (fun i => cast t (Z.of_nat i)) (concat (map (fun o => concat (map o_index o)) outss));
  fo_bound : exists t, fit_integer_type
     (Zlen (concat (map (fun p => all_triplets (snd p)) (named bs outss)))) true = Ok t
}.

Lemma concat_full l :
  concat (map (fun p => all_triplets (snd p)) l) =
  concat (map (fun p : key * list block_out => all_triplets (snd p)) (filter full l)).
Proof.
  induction l as [|p l IH]; [reflexivity|]. cbn [map concat filter]. destruct (full p) eqn:E.
  - cbn [map concat]. rewrite IH. reflexivity.
  - unfold full in E. destruct (all_triplets (snd p)); [exact IH|discriminate].
Qed.

Lemma generate_ok bs st c bs' f :
  generate_triplets korder enum argsort R fuel T thr bs st c = Ok (bs', Some f) ->
  s_nb_triplets st <> 0 /\
  exists outss c', chain_by bs c outss c' /\ file_ok bs st f outss /\
    bs' = filter (fun b => negb (mem_key (map fst (filter (fun p => negb (full p)) (named bs outss))) (b_key b))) bs.
Proof.
  unfold generate_triplets. destruct (s_nb_triplets st =? 0) eqn:E0; [discriminate|].
  apply Z.eqb_neq in E0. intros H. split; [exact E0|].
  apply bind_ok in H as (dt & Hdt & H). apply bind_ok in H as (it & Hit & H).
  apply bind_ok in H as (g & Hg & H). apply bind_ok in H as (bt & Hbt & H).
  cbv zeta in H. inversion H; subst bs' f; clear H.
  apply loop_ok in Hg; [|reflexivity]. cbn [g_rng] in Hg. destruct Hg as (outss & Hch & L).
  exists outss, (g_rng g). split; [exact Hch|].
  destruct L as [L1 L2 L3 L4 L5 L6 L7]. cbn [g_triplets g_index g_regs g_bounds g_bys g_empty rev app] in *.
  split.
  - constructor; cbn [fl_triplets fl_bys fl_by_index fl_regressors fl_block_index].
    + exists dt. split; [exact Hdt|]. rewrite L1, concat_full. reflexivity.
    + exact L6.
    + f_equal. rewrite L4. unfold Zlen at 1. cbn [length Z.of_nat]. rewrite L5 in Hbt.
      etransitivity; [|apply map_id]. apply map_ext_in. intros x Hx. apply (fit_cast _ _ _ _ Hbt).
      cbn [app In] in Hx. destruct Hx as [<-|Hx]; [split; [lia|apply Zlen_nonneg]|].
      apply cum_bound in Hx. rewrite <- concat_full in Hx. cbn in Hx. rewrite <- L1 in Hx. lia.
    + exact L3.
    + exists it. split; [exact Hit|]. rewrite L2. reflexivity.
    + exists bt. rewrite <- L1, <- L5. exact Hbt.
  - rewrite L7. reflexivity.
Qed.

Lemma generate_total bs st c :
  (forall b c, In b bs -> exists r, compute b c = Ok r) ->
  (exists t, fit_integer_type (s_nb_triplets st) true = Ok t) ->
  (exists t, fit_integer_type (s_nb_blocks st) true = Ok t) ->
  (forall outss c', chain_by bs c outss c' -> exists t, fit_integer_type
     (Zlen (concat (map (fun p => all_triplets (snd p)) (named bs outss)))) true = Ok t) ->
  exists bs' of, generate_triplets korder enum argsort R fuel T thr bs st c = Ok (bs', of) /\
    (of = None <-> s_nb_triplets st = 0).
Proof.
  intros Hc (t1 & H1) (t2 & H2) H3. unfold generate_triplets.
  destruct (s_nb_triplets st =? 0) eqn:E0.
  { apply Z.eqb_eq in E0. exists bs, None. tauto. }
  apply Z.eqb_neq in E0. rewrite H1, H2. cbn [bind].
  destruct (loop_total _ (mk_gen [] [] [] [0] [] [] c) Hc) as (g & Hg). rewrite Hg. cbn [bind].
  apply loop_ok in Hg; [|reflexivity]. destruct Hg as (outss & Hch & L). cbn [g_rng] in Hch.
  destruct (H3 _ _ Hch) as (t3 & E3). rewrite (lr_hd L), (lr_triplets L).
  cbn [g_triplets app]. rewrite E3. cbn [bind]. cbv zeta. eexists _, (Some _). split; [reflexivity|].
  split; [discriminate|tauto].
Qed.

End Loop.

Lemma In_named bs outss k outs :
  In (k, outs) (named bs outss) -> length bs = length outss ->
  exists b, In (b, outs) (combine bs outss) /\ b_key b = k.
Proof.
  revert outss. induction bs as [|b bs IH]; intros [|o outss]; cbn; try tauto.
  intros [H|H] HL.
  - inversion H; subst. exists b. auto.
  - apply IH in H as (b' & H & E); [|lia]. exists b'. auto.
Qed.
