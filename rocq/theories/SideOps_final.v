From Coq Require Import Ascii String.
From Verif Require Import Prelude ListFacts Sampler Task Task_spec Task_proofs Task_sort Task_main Task_total Tree Tree_spec Tree_proofs SideOps SideOps_spec SideOps_proofs SideOps_stages SideOps_staged SideOps_meaning SideOps_user SideOps_legal.
Set Implicit Arguments.
Open Scope string_scope.
Open Scope list_scope.
Local Open Scope nat_scope.

(** A compute function is elementwise. *)
Lemma compute_elementwise inputs script : (forall e e', (forall n, In n inputs -> e n = e' n) -> script e = script e') ->
  elementwise (DBfun_Compute inputs script) script.
Proof.
  intros Hext ctx lines Hc Hnil. cbn [evaluate DBfun_Compute] in *. cbn [input_names DBfun_Compute] in *.
  assert (E : forall l, (forall n, In n l -> In n inputs) ->
    mapM (fun n => match dict_get ctx n with Ok l => Ok (n, l) | Err _ => Err NameError end) l = Ok (map (fun n => (n, map (fun e => e n) lines)) l)).
  { induction l as [|n l IH]; intros Hl; [reflexivity|]. cbn. rewrite (Hc n) by (apply Hl; left; reflexivity). cbn. rewrite IH by (intros; apply Hl; right; auto). reflexivity. }
  rewrite E by auto. cbn [bind]. f_equal. f_equal.
  assert (L : match map (fun n => (n, map (fun e : string -> Z => e n) lines)) inputs with [] => 1 | (_, l) :: _ => List.length l end = List.length lines).
  { destruct inputs as [|n l]; cbn; [symmetry; apply Hnil; reflexivity|apply map_length]. }
  rewrite L.
  assert (G : forall n, In n inputs -> dict_get (map (fun n => (n, map (fun e : string -> Z => e n) lines)) inputs) n = Ok (map (fun e => e n) lines)).
  { clear. induction inputs as [|k l IH]; intros n Hn; [destruct Hn|]. cbn. destruct (String.eqb_spec n k) as [->|Hne]; [reflexivity|].
    destruct Hn as [->|Hn]; [congruence|auto]. }
  apply nth_ext with (d := true) (d' := true); [rewrite !map_length, seq_length; reflexivity|].
  intros i Hi. rewrite map_length, seq_length in Hi.
  rewrite (nth_indep _ true (script (fun _ => 0%Z))) by (rewrite map_length, seq_length; exact Hi).
  rewrite (nth_indep (map script lines) true (script (fun _ => 0%Z))) by (rewrite map_length; exact Hi).
  rewrite (map_nth script lines (fun _ => 0%Z)).
  match goal with |- nth i (map ?F (seq 0 ?n)) ?d = _ => rewrite (nth_indep (map F (seq 0 n)) d (F 0)) by (rewrite map_length, seq_length; exact Hi); rewrite (map_nth F (seq 0 n) 0 i), seq_nth by exact Hi end.
  apply Hext. intros n Hn. rewrite (G n Hn). cbn [plus]. exact (map_nth (fun e : string -> Z => e n) lines (fun _ => 0%Z) i).
Qed.

Lemma well_named_cols forest cols on across by_ u : NoDup (flat_map names forest) -> incl (flat_map names forest) cols ->
  check_database cols on across by_ = Ok u -> well_named forest.
Proof.
  intros Hnd Hin Hc. apply check_database_names in Hc as [Hp Hh]. split; [exact Hnd|]. split.
  - rewrite Forall_forall in *. auto.
  - split; intros H; apply Hin, Hh in H; apply H; left; reflexivity.
Qed.

Theorem filtered_file :
  forall korder enum argsort (R : rng) (fuel : nat),
    lists_keys korder -> lists_set enum -> argsort_spec argsort ->
  forall forest truthy fps T m cols db T' bs st,
    NoDup (flat_map names forest) -> incl (flat_map names forest) cols -> hierarchical forest db ->
    task_manager forest T (map fst fps) = Ok m -> t_filters T = staged truthy m ->
    (forall f p, In (f, p) fps -> elementwise f p /\ usable (m_cols m) f) -> accepted_first T db (m_cols m) fps ->
    task_init korder enum T cols db = Ok (T', bs, st) ->
  forall thr c bs' f,
    generate_triplets korder enum argsort R fuel T' thr bs st c = Ok (bs', Some f) ->
    no_threshold thr -> storable T db (capacity (s_nb_triplets st)) ->
    Forall2 (fun k ij => NoDup (rows_of ij (fl_triplets f)) /\
                forall a b x, In (a, b, x) (rows_of ij (fl_triplets f)) <-> filtered T db (m_cols m) fps k a b x)
      (fl_bys f) (fl_by_index f) /\
    (forall k, In k (fl_bys f) <-> exists a b x, filtered T db (m_cols m) fps k a b x) /\
    Zlen (fl_triplets f) = s_nb_triplets st.
Proof.
  intros korder enum argsort R fuel HK HE HA forest truthy fps T m cols db T' bs st Hnd Hin Hh Hm HF Hfp Hkf Hi thr c bs' f Hg Hth Hst.
  assert (Hwn : well_named forest).
  { unfold task_init in Hi. destruct (check_database cols (t_on T) (t_across T) (t_by T)) as [u|] eqn:E; [|discriminate]. eapply well_named_cols; eauto. }
  assert (Hew : forall f p, In (f, p) fps -> elementwise f p) by (intros g p H; apply (Hfp g p H)).
  assert (Hus : forall f p, In (f, p) fps -> usable (m_cols m) f) by (intros g p H; apply (Hfp g p H)).
  assert (W : forall k a b x, wanted T db k a b x <-> filtered T db (m_cols m) fps k a b x).
  { intros. eapply filtered_wanted; eauto. }
  assert (Hr : reads cols (t_filters T)) by (eapply user_reads; eauto).
  assert (Hd : determined T db) by (eapply user_determined; eauto).
  assert (Hk : kept_first T db) by (eapply user_kept_first; eauto).
  destruct (file_exact R fuel HK HE HA Hr Hd Hk Hi c Hg Hth Hst) as (H1 & H2 & H3).
  split; [|split; [|exact H3]].
  - clear - H1 W. induction H1 as [|k ij bys idx [Hn H] _ IH]; constructor; [|exact IH]. split; [exact Hn|]. intros a b x. rewrite H. apply W.
  - intros k. rewrite H2. split; intros (a & b & x & H); exists a, b, x; apply W; exact H.
Qed.

Lemma add_cols m f m' : add false m f = Ok m' -> m_cols m' = m_cols m.
Proof.
  unfold add. destruct (mapM _ _) as [els|]; [|discriminate]. cbn [bind]. destruct (check_extensions _ _); [|discriminate]. cbn [bind].
  destruct (forallb _ els); [intros E; injection E as <-; reflexivity|]. destruct (only_plain _); [intros E; injection E as <-; reflexivity|].
  unfold classify_on_across_by. destruct (mem_string _ ""); [discriminate|]. destruct (filter (condition _) _); intros E; injection E as <-; reflexivity.
Qed.

Theorem manager_decision forest on across by_ C fs : Forall plain (flat_map names forest) -> init_columns forest on across by_ = Ok C ->
  ((exists m, filter_manager forest on across by_ fs = Ok m) <-> forall f, In f fs -> all_named C f /\ placed C f /\ unmixed C f).
Proof.
  intros Hp E. unfold filter_manager. rewrite E. cbn [bind].
  assert (Ha : all_cols C = flat_map names forest).
  { unfold init_columns in E. destruct (descendants forest on); [|discriminate]. injection E as <-. reflexivity. }
  rewrite <- Ha in Hp. clear E Ha.
  assert (G : forall fs m, m_cols m = C -> ((exists m', foldM (add false) fs m = Ok m') <-> forall f, In f fs -> all_named C f /\ placed C f /\ unmixed C f)).
  { clear fs. induction fs as [|f fs IH]; intros m Hm; cbn [foldM]; [split; [intros _ f []|intros _; eexists; reflexivity]|].
    pose proof (@add_decision m ltac:(rewrite Hm; exact Hp) f) as (Hd & _). rewrite Hm in Hd. split.
    - intros (m' & H). destruct (add false m f) as [m1|] eqn:E1; [|discriminate]. cbn in H.
      intros g [<-|Hg]; [apply Hd; eauto|]. apply (proj1 (IH m1 ltac:(rewrite <- Hm; apply (add_cols _ _ E1))) ltac:(eauto) g Hg).
    - intros H. destruct (proj2 Hd (H f (or_introl eq_refl))) as (m1 & E1). rewrite E1. cbn. apply IH; [rewrite <- Hm; apply (add_cols _ _ E1)|]. intros; apply H; right; auto. }
  apply G. reflexivity.
Qed.

(* ------------------------------------------------------------------ *)
(** ** Deciding the hypotheses *)

Definition usable_b (C : columns) (f : dbfun) : bool :=
  match mapM (parse_extended_column C) (input_names f) with
  | Ok els =>
      (forallb (isby C) els ||
       (match els with [] => false | _ => true end && forallb (fun e => String.eqb (snd e) "" && negb (isby C e)) els) ||
       forallb (fun e => isby C e || (negb (String.eqb (snd e) "") &&
                  (negb (mem_string ["_AB"; "_AX"] (snd e)) || mem_string (on_cols C) (fst e) || mem_string (across_cols C) (fst e)))) els)%bool
  | Err _ => false
  end.

Lemma usable_by_parse C f : Forall plain (all_cols C) -> NoDup (input_names f) -> usable_b C f = true -> usable C f.
Proof.
  intros Hp Hnd H. unfold usable_b in H. destruct (mapM _ _) as [els|] eqn:E; [|discriminate].
  assert (Eel : elements C f = els) by (unfold elements; rewrite E; reflexivity). rewrite <- Eel in *.
  pose proof (elements_named C f E) as Hn. pose proof (elements_all C f E) as Ha.
  assert (U : forall n c s, In n (input_names f) -> named C n c s -> In (c, s) (elements C f)).
  { intros n c s Hin N. destruct (Ha n Hin) as (e & He & En). destruct (Hn e He) as [N' _].
    assert (P : parse_extended_column C n = Ok (c, s)) by (destruct N as (-> & ? & ?); apply parse_named; auto).
    assert (P' : parse_extended_column C n = Ok (fst e, snd e)) by (rewrite <- En; destruct N' as (-> & ? & ?); apply parse_named; auto).
    rewrite P in P'. injection P' as -> ->. rewrite <- surjective_pairing. exact He. }
  split; [exact Hnd|]. split; [intros n Hin; destruct (Ha n Hin) as (e & He & <-); destruct (Hn e He) as [N _]; eauto|].
  apply orb_true_iff in H as [H|H]; [apply orb_true_iff in H as [H|H]|].
  - left. intros n c s Hin N. rewrite forallb_forall in H. apply mem_string_In. apply (H (c, s)). eauto.
  - right; left. apply andb_true_iff in H as [H0 H]. rewrite forallb_forall in H. split.
    + intros En. rewrite En in E. cbn in E. injection E as E. rewrite <- E in H0. discriminate.
    + intros n Hin. destruct (Ha n Hin) as (e & He & <-). specialize (H e He). apply andb_true_iff in H as [H1 H2]. apply String.eqb_eq in H1.
      destruct (Hn e He) as [N _]. rewrite H1 in N. exists (fst e). split; [exact N|]. apply mem_string_nIn. apply negb_true_iff. exact H2.
  - right; right. intros n c s Hin N. rewrite forallb_forall in H. specialize (H _ (U _ _ _ Hin N)). cbn [fst snd] in H.
    apply orb_true_iff in H as [H|H]; [left; apply mem_string_In; exact H|right]. apply andb_true_iff in H as [H1 H2]. split.
    + intros ->. discriminate.
    + intros Hs. rewrite !orb_true_iff, negb_true_iff in H2. rewrite !mem_string_In in H2. destruct H2 as [[H2|H2]|H2]; auto.
      destruct Hs as [-> | ->]; discriminate.
Qed.

Definition hierarchical_b (forest : list tree) (db : list row) : bool :=
  forallb (fun col => match descendants forest col with
    | Some l => forallb (fun c => forallb (fun r => forallb (fun r' => (negb (r col =? r' col) || (r c =? r' c))%Z%bool) db) db) l
    | None => true end) (flat_map names forest).

Lemma hierarchical_check forest db : NoDup (flat_map names forest) -> hierarchical_b forest db = true -> hierarchical forest db.
Proof.
  intros Hnd H col c r r' Hd Hr Hr' E. unfold hierarchical_b in H. rewrite forallb_forall in H. specialize (H col (descends_in Hd)).
  destruct (descendants forest col) as [l|] eqn:El.
  - rewrite forallb_forall in H. specialize (H c (proj2 (descendants_descends _ _ Hnd El c) Hd)). rewrite forallb_forall in H. specialize (H r Hr). rewrite forallb_forall in H.
    specialize (H r' Hr'). rewrite E, Z.eqb_refl in H. apply Z.eqb_eq. exact H.
  - exfalso. apply descendants_none in El. apply El. eapply descends_in; eauto.
Qed.

Lemma accepted_first_kept forest truthy fps T m db : well_named forest -> task_manager forest T (map fst fps) = Ok m ->
  (forall f p, In (f, p) fps -> elementwise f p) -> (forall f p, In (f, p) fps -> usable (m_cols m) f) -> t_filters T = staged truthy m ->
  kept_first T db -> accepted_first T db (m_cols m) fps.
Proof.
  intros Hwn Hm Hew Hus HF H k i j ri rj Hij Hi Hj Ha.
  assert (G : forall v r, f_generic (t_filters T) v r = true <-> item_accepted (m_cols m) fps r) by (intros; eapply item_accepted_generic; eauto).
  apply (G ri). eapply H; eauto. apply (G rj). exact Ha.
Qed.

(** What runs at each stage is what Task.v runs. *)
Theorem runs_staged forest truthy fps on across by_ m : Forall plain (flat_map names forest) ->
  filter_manager forest on across by_ (map fst fps) = Ok m ->
  (forall f p, In (f, p) fps -> elementwise f p /\ usable (m_cols m) f) ->
  (forall v, by_filter m v = Ok (f_by (staged truthy m) v)) /\
  (forall v db, generic_filter truthy m v db = Ok (filter (f_generic (staged truthy m) v) db)) /\
  (forall v, on_across_by_filter m v = Ok (f_oab (staged truthy m) v)) /\
  (forall f v fr l, f_A (staged truthy m) = Some f -> A_filter truthy m v fr l = single_filter f v fr l) /\
  (forall f v fr l, f_B (staged truthy m) = Some f -> B_filter truthy m v fr l = single_filter f v fr l) /\
  (forall f v fr l, f_X (staged truthy m) = Some f -> X_filter truthy m v fr l = single_filter f v fr l) /\
  (forall f v fr ts kept, f_ABX (staged truthy m) = Some f ->
     (SideOps.ABX_filter truthy m v fr ts = Ok kept <-> Task.ABX_filter f v fr ts = Ok kept)).
Proof.
  intros Hp Hm Hfp.
  assert (Hew : forall f p, In (f, p) fps -> elementwise f p) by (intros g p H; apply (Hfp g p H)).
  assert (Hus : forall f p, In (f, p) fps -> usable (m_cols m) f) by (intros g p H; apply (Hfp g p H)).
  unfold filter_manager in Hm. destruct (init_columns forest on across by_) as [C|] eqn:EC; [|discriminate]. cbn [bind] in Hm.
  assert (Hi : invariant C (map fst fps) m).
  { change (map fst fps) with ([] ++ map fst fps). eapply foldM_add_invariant; [apply empty_invariant|exact Hm]. }
  rewrite (iv_cols Hi) in Hus.
  assert (Hpc : Forall plain (all_cols C)).
  { unfold init_columns in EC. destruct (descendants forest on); [|discriminate]. injection EC as <-. exact Hp. }
  repeat split.
  - intros. eapply run_by; eauto.
  - intros. eapply run_generic; eauto.
  - intros. eapply run_oab; eauto.
  - intros. eapply run_A; eauto.
  - intros. eapply run_B; eauto.
  - intros. eapply run_X; eauto.
  - apply (run_ABX Hpc truthy fps Hi Hew Hus v fr ts H kept).
  - apply (run_ABX Hpc truthy fps Hi Hew Hus v fr ts H kept).
Qed.

(** What each stage means on a triplet of a block. *)
Theorem stages_meaning forest truthy fps on across by_ m : Forall plain (flat_map names forest) ->
  filter_manager forest on across by_ (map fst fps) = Ok m ->
  (forall f p, In (f, p) fps -> elementwise f p /\ usable (m_cols m) f) ->
  forall a b x, agree (by_cols (m_cols m)) a b -> agree (by_cols (m_cols m)) a x -> agree (on_cols (m_cols m)) a x ->
  (passes (staged truthy m) a b x <-> forall f p, In (f, p) fps -> accepts (m_cols m) f p a b x).
Proof.
  intros Hp Hm Hfp.
  assert (Hew : forall f p, In (f, p) fps -> elementwise f p) by (intros g p H; apply (Hfp g p H)).
  assert (Hus : forall f p, In (f, p) fps -> usable (m_cols m) f) by (intros g p H; apply (Hfp g p H)).
  unfold filter_manager in Hm. destruct (init_columns forest on across by_) as [C|] eqn:EC; [|discriminate]. cbn [bind] in Hm.
  assert (Hi : invariant C (map fst fps) m).
  { change (map fst fps) with ([] ++ map fst fps). eapply foldM_add_invariant; [apply empty_invariant|exact Hm]. }
  rewrite (iv_cols Hi) in *.
  assert (Hpc : Forall plain (all_cols C)).
  { unfold init_columns in EC. destruct (descendants forest on); [|discriminate]. injection EC as <-. exact Hp. }
  intros. eapply passes_accepts; eauto.
Qed.

Lemma append_nil_r c : (c ++ "")%string = c.
Proof. induction c as [|a c IH]; [reflexivity|]. cbn. rewrite IH. reflexivity. Qed.

(** A column given as filter at the by stage never rejects. *)
Lemma column_filter_by forest on across by_ c m v : Forall plain (flat_map names forest) ->
  filter_manager forest on across by_ [DBfun_Column c] = Ok m -> In c (by_cols (m_cols m)) -> In c (all_cols (m_cols m)) -> by_filter m v = Ok true.
Proof.
  intros Hp Hm Hb Ha. unfold filter_manager in Hm. destruct (init_columns forest on across by_) as [C|] eqn:EC; [|discriminate]. cbn [bind foldM] in Hm.
  assert (Hpc : Forall plain (all_cols C)).
  { unfold init_columns in EC. destruct (descendants forest on); [|discriminate]. injection EC as <-. exact Hp. }
  destruct (add false (empty_manager C) (DBfun_Column c)) as [m1|] eqn:E1; [|discriminate]. cbn in Hm. injection Hm as <-.
  pose proof (add_cols _ _ E1) as Ec. cbn in Ec. rewrite Ec in *. unfold add in E1. cbn [m_cols empty_manager input_names DBfun_Column mapM] in E1.
  assert (P : parse_extended_column C c = Ok (c, "")).
  { rewrite <- (append_nil_r c) at 1. apply parse_named; [exact Hpc|exact Ha|left; reflexivity]. }
  rewrite P in E1. cbn [bind] in E1.
  destruct (check_extensions C [(c, "")]); [|discriminate]. cbn [bind forallb fst] in E1.
  rewrite (proj2 (mem_string_In _ _) Hb) in E1. cbn [andb] in E1. injection E1 as <-.
  unfold by_filter. cbn [m_funs m_by empty_manager]. unfold upd. cbn [stage_eqb filter fst]. rewrite (proj2 (mem_string_In _ _) Hb).
  cbn. unfold ext_name. cbn [fst snd]. rewrite append_nil_r, String.eqb_refl. reflexivity.
Qed.
