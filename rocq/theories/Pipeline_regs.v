(** The regressors of a by as they are stored for the analysis. *)
From Coq Require Import String.
From Coq Require Import List ZArith Lia.
From Verif Require Import Prelude ListFacts TypeFitting TypeFitting_proofs Distances Distances_proofs Analyze Analyze_spec
  H5io H5io_spec H5io_proofs H5io_keys H5io_main H5io_use Task Pipeline.
Import ListNotations.
Local Open Scope Z_scope.
Local Open Scope list_scope.

Lemma lookup_table {A} (g : string -> A) names s : In s names -> lookup (map (fun n => (n, g n)) names) s = Ok (g s).
Proof.
  induction names as [|n names IH]; [intros []|]. intros H. cbn [map lookup].
  destruct (String.eqb_spec n s) as [->|N]; [reflexivity|]. apply IH. destruct H; [congruence|assumption].
Qed.

Lemma mapM_all_ok {A B} (f : A -> res B) (g : A -> B) l : (forall x, In x l -> f x = Ok (g x)) -> mapM f l = Ok (map g l).
Proof.
  induction l as [|a l IH]; intros H; [reflexivity|]. cbn [mapM map]. rewrite (H a (or_introl eq_refl)). cbn [bind].
  rewrite IH; [reflexivity|]. intros x Hx. apply H. right. exact Hx.
Qed.

Section Regs.
Variables L : Type.
Variable leq : forall x y : L, {x = y} + {x <> y}.
Variable plain : L -> bool.
Variable f : string -> triplet -> Z.
Variable names : list string.
Variable indexes : list (string * list L).
Hypothesis Hsome : indexes <> [].
Hypothesis Hnd : NoDup (map fst indexes).
Hypothesis Hincl : incl (map fst indexes) names.
Hypothesis Hlv : forall s levels, In (s, levels) indexes -> levels <> [] /\ Z.of_nat (length levels) < 2 ^ 64.
Hypothesis Hascii : forall s, In s names -> ascii_only s.
Hypothesis Hplain : labels_plain plain indexes.

Let batch (cols : list (string * list Z)) : input L * bool :=
  (InDict (map (fun nc : string * list Z => (fst nc, Ints L (snd nc))) cols), true).

Lemma declared_indexed H : init plain (DList names) indexes [] = Ok H -> map fst (h_indexed H) = map fst indexes.
Proof.
  unfold init, indexed_datasets. destruct (subset (map fst indexes) names); [|discriminate]. cbn [bind flat_map].
  cbn [subset forallb negb]. destruct (get_array plain_text names); [|discriminate]. cbn [bind].
  destruct (mapM _ indexes); [|discriminate]. cbn [mapM bind]. intros E. injection E as <-. cbn [h_indexed].
  rewrite map_map. reflexivity.
Qed.

Section Group.
Variable H : h5io L.
Hypothesis Hd : declared_ok H.
Hypothesis Hm : h_managed H = names.

Lemma batch_parse cols chunk : cols = map (fun s => (s, map (f s) chunk)) names ->
  parse_input H (fst (batch cols)) = Ok (map (fun s => (s, Ints L (map (f s) chunk))) names).
Proof.
  intros ->. unfold parse_input, batch. cbn [fst]. rewrite !map_map. cbn [fst snd]. rewrite map_id, Hm.
  assert (E : subset names names = true) by (apply subset_incl, incl_refl). rewrite E. reflexivity.
Qed.

Lemma batch_matrix cols chunk s : cols = map (fun s => (s, map (f s) chunk)) names -> In s names ->
  matrix L leq H (batch cols) s = map (fun t => [f s t]) chunk.
Proof.
  intros E Hs. unfold matrix. rewrite (batch_parse cols chunk E). cbn [bind].
  rewrite (lookup_table (fun s => Ints L (map (f s) chunk)) names s Hs). cbn [bind snd batch convert].
  rewrite map_map. reflexivity.
Qed.

Lemma batch_fine cols chunk : cols = map (fun s => (s, map (f s) chunk)) names ->
  batch_ok L leq H (fun _ => 1%nat) (batch cols) (length chunk).
Proof.
  intros E. constructor.
  - eexists. split; [apply (batch_parse cols chunk E)|]. split.
    + intros s v Hin. apply in_map_iff in Hin as (s' & E' & _). injection E' as <- <-. cbn [snd batch].
      eexists _, _. split; reflexivity.
    + intros s Hs. rewrite Hm in Hs. eexists. split; [apply (lookup_table (fun s => Ints L (map (f s) chunk)) names s Hs)|reflexivity].
  - intros s Hs. rewrite Hm in Hs. rewrite (batch_matrix cols chunk s E Hs). split; [apply map_length|].
    intros r Hr. apply in_map_iff in Hr as (t & <- & _). reflexivity.
Qed.

Lemma side_rows nf cols chunk : cols = map (fun s => (s, map (f s) chunk)) names -> incl nf names ->
  side L leq H nf (batch cols) (length chunk) = map (fun t => map (fun s => f s t) nf) chunk.
Proof.
  intros E Hi. unfold side.
  assert (G : forall k, (k < length chunk)%nat ->
     concat (map (fun s => nth k (matrix L leq H (batch cols) s) []) nf) = nth k (map (fun t => map (fun s => f s t) nf) chunk) []).
  { intros k Hk. destruct (nth_error chunk k) as [t|] eqn:Et; [|apply nth_error_None in Et; lia].
    rewrite (nth_error_nth _ k [] (map_nth_error (fun t => map (fun s => f s t) nf) k chunk Et)).
    clear Hnd Hincl Hsome. induction nf as [|s nf IH]; [reflexivity|]. cbn [map concat].
    rewrite IH by (intros x Hx; apply Hi; right; exact Hx).
    rewrite (batch_matrix cols chunk s E) by (apply Hi; left; reflexivity).
    rewrite (nth_error_nth _ k [] (map_nth_error (fun t => [f s t]) k chunk Et)). reflexivity. }
  rewrite (map_ext_in _ (fun k => nth k (map (fun t => map (fun s => f s t) nf) chunk) [])).
  2:{ intros k Hk. apply in_seq in Hk. apply G. lia. }
  rewrite <- (map_length (fun t => map (fun s => f s t) nf) chunk).
  clear. generalize (map (fun t => map (fun s => f s t) nf) chunk). intros l.
  apply (nth_ext _ _ [] []); [rewrite map_length, seq_length; reflexivity|].
  intros n Hn. rewrite map_length, seq_length in Hn.
  rewrite (nth_indep _ [] (nth 0%nat l [])) by (rewrite map_length, seq_length; exact Hn).
  rewrite (map_nth (fun k => nth k l []) (seq 0 (length l)) 0%nat n). rewrite seq_nth by exact Hn. reflexivity.
Qed.

End Group.

Lemma regressor_group_ok blocks chunks :
  Forall2 (fun cols chunk => cols = map (fun s => (s, map (f s) chunk)) names) blocks chunks ->
  (forall s levels t, In (s, levels) indexes -> In t (concat chunks) -> 0 <= f s t < Z.of_nat (length levels)) ->
  exists g, regressor_group leq plain names indexes blocks = Ok g /\ g_names g = map fst indexes /\ g_indexes g = indexes /\
    g_columns g = length indexes /\ signed (g_type g) = false /\
    g_data g = map (fun t => map (fun s => f s t) (map fst indexes)) (concat chunks) /\
    (concat chunks <> [] -> forall s levels, In (s, levels) indexes -> Z.of_nat (length levels) <= tmax (g_type g)).
Proof.
  intros F2 Hv.
  assert (Hne : names <> []).
  { intros E. subst names. destruct indexes as [|ix ?]; [congruence|]. specialize (Hincl (fst ix) (or_introl eq_refl)). exact Hincl. }
  destruct (init_list L plain names indexes []) as (H & Ei & Hd & Hman & Hix & Hfu & _ & _ & Hfor & Hnf).
  { split; [exact Hnd|]. split; [constructor|]. split; [exact Hlv|]. intros ? ? []. }
  { exact Hne. } { exact Hascii. } { exact Hplain. } { exact Hincl. } { intros ? []. }
  specialize (Hnf eq_refl). unfold regressor_group. rewrite Ei. cbn [bind].
  change (fun cols : list (string * list Z) => (InDict (map (fun nc : string * list Z => (fst nc, Ints L (snd nc))) cols), true)) with batch.
  destruct blocks as [|b0 blocks0].
  { inversion F2; subst chunks. cbn [map H5io.write_all bind concat]. eexists. split; [reflexivity|].
    cbn [g_names g_indexes g_columns g_type g_data]. split; [apply declared_indexed; exact Ei|]. split; [exact Hix|].
    split; [rewrite Hnf, map_length; reflexivity|]. split; [reflexivity|]. split; [reflexivity|]. congruence. }
  set (bs := combine (map batch (b0 :: blocks0)) (map (@length triplet) chunks)).
  assert (Ef : map fst bs = map batch (b0 :: blocks0)).
  { unfold bs. apply combine_keys. rewrite !map_length. clear -F2; induction F2; cbn; congruence. }
  destruct (write_ok L leq H Hd (fun _ => 1%nat) bs) as (o & Ew & S).
  { intros E. rewrite E in Ef. discriminate. }
  { unfold bs. clear -F2 Hman. induction F2 as [|c ch cs chs E F2 IH]; [constructor|]. cbn [map combine]. constructor; [|exact IH].
    cbn [fst snd]. apply batch_fine; assumption. }
  rewrite Ef in Ew. rewrite Ew. cbn [bind].
  pose proof (st_indexed _ _ _ _ _ _ S) as Si. destruct (o_indexed o) as [[ty rows]|].
  2:{ exfalso. rewrite Hnf in Si. destruct indexes; [congruence|discriminate]. }
  destruct Si as (_ & -> & levels & El & Et). eexists. split; [reflexivity|].
  cbn [g_names g_indexes g_columns g_type g_data]. split; [apply declared_indexed; exact Ei|]. split; [exact Hix|].
  split; [rewrite Hnf, map_length; reflexivity|].
  rewrite Hnf, Hix in El.
  assert (Elev : levels = map (fun ix => Z.of_nat (length (snd ix))) indexes).
  { assert (E' : mapM (fun s => l <- lookup indexes s ;; Ok (Z.of_nat (length l))) (map fst indexes) =
       Ok (map (fun ix => Z.of_nat (length (snd ix))) indexes)).
    { rewrite <- (map_map snd (fun l => Z.of_nat (length l))).
      assert (G : forall ixs, incl ixs indexes ->
        mapM (fun s => l <- lookup indexes s ;; Ok (Z.of_nat (length l))) (map fst ixs) = Ok (map (fun l => Z.of_nat (length l)) (map snd ixs))).
      { induction ixs as [|[s l] ixs IH]; intros Hi; [reflexivity|]. cbn [map mapM fst snd].
        rewrite (lookup_NoDup _ _ _ _ Hnd (Hi _ (or_introl eq_refl))). cbn [bind].
        rewrite IH by (intros x Hx; apply Hi; right; exact Hx). reflexivity. }
      apply G, incl_refl. }
    congruence. }
  destruct (fit_narrowest _ _ _ Et) as (Hs & Hmax & _). rewrite largest_tmax in Hmax.
  split; [exact Hs|].
  assert (Hle : forall s lv, In (s, lv) indexes -> Z.of_nat (length lv) <= tmax ty).
  { intros s lv Hin. etransitivity; [|exact Hmax]. apply maxZ_ge. rewrite Elev. apply in_map_iff. exists (s, lv). auto. }
  split; [|intros _; exact Hle].
  assert (Es : sides L leq H (h_non_fused H) bs = map (fun t => map (fun s => f s t) (map fst indexes)) (concat chunks)).
  { unfold sides, bs. rewrite Hnf. clear -F2 Hman Hincl. induction F2 as [|c ch cs chs E F2 IH]; [reflexivity|].
    cbn [map combine concat fst snd]. rewrite map_app, IH. f_equal. apply side_rows; assumption. }
  rewrite Es. rewrite map_map. apply map_ext_in. intros t Ht. rewrite map_map. apply map_ext_in. intros s Hs'.
  apply in_map_iff in Hs' as ([s' lv] & E & Hin). cbn [fst] in E. subst s'.
  specialize (Hv _ _ _ Hin Ht). apply cast_id. pose proof (tmin_nonpos ty). pose proof (Hle _ _ Hin). lia.
Qed.

End Regs.
