(** What becomes of a task emptied by a negative threshold. *)
From Coq Require Import String.
From Coq Require Import List ZArith Lia Permutation.
From Verif Require Import Prelude ListFacts TypeFitting TypeFitting_proofs Np2h5 Sampler Task Task_spec Task_sort Task_proofs
  Task_file Task_main Task_reg_spec Task_align TaskIndex_spec Sampler_spec Pairs Distances Score Score_spec Score_proofs
  Analyze H5io Pipeline Pipeline_spec Pipeline_file TaskGroups_proofs Task_neg.
Import ListNotations.
Local Open Scope list_scope.
Local Open Scope Z_scope.

Section Neg.
Variables tm L : Type.
Variable leq : forall x y : L, {x = y} + {x <> y}.
Variable plain : L -> bool.
Variable name : key -> string.
Hypothesis name_inj : forall k k', name k = name k' -> k = k'.
Variable gorder : list (string * by_group L) -> list (string * by_group L).
Hypothesis gorder_ok : forall l, Permutation (gorder l) l.
Variable korder : list key -> list key.
Variable enum : list Z -> list Z.
Variable argsort : list Z -> list nat.
Hypothesis korder_ok : lists_keys korder.
Hypothesis enum_ok : lists_set enum.
Hypothesis argsort_ok : argsort_spec argsort.
Variables rlen wlen clen : Z -> nat.
Hypothesis rlen_ok : forall z, (0 < rlen z)%nat.
Hypothesis wlen_ok : forall z, (0 < wlen z)%nat.
Hypothesis clen_ok : forall z, (0 < clen z)%nat.
Variables memory o_buffer : Z.

(** No pairs. *)
Lemma no_pairs ty ts : generate_pairs argsort rlen wlen clen memory o_buffer ty ts [] = Ok ([], []).
Proof.
  unfold generate_pairs. cbn [mapM bind merge_pairs fst snd map]. unfold Pairs.write_all. cbn [map].
  match goal with |- context [session ?a ?b ?d ?e ?g ?h ?i ?j] => replace (session a b d e g h i j) with (@None exn, Some (@nil Z)) end; [reflexivity|].
  pose proof (wlen_ok (Pairs.width I64)). pose proof (clen_ok (Pairs.width I64)). unfold session. cbn. destruct (wlen _); [lia|]. destruct (clen _); [lia|]. reflexivity.
Qed.

Theorem negative_file T cols db (places : list (Distances.item tm)) (indexes : list (string * list L)) T' bs st :
  reads cols (t_filters T) -> determined T db -> kept_first T db ->
  reg_reads cols (t_regressors T) -> reg_determined T db ->
  task_init korder enum T cols db = Ok (T', bs, st) -> coded T db ->
  Zlen db * Zlen db * Zlen db < 2 ^ 63 -> r_ABX (t_regressors T) = false -> of_BX (t_regressors T) <> [] ->
  length places = length db -> A_fine T -> levels_ok plain T db indexes -> storable T db (capacity (s_nb_triplets st)) ->
  forall t, t < 0 ->
  (forall k s grp, is_wanted T db k s ->
    lists_that (fun u => is_wanted T db k u /\ same_group T (by_rows T db k) u s) grp -> 100 < Zlen grp) ->
  (exists k s, is_wanted T db k s) ->
  forall R fuel c, exists x,
    make_file leq plain name gorder korder enum argsort R (S fuel) rlen wlen clen memory o_buffer T cols db places indexes (Some t) c = Ok (Some x) /\
    x_bys x = [] /\ x_triplets x = [] /\ x_by_index x = [] /\ x_attrs x = [] /\ x_pairs x = [] /\ x_items x = [] /\
    (forall F V (zero : V) dfuel files normalize n_cpu,
       compute_distances zero argsort dfuel (@mk_setting tm F (for_distances x) files normalize) (mk_dist_file None None) n_cpu =
       (mk_dist_file (Some false) None, Err NameError)) /\
    (forall V (vlt : V -> V -> bool) rnd slen stem (k : disk V) tf dfn sf,
       lookup (k_tasks k) tf = Ok (for_score x) -> there k dfn -> ~ there k (score_name stem tf dfn sf) ->
       exists k', score vlt rnd slen stem k tf dfn sf = (k', Ok tt) /\ lookup (k_scores k') (score_name stem tf dfn sf) = Ok [] /\
         forall rnd', analyze rnd' argsort (for_analysis x) [] = Ok (map fst indexes, [])).
Proof.
  intros rd dt kf rr rt init cod Hsz HG Hbx Hpl HA HL Hst t Ht Hg Hw R fuel c.
  destruct (@negative_empty korder enum argsort korder_ok enum_ok argsort_ok T cols db T' bs st rd dt kf rr rt init cod Hsz HG Hbx t Ht Hg Hw R fuel c)
    as (f & gen & F1 & F2 & F3).
  destruct (groups_exist tm L leq plain name name_inj korder enum argsort R (S fuel) korder_ok enum_ok rlen wlen clen
       rlen_ok wlen_ok clen_ok memory o_buffer T cols db places indexes (Some t) c rd dt kf rr rt Hpl HA HL
       T' bs st init [] f gen Hst (fun _ _ => False)) as (groups & E3).
  { intros k s []. }
  { rewrite F2, F3. constructor. }
  { intros k. rewrite F3. split; [intros []|intros (s & [])]. }
  assert (E4 : exists dty, fit_integer_type (s_nb_triplets st) true = Ok dty).
  { destruct (file_inv enum argsort R (S fuel) korder_ok T cols db init (Some t) c gen) as (_ & _ & t0 & _ & Ht0 & _). eauto. }
  destruct E4 as (dty & E4).
  assert (Hne : exists kb rest, fl_regressors f = kb :: rest).
  { destruct (generate_ok _ _ _ _ _ _ _ _ _ _ gen) as (Hn & outss & c' & Hch & [_ _ _ Fr _ _] & _).
    assert (HLn : length bs = length outss) by (apply chain_by_each, Forall2_len in Hch; exact Hch).
    rewrite Fr. destruct bs as [|b bs0].
    - exfalso. apply Hn. destruct (init_inv _ _ _ _ _ init) as (_ & _ & _ & Hs). cbn in Hs. injection Hs as <-. reflexivity.
    - destruct outss as [|o outss]; [discriminate|]. cbn. eauto. }
  destruct Hne as (kb & rest & Er).
  assert (Hgr : exists g0, In g0 groups /\ forall g1, In g1 groups -> g_names (snd g1) = map fst indexes).
  { rewrite Er in E3. assert (A : forall l gs, mapM (fun kb : key * list (list (string * list Z)) =>
        g <- regressor_group leq plain (regressor_names (t_regressors T')) indexes (snd kb) ;; Ok (name (fst kb), g)) l = Ok gs ->
        length gs = length l /\ forall g1, In g1 gs -> g_names (snd g1) = map fst indexes).
    { induction l as [|y l IH]; cbn [mapM]; intros gs E; [injection E as <-; split; [reflexivity|intros ? []]|].
      destruct (regressor_group _ _ _ _ (snd y)) as [g|] eqn:Eg; [|discriminate]. cbn [bind] in E.
      destruct (mapM _ l) as [gs'|]; [|discriminate]. cbn [bind] in E. injection E as <-.
      destruct (IH gs' eq_refl) as [I1 I2]. split; [cbn; lia|]. intros g1 [<-|H]; [|auto]. cbn [snd].
      apply group_parts in Eg. apply Eg. }
    destruct (A _ _ E3) as [A1 A2]. destruct groups as [|g0 gs]; [discriminate|]. exists g0. split; [left; reflexivity|exact A2]. }
  eexists. split.
  { unfold make_file. rewrite init. cbn [bind]. rewrite gen. cbn [bind]. rewrite E3. cbn [bind]. rewrite E4. cbn [bind map combine].
    rewrite no_pairs. cbn [bind]. reflexivity. }
  cbn [x_bys x_triplets x_by_index x_attrs x_pairs x_items]. rewrite F1, F2, F3. cbn [map combine].
  split; [reflexivity|]. split; [reflexivity|]. split; [reflexivity|]. split; [reflexivity|]. split; [reflexivity|]. split; [reflexivity|].
  split.
  - intros F V zero dfuel files normalize n_cpu. unfold compute_distances, create_distance_jobs, for_distances. cbn. reflexivity.
  - intros V vlt rnd slen stem k tf dfn sf H1 H2 H3.
    assert (T1 : exists_file k tf = true).
    { apply exists_file_spec. left. revert H1. clear. generalize (for_score (L := L) (tm := tm)). intros fs. 
      induction (k_tasks k) as [|[s v] l IH]; cbn [lookup map]; [discriminate|]. destruct (String.eqb_spec s tf) as [->|N]; [left; reflexivity|right; auto]. }
    assert (T2 : exists_file k dfn = true) by (apply exists_file_spec; exact H2).
    assert (T3 : exists_file k (score_name stem tf dfn sf) = false).
    { destruct (exists_file k (score_name stem tf dfn sf)) eqn:E; [|reflexivity]. apply exists_file_spec in E. contradiction. }
    eexists. split; [|split].
    + unfold score. rewrite T1, T2, T3, H1. cbn [negb for_score sc_bys sc_triplets x_bys x_triplets length repeat fst snd]. reflexivity.
    + cbn [k_scores lookup]. rewrite String.eqb_refl. reflexivity.
    + intros rnd'. unfold analyze, for_analysis. cbn [a_groups a_bys x_groups x_bys collapse bind].
      destruct Hgr as (g0 & G1 & G2). destruct (gorder groups) as [|g1 gs] eqn:Eo.
      { exfalso. pose proof (gorder_ok groups) as P. rewrite Eo in P. apply Permutation_nil in P. rewrite P in G1. destruct G1. }
      cbn [map nth_res nth_error bind]. rewrite (G2 g1); [reflexivity|].
      apply (Permutation_in g1 (gorder_ok groups)). rewrite Eo. left. reflexivity.
Qed.

End Neg.
