(** The groups of regressors of the task file of a whole evaluation. *)
From Coq Require Import Ascii String.
From Coq Require Import List ZArith QArith Permutation Lia.
From Verif Require Import Prelude ListFacts TypeFitting Sampler Task Task_spec Task_file Task_proofs Task_main Task_total Task_reg_spec
  Distances Analyze AnalyzeText H5Names H5Names_proofs H5io H5io_spec H5ioFile H5ioFile_spec Pipeline Pipeline_spec Pipeline_proofs
  Pipeline_ascii TaskGroups TaskGroups_proofs.
Import ListNotations.
Local Open Scope Z_scope.
Local Open Scope list_scope.

(** A by that has triplets has blocks of regressors. *)
Lemma bys_have_blocks korder enum argsort R fuel T thr bs st c bs' f :
  generate_triplets korder enum argsort R fuel T thr bs st c = Ok (bs', Some f) ->
  forall k, In k (fl_bys f) -> exists blocks, In (k, blocks) (fl_regressors f) /\ blocks <> [].
Proof.
  unfold generate_triplets. destruct (s_nb_triplets st =? 0); [discriminate|].
  destruct (fit_integer_type (s_nb_triplets st) true) as [t1|]; [|discriminate]. cbn [bind].
  destruct (fit_integer_type (s_nb_blocks st) true) as [t2|]; [|discriminate]. cbn [bind].
  set (inv := fun g : gen_state => Zlen (g_triplets g) = hd 0 (g_bounds g) /\
                forall k, In k (g_bys g) -> exists blocks, In (k, blocks) (g_regs g) /\ blocks <> []).
  assert (G : forall l g g', inv g -> foldM (by_step korder enum argsort R fuel T thr) l g = Ok g' -> inv g').
  { induction l as [|b l IH]; intros g g' I E; cbn [foldM] in E; [injection E as <-; exact I|].
    unfold by_step at 1 in E. destruct (compute_triplets _ _ _ _ _ _ _ _ _) as [[outs c']|]; [|discriminate]. cbn [bind] in E.
    destruct I as [I1 I2].
    destruct (_ =? _) eqn:Ez; cbn [bind] in E; apply (IH _ _) in E; try exact E; clear E IH; (split; [cbn [g_triplets g_bounds hd]|cbn [g_bys g_regs]]).
    - apply Z.eqb_eq. exact Ez.
    - intros k Hk. destruct (I2 k Hk) as (blocks & Hin & Hne). exists blocks. split; [apply in_or_app; left; exact Hin|exact Hne].
    - reflexivity.
    - intros k [<-|Hk].
      + exists (map o_regressors outs). split; [apply in_or_app; right; left; reflexivity|].
        intros Eo. apply map_eq_nil in Eo. subst outs. cbn [map concat] in Ez. rewrite app_nil_r in Ez.
        apply Z.eqb_neq in Ez. congruence.
      + destruct (I2 k Hk) as (blocks & Hin & Hne). exists blocks. split; [apply in_or_app; left; exact Hin|exact Hne]. }
  destruct (foldM _ _ _) as [g|] eqn:E; [|discriminate]. cbn [bind]. apply G in E; [|split; [reflexivity|intros k []]].
  destruct (fit_integer_type (hd 0 (g_bounds g)) true); [|discriminate]. cbn [bind]. intros H. injection H as _ <-.
  cbn [fl_bys fl_regressors]. intros k Hk. apply in_rev in Hk. exact (proj2 E k Hk).
Qed.

Lemma mapM_renamed {A B C : Type} (F : A -> B) (h : B -> res C) l : mapM (fun x => h (F x)) l = mapM h (map F l).
Proof. induction l as [|a l IH]; [reflexivity|]. cbn [mapM map]. destruct (h (F a)); [|reflexivity]. cbn [bind]. rewrite IH. reflexivity. Qed.

Section Pipeline.
Variables tm L : Type.
Variable leq : forall x y : L, {x = y} + {x <> y}.
Variable plain : L -> bool.
Variable texts : bool.
Variable name : key -> string.
Hypothesis name_inj : forall k k', name k = name k' -> k = k'.
Variable gorder : list (string * by_group L) -> list (string * by_group L).
Hypothesis gorder_ok : forall l, Permutation (gorder l) l.
Variable korder : list key -> list key.
Variable enum : list Z -> list Z.
Variable argsort : list Z -> list nat.
Variable R : rng.
Variable fuel : nat.
Hypothesis korder_ok : lists_keys korder.
Variables rlen wlen clen : Z -> nat.
Variables memory o_buffer : Z.
Variable T : task.
Variable cols : list string.
Variable db : list row.
Variable places : list (Distances.item tm).
Variable indexes : list (string * list L).
Variable thr : option Z.
Variable c : nat.

Theorem evaluation_groups x :
  NoDup (map fst indexes) -> (forall s, In s (map fst indexes) -> simple s /\ ascii_only s) ->
  incl (regressor_names (t_regressors T)) (map fst indexes) -> (forall k, by_rows T db k <> [] -> simple (name k)) ->
  make_file leq plain name gorder korder enum argsort R fuel rlen wlen clen memory o_buffer T cols db places indexes thr c = Ok (Some x) ->
  exists T' bs st bs' tf,
    task_init korder enum T cols db = Ok (T', bs, st) /\
    generate_triplets korder enum argsort R fuel T' thr bs st c = Ok (bs', Some tf) /\
    forall f0, well_formed f0 -> free f0 ["regressors"%string] ->
    exists f,
      write_bys leq plain texts f0 (regressor_names (t_regressors T)) indexes
        (map (fun kb => (name (fst kb), snd kb)) (fl_regressors tf)) = (f, Ok tt) /\
      well_formed f /\ elsewhere ["regressors"%string] f0 f /\
      forall rnd argsort' str_label str_float scores,
        analyze_h5 rnd argsort' str_label str_float f (x_bys x) (map nat_range (x_by_index x)) scores =
        analyze_text rnd argsort' str_label str_float (for_analysis x) scores.
Proof.
  intros Nix Six Inc Sn E.
  destruct (make_inv tm L leq plain name gorder korder enum argsort R fuel rlen wlen clen memory o_buffer T cols db places indexes thr c x E)
    as (T' & bs & st & bs' & tf & groups & dty & pairs & attrs & E1 & E2 & E3 & _ & Ex).
  exists T', bs, st, bs', tf. split; [exact E1|]. split; [exact E2|]. intros f0 W Fr.
  pose proof (some_by _ _ _ _ _ _ _ _ _ _ _ _ _ _ _ E1 E2) as Hne. pose proof (regressors_listed _ _ _ _ _ _ _ _ _ _ _ _ E2) as Hr.
  assert (ET : t_regressors T' = t_regressors T) by (destruct (init_inv _ _ _ _ _ E1) as (_ & -> & _); reflexivity).
  set (l := map (fun kb : key * list (list (string * list Z)) => (name (fst kb), snd kb)) (fl_regressors tf)).
  assert (Ek : map fst l = map name (map b_key bs)) by (unfold l; rewrite map_map, <- Hr, map_map; reflexivity).
  assert (Nl : NoDup (map fst l)).
  { rewrite Ek. assert (ND : NoDup (map b_key bs)).
    { apply (keys_NoDup _ korder_ok _ _ _ E1). }
    clear - ND name_inj. induction ND as [|k ks Hk ND IH]; [constructor|]. cbn [map]. constructor; [|exact IH].
    intros Hin. apply in_map_iff in Hin as (k' & Ekk & Hin). apply name_inj in Ekk. subst k'. exact (Hk Hin). }
  assert (Eg : mapM (fun kb : string * list (list (string * list Z)) =>
            g <- regressor_group leq plain (regressor_names (t_regressors T)) indexes (snd kb) ;; Ok (fst kb, g)) l = Ok groups).
  { unfold l. rewrite <- mapM_renamed. rewrite <- ET. exact E3. }
  assert (Hl : l <> []).
  { intros El. apply (f_equal (map fst)) in El. rewrite Ek in El. apply map_eq_nil, map_eq_nil in El. exact (Hne El). }
  assert (Sl : forall b, In b (map fst l) -> simple b).
  { intros b Hb. rewrite Ek in Hb. apply in_map_iff in Hb as (k & <- & Hk).
    apply Sn. apply in_map_iff in Hk as (b & <- & Hb).
    destruct (init_inv _ _ _ _ _ E1) as (Hc & ET' & Hp & _). subst T'.
    pose proof (proj1 (Forall_forall _ _) (proj2 (prepare_ok korder_ok _ _ Hp)) b Hb) as (_ & Ef & Hfr).
    rewrite (by_rows_ig T cols db Hc). intros Ei. apply map_eq_nil in Ei. apply Hfr. rewrite Ef. unfold kept_frame.
    rewrite (grp_ig T cols db Hc), Ei. reflexivity. }
  pose proof (fun rnd ags sl sf => analyzed_file L leq plain texts (regressor_names (t_regressors T)) indexes Nix Six Inc
    rnd ags sl sf l f0 groups Hl W Fr Nl Sl Eg) as A.
  destruct (A (fun q => q) argsort (fun _ => ""%string) (fun _ => ""%string)) as (f & Ef & Wf & El & _).
  exists f. split; [exact Ef|]. split; [exact Wf|]. split; [exact El|]. intros rnd ags sl sf scores.
  destruct (A rnd ags sl sf) as (f' & Ef' & _ & _ & _ & An). assert (f' = f) by congruence. subst f'.
  unfold for_analysis. subst x. cbn [x_bys x_by_index x_groups]. apply An.
  - apply Permutation_sym, gorder_ok.
  - intros b Hb. apply in_map_iff in Hb as (k & <- & Hk).
    destruct (bys_have_blocks _ _ _ _ _ _ _ _ _ _ _ _ E2 k Hk) as (blocks & Hin & Hbl).
    exists blocks. split; [|exact Hbl]. unfold l. apply in_map_iff. exists (k, blocks). split; [reflexivity|exact Hin].
Qed.

End Pipeline.
