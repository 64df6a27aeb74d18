(** Labels and names out of ASCII: no task file is made. *)
From Coq Require Import String.
From Coq Require Import List ZArith Lia Permutation.
From Verif Require Import Prelude ListFacts TypeFitting TypeFitting_proofs Sampler Task Task_spec Task_sort Task_proofs
  Task_main Task_total Task_reg_spec Task_align Sampler_spec Distances Analyze H5io H5io_spec H5io_use
  Pipeline Pipeline_spec Pipeline_file Pipeline_thr Pipeline_proofs.
Import ListNotations.
Local Open Scope Z_scope.
Local Open Scope list_scope.

Section Ascii.
Variables tm L : Type.
Variable leq : forall x y : L, {x = y} + {x <> y}.
Variable plain : L -> bool.
Variable name : key -> string.
Variable gorder : list (string * by_group L) -> list (string * by_group L).
Variable korder : list key -> list key.
Variable enum : list Z -> list Z.
Variable argsort : list Z -> list nat.
Variable R : rng.
Variable fuel : nat.
Variables rlen wlen clen : Z -> nat.
Variables memory o_buffer : Z.
Variable T : task.
Variable cols : list string.
Variable db : list row.
Variable places : list (Distances.item tm).
Variable indexes : list (string * list L).
Variable thr : option Z.
Variable c : nat.

Let make := make_file leq plain name gorder korder enum argsort R fuel rlen wlen clen memory o_buffer T cols db places indexes thr c.

(** Every by is in the regressors of the file. *)
Lemma regressors_listed T' bs st bs' f : generate_triplets korder enum argsort R fuel T' thr bs st c = Ok (bs', Some f) ->
  map fst (fl_regressors f) = map b_key bs.
Proof.
  unfold generate_triplets. destruct (s_nb_triplets st =? 0); [discriminate|].
  destruct (fit_integer_type (s_nb_triplets st) true) as [t1|]; [|discriminate]. cbn [bind].
  destruct (fit_integer_type (s_nb_blocks st) true) as [t2|]; [|discriminate]. cbn [bind].
  assert (G : forall l g g', foldM (by_step korder enum argsort R fuel T' thr) l g = Ok g' -> map fst (g_regs g') = map fst (g_regs g) ++ map b_key l).
  { induction l as [|b l IH]; intros g g' E; cbn [foldM] in E; [injection E as <-; rewrite app_nil_r; reflexivity|].
    unfold by_step at 1 in E. destruct (compute_triplets _ _ _ _ _ _ _ _ _) as [[outs c']|]; [|discriminate]. cbn [bind] in E.
    destruct (_ =? _); cbn [bind] in E; rewrite (IH _ _ E); cbn [g_regs]; rewrite map_app, <- app_assoc; reflexivity. }
  destruct (foldM _ _ _) as [g|] eqn:E; [|discriminate]. cbn [bind]. apply G in E. cbn [g_regs map app] in E.
  destruct (fit_integer_type (hd 0 (g_bounds g)) true); [|discriminate]. cbn [bind]. intros H. injection H as _ <-.
  cbn [fl_regressors]. exact E.
Qed.

Lemma some_by T' bs st bs' f : task_init korder enum T cols db = Ok (T', bs, st) ->
  generate_triplets korder enum argsort R fuel T' thr bs st c = Ok (bs', Some f) -> bs <> [].
Proof.
  intros E1 E2 ->. unfold task_init in E1. destruct (check_database _ _ _ _); [|discriminate]. cbn [bind] in E1.
  destruct (with_dummies T db) as [T1 db1]. destruct (prepare_database _ _ _) as [bs0|] eqn:Ep; [|discriminate]. cbn [bind] in E1.
  destruct (compute_statistics _ _ _ _ _) as [st0|] eqn:Es; [|discriminate]. cbn [bind] in E1.
  injection E1 as -> -> ->. cbn in Es. injection Es as <-. discriminate E2.
Qed.

Lemma group_names blocks g : regressor_group leq plain (regressor_names (t_regressors T)) indexes blocks = Ok g ->
  (forall s, In s (map fst (all_regressors (t_regressors T))) -> ascii_only s) /\ labels_plain plain indexes.
Proof.
  unfold regressor_group, init. rewrite names_all. set (names := map fst (all_regressors (t_regressors T))).
  unfold indexed_datasets. destruct (subset _ _); [|discriminate]. cbn [bind flat_map subset forallb negb].
  unfold get_array at 1. destruct names as [|n0 ns] eqn:En; [discriminate|]. rewrite <- En.
  destruct (forallb plain_text names) eqn:E1; [|discriminate]. cbn [bind].
  destruct (mapM (fun kv : string * list L => _) indexes) as [st|] eqn:E2; [|discriminate]. intros _. split.
  - intros s Hs. apply plain_text_iff. exact (proj1 (forallb_forall _ _) E1 s Hs).
  - clear - E2. revert st E2. induction indexes as [|[ix l] ixs IH]; intros st E2; [intros ? ? ? []|].
    cbn [mapM fst snd] in E2. unfold get_array at 1 in E2. destruct l as [|x0 l]; [discriminate|].
    destruct (forallb plain (x0 :: l)) eqn:E; [|discriminate]. cbn [bind] in E2.
    destruct (mapM _ ixs) as [st'|]; [|discriminate]. specialize (IH st' eq_refl).
    intros ix' l' x [E'|Hin] Hx; [injection E' as <- <-; exact (proj1 (forallb_forall _ _) E x Hx)|exact (IH ix' l' x Hin Hx)].
Qed.

(** A task file has only names and labels that can be held. *)
Theorem file_plain x : make = Ok (Some x) ->
  (forall s, In s (map fst (all_regressors (t_regressors T))) -> ascii_only s) /\ labels_plain plain indexes.
Proof.
  intros E. destruct (make_inv tm L leq plain name gorder korder enum argsort R fuel rlen wlen clen memory o_buffer T cols db places indexes thr c x E)
    as (T' & bs & st & bs' & f & groups & dty & pairs & attrs & E1 & E2 & E3 & _).
  pose proof (some_by _ _ _ _ _ E1 E2) as Hne. pose proof (regressors_listed _ _ _ _ _ E2) as Hr.
  assert (ET : t_regressors T' = t_regressors T) by (destruct (init_inv _ _ _ _ _ E1) as (_ & -> & _); reflexivity).
  destruct (fl_regressors f) as [|kb regs]; [destruct bs; [congruence|discriminate]|].
  cbn [mapM] in E3. rewrite ET in E3. destruct (regressor_group leq plain (regressor_names (t_regressors T)) indexes (snd kb)) as [g|] eqn:Eg; [|discriminate].
  exact (group_names _ _ Eg).
Qed.

Hypothesis korder_ok : lists_keys korder.
Hypothesis enum_ok : lists_set enum.
Hypothesis argsort_ok : argsort_spec argsort.
Hypothesis rd : reads cols (t_filters T).
Hypothesis dt : determined T db.
Hypothesis kf : kept_first T db.

(** Otherwise, when there are triplets, ValueError is raised. *)
Theorem not_plain T' bs st k t : unlimited T thr -> task_init korder enum T cols db = Ok (T', bs, st) ->
  Zlen db * Zlen db * Zlen db < 2 ^ 63 -> r_ABX (t_regressors T) = false ->
  is_wanted T db k t ->
  all_regressors (t_regressors T) <> [] -> (forall s levels, In (s, levels) indexes -> levels <> []) ->
  (exists s, In s (map fst (all_regressors (t_regressors T))) /\ ~ ascii_only s) \/
  (exists s levels label, In (s, levels) indexes /\ In label levels /\ plain label = false) ->
  make = Err ValueError.
Proof.
  intros Hu E1 Hsz HG Hw Hne Hl Hbad.
  assert (ET : t_regressors T' = t_regressors T) by (destruct (init_inv _ _ _ _ _ E1) as (_ & -> & _); reflexivity).
  assert (Hgen : exists bs' of, generate_triplets korder enum argsort R fuel T' thr bs st c = Ok (bs', of) /\
            (of = None <-> forall k a b y, ~ wanted T db k a b y)).
  { destruct Hu as [Hu|Hu]; [exact (generate_succeeds R fuel korder_ok enum_ok argsort_ok rd dt kf E1 c Hsz Hu HG)|].
    apply of_BX_nil in Hu as [Hu1 Hu2].
    rewrite (generate_no_regressors _ _ _ _ _ _ thr None) by (rewrite ET; assumption).
    exact (generate_succeeds R fuel korder_ok enum_ok argsort_ok rd dt kf E1 c Hsz (or_introl eq_refl) HG). }
  destruct Hgen as (bs' & of & E2 & Hof).
  destruct of as [f|]; [|exfalso; destruct t as [[a b] y]; exact (proj1 Hof eq_refl k a b y Hw)].
  pose proof (some_by _ _ _ _ _ E1 E2) as Hbs. pose proof (regressors_listed _ _ _ _ _ E2) as Hr.
  unfold make, make_file. rewrite E1. cbn [bind]. rewrite E2. cbn [bind]. rewrite ET.
  destruct (fl_regressors f) as [|kb regs]; [destruct bs; [congruence|discriminate]|]. cbn [mapM].
  unfold regressor_group at 1. rewrite (init_not_ascii L plain (DList (regressor_names (t_regressors T))) indexes []); [reflexivity| |exact Hl|].
  - rewrite names_all. intros E. apply map_eq_nil in E. congruence.
  - rewrite names_all. exact Hbad.
Qed.

End Ascii.
