(** Regressors of the last stage. *)
From Coq Require Import String.
From Verif Require Import Prelude ListFacts TypeFitting TypeFitting_proofs
  Sampler Sampler_spec Sampler_proofs Task Task_spec Task_blocks Task_sort Task_regs Task_gen Task_file
  Task_proofs Task_main Task_total.
Set Implicit Arguments.
Open Scope Z_scope.

Section Abx.
Variable korder : list key -> list key.
Variable enum : list Z -> list Z.
Variable argsort : list Z -> list nat.
Variable R : rng.
Variable fuel : nat.
Hypothesis korder_ok : lists_keys korder.
Hypothesis enum_ok : lists_set enum.
Hypothesis argsort_ok : argsort_spec argsort.

Section By.
Variable T : task.
Hypothesis Hac : t_across T <> [].
Hypothesis HG : r_ABX (t_regressors T) = true.
Variable b : by_block.
Hypothesis wf : wf_block b.
Hypothesis al : aligned (b_frame b).
Hypothesis small : Zlen (b_frame b) * Zlen (b_frame b) * Zlen (b_frame b) < 2 ^ 64.
Variable thr : option Z.
Hypothesis Ht : no_threshold thr.
Local Notation cols := (t_on T :: t_across T).

Lemma abx_block byr acc c k :
  In k (keys cols (map snd (b_frame b))) ->
  block_step enum argsort R fuel T thr b byr (acc, c) (k, group cols (b_frame b) k) =
    (match block_val T b k with
     | Ok v => if f_oab (t_filters T) v then Err ValueError else Ok (acc, c)
     | Err e => Err e
     end).
Proof.
  intros Hk. unfold block_step. destruct (block_val_ok _ _ al _ Hk) as (l & v & Hv & _). rewrite Hv.
  unfold block_val in Hv. apply bind_ok in Hv as (l0 & -> & Hv). cbn [bind]. rewrite Hv. cbn [bind].
  destruct (f_oab (t_filters T) v); [|reflexivity]. unfold on_across_triplets.
  destruct (block_design_total _ enum_ok _ wf v _ Hac Hk small) as (d & Hd). rewrite Hd. cbn [bind].
  destruct (block_design_ok _ enum_ok _ wf _ _ Hac Hk Hd) as (Hts & A & B & X & Hdk & IA & IB & IX).
  rewrite (dk_A Hdk), (dk_B Hdk), (dk_X Hdk). rewrite !(item_regressors_ok wf) by assumption. cbn [bind].
  rewrite (sort_design_core argsort R fuel thr _ _ c Hdk).
  destruct (core_none_total R fuel argsort_ok (thr := thr) (d_triplets d)
     (gB b v (r_B (t_regressors T)) ++ gX b v (r_X (t_regressors T))) c Ht) as ([[[p idx] ts'] c2] & Hc).
  { apply fit_ok_unsigned. eapply Z.le_lt_trans; [apply (proj2 (cast_range I64 _))|reflexivity]. }
  rewrite Hc. cbn [bind]. rewrite HG. reflexivity.
Qed.

Lemma abx_by c : b_frame b <> [] ->
  compute_triplets korder enum argsort R fuel T thr b c = Err ValueError \/
  (compute_triplets korder enum argsort R fuel T thr b c = Ok ([], c) /\ by_list korder enum T b = []).
Proof.
  intros Hne. unfold compute_triplets, groups, by_list.
  assert (exists bv, iloc (b_frame b) 0 = Ok bv) as (bv & ->).
  { unfold iloc. cbn. destruct (b_frame b) as [|p fr]; [congruence|]. cbn. eauto. }
  cbn [bind].
  assert (Hks : incl (korder (keys cols (map snd (b_frame b)))) (keys cols (map snd (b_frame b)))).
  { intros k. apply Permutation_in, korder_ok. }
  revert Hks. generalize (korder (keys cols (map snd (b_frame b)))).
  intros ks. induction ks as [|k ks IH]; intros Hks; cbn [map foldM flat_map]; [auto|].
  rewrite abx_block by (apply Hks; left; reflexivity).
  destruct (block_val_ok _ _ al k (Hks k (or_introl eq_refl))) as (l & v & Hv & _).
  unfold block_list. rewrite Hv. destruct (f_oab (t_filters T) v); [left; reflexivity|].
  cbn [bind app]. apply IH. intros x Hx. apply Hks. right. exact Hx.
Qed.

End By.

Variable T : task.
Variable cs : list string.
Variable db : list row.
Hypothesis rd : reads cs (t_filters T).
Hypothesis dt : determined T db.
Hypothesis kf : kept_first T db.
Variable T' : task.
Variable bs : list by_block.
Variable st : stats.
Hypothesis init : task_init korder enum T cs db = Ok (T', bs, st).

Theorem abx_regressors_fail thr c :
  Zlen db * Zlen db * Zlen db < 2 ^ 63 -> no_threshold thr -> r_ABX (t_regressors T) = true ->
  (exists k a b x, wanted T db k a b x) ->
  generate_triplets korder enum argsort R fuel T' thr bs st c = Err ValueError.
Proof.
  intros Hsz Hthr HG (k & a & b0 & x & W).
  destruct (sizes_small korder_ok enum_ok rd dt kf init Hsz) as (Hfl & Hn & Hb).
  destruct (init_inv _ _ _ _ _ init) as (Hc & ET & _).
  assert (HG' : r_ABX (t_regressors T') = true) by (rewrite ET; exact HG).
  pose proof (T'_ne _ _ _ _ _ init) as Hac.
  assert (Hnz : s_nb_triplets st <> 0).
  { rewrite <- (tagged_length korder_ok enum_ok _ _ _ init).
    apply (tagged_In korder_ok enum_ok rd dt kf init) in W.
    destruct (tagged korder enum T' bs); [destruct W|]. unfold Zlen. cbn [length]. lia. }
  unfold generate_triplets. apply Z.eqb_neq in Hnz. rewrite Hnz.
  destruct (fit_ok_signed _ Hn) as (t1 & ->). destruct (fit_ok_signed _ Hb) as (t2 & ->). cbn [bind].
  assert (HE : exists b, In b bs /\ by_list korder enum T' b <> []).
  { destruct (wanted_key _ korder_ok rd dt kf init W) as (b & Hin & E). exists b. split; [exact Hin|].
    subst k. apply (blist_In korder_ok enum_ok rd dt kf init _ _ _ _ Hin) in W.
    intros E. rewrite E in W. destruct W. }
  assert (H : forall g, foldM (by_step korder enum argsort R fuel T' thr) bs g = Err ValueError).
  { assert (HB : forall b c, In b bs ->
      compute_triplets korder enum argsort R fuel T' thr b c = Err ValueError \/
      (compute_triplets korder enum argsort R fuel T' thr b c = Ok ([], c) /\ by_list korder enum T' b = [])).
    { intros b c0 Hin. destruct (proj2 (bs_inv enum korder_ok rd dt kf init) b Hin) as (Hw & Ha & Hne & _).
      apply abx_by; auto. pose proof (cube_le (conj (Zlen_nonneg (b_frame b)) (Hfl b Hin))). lia. }
    clear -HE HB. destruct HE as (b1 & Hin & Hne). induction bs as [|b bs0 IH]; [destruct Hin|].
    intros g. cbn [foldM]. unfold by_step at 1.
    destruct (HB b (g_rng g) (or_introl eq_refl)) as [->|[-> E]]; [reflexivity|]. cbn [bind].
    destruct Hin as [->|Hin]; [congruence|].
    destruct (_ =? _); cbn [bind]; apply IH; auto; intros b' c0 Hb'; apply HB; right; exact Hb'. }
  rewrite H. reflexivity.
Qed.

End Abx.
