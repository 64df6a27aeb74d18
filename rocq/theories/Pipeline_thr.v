(** Which triplets are in a task file, with and without a threshold. *)
From Coq Require Import String.
From Coq Require Import List ZArith Lia Permutation.
From Verif Require Import Prelude ListFacts TypeFitting TypeFitting_proofs Sampler Sampler_spec Task Task_spec Task_sort
  Task_gen Task_file Task_proofs Task_main Task_total Task_reg_spec Task_align Pipeline Pipeline_spec Pipeline_file.
Import ListNotations.
Local Open Scope Z_scope.
Local Open Scope list_scope.

Lemma foldM_ext {A B} (f g : A -> B -> res A) l : (forall a b, f a b = g a b) -> forall a, foldM f l a = foldM g l a.
Proof. intros H. induction l as [|b l IH]; intros a; cbn; [reflexivity|]. rewrite H. destruct (g a b); cbn; [apply IH|reflexivity]. Qed.

(** Without regressors of B and X there is no threshold. *)
Lemma generate_no_regressors korder enum argsort R fuel T thr thr' bs st c :
  r_B (t_regressors T) = [] -> r_X (t_regressors T) = [] ->
  generate_triplets korder enum argsort R fuel T thr bs st c = generate_triplets korder enum argsort R fuel T thr' bs st c.
Proof.
  intros HB HX.
  assert (E : forall b c, compute_triplets korder enum argsort R fuel T thr b c = compute_triplets korder enum argsort R fuel T thr' b c).
  { intros b c0. unfold compute_triplets. destruct (iloc (b_frame b) 0) as [bv|]; cbn [bind]; [|reflexivity]. apply foldM_ext.
    intros [outs c1] [bk block]. unfold block_step. destruct (nth_res block 0) as [l0|]; cbn [bind]; [|reflexivity].
    destruct (iloc (b_frame b) l0) as [v|]; cbn [bind]; [|reflexivity].
    destruct (f_oab (t_filters T) v); [|reflexivity]. unfold on_across_triplets. rewrite HB, HX.
    destruct (block_design enum T b v bk block) as [d|]; cbn [bind]; [|reflexivity].
    destruct (item_regressors (r_A (t_regressors T)) v (b_frame b) (d_A d)) as [Ar|]; reflexivity. }
  unfold generate_triplets. destruct (s_nb_triplets st =? 0); [reflexivity|].
  destruct (fit_integer_type (s_nb_triplets st) true); cbn [bind]; [|reflexivity].
  destruct (fit_integer_type (s_nb_blocks st) true); cbn [bind]; [|reflexivity].
  erewrite foldM_ext; [reflexivity|]. intros g b. unfold by_step. rewrite E. reflexivity.
Qed.

Lemma of_BX_nil G : of_BX G = [] <-> r_B G = [] /\ r_X G = [].
Proof.
  unfold of_BX. split; [|intros [-> ->]; reflexivity]. intros E. apply app_eq_nil in E as [E1 E2].
  split; eapply map_eq_nil; eassumption.
Qed.

Lemma capacity_le n m : n <= m -> capacity n <= capacity m.
Proof.
  intros H. unfold capacity. destruct (Z.leb_spec n 127), (Z.leb_spec m 127), (Z.leb_spec n 32767), (Z.leb_spec m 32767),
    (Z.leb_spec n 2147483647), (Z.leb_spec m 2147483647); lia.
Qed.

Lemma storable_le T db n m : n <= m -> storable T db n -> storable T db m.
Proof. intros H Hs k a b x Hw. destruct (Hs k a b x Hw) as (H1 & H2 & H3). lia. Qed.

Section Which.
Variable korder : list key -> list key.
Variable enum : list Z -> list Z.
Variable argsort : list Z -> list nat.
Variable R : rng.
Variable fuel : nat.
Hypothesis korder_ok : lists_keys korder.
Hypothesis enum_ok : lists_set enum.
Hypothesis argsort_ok : argsort_spec argsort.
Variable T : task.
Variable cols : list string.
Variable db : list row.
Variable thr : option Z.
Variable c : nat.
Hypothesis rd : reads cols (t_filters T).
Hypothesis dt : determined T db.
Hypothesis kf : kept_first T db.
Hypothesis rr : reg_reads cols (t_regressors T).
Hypothesis rt : reg_determined T db.
Variable T' : task.
Variable bs : list by_block.
Variable st : stats.
Hypothesis init : task_init korder enum T cols db = Ok (T', bs, st).
Variable bs' : list by_block.
Variable f : task_file.
Hypothesis gen : generate_triplets korder enum argsort R fuel T' thr bs st c = Ok (bs', Some f).

Definition unlimited : Prop := no_threshold thr \/ of_BX (t_regressors T) = [].

Definition written (k : key) (t : triplet) : Prop :=
  exists ij, In (k, ij) (combine (fl_bys f) (fl_by_index f)) /\ In t (rows_of ij (fl_triplets f)).

Lemma gen_none : unlimited -> exists thr0, no_threshold thr0 /\
  generate_triplets korder enum argsort R fuel T' thr0 bs st c = Ok (bs', Some f).
Proof.
  intros [H|H]; [exists thr; auto|]. exists None. split; [left; reflexivity|]. apply of_BX_nil in H as [H1 H2].
  assert (ET : t_regressors T' = t_regressors T) by (destruct (init_inv _ _ _ _ _ init) as (_ & -> & _); reflexivity).
  rewrite (generate_no_regressors _ _ _ _ _ _ None thr), gen; [reflexivity| |]; rewrite ET; assumption.
Qed.

Lemma some_wanted : s_nb_triplets st <> 0 -> exists k t, is_wanted T db k t.
Proof.
  intros N. pose proof (tagged_length korder_ok enum_ok T cols db init) as E.
  destruct (tagged korder enum T' bs) as [|[k [[a b] x]] l] eqn:Et; [cbn in E; congruence|].
  exists k, (a, b, x). apply (tagged_In korder_ok enum_ok rd dt kf init). rewrite Et. left. reflexivity.
Qed.

Lemma announced_some : s_nb_triplets st <> 0.
Proof. exact (proj1 (generate_ok korder enum argsort R fuel T' thr bs st c gen)). Qed.

Lemma rows_fewer t : rng_ok R -> room T db -> 0 < t -> of_BX (t_regressors T) <> [] -> thr = Some t ->
  Zlen (fl_triplets f) <= s_nb_triplets st.
Proof.
  intros HR Hroom Ht HBX Ethr.
  destruct (generate_ok _ _ _ _ _ _ _ _ _ _ gen) as (_ & outss2 & c2 & Hch2 & [(t2 & _ & Ft) _ _ _ _ _] & _).
  rewrite Ft. unfold Zlen at 1. rewrite map_length, <- concat_full, (nb_triplets_sum korder_ok enum_ok T cols db init).
  assert (HP2 : forall b outs, In (b, outs) (combine bs outss2) -> (length (all_triplets outs) <= length (by_list korder enum T' b))%nat).
  { intros b outs Hin. destruct (combine_compute _ _ _ _ _ _ _ _ _ _ _ _ _ Hch2 Hin) as (Hb & c0 & c1 & Hc).
    destruct (compute_thr fuel korder_ok enum_ok argsort_ok rd dt kf rr rt init b c0 HR Hroom Ht HBX Ethr Hb Hc) as (N1 & N2 & _).
    apply NoDup_incl_length; assumption. }
  assert (HL2 : length bs = length outss2) by (apply chain_by_each, Forall2_len in Hch2; exact Hch2).
  clear -HP2 HL2. unfold named. revert outss2 HP2 HL2.
  induction bs as [|b bs0 IH]; intros [|o outss2] HP2 HL2; try discriminate.
  cbn [map combine concat snd sumZ fold_right length In] in *.
  rewrite app_length, Nat2Z.inj_add. unfold sumZ in IH. specialize (IH outss2).
  pose proof (HP2 b o (or_introl eq_refl)). unfold Zlen at 1.
  assert (forall b1 outs, In (b1, outs) (combine bs0 outss2) -> (length (all_triplets outs) <= length (by_list korder enum T' b1))%nat) by (intros; apply HP2; right; assumption).
  specialize (IH H0 ltac:(lia)). lia.
Qed.

Hypothesis Hstore : storable T db (capacity (s_nb_triplets st)).

Lemma all_written : unlimited ->
  Forall2 (fun k ij => lists_that (is_wanted T db k) (rows_of ij (fl_triplets f))) (fl_bys f) (fl_by_index f) /\
  (forall k, In k (fl_bys f) <-> exists t, is_wanted T db k t) /\
  fl_bys f <> [] /\ Zlen (fl_triplets f) = s_nb_triplets st.
Proof.
  intros Hu. destruct (gen_none Hu) as (thr0 & Hn & G).
  destruct (file_exact R fuel korder_ok enum_ok argsort_ok rd dt kf init c G Hn Hstore) as (F & H & E).
  assert (H' : forall k, In k (fl_bys f) <-> exists t, is_wanted T db k t).
  { intros k. rewrite (H k). split; [intros (a & b & y & Hw); exists (a, b, y); exact Hw|intros ([[a b] y] & Hw); exists a, b, y; exact Hw]. }
  split; [|split; [exact H'|split; [|exact E]]].
  - revert F. apply Forall2_impl. intros k ij [H1 H2]. split; [exact H1|]. intros [[a b] y]. apply H2.
  - destruct (some_wanted announced_some) as (k & t & Hw). intros E0. assert (Hk : In k (fl_bys f)) by (apply H'; eauto).
    rewrite E0 in Hk. destruct Hk.
Qed.

Lemma NoDup_combine_fst {A B} (l : list A) (m : list B) a b b' : NoDup l -> In (a, b) (combine l m) -> In (a, b') (combine l m) -> b = b'.
Proof.
  revert m. induction l as [|x l IH]; intros [|y m] ND; cbn; [tauto|tauto|tauto|]. inversion ND as [|? ? N1 N2]; subst.
  intros [E|H] [E'|H'].
  - congruence.
  - injection E as -> ->. exfalso. apply N1. eapply in_combine_l. exact H'.
  - injection E' as -> ->. exfalso. apply N1. eapply in_combine_l. exact H.
  - eapply IH; eassumption.
Qed.

Lemma some_written t : rng_ok R -> room T db -> 0 < t -> of_BX (t_regressors T) <> [] -> thr = Some t ->
  at_most t T db written /\
  Forall2 (fun k ij => lists_that (written k) (rows_of ij (fl_triplets f))) (fl_bys f) (fl_by_index f) /\
  (forall k, In k (fl_bys f) <-> exists t, written k t) /\
  (forall k, In k (fl_bys f) <-> exists t, is_wanted T db k t) /\
  fl_bys f <> [].
Proof.
  intros HR Hroom Ht HBX Ethr.
  destruct (threshold_kept fuel korder_ok enum_ok argsort_ok rd dt kf rr rt init c gen HR Hroom Hstore Ht HBX Ethr) as (Hk & Hrows).
  destruct (file_partition argsort R fuel korder_ok enum_ok rd dt kf init thr c gen Hstore) as (Hti & HND & HF).
  assert (HL : length (fl_bys f) = length (fl_by_index f)) by exact (Forall2_len HF).
  assert (HF' : forall k ij s, In (k, ij) (combine (fl_bys f) (fl_by_index f)) -> In s (rows_of ij (fl_triplets f)) -> is_wanted T db k s).
  { intros k ij [[a b] y] Hin. apply Forall2_combine in HF as [_ HF]. apply (HF _ _ Hin). }
  assert (Hsel : forall k s, written k s -> is_wanted T db k s).
  { intros k s (ij & Hin & Hs). eapply HF'; eassumption. }
  assert (Hone : forall k ij, In (k, ij) (combine (fl_bys f) (fl_by_index f)) ->
            forall s, In s (rows_of ij (fl_triplets f)) <-> written k s).
  { intros k ij Hin s. split; [intros Hs; exists ij; auto|]. intros (ij' & Hin' & Hs).
    rewrite (NoDup_combine_fst _ _ _ _ _ HND Hin Hin'). exact Hs. }
  assert (Hat : forall k, In k (fl_bys f) -> exists ij, In (k, ij) (combine (fl_bys f) (fl_by_index f))).
  { intros k Hin. apply In_nth_error in Hin as (n & Hn). destruct (nth_error_length _ (fl_by_index f) n _ HL Hn) as (ij & Hij).
    exists ij. eapply nth_error_In, nth_error_combine. eauto. }
  split; [split; [exact Hsel|]|split; [|split; [|split; [exact Hk|]]]].
  - intros k t0 all kept Hw Ha Hkept. assert (Hin : In k (fl_bys f)) by (apply Hk; eauto).
    destruct (Hat k Hin) as (ij & Hij). destruct (Hrows k ij Hij) as (_ & Hq). apply (Hq t0 all kept Hw Ha).
    split; [apply Hkept|]. intros s. rewrite (proj2 Hkept s), (Hone k ij Hij s). tauto.
  - assert (G : forall k ij, In (k, ij) (combine (fl_bys f) (fl_by_index f)) -> lists_that (written k) (rows_of ij (fl_triplets f))).
    { intros k ij Hin. split; [apply (Hrows k ij Hin)|apply (Hone k ij Hin)]. }
    clear -G HL. revert G HL. generalize (fl_by_index f). induction (fl_bys f) as [|k l IH]; intros [|ij m] G HL; try discriminate; constructor.
    + apply G. left. reflexivity.
    + apply IH; [|cbn in HL; lia]. intros k' ij' H. apply G. right. exact H.
  - intros k. split.
    + intros Hin. destruct (Hat k Hin) as (ij & Hij).
      destruct ij as [i j]. destruct (tiles_bounds _ _ _ _ _ Hti (in_combine_r _ _ _ _ Hij)) as (B1 & B2).
      destruct (rows_of (i, j) (fl_triplets f)) as [|s l] eqn:Er.
      * exfalso. unfold rows_of in Er. cbn [fst snd] in Er. apply (f_equal (@length _)) in Er. rewrite firstn_length, skipn_length in Er.
        cbn [length] in Er. unfold Zlen in B2. lia.
      * exists s. apply (Hone k (i, j) Hij). rewrite Er. left. reflexivity.
    + intros (s & Hs). apply Hk. exists s. apply Hsel. exact Hs.
  - destruct (some_wanted announced_some) as (k & s & Hw). intros E0. assert (Hin : In k (fl_bys f)) by (apply Hk; eauto).
    rewrite E0 in Hin. destruct Hin.
Qed.

End Which.
