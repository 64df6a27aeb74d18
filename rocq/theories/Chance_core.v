(** The threshold favours no selection of the triplets of a block: the sorted list of the block. *)
From Coq Require Import Reals Lra.
From Verif Require Import Prelude ListFacts TypeFitting TypeFitting_proofs Sampler Sampler_spec Sampler_proofs Sampler_uniform
  Task Task_spec Task_sort Task_regs Task_gen Task_file Task_reg_spec Task_thr_ends Task_blocks
  Chance_spec Chance_count Chance_law Chance_sample Chance_runs.
Open Scope Z_scope.

Definition triplet_dec : forall a b : triplet, {a = b} + {a <> b}.
Proof. repeat decide equality. Defined.
Definition triplets_dec : forall a b : list triplet, {a = b} + {a <> b} := list_eq_dec triplet_dec.
Definition core_dec : forall a b : list nat * list nat * list triplet, {a = b} + {a <> b}.
Proof. intros a b. decide equality; [apply triplets_dec|]. decide equality; apply nats_dec. Defined.

Section Core.
Variable L : Z.
Hypothesis HL : 0 < L.
Variable M : Z.
Hypothesis Hdiv : forall r, 0 < r <= M -> (r | L).
Variable t : Z.
Hypothesis Ht : 0 < t.
Variable argsort : list Z -> list nat.
Hypothesis argsort_ok : argsort_spec argsort.

Definition corec (ts : list triplet) (gs : list (triplet -> Z)) : comp (list nat * list nat * list triplet) :=
  fun fuel R c => core argsort R fuel (Some t) ts gs c.

(** A choice of the triplets that keeps as many of each group as the threshold. *)
Definition choice (gs : list (triplet -> Z)) (ts : list triplet) (keep : triplet -> bool) : Prop :=
  forall s, In s ts -> Z.of_nat (length (filter (fun x => keep x && prof_eqb (profile gs x) (profile gs s)) ts)) =
    Z.min t (Z.of_nat (count_profile gs (profile gs s) ts)).

Definition core_good (ts : list triplet) (gs : list (triplet -> Z)) (l : list (list nat * list nat * list triplet)) : Prop :=
  law L core_dec (corec ts gs) l /\
  (forall x y, In x l -> In y l -> snd (fst x) = snd (fst y) /\ length (snd x) = length (snd y) /\ ((forall s, In s (snd x) <-> In s (snd y)) -> x = y)) /\
  (forall x, In x l -> applied gs ts (fst (fst x)) (snd x) /\ incl (snd x) ts) /\
  forall keep, gs <> [] -> choice gs ts keep -> exists x, In x l /\ forall s, In s (snd x) <-> In s ts /\ keep s = true.

Lemma nth_filter_map (keep : triplet -> bool) (d : triplet) ts p :
  filter keep (map (fun i => nth i ts d) p) = map (fun i => nth i ts d) (filter (fun i => keep (nth i ts d)) p).
Proof. induction p as [|i p IH]; [reflexivity|]. cbn. destruct (keep _); cbn; congruence. Qed.

Lemma core_unfold R fuel ts gs c : gs <> [] -> ts <> [] ->
  core argsort R fuel (Some t) ts gs c =
  (ty <- ind_ty gs ts ;;
   let idx := map (icode ty (bounds_of gs ts)) ts in
   r <- sort_and_threshold R fuel (argsort idx) idx ty (Some t) c ;;
   let '(p, index, c') := r in
   ts' <- gather ts p ;;
   Ok (p, index, ts', c')).
Proof. clear. intros H1 H2. destruct gs; [congruence|]. destruct ts; [congruence|]. reflexivity. Qed.

Lemma core_law ts gs : NoDup ts -> (forall g s, In g gs -> In s ts -> 0 <= g s) ->
  prodZ (map (fun g => maxZ (map g ts) + 1) gs) < 2 ^ 63 ->
  Zlen ts <= ucapacity (prodZ (map (fun g => maxZ (map g ts) + 1) gs)) + 1 -> Zlen ts <= M ->
  exists l, core_good ts gs l.
Proof.
  intros HN Hpos HP Hroom HM.
  destruct (list_eq_dec triplet_dec ts []) as [->|Hts].
  { exists [([], [0%nat], [])]. split; [|split; [|split]].
    - eapply law_ext; [|apply (law_ret L HL core_dec ([], [0%nat], []))]. intros fuel R c. unfold corec, core. destruct gs; reflexivity.
    - intros x y [<-|[]] [<-|[]]. auto.
    - intros x [<-|[]]. split; [left; auto|apply incl_refl].
    - intros keep _ _. eexists. split; [left; reflexivity|]. cbn. tauto. }
  destruct gs as [|g0 gs0] eqn:Egs.
  { exists [([], [0%nat], ts)]. split; [|split; [|split]].
    - eapply law_ext; [|apply (law_ret L HL core_dec ([], [0%nat], ts))]. reflexivity.
    - intros x y [<-|[]] [<-|[]]. auto.
    - intros x [<-|[]]. split; [left; auto|apply incl_refl].
    - intros keep H. congruence. }
  rewrite <- Egs in *. assert (Hgs : gs <> []) by congruence. clear g0 gs0 Egs.
  destruct (@core_codes ts gs Hgs Hpos HP) as (ty & Ei & Hty & Eu & Hc).
  assert (Hinj : forall x y, In x ts -> In y ts -> (icode ty (bounds_of gs ts) x = icode ty (bounds_of gs ts) y <-> profile gs x = profile gs y)).
  { apply (@icode_inj _ ty gs ts Hgs Hpos HP). unfold ind_ty in Ei. rewrite cast_id in Ei; [exact Ei|].
    assert (0 < prodZ (map (fun g => maxZ (map g ts) + 1) gs)).
    { apply prodZ_pos. intros x Hx. apply in_map_iff in Hx as (g & <- & _). pose proof (maxZ_nonneg (map g ts)). lia. }
    change (tmin I64) with (- 2 ^ 63); change (tmax I64) with (2 ^ 63 - 1); lia. }
  set (ic := icode ty (bounds_of gs ts)) in *. set (idx := map ic ts) in *.
  destruct (argsort_ok idx) as [Hp Hsort]. set (permut := argsort idx) in *.
  assert (Li : length idx = length ts) by apply map_length.
  assert (Ex : exists d0 ts0, ts = d0 :: ts0) by (destruct ts as [|d0 ts0]; [congruence|eauto]). destruct Ex as (d0 & ts0 & Ets).
  set (code := fun i => nth i idx 0).
  assert (Lp : length permut = length ts) by (rewrite (Permutation_length Hp), seq_length; exact Li).
  assert (Hin : forall i, In i permut -> (i < length ts)%nat).
  { intros i Hi. apply (Permutation_in _ Hp), in_seq in Hi. lia. }
  assert (NP : NoDup permut) by (eapply Permutation_NoDup; [apply Permutation_sym; exact Hp|apply seq_NoDup]).
  set (s := map code permut) in *.
  assert (Hs : s <> []) by (intros E; apply (f_equal (@length _)) in E; unfold s in E; rewrite map_length, Lp, Ets in E; discriminate).
  assert (HPs : Permutation s idx) by (apply sorted_perm; exact Hp).
  destruct (runs_law L HL M Hdiv t Ht permut ty code) with (rl := rle s) (pre := @nil nat) (post := permut) as (l & Hl & (k & Hk) & Hi & Hown & Hkeep).
  { unfold Zlen in Hroom. rewrite Lp. rewrite Eu in Hroom. lia. }
  { unfold Zlen in HM. rewrite Lp. exact HM. }
  { reflexivity. } { exact NP. } { symmetry. apply expand_rle. }
  { apply StronglySorted_Zlt_NoDup, rle_distinct. exact Hsort. }
  set (pick := fun p : list nat => (p, run_starts s, map (fun i => nth i ts d0) p)).
  assert (Hg : forall p, In p l -> gather ts p = Ok (map (fun i => nth i ts d0) p)).
  { intros p Hpl. apply gather_ok. intros i Hii. apply Hin, (Hi p Hpl), Hii. }
  exists (map pick l). split; [|split; [|split]].
  - eapply law_ext; [|apply (law_map L HL nats_dec core_dec _ (fun p => ts' <- gather ts p ;; Ok (p, run_starts s, ts')) pick l Hl)].
    + intros fuel R c. unfold corec, runs. rewrite core_unfold by assumption. rewrite Ei. cbn [bind]. cbv zeta.
      change (icode ty (bounds_of gs ts)) with ic. change (map ic ts) with idx. change (argsort idx) with permut. unfold sort_and_threshold. rewrite (@gather_ok _ idx permut 0) by (intros i Hii; rewrite Li; apply Hin, Hii). cbn [bind].
      fold code. fold s. rewrite run_lengths by exact Hs. cbn [length].
      destruct (threshold_runs R fuel permut ty (Some t) (map snd (rle s)) 0 c) as [[p c']|e]; cbn [bind fst snd]; [|reflexivity].
      destruct (gather ts p); reflexivity.
    + intros p Hpl. rewrite (Hg p Hpl). reflexivity.
    + intros p q _ _ E. unfold pick in E. congruence.
  - intros x y Hx Hy. apply in_map_iff in Hx as (p & <- & Hpl). apply in_map_iff in Hy as (q & <- & Hql). cbn [pick fst snd].
    split; [reflexivity|]. split; [rewrite !map_length, (Hk p Hpl), (Hk q Hql); reflexivity|]. intros E.
    assert (I : forall p q, In p l -> In q l -> incl (map (fun i => nth i ts d0) p) (map (fun i => nth i ts d0) q) -> incl p q).
    { intros p' q' Hp' Hq' I i Hii. specialize (I _ (in_map _ _ _ Hii)). apply in_map_iff in I as (j & Eij & Hjj).
      apply (proj1 (NoDup_nth ts d0) HN) in Eij; [subst j; exact Hjj|apply Hin, (Hi q' Hq'), Hjj|apply Hin, (Hi p' Hp'), Hii]. }
    f_equal. apply Hown; auto. intros i. split; revert i; apply I; auto; intros u Hu'; apply E; exact Hu'.
  - intros x Hx. apply in_map_iff in Hx as (p & <- & Hpl). cbn [pick fst snd]. split; [right; split; [auto|apply Hg, Hpl]|].
    intros u Hu. apply in_map_iff in Hu as (i & <- & Hii). apply nth_In, Hin, (Hi p Hpl), Hii.
  - intros keep _ Hch. exists (pick (filter (fun i => keep (nth i ts d0)) permut)). split.
    + apply in_map. apply Hkeep. intros v n Hvn. destruct (@In_rle_count s v n Hsort Hvn) as (Hv & En).
      rewrite (countZ_perm v HPs) in En. apply (Permutation_in _ HPs) in Hv. unfold idx in Hv. apply in_map_iff in Hv as (u & Eu' & Hu).
      subst v n. rewrite (Hc u Hu), <- (Hch u Hu). f_equal.
      assert (Hcode : forall i, (i < length ts)%nat -> (code i =? ic u) = prof_eqb (profile gs (nth i ts d0)) (profile gs u)).
      { intros i Hii. unfold code, idx. rewrite (nth_indep _ 0 (ic d0)) by (rewrite map_length; exact Hii). rewrite map_nth.
        assert (Hnth : In (nth i ts d0) ts) by (apply nth_In; exact Hii).
        unfold prof_eqb. destruct (list_eq_dec Z.eq_dec (profile gs (nth i ts d0)) (profile gs u)) as [E|E].
        - apply Z.eqb_eq. apply Hinj; auto.
        - apply Z.eqb_neq. intros E'. apply E. apply Hinj; auto. }
      rewrite (filter_ext_in (fun i => keep (nth i ts d0) && (code i =? ic u)) (fun i => (fun x => keep x && prof_eqb (profile gs x) (profile gs u)) (nth i ts d0)))
        by (intros i Hii; cbn beta; rewrite Hcode by (apply Hin, Hii); reflexivity).
      rewrite <- (map_length (fun i => nth i ts d0)), <- (nth_filter_map (fun x => keep x && prof_eqb (profile gs x) (profile gs u))). apply Permutation_length, Permutation_filter.
      transitivity (map (fun i => nth i ts d0) (seq 0 (length ts))); [rewrite <- Li; apply Permutation_map; exact Hp|rewrite map_nth_seq; reflexivity].
    + intros u. cbn [pick snd]. rewrite <- nth_filter_map, filter_In. split; intros [H1 H2]; (split; [|exact H2]).
      * apply in_map_iff in H1 as (i & <- & Hii). apply nth_In, Hin, Hii.
      * apply (In_nth _ _ d0) in H1 as (i & Hii & <-). apply (in_map (fun i => nth i ts d0)). apply (Permutation_in _ (Permutation_sym Hp)), in_seq. lia.
Qed.
End Core.
