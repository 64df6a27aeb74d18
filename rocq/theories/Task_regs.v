(** Lemmas about the regressors of a block and the order of its triplets. *)
From Coq Require Import String.
From Verif Require Import Prelude ListFacts TypeFitting TypeFitting_proofs
  Sampler Sampler_spec Sampler_proofs Task Task_blocks Task_sort.
Set Implicit Arguments.
Open Scope Z_scope.

(* ------------------------------------------------------------------ *)
(** ** Mixed radix codes *)

Section Codes.
Variable C : Type.

Fixpoint wcode (ty : itype) (first : bool) (ngs : list (Z * (C -> Z))) (a : Z) (t : C) : Z :=
  match ngs with
  | [] => a
  | (n, g) :: r => wcode ty false r (widen ty false (g t + widen ty first (n * a))) t
  end.

Definition columns (ngs : list (Z * (C -> Z))) (ts : list C) : list (Z * list Z) :=
  map (fun ng => (fst ng, map (snd ng) ts)) ngs.

Lemma fold_index_map ty first ngs (h : C -> Z) ts :
  fold_index ty first (columns ngs ts) (map h ts) = map (fun t => wcode ty first ngs (h t) t) ts.
Proof.
  revert first h. induction ngs as [|[n g] r IH]; intros first h; [reflexivity|].
  cbn [columns map fold_index fst snd wcode]. fold (columns r ts).
  assert (E : map (fun p : Z * Z => widen ty false (fst p + widen ty first (n * snd p)))
                  (combine (map g ts) (map h ts)) =
              map (fun t => widen ty false (g t + widen ty first (n * h t))) ts).
  { clear. induction ts as [|t ts IH]; [reflexivity|]. cbn. f_equal. exact IH. }
  rewrite E. apply (IH false (fun t => widen ty false (g t + widen ty first (n * h t)))).
Qed.

Definition icode (ty : itype) (ngs : list (Z * (C -> Z))) (t : C) : Z :=
  match ngs with
  | [] => 0
  | (_, g) :: r => wcode ty true r (cast ty (g t)) t
  end.

Lemma regressor_index_map ty ngs ts :
  ngs <> [] -> regressor_index ty (columns ngs ts) = map (icode ty ngs) ts.
Proof.
  destruct ngs as [|[n g] r]; [congruence|]. intros _.
  cbn [columns map regressor_index fst snd icode]. fold (columns r ts). rewrite map_map.
  apply (fold_index_map ty true r (fun t => cast ty (g t))).
Qed.

Lemma wcode_inj ty P (ts : list C) :
  (forall first x, 0 <= x <= P -> widen ty first x = x) ->
  forall ngs first a a' t t' M,
  (forall n g, In (n, g) ngs -> forall s, In s ts -> 0 <= g s < n) ->
  In t ts -> In t' ts ->
  0 <= a < M -> 0 <= a' < M -> M * prodZ (map fst ngs) <= P ->
  wcode ty first ngs a t = wcode ty first ngs a' t' ->
  a = a' /\ forall n g, In (n, g) ngs -> g t = g t'.
Proof.
  intros Hw. induction ngs as [|[n g] r IH]; intros first a a' t t' M Hg Ht Ht' Ha Ha' HM E.
  - cbn in E. split; [exact E|]. intros n g [].
  - cbn [wcode] in E. cbn [map prodZ fold_right fst] in HM. fold (prodZ (map fst r)) in HM.
    pose proof (Hg n g (or_introl eq_refl) t Ht) as G1.
    pose proof (Hg n g (or_introl eq_refl) t' Ht') as G2.
    assert (HPr : 0 < prodZ (map fst r)).
    { assert (Hpos : forall m, In m (map fst r) -> 0 < m).
      { intros m Hm. apply in_map_iff in Hm as ([m' g'] & <- & Hm). cbn.
        pose proof (Hg m' g' (or_intror Hm) t Ht). lia. }
      clear -Hpos. induction (map fst r) as [|m l IHl]; cbn; [lia|].
      apply Z.mul_pos_pos; [apply Hpos; left; reflexivity|]. apply IHl. intros; apply Hpos; right; assumption. }
    assert (HMn : (M * n) * prodZ (map fst r) <= P) by (rewrite <- Z.mul_assoc; exact HM).
    assert (HMn' : M * n <= P).
    { assert (0 <= M * n) by (apply Z.mul_nonneg_nonneg; lia). revert HMn HPr. clear -H.
      generalize (M * n) (prodZ (map fst r)) H. intros q p Hq H1 H2. nia. }
    assert (HB : forall a0 d, 0 <= a0 < M -> 0 <= d < n -> 0 <= n * a0 /\ 0 <= d + n * a0 < M * n).
    { clear. intros a0 d H1 H2. nia. }
    pose proof (HB a (g t) Ha G1). pose proof (HB a' (g t') Ha' G2). clear HB.
    rewrite (Hw first (n * a)), (Hw first (n * a')), (Hw false (g t + n * a)), (Hw false (g t' + n * a')) in E by lia.
    apply (IH false _ _ t t' (M * n)) in E; auto; try lia.
    + destruct E as [E1 E2]. assert (Ea : a = a').
      { clear -E1 G1 G2. destruct (Z.lt_trichotomy a a') as [L|[L|L]]; auto; exfalso; nia. }
      subst a'. assert (Eg : g t = g t') by lia.
      split; [reflexivity|]. intros n' g' [E'|Hin]; [inversion E'; subst; exact Eg|eauto].
    + intros n' g' Hin. apply Hg. right. exact Hin.
Qed.

Definition bounds_of (gs : list (C -> Z)) (ts : list C) : list (Z * (C -> Z)) :=
  map (fun g => (maxZ (map g ts) + 1, g)) gs.

Definition profile (gs : list (C -> Z)) (t : C) : list Z := map (fun g => g t) gs.

Lemma widen_id ty P : 0 < P < 2 ^ 63 -> fit_integer_type P false = Ok ty ->
  forall first x, 0 <= x <= P -> widen ty first x = x.
Proof.
  intros HP Hf first x Hx. unfold widen.
  assert (E1 : cast ty x = x) by (apply (fit_cast _ _ _ _ Hf); lia).
  assert (E2 : cast I64 x = x).
  { apply cast_id. change (tmin I64) with (- 2 ^ 63). change (tmax I64) with (2 ^ 63 - 1). lia. }
  destruct ty, first; auto.
Qed.

Lemma prodZ_pos l : (forall x, In x l -> 0 < x) -> 0 < prodZ l.
Proof.
  induction l as [|x l IH]; cbn; intros H; [lia|]. apply Z.mul_pos_pos; [apply H; auto|apply IH; auto].
Qed.

Lemma icode_inj ty gs ts :
  gs <> [] -> (forall g t, In g gs -> In t ts -> 0 <= g t) ->
  prodZ (map (fun g => maxZ (map g ts) + 1) gs) < 2 ^ 63 ->
  fit_integer_type (prodZ (map (fun g => maxZ (map g ts) + 1) gs)) false = Ok ty ->
  forall t t', In t ts -> In t' ts ->
  (icode ty (bounds_of gs ts) t = icode ty (bounds_of gs ts) t' <-> profile gs t = profile gs t').
Proof.
  intros Hne Hpos HP Hf t t' Ht Ht'.
  set (P := prodZ (map (fun g => maxZ (map g ts) + 1) gs)) in *.
  assert (HP0 : 0 < P).
  { apply prodZ_pos. intros x Hx. apply in_map_iff in Hx as (g & <- & _). pose proof (maxZ_nonneg (map g ts)). lia. }
  pose proof (widen_id (conj HP0 HP) Hf) as Hw.
  assert (Hb : forall n g, In (n, g) (bounds_of gs ts) -> forall s, In s ts -> 0 <= g s < n).
  { intros n g Hin s Hs. unfold bounds_of in Hin. apply in_map_iff in Hin as (g' & E & Hin). inversion E; subst.
    split; [auto|]. pose proof (@maxZ_ge (map g ts) (g s) (in_map g _ _ Hs)). lia. }
  assert (EP : P = prodZ (map fst (bounds_of gs ts))).
  { unfold P, bounds_of. rewrite map_map. reflexivity. }
  assert (Hgs : forall g, In g gs <-> exists n, In (n, g) (bounds_of gs ts)).
  { intros g. unfold bounds_of. split.
    - intros H. exists (maxZ (map g ts) + 1). apply in_map_iff. eauto.
    - intros (n & H). apply in_map_iff in H as (g' & E & H). inversion E; subst. exact H. }
  split.
  - intros E. assert (G : forall n g, In (n, g) (bounds_of gs ts) -> g t = g t').
    { unfold icode in E. destruct (bounds_of gs ts) as [|[n0 g0] r] eqn:Eb; [intros n g []|].
      assert (B1 : 0 <= g0 t < n0) by (apply Hb; [left; reflexivity|exact Ht]).
      assert (B2 : 0 <= g0 t' < n0) by (apply Hb; [left; reflexivity|exact Ht']).
      cbn [map fst prodZ fold_right] in EP. fold (prodZ (map fst r)) in EP.
      assert (HPr : 0 < prodZ (map fst r)).
      { apply prodZ_pos. intros m Hm. apply in_map_iff in Hm as ([m' g'] & <- & Hm). cbn.
        pose proof (Hb m' g' (or_intror Hm) t Ht). lia. }
      assert (Hn0 : n0 <= P) by nia.
      rewrite !(@fit_cast P false ty) in E by (auto; lia).
      apply (wcode_inj _ ts Hw) with (M := n0) in E; auto; try lia.
      - destruct E as [E1 E2]. intros n g [E'|Hin]; [inversion E'; subst; exact E1|eauto].
      - intros n g Hin. apply Hb. right. exact Hin. }
    unfold profile. apply map_ext_in. intros g Hg. apply Hgs in Hg as (n & Hg). eauto.
  - intros E. assert (G : forall n g, In (n, g) (bounds_of gs ts) -> g t = g t').
    { intros n g Hin. assert (Hg : In g gs) by (apply Hgs; eauto). unfold profile in E.
      clear -E Hg. induction gs as [|g0 gs IH]; [destruct Hg|]. cbn in E. injection E as E1 E2.
      destruct Hg as [->|Hg]; auto. }
    unfold icode. destruct (bounds_of gs ts) as [|[n0 g0] r]; [reflexivity|].
    rewrite (G n0 g0) by (left; reflexivity).
    assert (G' : forall n g, In (n, g) r -> g t = g t') by (intros; eapply G; right; eauto).
    generalize (cast ty (g0 t')) true. clear -G'. induction r as [|[n g] r IH]; intros a f; [reflexivity|].
    cbn [wcode]. rewrite (G' n g) by (left; reflexivity). apply IH. intros; eapply G'; right; eauto.
Qed.

End Codes.

(* ------------------------------------------------------------------ *)
(** ** The sort of a block *)

Section Regs.
Variable argsort : list Z -> list nat.
Variable R : rng.
Variable fuel : nat.
Hypothesis argsort_ok : argsort_spec argsort.

Definition ind_ty (gs : list (triplet -> Z)) (ts : list triplet) : res itype :=
  fit_integer_type (cast I64 (prodZ (map (fun g => maxZ (map g ts) + 1) gs))) false.

Definition core (thr : option Z) (ts : list triplet) (gs : list (triplet -> Z)) (c : nat)
  : res (list nat * list nat * list triplet * nat) :=
  match gs, ts with
  | [], _ | _, [] => Ok ([], [0%nat], ts, c)
  | _, _ =>
    ty <- ind_ty gs ts ;;
    let idx := map (icode ty (bounds_of gs ts)) ts in
    r <- sort_and_threshold R fuel (argsort idx) idx ty thr c ;;
    let '(p, index, c') := r in
    ts' <- gather ts p ;;
    Ok (p, index, ts', c')
  end.

(** The permutation applied to the rows of a block. *)
Definition applied (gs : list (triplet -> Z)) (ts : list triplet) (p : list nat)
           (ts' : list triplet) : Prop :=
  (gs = [] \/ ts = []) /\ p = [] /\ ts' = ts \/
  (gs <> [] /\ ts <> []) /\ gather ts p = Ok ts'.

Lemma core_applied thr ts gs c p index ts' c' :
  core thr ts gs c = Ok (p, index, ts', c') -> applied gs ts p ts'.
Proof.
  unfold core, applied. destruct gs as [|g gs].
  - intros E. inversion E; subst. left. auto.
  - destruct ts as [|t ts].
    + intros E. inversion E; subst. left. auto.
    + intros H. apply bind_ok in H as (ty & Hty & H). apply bind_ok in H as ([[p0 i0] c0] & Hs & H).
      apply bind_ok in H as (ts0 & Hg & H). inversion H; subst. right. repeat split; congruence.
Qed.

Lemma applied_column gs ts p ts' (g : triplet -> Z) :
  applied gs ts p ts' -> gs <> [] -> gather (map g ts) p = Ok (map g ts').
Proof.
  intros [[[H|H] [Hp Ht]]|[_ Hg]] Hne; [tauto| |].
  - subst. reflexivity.
  - rewrite gather_map, Hg. reflexivity.
Qed.

Lemma gather_permutation A (ts : list A) p ts' :
  Permutation p (seq 0 (length ts)) -> gather ts p = Ok ts' -> Permutation ts' ts.
Proof.
  intros Hp Hg. destruct ts as [|d ts0] eqn:E.
  - apply Permutation_sym, Permutation_nil in Hp. subst p. cbn in Hg. inversion Hg. constructor.
  - rewrite <- E in *. rewrite (@gather_ok _ ts p d) in Hg.
    + injection Hg as <-. transitivity (map (fun i => nth i ts d) (seq 0 (length ts)));
        [apply Permutation_map; exact Hp|rewrite map_nth_seq; reflexivity].
    + intros i Hi. apply (Permutation_in _ Hp), in_seq in Hi. lia.
Qed.

Lemma core_none thr ts gs c p index ts' c' :
  no_threshold thr -> core thr ts gs c = Ok (p, index, ts', c') ->
  c' = c /\ Permutation ts' ts.
Proof.
  intros Ht. unfold core. destruct gs as [|g gs].
  - intros E. inversion E; subst. auto.
  - destruct ts as [|t ts].
    + intros E. inversion E; subst. auto.
    + intros H. apply bind_ok in H as (ty & Hty & H).
      set (idx := map (icode ty (bounds_of (g :: gs) (t :: ts))) (t :: ts)) in *.
      assert (Li : length idx = length (t :: ts)) by apply map_length.
      assert (Hp : Permutation (argsort idx) (seq 0 (length idx))) by apply argsort_ok.
      destruct (@sort_and_threshold_none R fuel (argsort idx) idx ty thr c Ht) as (ui & E);
        [unfold idx; discriminate|exact Hp|].
      rewrite E in H. cbn [bind] in H. apply bind_ok in H as (ts0 & Hg & H). inversion H; subst.
      split; [reflexivity|]. refine (@gather_permutation _ _ (argsort idx) _ _ Hg).
      rewrite <- Li. exact Hp.
Qed.

Lemma core_none_total thr ts gs c :
  no_threshold thr -> (exists ty, ind_ty gs ts = Ok ty) ->
  exists r, core thr ts gs c = Ok r.
Proof.
  intros Ht [ty Hty]. unfold core. destruct gs as [|g gs]; [eauto|]. destruct ts as [|t ts]; [eauto|].
  rewrite Hty. cbn [bind].
  set (idx := map (icode ty (bounds_of (g :: gs) (t :: ts))) (t :: ts)) in *.
  assert (Li : length idx = length (t :: ts)) by apply map_length.
  assert (Hp : Permutation (argsort idx) (seq 0 (length idx))) by apply argsort_ok.
  destruct (@sort_and_threshold_none R fuel (argsort idx) idx ty thr c Ht) as (ui & E);
    [unfold idx; discriminate|exact Hp|].
  rewrite E. cbn [bind]. rewrite (@gather_ok _ (t :: ts) _ t); [cbn [bind]; eauto|].
  intros i Hi. apply (Permutation_in _ Hp), in_seq in Hi. lia.
Qed.

Definition prof_eqb (q q' : list Z) : bool := if list_eq_dec Z.eq_dec q q' then true else false.

Definition count_profile (gs : list (triplet -> Z)) (q : list Z) (ts : list triplet) : nat :=
  length (filter (fun t => prof_eqb (profile gs t) q) ts).

Hypothesis R_ok : rng_ok R.

(** With a threshold [t]: distinct triplets of the block, at most [t] of each profile and
    all of them when there are no more, equal profiles next to each other. *)
Lemma core_some t ts gs c p index ts' c' :
  0 < t -> gs <> [] -> NoDup ts ->
  (forall g s, In g gs -> In s ts -> 0 <= g s) ->
  prodZ (map (fun g => maxZ (map g ts) + 1) gs) < 2 ^ 63 ->
  (forall ty, fit_integer_type (prodZ (map (fun g => maxZ (map g ts) + 1) gs)) false = Ok ty ->
     Zlen ts - 1 <= tmax ty) ->
  core (Some t) ts gs c = Ok (p, index, ts', c') ->
  NoDup ts' /\ incl ts' ts /\
  (forall q, count_profile gs q ts' = Nat.min (Z.to_nat t) (count_profile gs q ts)) /\
  (exists f : triplet -> Z, StronglySorted Z.le (map f ts') /\
     forall s s', In s ts -> In s' ts -> (f s = f s' <-> profile gs s = profile gs s')).
Proof.
  intros Ht Hgs Hn Hpos HP Hty H. unfold core in H.
  destruct gs as [|g0 gs0] eqn:Egs; [congruence|]. rewrite <- Egs in *.
  destruct ts as [|t0 ts0] eqn:Ets.
  { inversion H; subst. repeat split; [constructor|apply incl_refl| |].
    - intros q. unfold count_profile. cbn. lia.
    - exists (fun _ => 0). split; [constructor|]. intros s s' []. }
  rewrite <- Ets in *.
  assert (H' : (ty <- ind_ty gs ts;;
       (let idx := map (icode ty (bounds_of gs ts)) ts in
        r <- sort_and_threshold R fuel (argsort idx) idx ty (Some t) c;;
        (let '(p0, index0, c'0) := r in ts'0 <- gather ts p0;; Ok (p0, index0, ts'0, c'0)))) =
      Ok (p, index, ts', c')) by (rewrite Egs in *; exact H). clear H. rename H' into H.
  apply bind_ok in H as (ty & Hf & H). unfold ind_ty in Hf.
  set (P := prodZ (map (fun g => maxZ (map g ts) + 1) gs)) in *.
  assert (HP0 : 0 < P).
  { apply prodZ_pos. intros x Hx. apply in_map_iff in Hx as (g & <- & _). pose proof (maxZ_nonneg (map g ts)). lia. }
  rewrite (@cast_id I64 P) in Hf by (change (tmin I64) with (- 2 ^ 63); change (tmax I64) with (2 ^ 63 - 1); lia).
  specialize (Hty ty Hf).
  pose proof (@icode_inj _ ty gs ts Hgs Hpos HP Hf) as Hinj.
  set (ic := icode ty (bounds_of gs ts)) in *. set (idx := map ic ts) in *. cbv zeta in H.
  apply bind_ok in H as ([[p0 i0] c0] & Hs & H). apply bind_ok in H as (ts1 & Hg & H).
  inversion H; subst p0 i0 ts1 c0; clear H.
  assert (Li : length idx = length ts) by apply map_length.
  destruct (argsort_ok idx) as [Hp Hsort].
  apply sort_and_threshold_some in Hs; auto.
  2:{ unfold idx. rewrite Ets. discriminate. }
  2:{ rewrite Li. exact Hty. }
  destruct Hs as (Np & Ip & Sp & Cp).
  assert (Hin : forall i, In i p -> (i < length ts)%nat).
  { intros i Hi. apply Ip, in_seq in Hi. lia. }
  rewrite (@gather_ok _ ts p t0) in Hg by exact Hin. injection Hg as Hg.
  assert (Eic : map ic ts' = map (fun i => nth i idx 0) p).
  { rewrite <- Hg, map_map. apply map_ext_in. intros i Hi. unfold idx.
    rewrite (nth_indep _ 0 (ic t0)) by (rewrite map_length; auto). symmetry. apply map_nth. }
  assert (I' : incl ts' ts).
  { rewrite <- Hg. intros s Hs. apply in_map_iff in Hs as (i & <- & Hi). apply nth_In. auto. }
  split; [|split; [exact I'|split]].
  - rewrite <- Hg. apply NoDup_map_inj; [|exact Np]. intros i j Hi Hj E.
    apply (proj1 (NoDup_nth ts t0) Hn); auto.
  - intros q. unfold count_profile.
    destruct (existsb (fun s => prof_eqb (profile gs s) q) ts) eqn:Ex.
    + apply existsb_exists in Ex as (s & Hs & Eq). unfold prof_eqb in Eq.
      destruct (list_eq_dec Z.eq_dec (profile gs s) q) as [E|]; [|discriminate]. subst q.
      assert (Q : forall l, incl l ts ->
        length (filter (fun t1 => prof_eqb (profile gs t1) (profile gs s)) l) = countZ (ic s) (map ic l)).
      { intros l Hl. unfold countZ. clear -Hinj Hl Hs. induction l as [|x l IHl]; [reflexivity|].
        cbn [filter map]. assert (Hx : In x ts) by (apply Hl; left; reflexivity).
        assert (Hl' : incl l ts) by (intros y Hy; apply Hl; right; exact Hy).
        unfold prof_eqb at 1. destruct (list_eq_dec Z.eq_dec (profile gs x) (profile gs s)) as [E|E].
        - apply Hinj in E; auto. rewrite E, Z.eqb_refl. cbn. rewrite IHl by exact Hl'. reflexivity.
        - destruct (Z.eqb_spec (ic s) (ic x)) as [E'|E']; [|apply IHl; exact Hl'].
          exfalso. apply E. apply Hinj; auto. }
      rewrite !Q by (auto using incl_refl). rewrite Eic. apply Cp.
    + assert (Q : forall l, incl l ts -> filter (fun t1 => prof_eqb (profile gs t1) q) l = []).
      { intros l Hl. apply filter_none. intros x Hx. apply Hl in Hx.
        destruct (prof_eqb (profile gs x) q) eqn:E; [|reflexivity].
        rewrite <- Ex. symmetry. apply existsb_exists. eauto. }
      rewrite !Q by (auto using incl_refl). cbn. lia.
  - exists ic. split; [rewrite Eic; exact Sp|]. intros s s' Hs Hs'. apply Hinj; assumption.
Qed.

(** Without threshold too equal profiles are next to each other. *)
Lemma core_sorted thr ts gs c p index ts' c' :
  no_threshold thr -> gs <> [] ->
  (forall g s, In g gs -> In s ts -> 0 <= g s) ->
  prodZ (map (fun g => maxZ (map g ts) + 1) gs) < 2 ^ 63 ->
  core thr ts gs c = Ok (p, index, ts', c') ->
  exists f : triplet -> Z, StronglySorted Z.le (map f ts') /\
     forall s s', In s ts -> In s' ts -> (f s = f s' <-> profile gs s = profile gs s').
Proof.
  intros Ht Hgs Hpos HP H. unfold core in H.
  destruct gs as [|g0 gs0] eqn:Egs; [congruence|]. rewrite <- Egs in *.
  destruct ts as [|t0 ts0] eqn:Ets.
  { inversion H; subst. exists (fun _ => 0). split; [constructor|]. intros s s' []. }
  rewrite <- Ets in *.
  assert (H' : (ty <- ind_ty gs ts;;
       (let idx := map (icode ty (bounds_of gs ts)) ts in
        r <- sort_and_threshold R fuel (argsort idx) idx ty thr c;;
        (let '(p0, index0, c'0) := r in ts'0 <- gather ts p0;; Ok (p0, index0, ts'0, c'0)))) =
      Ok (p, index, ts', c')) by (rewrite Egs in *; exact H). clear H. rename H' into H.
  apply bind_ok in H as (ty & Hf & H). unfold ind_ty in Hf.
  set (P := prodZ (map (fun g => maxZ (map g ts) + 1) gs)) in *.
  assert (HP0 : 0 < P).
  { apply prodZ_pos. intros x Hx. apply in_map_iff in Hx as (g & <- & _). pose proof (maxZ_nonneg (map g ts)). lia. }
  rewrite (@cast_id I64 P) in Hf by (change (tmin I64) with (- 2 ^ 63); change (tmax I64) with (2 ^ 63 - 1); lia).
  pose proof (@icode_inj _ ty gs ts Hgs Hpos HP Hf) as Hinj.
  set (ic := icode ty (bounds_of gs ts)) in *. set (idx := map ic ts) in *. cbv zeta in H.
  assert (Li : length idx = length ts) by apply map_length.
  destruct (argsort_ok idx) as [Hp Hsort].
  destruct (@sort_and_threshold_none R fuel (argsort idx) idx ty thr c Ht) as (ui & E);
    [unfold idx; rewrite Ets; discriminate|exact Hp|].
  rewrite E in H. cbn [bind] in H. apply bind_ok in H as (ts1 & Hg & H). inversion H; subst p index ts1 c'; clear H.
  assert (Hin : forall i, In i (argsort idx) -> (i < length ts)%nat).
  { intros i Hi. apply (Permutation_in _ Hp), in_seq in Hi. lia. }
  rewrite (@gather_ok _ ts _ t0) in Hg by exact Hin. injection Hg as Hg.
  exists ic. split; [|intros s s' Hs Hs'; apply Hinj; assumption].
  rewrite <- Hg, map_map.
  assert (Eic : map (fun x => ic (nth x ts t0)) (argsort idx) = map (fun i => nth i idx 0) (argsort idx)).
  { apply map_ext_in. intros i Hi. unfold idx.
    rewrite (nth_indep _ 0 (ic t0)) by (rewrite map_length; auto). symmetry. apply map_nth. }
  rewrite Eic. exact Hsort.
Qed.

(* ------------------------------------------------------------------ *)
(** ** Regressors of a block *)

Section Block.
Variable T : task.
Variable b : by_block.
Hypothesis wf : wf_block b.
Local Notation fr := (b_frame b).
Local Notation rowof := (rowof b).

Definition regcol (v : row) (rs : list (string * (row -> row -> Z))) (l : list Z)
  : list (string * list Z) :=
  map (fun nf => (fst nf, map (fun x => snd nf v (rowof x)) l)) rs.

Lemma item_regressors_ok v rs l :
  incl l (labels fr) -> item_regressors rs v fr l = Ok (regcol v rs l).
Proof.
  intros Hl. unfold item_regressors, regcol. apply mapM_ok_map. intros [n f] _.
  rewrite (@mapM_ok_map _ _ _ (fun x => f v (rowof x))); [reflexivity|].
  intros x Hx. rewrite (loc_rowof wf) by auto. reflexivity.
Qed.

Definition gB (v : row) (rs : list (string * (row -> row -> Z))) : list (triplet -> Z) :=
  map (fun nf t => snd nf v (rowof (pB t))) rs.
Definition gX (v : row) (rs : list (string * (row -> row -> Z))) : list (triplet -> Z) :=
  map (fun nf t => snd nf v (rowof (pX t))) rs.

Lemma sort_design_core thr v A B X d rB rX c :
  design_ok T b v A B X d ->
  sort_design argsort R fuel thr d (regcol v rB B) (regcol v rX X) c =
  core thr (d_triplets d) (gB v rB ++ gX v rX) c.
Proof.
  intros Hd. unfold sort_design, regcol.
  assert (EB : mapM (fun nr : string * list Z => spread (d_iB d) (d_ABX d) (snd nr))
                 (map (fun nf => (fst nf, map (fun x => snd nf v (rowof x)) B)) rB) =
               Ok (map (fun g => map g (d_triplets d)) (gB v rB))).
  { clear -Hd. induction rB as [|[n f] rB IH]; [reflexivity|].
    cbn [map mapM fst snd]. rewrite (dk_spreadB Hd). cbn [bind]. rewrite IH. reflexivity. }
  assert (EX : mapM (fun nr : string * list Z => spread (d_iX d) (d_ABX d) (snd nr))
                 (map (fun nf => (fst nf, map (fun x => snd nf v (rowof x)) X)) rX) =
               Ok (map (fun g => map g (d_triplets d)) (gX v rX))).
  { clear -Hd. induction rX as [|[n f] rX IH]; [reflexivity|].
    cbn [map mapM fst snd]. rewrite (dk_spreadX Hd). cbn [bind]. rewrite IH. reflexivity. }
  rewrite EB, EX. cbn [bind]. rewrite <- map_app. set (gs := gB v rB ++ gX v rX).
  unfold core. destruct gs as [|g gs'] eqn:Eg; [reflexivity|]. rewrite <- Eg.
  assert (Hne : gs <> []) by congruence. clearbody gs. clear EB EX.
  destruct (map (fun g => map g (d_triplets d)) gs) as [|col cols] eqn:Ec.
  { destruct gs; [congruence|discriminate]. }
  destruct (d_triplets d) as [|t ts] eqn:Et; [destruct gs; reflexivity|]. rewrite <- Ec.
  rewrite <- Et in *.
  rewrite map_map. unfold ind_ty.
  destruct (fit_integer_type (cast I64 (prodZ (map (fun x => maxZ (map x (d_triplets d)) + 1) gs))) false) as [ty|e];
    cbn [bind]; [|try rewrite Eg; reflexivity].
  assert (Eidx : combine (map (fun x => maxZ (map x (d_triplets d)) + 1) gs) (map (fun g => map g (d_triplets d)) gs)
                 = columns (bounds_of gs (d_triplets d)) (d_triplets d)).
  { unfold columns, bounds_of. clear. induction gs as [|g gs IH]; [reflexivity|]. cbn. f_equal. exact IH. }
  rewrite Eidx, regressor_index_map by (unfold bounds_of; destruct gs; [congruence|discriminate]).
  try rewrite Eg; reflexivity.
Qed.

(** What the rows of a block carry. *)
Lemma compute_regressors_ok v A B X d p ts' n sc rA rB rX :
  design_ok T b v A B X d ->
  applied (gB v rB ++ gX v rX) (d_triplets d) p ts' ->
  exists As,
    compute_regressors d p n sc (regcol v rA A) (regcol v rB B) (regcol v rX X) =
    Ok (map (fun nv => (fst nv, repeat (snd nv) n)) sc ++ As ++
        map (fun nf => (fst nf, map (fun t => snd nf v (rowof (pB t))) ts')) rB ++
        map (fun nf => (fst nf, map (fun t => snd nf v (rowof (pX t))) ts')) rX) /\
    As = map (fun nf : string * (row -> row -> Z) =>
            (fst nf, map (fun t => snd nf v (rowof (pA t)))
               (match f_ABX (t_filters T) with
                | None => d_triplets d
                | Some _ => match gB v rB ++ gX v rX with [] => [] | _ => ts' end
                end))) rA.
Proof.
  intros Hd Ha. unfold compute_regressors, regcol.
  set (gs := gB v rB ++ gX v rX) in *.
  assert (HB : rB <> [] -> gs <> []).
  { unfold gs, gB. destruct rB; [congruence|discriminate]. }
  assert (HX : rX <> [] -> gs <> []).
  { unfold gs, gX. intros H E. apply app_eq_nil in E as [_ E]. destruct rX; [congruence|discriminate]. }
  assert (EB : mapM (fun nr : string * list Z =>
            c <- spread (d_iB d) (d_ABX d) (snd nr);; c0 <- gather c p;; Ok (fst nr, c0))
           (map (fun nf => (fst nf, map (fun x => snd nf v (rowof x)) B)) rB) =
       Ok (map (fun nf => (fst nf, map (fun t => snd nf v (rowof (pB t))) ts')) rB)).
  { clearbody gs. clear HX. induction rB as [|[m f] rB' IH]; [reflexivity|].
    cbn [map mapM fst snd]. rewrite (dk_spreadB Hd). cbn [bind].
    rewrite (applied_column _ Ha) by (apply HB; discriminate). cbn [bind].
    rewrite IH by (intros _; apply HB; discriminate). reflexivity. }
  assert (EX : mapM (fun nr : string * list Z =>
            c <- spread (d_iX d) (d_ABX d) (snd nr);; c0 <- gather c p;; Ok (fst nr, c0))
           (map (fun nf => (fst nf, map (fun x => snd nf v (rowof x)) X)) rX) =
       Ok (map (fun nf => (fst nf, map (fun t => snd nf v (rowof (pX t))) ts')) rX)).
  { clearbody gs. clear HB EB. induction rX as [|[m f] rX' IH]; [reflexivity|].
    cbn [map mapM fst snd]. rewrite (dk_spreadX Hd). cbn [bind].
    rewrite (applied_column _ Ha) by (apply HX; discriminate). cbn [bind].
    rewrite IH by (intros _; apply HX; discriminate). reflexivity. }
  eexists. split; [|reflexivity].
  assert (EA : mapM (fun nr : string * list Z =>
            c <- spread (d_iA d) (d_ABX d) (snd nr);;
            c0 <- match d_ABX d with Some _ => gather c p | None => Ok c end;; Ok (fst nr, c0))
           (map (fun nf => (fst nf, map (fun x => snd nf v (rowof x)) A)) rA) =
       Ok (map (fun nf : string * (row -> row -> Z) =>
            (fst nf, map (fun t => snd nf v (rowof (pA t)))
               (match f_ABX (t_filters T) with
                | None => d_triplets d
                | Some _ => match gs with [] => [] | _ => ts' end
                end))) rA)).
  { clear HB HX EB EX. clearbody gs. induction rA as [|[m f] rA' IH]; [reflexivity|].
    cbn [map mapM fst snd]. rewrite (dk_spreadA Hd). cbn [bind].
    assert (E1 : match d_ABX d with
         | Some _ => gather (map (fun t => f v (rowof (pA t))) (d_triplets d)) p
         | None => Ok (map (fun t => f v (rowof (pA t))) (d_triplets d)) end =
       Ok (map (fun t => f v (rowof (pA t)))
               (match f_ABX (t_filters T) with
                | None => d_triplets d
                | Some _ => match gs with [] => [] | _ => ts' end
                end))).
    { pose proof (dk_ABX Hd) as HABX.
      destruct (d_ABX d) as [ind|] eqn:E1, (f_ABX (t_filters T)) as [ff|] eqn:E2;
        [|destruct HABX as [_ HABX]; discriminate HABX; reflexivity
         |destruct HABX as [HABX _]; discriminate HABX; reflexivity|reflexivity].
      destruct gs as [|g0 gs0] eqn:Eg.
      - destruct Ha as [(_ & -> & _)|[[H _] _]]; [reflexivity|congruence].
      - rewrite <- Eg in *. rewrite (applied_column _ Ha) by (rewrite Eg; discriminate). reflexivity. }
    rewrite E1. cbn [bind]. rewrite IH. reflexivity. }
  rewrite EA, EB, EX. reflexivity.
Qed.

End Block.
End Regs.
