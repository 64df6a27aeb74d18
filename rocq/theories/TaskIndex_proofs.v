(** Lemmas: the index of groups of a task file. *)
From Coq Require Import String.
From Verif Require Import Prelude ListFacts TypeFitting TypeFitting_spec TypeFitting_proofs
  Sampler Sampler_spec Sampler_proofs Task Task_spec Task_blocks Task_sort Task_regs Task_gen Task_file
  Task_proofs Task_main Task_reg_spec Task_align TaskIndex_spec.
Set Implicit Arguments.
Open Scope Z_scope.

(* ------------------------------------------------------------------ *)
(** ** The starts of the runs of a sorted list *)

Lemma nth_changes s i x y : nth_error s i = Some x -> nth_error s (S i) = Some y ->
  nth_error (changes s) i = Some (negb (y =? x)).
Proof.
  revert i. induction s as [|a [|b s] IH]; intros i Hx Hy.
  - destruct i; discriminate.
  - destruct i as [|[|i]]; cbn in Hy; discriminate.
  - destruct i as [|i]; [cbn in *; congruence|]. cbn [changes nth_error]. apply IH; assumption.
Qed.

Lemma length_changes x s : length (changes (x :: s)) = length s.
Proof.
  revert x. induction s as [|y s IH]; intros x; [reflexivity|].
  change (changes (x :: y :: s)) with (negb (y =? x) :: changes (y :: s)). cbn [length]. rewrite IH. reflexivity.
Qed.

Lemma run_starts_In s n : s <> [] ->
  (In n (run_starts s) <-> n = 0%nat \/ n = length s \/
     exists x y, nth_error s (Nat.pred n) = Some x /\ nth_error s n = Some y /\ n <> 0%nat /\ x <> y).
Proof.
  intros Hs. unfold run_starts. rewrite np_where_spec. destruct s as [|a s]; [congruence|].
  destruct n as [|n]; [cbn; tauto|]. cbn [nth_error Nat.pred].
  pose proof (length_changes a s) as HL. split.
  - intros H. right. destruct (Nat.eq_dec (S n) (length (a :: s))) as [E|E]; [left; exact E|right].
    destruct (Nat.lt_ge_cases n (length s)) as [Hn|Hn].
    + rewrite nth_error_app1 in H by lia.
      destruct (nth_error (a :: s) n) as [x|] eqn:Ex; [|apply nth_error_None in Ex; cbn in Ex; lia].
      destruct (nth_error s n) as [y|] eqn:Ey; [|apply nth_error_None in Ey; lia].
      exists x, y. rewrite (@nth_changes (a :: s) n x y Ex Ey) in H. repeat split; auto.
      intros ->. rewrite Z.eqb_refl in H. discriminate.
    + rewrite nth_error_app2 in H by lia. rewrite HL in H. cbn in E.
      assert (nth_error [true] (n - length s) = None) by (apply nth_error_None; cbn; lia). congruence.
  - intros [H|[H|(x & y & Ex & Ey & _ & Hxy)]]; [discriminate| |].
    + cbn in H. rewrite nth_error_app2 by lia. rewrite HL. replace (n - length s)%nat with 0%nat by lia. reflexivity.
    + assert (n < length s)%nat by (apply nth_error_Some; congruence).
      rewrite nth_error_app1 by lia. rewrite (@nth_changes (a :: s) n x y Ex Ey).
      destruct (Z.eqb_spec y x); [congruence|reflexivity].
Qed.

Lemma where_from_sorted l i : StronglySorted lt (where_from i l).
Proof.
  revert i. induction l as [|b l IH]; intros i; cbn; [constructor|]. destruct b; [|apply IH].
  constructor; [apply IH|]. apply Forall_forall. intros x Hx. apply where_from_spec in Hx. lia.
Qed.

Lemma where_from_last l i d : last (where_from i (l ++ [true])) d = (i + length l)%nat.
Proof.
  assert (E : where_from i (l ++ [true]) = where_from i l ++ [(i + length l)%nat]).
  { revert i. induction l as [|b l IH]; intros i; cbn; [f_equal; lia|]. rewrite IH.
    replace (S i + length l)%nat with (i + S (length l))%nat by lia. destruct b; reflexivity. }
  rewrite E. apply last_last.
Qed.

Lemma run_starts_last s d : s <> [] -> last (run_starts s) d = length s.
Proof.
  intros Hs. destruct s as [|a s]; [congruence|]. unfold run_starts, np_where.
  rewrite app_comm_cons, where_from_last. cbn [length]. rewrite length_changes. reflexivity.
Qed.

Lemma sorted_nth (s : list Z) i j x y : StronglySorted Z.le s -> (i <= j)%nat ->
  nth_error s i = Some x -> nth_error s j = Some y -> x <= y.
Proof.
  intros H. revert i j. induction H as [|a s H IH F]; intros i j Hij Hx Hy; [destruct i; discriminate|].
  destruct i as [|i]; destruct j as [|j]; cbn in *; try lia.
  - assert (x = y) by congruence. lia.
  - rewrite Forall_forall in F. inversion Hx; subst. apply F. eapply nth_error_In. exact Hy.
  - eapply IH; [|eassumption|eassumption]. lia.
Qed.

(** In a sorted list two entries are equal when no run starts between them. *)
Lemma runs_equal s i j x y : StronglySorted Z.le s -> (i <= j)%nat ->
  nth_error s i = Some x -> nth_error s j = Some y ->
  (x = y <-> ~ exists m, In m (run_starts s) /\ (i < m <= j)%nat).
Proof.
  intros Hsort Hij Hx Hy. assert (Hs : s <> []) by (intros ->; destruct i; discriminate).
  assert (Hj : (j < length s)%nat) by (apply nth_error_Some; congruence).
  split.
  - intros -> (m & Hm & Him). apply (run_starts_In _ Hs) in Hm as [->|[->|(u & v & Hu & Hv & _ & Hne)]]; try lia.
    apply Hne. pose proof (@sorted_nth s i (Nat.pred m) y u Hsort ltac:(lia) Hx Hu).
    pose proof (@sorted_nth s (Nat.pred m) m u v Hsort ltac:(lia) Hu Hv).
    pose proof (@sorted_nth s m j v y Hsort ltac:(lia) Hv Hy). lia.
  - intros Hno. revert y Hj Hy Hno. induction Hij as [|j Hij IH]; intros y Hj Hy Hno; [congruence|].
    destruct (nth_error s j) as [z|] eqn:Ez; [|apply nth_error_None in Ez; lia].
    transitivity z.
    + apply IH; [lia|reflexivity|]. intros (m & Hm & Him). apply Hno. exists m. split; [exact Hm|lia].
    + destruct (Z.eq_dec z y) as [E|E]; [exact E|]. exfalso. apply Hno. exists (S j). split; [|lia].
      apply (run_starts_In _ Hs). right. right. exists z, y. cbn [Nat.pred]. auto.
Qed.

Lemma StronglySorted_map_nat l : StronglySorted lt l -> StronglySorted Z.lt (map Z.of_nat l).
Proof.
  induction 1 as [|a l H IH F]; cbn; constructor; [exact IH|]. apply Forall_map.
  revert F. apply Forall_impl. intros; lia.
Qed.

Lemma last_map A B (f : A -> B) l d : last (map f l) (f d) = f (last l d).
Proof. induction l as [|x [|y l] IH]; [reflexivity|reflexivity|exact IH]. Qed.

Lemma run_starts_delimits (vals : triplet -> list Z) (ic : triplet -> Z) ts : ts <> [] ->
  StronglySorted Z.le (map ic ts) ->
  (forall s t, In s ts -> In t ts -> (ic s = ic t <-> vals s = vals t)) ->
  delimits vals (map Z.of_nat (run_starts (map ic ts))) ts.
Proof.
  intros Hne Hsort Hinj. set (s := map ic ts) in *.
  assert (Hs : s <> []) by (unfold s; destruct ts; [congruence|discriminate]).
  split; [|split; [|split]].
  - apply StronglySorted_map_nat, where_from_sorted.
  - reflexivity.
  - change 0 with (Z.of_nat 0). rewrite last_map, run_starts_last by exact Hs. unfold s, Zlen. rewrite map_length. reflexivity.
  - intros i j u v Hij Hu Hv. rewrite <- (Hinj u v) by (eapply nth_error_In; eassumption).
    rewrite (@runs_equal s i j (ic u) (ic v) Hsort Hij) by (unfold s; apply map_nth_error; assumption).
    split; intros H (m & Hm & Him); apply H.
    + apply in_map_iff in Hm as (n & <- & Hn). exists n. split; [exact Hn|lia].
    + exists (Z.of_nat m). split; [apply in_map; exact Hm|lia].
Qed.

(* ------------------------------------------------------------------ *)
(** ** The index of a block *)

Section Core.
Variable argsort : list Z -> list nat.
Variable R : rng.
Variable fuel : nat.
Hypothesis argsort_ok : argsort_spec argsort.

Lemma core_index thr ts gs c p index ts' c' :
  no_threshold thr ->
  (forall g s, In g gs -> In s ts -> 0 <= g s) ->
  prodZ (map (fun g => maxZ (map g ts) + 1) gs) < 2 ^ 63 ->
  core argsort R fuel thr ts gs c = Ok (p, index, ts', c') ->
  (gs = [] \/ ts' = []) /\ index = [0%nat] \/
  (gs <> [] /\ ts' <> []) /\ delimits (profile gs) (map Z.of_nat index) ts'.
Proof.
  intros Ht Hpos HP H. unfold core in H.
  destruct gs as [|g0 gs0] eqn:Egs; [left; inversion H; auto|]. rewrite <- Egs in *.
  destruct ts as [|t0 ts0] eqn:Ets.
  { left. inversion H; auto. }
  rewrite <- Ets in *.
  assert (Hgs : gs <> []) by congruence.
  assert (H' : (ty <- ind_ty gs ts;;
       (let idx := map (icode ty (bounds_of gs ts)) ts in
        r <- sort_and_threshold R fuel (argsort idx) idx ty thr c;;
        (let '(p0, index0, c'0) := r in ts'0 <- gather ts p0;; Ok (p0, index0, ts'0, c'0)))) =
      Ok (p, index, ts', c')) by (rewrite Egs, Ets in *; exact H). clear H. rename H' into H.
  apply bind_ok in H as (ty & Hf & H). unfold ind_ty in Hf.
  set (P := prodZ (map (fun g => maxZ (map g ts) + 1) gs)) in *.
  assert (HP0 : 0 < P).
  { apply prodZ_pos. intros x Hx. apply in_map_iff in Hx as (g & <- & _). pose proof (maxZ_nonneg (map g ts)). lia. }
  rewrite (@cast_id I64 P) in Hf by (change (tmin I64) with (- 2 ^ 63); change (tmax I64) with (2 ^ 63 - 1); lia).
  pose proof (@icode_inj _ ty gs ts Hgs Hpos HP Hf) as Hinj.
  set (ic := icode ty (bounds_of gs ts)) in *. set (idx := map ic ts) in *. cbv zeta in H.
  assert (Li : length idx = length ts) by apply map_length.
  destruct (argsort_ok idx) as [Hp Hsort].
  destruct (@sort_and_threshold_none R fuel (argsort idx) idx ty thr c Ht) as (ui & E);
    [unfold idx; rewrite Ets; discriminate|exact Hp|].
  pose proof E as E'. unfold sort_and_threshold in E'.
  assert (Hin : forall i, In i (argsort idx) -> (i < length ts)%nat).
  { intros i Hi. apply (Permutation_in _ Hp), in_seq in Hi. lia. }
  rewrite (@gather_ok _ idx _ 0) in E' by (intros i Hi; rewrite Li; auto). cbn [bind] in E'.
  apply bind_ok in E' as (r & _ & E').
  assert (E1 : run_starts (map (fun i => nth i idx 0) (argsort idx)) = ui) by congruence. clear E'.
  rewrite E in H. cbn [bind] in H. apply bind_ok in H as (ts1 & Hg & H).
  inversion H; subst p index ts1 c'; clear H.
  rewrite (@gather_ok _ ts _ t0) in Hg by exact Hin. injection Hg as Hg.
  assert (Eic : map ic ts' = map (fun i => nth i idx 0) (argsort idx)).
  { rewrite <- Hg, map_map. apply map_ext_in. intros i Hi. unfold idx.
    rewrite (nth_indep _ 0 (ic t0)) by (rewrite map_length; auto). symmetry. apply map_nth. }
  assert (Hne : ts' <> []).
  { intros E0. rewrite E0 in Hg. apply map_eq_nil in Hg. rewrite Hg in Hp. apply Permutation_nil in Hp.
    rewrite Li, Ets in Hp. discriminate. }
  right. split; [auto|]. rewrite <- E1, <- Eic. rewrite <- Eic in Hsort.
  apply run_starts_delimits; [exact Hne|exact Hsort|].
  assert (I' : incl ts' ts).
  { rewrite <- Hg. intros s Hs. apply in_map_iff in Hs as (i & <- & Hi). apply nth_In. auto. }
  intros s t Hs Hts. apply Hinj; auto.
Qed.
End Core.

(* ------------------------------------------------------------------ *)
(** ** The index of the file *)

Lemma delimits_ext v v' bs ts : (forall t, In t ts -> v t = v' t) -> delimits v bs ts -> delimits v' bs ts.
Proof.
  intros E (H1 & H2 & H3 & H4). repeat (split; [assumption|]). intros i j s t Hij Hs Ht.
  rewrite <- (E s), <- (E t) by (eapply nth_error_In; eassumption). apply H4; assumption.
Qed.

Lemma fit_wrapped n ty x : fit_integer_type n true = Ok ty -> cast ty x = wrapped (capacity n) x.
Proof.
  unfold fit_integer_type, capacity, wrapped. cbn.
  destruct (Z.ltb_spec n 128); [|destruct (Z.ltb_spec n 32768); [|destruct (Z.ltb_spec n 2147483648);
    [|destruct (Z.ltb_spec n 9223372036854775808)]]]; intros E; inversion E; subst; unfold cast; cbn [signed bits];
  destruct (Z.leb_spec n 127); try lia; try reflexivity; destruct (Z.leb_spec n 32767); try lia; try reflexivity;
  destruct (Z.leb_spec n 2147483647); try lia; reflexivity.
Qed.

Section File.
Variable korder : list key -> list key.
Variable enum : list Z -> list Z.
Variable argsort : list Z -> list nat.
Variable R : rng.
Variable fuel : nat.
Hypothesis korder_ok : lists_keys korder.
Hypothesis enum_ok : lists_set enum.
Hypothesis argsort_ok : argsort_spec argsort.
Variable T : task.
Variable cols : list string.
Variable db : list row.
Variable T' : task.
Variable bs : list by_block.
Variable st : stats.
Hypothesis rd : reads cols (t_filters T).
Hypothesis dt : determined T db.
Hypothesis kf : kept_first T db.
Hypothesis rr : reg_reads cols (t_regressors T).
Hypothesis rt : reg_determined T db.
Hypothesis init : task_init korder enum T cols db = Ok (T', bs, st).

Local Notation G := (t_regressors T).
Local Notation rows k := (by_rows T db k).
Variable thr : option Z.
Hypothesis Ht : no_threshold thr.
Hypothesis Hcoded : coded T db.

Lemma block_index b k byr c0 os c1 : In b bs ->
  In k (keys (t_on T' :: t_across T') (map snd (b_frame b))) ->
  block_result enum argsort R fuel T' b thr byr k c0 os c1 ->
  Forall (fun o => block_bounds T (rows (b_key b)) (map Z.of_nat (o_index o)) (o_triplets o) /\
     forall s t, In s (o_triplets o) -> In t (o_triplets o) -> same_block_of T (rows (b_key b)) s t) os.
Proof.
  intros Hb Hk H.
  pose proof (wfb _ korder_ok _ _ _ init b Hb) as Hw.
  pose proof (block_result_incl _ enum_ok _ _ _ init Hw Hk H) as Hincl.
  destruct H as (v & Hv & [(Eo & -> & _)|(Eo & o & -> & Ho)]); [constructor|]. constructor; [|constructor].
  destruct (block_val_ok T' b (proj1 (proj2 (proj2 (bs_inv _ korder_ok rd dt kf init) b Hb))) k Hk) as (lv & v' & Hv' & Hvin & Ev).
  assert (v' = v) by congruence. subst v'.
  apply (on_across_triplets_ok _ _ _ enum_ok _ (T'_ne _ _ _ _ _ init) Hw) in Ho; [|exact Hk].
  destruct Ho as (_ & p & Hc & _).
  assert (Hbl : block_list enum T' b k = plist enum T' b v k) by (unfold block_list; rewrite Hv, Eo; reflexivity).
  rewrite <- Hbl in Hc. unfold all_triplets in *. cbn [map concat] in *. rewrite app_nil_r in *.
  split.
  2:{ intros s t Hs Hts. apply Hincl in Hs, Hts.
      destruct (block_lists korder_ok enum_ok rd dt kf init b Hb k t Hk Hts) as [_ HL]. apply HL in Hs. tauto. }
  assert (Egs : forall A (h : list Z -> A) l, incl l (block_list enum T' b k) ->
     map (fun g => h (map g l)) (gs_of T' b v) = map (fun ng => h (map (value (rows (b_key b)) (snd ng)) l)) (of_BX G)).
  { intros A h l Hl. exact (gs_map korder_ok enum_ok rd dt kf rr rt init b Hb lv Hk Hv Hvin Ev Hl h). }
  pose proof (Egs _ (fun c => maxZ c + 1) _ (incl_refl _)) as Em. cbn beta in Em.
  assert (Hnil : gs_of T' b v = [] <-> of_BX G = []).
  { apply (f_equal (@length _)) in Em. rewrite !map_length in Em.
    split; intros E; rewrite E in Em; [destruct (of_BX G)|destruct (gs_of T' b v)]; auto; discriminate. }
  destruct (block_list enum T' b k) as [|t1 l1] eqn:El.
  { left. unfold core in Hc. assert (o_triplets o = []) by (destruct (o_triplets o) as [|y ?]; [reflexivity|destruct (Hincl y); left; reflexivity]).
    split; [auto|]. assert (E : o_index o = [0%nat]) by (destruct (gs_of T' b v); congruence). rewrite E. reflexivity. }
  rewrite <- El in *.
  assert (H1 : In t1 (block_list enum T' b k)) by (rewrite El; left; reflexivity).
  pose proof (block_lists korder_ok enum_ok rd dt kf init b Hb _ _ Hk H1) as HL.
  assert (Hw1 : is_wanted T db (b_key b) t1) by (apply (proj2 HL) in H1; tauto).
  destruct (@Hcoded _ _ _ HL Hw1) as (Hpos & Hprod).
  apply (core_index _ _ argsort_ok) in Hc.
  - destruct Hc as [(Hc & ->)|((Hc1 & Hc2) & Hc)].
    + left. split; [|reflexivity]. destruct Hc as [Hc|Hc]; [left; apply Hnil; exact Hc|right; exact Hc].
    + right. split; [split; [intros E; apply Hc1, Hnil, E|exact Hc2]|].
      revert Hc. apply delimits_ext. intros t Hts.
      exact (vals_profile korder_ok enum_ok rd dt kf rr rt init b Hb lv t Hk Hv Hvin Ev (Hincl _ Hts)).
  - exact Ht.
  - intros g s Hg Hs. pose proof (Egs _ (fun c => 0 <= hd 0 c) [s]) as Ep. cbn beta in Ep.
    assert (Hs' : incl [s] (block_list enum T' b k)) by (intros y [<-|[]]; exact Hs).
    specialize (Ep Hs'). assert (HI : In (0 <= g s) (map (fun g => 0 <= hd 0 (map g [s])) (gs_of T' b v))).
    { apply in_map_iff. exists g. auto. }
    rewrite Ep in HI. apply in_map_iff in HI as (ng & E & Hng). rewrite <- E. cbn. apply Hpos; assumption.
  - rewrite Em. exact Hprod.
Qed.

Lemma compute_index b c0 outs c1 : In b bs ->
  compute_triplets korder enum argsort R fuel T' thr b c0 = Ok (outs, c1) ->
  Forall (fun o => block_bounds T (rows (b_key b)) (map Z.of_nat (o_index o)) (o_triplets o) /\
     forall s t, In s (o_triplets o) -> In t (o_triplets o) -> same_block_of T (rows (b_key b)) s t) outs.
Proof.
  intros Hb H. apply compute_triplets_ok in H as (bv & Hbv & H). apply chain_each in H as (outss & -> & F).
  assert (Hks : forall k, In k (korder (keys (t_on T' :: t_across T') (map snd (b_frame b)))) ->
            In k (keys (t_on T' :: t_across T') (map snd (b_frame b)))).
  { intros k. apply Permutation_in, korder_ok. }
  revert Hks. induction F as [|k os ks oss (c2 & c3 & H) F IH]; intros Hks; [constructor|].
  cbn [concat]. apply Forall_app. split; [|apply IH; intros; apply Hks; right; assumption].
  eapply block_index; [exact Hb| |exact H]. apply Hks. left. reflexivity.
Qed.

Variable c : nat.
Variable bs' : list by_block.
Variable f : task_file.
Hypothesis gen : generate_triplets korder enum argsort R fuel T' thr bs st c = Ok (bs', Some f).

Theorem index_of_groups : storable T db (capacity (s_nb_triplets st)) ->
  exists bys bounds,
    Forall2 (fun kr kc => fst kr = fst kc /\ Forall2 (carries T (rows (fst kc))) (snd kr) (snd kc))
      (fl_regressors f) bys /\
    (forall k blocks ij, In (k, blocks) bys -> In (k, ij) (combine (fl_bys f) (fl_by_index f)) ->
       rows_of ij (fl_triplets f) = concat blocks) /\
    (forall k blocks, In (k, blocks) bys -> ~ In k (fl_bys f) -> concat blocks = []) /\
    (forall k block s t, In (k, block) (all_blocks bys) -> In s block -> In t block -> same_block_of T (rows k) s t) /\
    Forall2 (fun bd kb => block_bounds T (rows (fst kb)) bd (snd kb)) bounds (all_blocks bys) /\
    fl_block_index f = map (wrapped (capacity (s_nb_blocks st))) (concat bounds).
Proof.
  intros Hs.
  destruct (generate_ok _ _ _ _ _ _ _ _ _ _ gen) as (_ & outss & c' & Hch & [_ Fb _ Fr (ty & Hty & Fi) _] & _).
  destruct (file_inv _ _ _ _ korder_ok _ _ _ init _ _ gen) as (outss2 & c2 & t & Hch2 & Htt & _ & _ & F & Hall).
  assert (outss2 = outss) by (eapply chain_by_det; eauto). subst outss2.
  assert (HL : length bs = length outss) by (apply chain_by_each, Forall2_len in Hch; exact Hch).
  exists (map (fun p => (fst p, map o_triplets (snd p))) (named bs outss)),
         (concat (map (fun o => map (fun x => map Z.of_nat (o_index x)) o) outss)).
  assert (Hin : forall k outs, In (k, outs) (named bs outss) ->
     exists b c0 c1, In b bs /\ b_key b = k /\ In (b, outs) (combine bs outss) /\
       compute_triplets korder enum argsort R fuel T' thr b c0 = Ok (outs, c1)).
  { intros k outs H. destruct (In_named _ _ _ _ H HL) as (b & Hbo & Ek).
    destruct (combine_compute _ _ _ _ _ _ _ _ _ _ _ _ _ Hch Hbo) as (Hb & c0 & c1 & Hc). eauto 8. }
  split; [|split; [|split; [|split; [|split]]]].
  - rewrite Fr. clear F Hall Fr Fb Fi. revert Hin. generalize (named bs outss). intros l. induction l as [|[k o] l IH]; intros Hin; [constructor|].
    cbn [map fst snd]. constructor; [|apply IH; intros; apply Hin; right; assumption].
    split; [reflexivity|]. cbn [fst snd]. destruct (Hin k o) as (b & c0 & c1 & Hb & <- & _ & Hc); [left; reflexivity|].
    eapply compute_columns; eassumption.
  - intros k blocks ij H Hij. apply in_map_iff in H as ([k0 outs] & E & H). cbn [fst snd] in E. inversion E; subst k0 blocks; clear E.
    destruct (Hin _ _ H) as (b & c0 & c1 & Hb & Ek & Hbo & Hc).
    apply Forall2_combine in F as [_ F]. destruct (F _ _ Hij) as (b2 & outs2 & Hbo2 & Ek2 & _ & Er).
    assert (E : (b2, outs2) = (b, outs)).
    { pose proof (keys_NoDup _ korder_ok _ _ _ init) as HD. clear -HD Hbo Hbo2 Ek Ek2.
      revert outss Hbo Hbo2. induction bs as [|b0 l IH]; intros [|o outss]; cbn; try tauto. cbn in HD.
      apply NoDup_cons_iff in HD as [HD1 HD2].
      assert (HM : forall b1 o1, In (b1, o1) (combine l outss) -> b_key b1 <> b_key b0).
      { intros b1 o1 H E. apply HD1. rewrite <- E. apply in_map. eapply in_combine_l. exact H. }
      intros [E1|H1] [E2|H2]; try congruence.
      - inversion E1; subst. apply HM in H2. congruence.
      - inversion E2; subst. apply HM in H1. congruence.
      - eapply IH; eauto. }
    inversion E; subst b2 outs2. rewrite Er. change (concat (map o_triplets outs)) with (all_triplets outs).
    etransitivity; [|apply map_id]. apply map_ext_in. intros [[a b'] x] H'.
    apply (compute_incl _ _ _ korder_ok enum_ok _ _ _ init _ _ _ Hb Hc) in H'.
    apply (blist_In korder_ok enum_ok rd dt kf init _ _ _ _ Hb) in H'. destruct (Hs _ _ _ _ H') as (S1 & S2 & S3).
    destruct H' as (ra & rb & rx & Ia & Ib & Ix & H'). destruct Ia as [Pa Ia], Ib as [Pb Ib], Ix as [Px Ix].
    cbn [cast3]. rewrite !(fit_capacity _ Htt) by lia. reflexivity.
  - intros k blocks H Hni. apply in_map_iff in H as ([k0 outs] & E & H). cbn [fst snd] in E. inversion E; subst k0 blocks; clear E.
    destruct (Hin _ _ H) as (b & c0 & c1 & Hb & Ek & Hbo & Hc).
    change (concat (map o_triplets outs)) with (all_triplets outs).
    destruct (all_triplets outs) eqn:Ea; [reflexivity|]. exfalso. apply Hni. subst k.
    apply (Hall _ _ Hbo). congruence.
  - intros k block s t0 H. unfold all_blocks in H. apply in_flat_map in H as ([k1 cs] & H & H').
    apply in_map_iff in H as ([k0 outs] & E & H). cbn [fst snd] in *. inversion E; subst k1 cs; clear E.
    apply in_map_iff in H' as (ch & E & H'). inversion E; subst k0 ch; clear E.
    apply in_map_iff in H' as (o & <- & Ho). destruct (Hin _ _ H) as (b & c0 & c1 & Hb & <- & _ & Hc).
    apply compute_index in Hc; [|exact Hb]. rewrite Forall_forall in Hc. apply (proj2 (Hc _ Ho)).
  - clear F Hall Fr Fb Fi Hch2 Hin HL. apply chain_by_each in Hch. unfold named, all_blocks.
    assert (Hsub : forall b, In b bs -> In b bs) by auto. revert Hsub.
    assert (Q : forall l, Forall2 (fun b outs => exists c0 c1, compute_triplets korder enum argsort R fuel T' thr b c0 = Ok (outs, c1)) l outss ->
      (forall b, In b l -> In b bs) ->
      Forall2 (fun bd kb => block_bounds T (rows (fst kb)) bd (snd kb))
        (concat (map (fun o => map (fun x => map Z.of_nat (o_index x)) o) outss))
        (flat_map (fun p => map (pair (fst p)) (snd p)) (map (fun p => (fst p, map o_triplets (snd p))) (combine (map b_key l) outss))));
      [|exact (Q bs Hch)].
    clear Hch. intros l HF. induction HF as [|b o l outss (c0 & c1 & Hc) HF IH]; intros Hsub; [constructor|].
    cbn [map combine concat flat_map fst snd]. apply Forall2_app; [|apply IH; intros; apply Hsub; right; assumption].
    apply compute_index in Hc; [|apply Hsub; left; reflexivity]. clear -Hc.
    induction Hc as [|x l Hx Hc IH]; cbn; constructor; [exact (proj1 Hx)|exact IH].
  - rewrite Fi. clear -Hty. induction outss as [|o outss IH]; [reflexivity|].
    cbn [map concat]. rewrite concat_app, !map_app, IH. f_equal. rewrite !concat_map, !map_map. f_equal.
    apply map_ext. intros x. rewrite map_map. apply map_ext. intros y. apply fit_wrapped. exact Hty.
Qed.
End File.
