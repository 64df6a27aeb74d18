(** Sampling without replacement favours no sample. *)
From Coq Require Import Reals Lra.
From Verif Require Import Prelude ListFacts Sampler Sampler_spec Sampler_proofs Sampler_uniform Chance_spec Chance_count Chance_law.
Open Scope Z_scope.

Definition zlist_dec : forall a b : list Z, {a = b} + {a <> b} := list_eq_dec Z.eq_dec.

(** * The samples *)

Fixpoint incb (l : list Z) : bool :=
  match l with
  | x :: (y :: _) as l' => (x <? y) && incb l'
  | _ => true
  end.

Lemma incb_sorted l : incb l = true <-> StronglySorted Z.lt l.
Proof.
  induction l as [|x [|y l] IH].
  - split; [constructor|reflexivity].
  - split; [repeat constructor|reflexivity].
  - change (incb (x :: y :: l)) with ((x <? y) && incb (y :: l)). rewrite andb_true_iff, IH, Z.ltb_lt. split.
    + intros [Hx H]. constructor; [exact H|]. apply StronglySorted_inv in H as [_ H]. constructor; [exact Hx|].
      eapply Forall_impl; [|exact H]. cbn. intros. lia.
    + intros H. apply StronglySorted_inv in H as [H HF]. split; [|exact H]. inversion HF; assumption.
Qed.

Definition samples (n N : Z) : list (list Z) := filter incb (vectors N (Z.to_nat n)).

Lemma samples_In n N l : 0 <= n -> (In l (samples n N) <-> is_sample n N l).
Proof.
  intros Hn. unfold samples, is_sample. rewrite filter_In, incb_sorted. split.
  - intros [H Hs]. split; [rewrite (vectors_len _ _ _ H); lia|]. split; [exact Hs|]. exact (vectors_In _ _ _ H).
  - intros (Hl & Hs & Hi). split; [|exact Hs]. apply in_vectors; [lia|exact Hi].
Qed.

Lemma samples_NoDup n N : NoDup (samples n N).
Proof. apply NoDup_filter, vectors_NoDup. Qed.

Lemma samples_nonempty n N : 0 <= n <= N -> samples n N <> [].
Proof.
  intros Hn. assert (H : exists l, is_sample n N l).
  { exists (zrange n). split; [apply zrange_length; lia|]. split; [|intros x Hx; apply zrange_In in Hx; lia].
    unfold zrange. generalize 0%nat at 1. induction (Z.to_nat n) as [|k IH]; intros s; [constructor|]. cbn. constructor; [apply IH|].
    apply Forall_forall. intros x Hx. apply in_map_iff in Hx as (j & <- & Hj). apply in_seq in Hj. lia. }
  destruct H as [l H]. apply samples_In in H; [|lia]. intros E. rewrite E in H. destruct H.
Qed.

(** * What is read *)

Lemma knuth_loop_reads R R' dtype n N : rnd_den R = rnd_den R' -> forall fuel c d t m l c',
  knuth_loop R fuel c dtype n N t m = Ok (l, c') ->
  (c <= c')%nat /\ ((forall i, (i < c' - c)%nat -> rnd_unit R (c + i) = rnd_unit R' (d + i)) ->
  knuth_loop R' fuel d dtype n N t m = Ok (l, (d + (c' - c))%nat)).
Proof.
  intros HD. induction fuel as [|fuel IH]; intros c d t m l c' E; [discriminate|]. cbn [knuth_loop] in *.
  destruct (m <? n); [|injection E as <- <-; split; [lia|]; intros; f_equal; f_equal; lia].
  destruct ((N - t) * rnd_unit R c <? (n - m) * rnd_den R) eqn:Eu.
  - destruct (knuth_loop R fuel (S c) dtype n N (t + 1) (m + 1)) as [[l0 c0]|e] eqn:E0; [|discriminate].
    cbn [bind fst snd] in E. injection E as <- <-. destruct (IH _ (S d) _ _ _ _ E0) as [H1 H2]. split; [lia|]. intros Ha.
    pose proof (Ha O ltac:(lia)) as Ha0. rewrite !Nat.add_0_r in Ha0. rewrite <- Ha0, <- HD, Eu, H2.
    + cbn [bind fst snd]. f_equal. f_equal. lia.
    + intros i Hi. specialize (Ha (S i) ltac:(lia)). rewrite !Nat.add_succ_r in Ha. exact Ha.
  - destruct (IH _ (S d) _ _ _ _ E) as [H1 H2]. split; [lia|]. intros Ha.
    pose proof (Ha O ltac:(lia)) as Ha0. rewrite !Nat.add_0_r in Ha0. rewrite <- Ha0, <- HD, Eu, H2.
    + f_equal. f_equal. lia.
    + intros i Hi. specialize (Ha (S i) ltac:(lia)). rewrite !Nat.add_succ_r in Ha. exact Ha.
Qed.

Lemma randints_agree R R' c d N k : (forall i, (i < Z.to_nat k)%nat -> rnd_int R (c + i) N = rnd_int R' (d + i) N) ->
  randints R c N k = randints R' d N k.
Proof.
  unfold randints. revert c d. induction (Z.to_nat k) as [|j IH]; intros c d H; [reflexivity|]. cbn. f_equal.
  - specialize (H O ltac:(lia)). rewrite !Nat.add_0_r in H. exact H.
  - apply IH. intros i Hi. specialize (H (S i) ltac:(lia)). rewrite !Nat.add_succ_r in H. exact H.
Qed.

Lemma rejection_loop_reads R R' dtype n N : forall fuel fuel' c d sample remaining l c',
  rejection_loop R fuel c dtype n N sample remaining = Ok (l, c') ->
  (c <= c')%nat /\ ((forall i, (i < c' - c)%nat -> rnd_int R (c + i) N = rnd_int R' (d + i) N) -> (c' - c < fuel')%nat ->
  rejection_loop R' fuel' d dtype n N sample remaining = Ok (l, (d + (c' - c))%nat)).
Proof.
  induction fuel as [|fuel IH]; intros fuel' c d sample remaining l c' E; [discriminate|]. cbn [rejection_loop] in E.
  destruct (0 <? remaining) eqn:Er.
  - apply Z.ltb_lt in Er. destruct (IH (pred fuel') _ (d + Z.to_nat remaining)%nat _ _ _ _ E) as [H1 H2]. split; [lia|]. intros Ha Hf.
    destruct fuel' as [|fuel']; [lia|]. cbn [rejection_loop pred] in *. rewrite (proj2 (Z.ltb_lt _ _) Er).
    rewrite <- (randints_agree R R' c d) by (intros i Hi; apply Ha; lia). rewrite H2.
    + f_equal. f_equal. lia.
    + intros i Hi. specialize (Ha (Z.to_nat remaining + i)%nat ltac:(lia)). rewrite !Nat.add_assoc in Ha. exact Ha.
    + lia.
  - injection E as <- <-. split; [lia|]. intros _ Hf. destruct fuel' as [|fuel']; [lia|]. cbn [rejection_loop]. rewrite Er. f_equal. f_equal. lia.
Qed.

Definition swr (n N : Z) (dtype : itype) : comp (list Z) := fun fuel R c => sample_without_replacement R fuel c n N dtype.

Lemma swr_reads n N dtype : reads (swr n N dtype).
Proof.
  intros fuel R c l c' _ E. unfold swr, sample_without_replacement in *. destruct ((100 <? N) && (5 * n <? 3 * N)).
  - unfold rejection_sampling in *. split.
    + apply (rejection_loop_reads R R dtype n N fuel fuel c c _ _ _ _ E).
    + intros fuel' R' d [_ Ha] Hf. apply (rejection_loop_reads R R' dtype n N fuel fuel' c d _ _ _ _ E); [|exact Hf].
      intros i Hi. apply Ha. exact Hi.
  - unfold knuth_sampling in *. destruct (n <? 0); [discriminate|]. split.
    + apply (knuth_loop_reads R R dtype n N eq_refl _ c c _ _ _ _ E).
    + intros fuel' R' d [HD Ha] Hf. apply (knuth_loop_reads R R' dtype n N HD _ c d _ _ _ _ E).
      intros i Hi. apply Ha. exact Hi.
Qed.

(** * Sequential sampling *)

Lemma knuth_loop_bound R dtype n N : rng_ok R -> forall fuel c t m l c',
  m <= n -> n - m <= N - t -> knuth_loop R fuel c dtype n N t m = Ok (l, c') -> Z.of_nat c' <= Z.of_nat c + (N - t).
Proof.
  intros (HD & Hu & _). induction fuel as [|fuel IH]; intros c t m l c' Hm Hn E; [discriminate|]. cbn [knuth_loop] in E.
  destruct (m <? n) eqn:Em; [|injection E as <- <-; lia]. apply Z.ltb_lt in Em.
  destruct ((N - t) * rnd_unit R c <? (n - m) * rnd_den R) eqn:Eu.
  - destruct (knuth_loop R fuel (S c) dtype n N (t + 1) (m + 1)) as [[l0 c0]|e] eqn:E0; [|discriminate].
    cbn [bind fst snd] in E. injection E as <- <-. apply IH in E0; lia.
  - apply Z.ltb_ge in Eu. assert (N - t <> n - m) by (intros HE; rewrite HE in Eu; specialize (Hu c); nia). apply IH in E; lia.
Qed.

Lemma knuth_loop_same R R' dtype n N : rnd_den R = rnd_den R' -> (forall i, rnd_unit R i = rnd_unit R' i) -> forall fuel c t m,
  knuth_loop R fuel c dtype n N t m = knuth_loop R' fuel c dtype n N t m.
Proof.
  intros HD Hu. induction fuel as [|fuel IH]; intros c t m; [reflexivity|]. cbn [knuth_loop]. rewrite HD, Hu, !IH. reflexivity.
Qed.

Section Sample.
Variable L : Z.
Hypothesis HL : 0 < L.
Variables n N : Z.
Variable dtype : itype.
Hypothesis Hdiv : forall r, 0 < r <= N -> (r | L).
Hypothesis Hn : 0 <= n <= N.
Hypothesis HT : N - 1 <= tmax dtype.

Definition knuth : comp (list Z) := fun fuel R c => knuth_sampling R c n N dtype.
Definition rejection : comp (list Z) := fun fuel R c => rejection_sampling R fuel c n N dtype.

Lemma knuth_reads : reads knuth.
Proof.
  intros fuel R c l c' _ E. unfold knuth, knuth_sampling in *. destruct (n <? 0); [discriminate|]. split.
  - apply (knuth_loop_reads R R dtype n N eq_refl _ c c _ _ _ _ E).
  - intros fuel' R' d [HD Ha] Hf. apply (knuth_loop_reads R R' dtype n N HD _ c d _ _ _ _ E).
    intros i Hi. apply Ha. exact Hi.
Qed.

Lemma rejection_reads : reads rejection.
Proof.
  intros fuel R c l c' _ E. unfold rejection, rejection_sampling in *. split.
  - apply (rejection_loop_reads R R dtype n N fuel fuel c c _ _ _ _ E).
  - intros fuel' R' d [_ Ha] Hf. apply (rejection_loop_reads R R' dtype n N fuel fuel' c d _ _ _ _ E); [|exact Hf].
    intros i Hi. apply Ha. exact Hi.
Qed.

Lemma knuth_ends R fuel : rng_ok R -> exists l c, knuth fuel R 0%nat = Ok (l, c) /\ is_sample n N l /\ (c <= Z.to_nat N)%nat.
Proof.
  intros HR. destruct (@knuth_sampling_spec R HR dtype n N 0%nat Hn HT) as (l & c & E & Hs).
  exists l, c. split; [exact E|]. split; [exact Hs|]. unfold knuth_sampling in E. destruct (n <? 0); [discriminate|].
  apply (knuth_loop_bound R dtype n N HR) in E; lia.
Qed.

Lemma knuth_fin l T : In l (samples n N) -> (Z.to_nat N <= T)%nat ->
  Z.of_nat (fin L zlist_dec knuth l T) = ways L n N dtype l * Z.of_nat (Z.to_nat L ^ (T - Z.to_nat N)).
Proof.
  intros Hl HTN. unfold fin, ways.
  change (length (filter ?P (vectors L (Z.to_nat N)))) with (cnt L (Z.to_nat N) P).
  rewrite <- Nat2Z.inj_mul. f_equal. rewrite <- (cnt_all L) by lia. rewrite <- cnt_split.
  replace (Z.to_nat N + (T - Z.to_nat N))%nat with T by lia. apply cnt_ext. intros v Hv. pose proof (vectors_len _ _ _ Hv) as Hlen.
  rewrite andb_true_r.
  assert (E : knuth_sampling (unit_rng L (firstn (Z.to_nat N) v)) 0 n N dtype = knuth 0%nat (drawn L (firstn (Z.to_nat N) v)) 0%nat).
  { unfold knuth, knuth_sampling. destruct (n <? 0); [reflexivity|]. apply knuth_loop_same; reflexivity. }
  rewrite E. clear E. destruct (knuth_ends (drawn L v) (S T) (drawn_ok L HL T v Hv)) as (l0 & c0 & E0 & Hs0 & Hc0).
  assert (E1 : knuth 0%nat (drawn L (firstn (Z.to_nat N) v)) 0%nat = Ok (l0, c0)).
  { change (knuth (S T) (drawn L (firstn (Z.to_nat N) v)) 0%nat = Ok (l0, c0)).
    pose proof (knuth_reads _ _ _ _ _ (drawn_ok L HL T v Hv) E0) as [_ H]. rewrite H.
    - f_equal. f_equal. lia.
    - apply (agree_le (drawn L v) 0 (drawn L (firstn (Z.to_nat N) v)) 0 (Z.to_nat N)); [lia|]. apply drawn_firstn. lia.
    - lia. }
  rewrite E1. unfold ends. rewrite E0. cbn [draws_to]. unfold zlist_eqb, zlist_dec. destruct (list_eq_dec Z.eq_dec l0 l); [|reflexivity].
  cbn [within]. apply Nat.leb_le. lia.
Qed.

Lemma knuth_law : law L zlist_dec knuth (samples n N).
Proof.
  apply (law_even L HL zlist_dec knuth (samples n N) (Z.to_nat N)).
  - exact knuth_reads.
  - apply samples_nonempty. exact Hn.
  - apply samples_NoDup.
  - intros fuel R c l c' HR E. apply samples_In; [lia|].
    destruct (@knuth_sampling_spec R HR dtype n N c Hn HT) as (l1 & c1 & E1 & Hs). unfold knuth in E. congruence.
  - intros T a b HTN Ha Hb. apply Nat2Z.inj. rewrite (knuth_fin a T Ha HTN), (knuth_fin b T Hb HTN). f_equal.
    apply samples_In in Ha; [|lia]. apply samples_In in Hb; [|lia].
    pose proof (@knuth_uniform L n N dtype a HL ltac:(lia) Hdiv HT Ha) as H1.
    pose proof (@knuth_uniform L n N dtype b HL ltac:(lia) Hdiv HT Hb) as H2.
    assert (Hp : 0 < L ^ N) by (apply Z.pow_pos_nonneg; lia).
    apply Z.mul_reg_r with (binom (Z.to_nat N) (Z.to_nat n)); [|congruence]. intros E. rewrite E, Z.mul_0_r in H1. rewrite <- H1 in Hp. discriminate Hp.
  - apply (cv_ext (fun _ => 0%R) _ _ (Z.to_nat N)); [|apply cv_const]. intros T HTN. unfold unfinished. rewrite cnt_false.
    + cbn. unfold Rdiv. ring.
    + intros v Hv. destruct (knuth_ends (drawn L v) (S T) (drawn_ok L HL T v Hv)) as (l0 & c0 & -> & _ & Hc0). apply Nat.ltb_ge. lia.
Qed.

(** * Sampling with rejection *)

Section Swap.
Hypothesis HN : 0 < N.

Fixpoint idx (x : Z) (l : list Z) : nat :=
  match l with
  | [] => O
  | y :: l' => if x =? y then O else S (idx x l')
  end.

Lemma idx_lt x l : In x l -> (idx x l < length l)%nat.
Proof.
  induction l as [|y l IH]; intros H; [destruct H|]. cbn. destruct (Z.eqb_spec x y); [lia|].
  destruct H as [H|H]; [congruence|]. specialize (IH H). lia.
Qed.

Lemma nth_idx x l : In x l -> nth (idx x l) l 0 = x.
Proof.
  induction l as [|y l IH]; intros H; [destruct H|]. cbn. destruct (Z.eqb_spec x y); [auto|].
  destruct H as [H|H]; [congruence|]. auto.
Qed.

Lemma idx_app x a b : In x a -> idx x (a ++ b) = idx x a.
Proof.
  induction a as [|y a IH]; intros H; [destruct H|]. cbn. destruct (Z.eqb_spec x y); [reflexivity|].
  destruct H as [H|H]; [congruence|]. rewrite IH by exact H. reflexivity.
Qed.

Definition rest (a : list Z) : list Z := filter (fun x => negb (existsb (Z.eqb x) a)) (zrange N).

Lemma zrange_In_iff x : In x (zrange N) <-> 0 <= x < N.
Proof.
  split; [apply zrange_In|]. intros H. unfold zrange. apply in_map_iff. exists (Z.to_nat x). split; [lia|]. apply in_seq. lia.
Qed.

Lemma rest_In a x : In x (rest a) <-> 0 <= x < N /\ ~ In x a.
Proof.
  unfold rest. rewrite filter_In, zrange_In_iff, negb_true_iff. split; intros [H1 H2]; (split; [exact H1|]).
  - intros H. assert (E : existsb (Z.eqb x) a = true) by (apply existsb_exists; exists x; split; [exact H|apply Z.eqb_refl]). congruence.
  - destruct (existsb (Z.eqb x) a) eqn:E; [|reflexivity]. apply existsb_exists in E as (y & Hy & E). apply Z.eqb_eq in E. congruence.
Qed.

Definition whole (a : list Z) : list Z := a ++ rest a.

Lemma whole_In a x : is_sample n N a -> (In x (whole a) <-> 0 <= x < N).
Proof.
  intros (_ & _ & Ha). unfold whole. rewrite in_app_iff, rest_In. split; [intros [H|H]; [auto|apply H]|].
  intros H. destruct (in_dec Z.eq_dec x a); auto.
Qed.

Lemma whole_NoDup a : is_sample n N a -> NoDup (whole a).
Proof.
  intros (_ & Ha & _). apply NoDup_app_intro.
  - apply StronglySorted_Zlt_NoDup. exact Ha.
  - apply NoDup_filter. apply zrange_NoDup.
  - intros x H1 H2. apply rest_In in H2. tauto.
Qed.

Lemma whole_length a : is_sample n N a -> length (whole a) = Z.to_nat N.
Proof.
  intros Ha. assert (P : Permutation (whole a) (zrange N)).
  { apply NoDup_Permutation; [apply whole_NoDup; exact Ha|apply zrange_NoDup|]. intros x. rewrite (whole_In a x Ha), zrange_In_iff. reflexivity. }
  rewrite (Permutation_length P). apply Nat2Z.inj. rewrite zrange_length; lia.
Qed.

Variables a b : list Z.
Hypothesis Ha : is_sample n N a.
Hypothesis Hb : is_sample n N b.

Definition swap (x : Z) : Z := nth (idx x (whole a)) (whole b) 0.

Lemma swap_permutes : permutes swap N.
Proof.
  split.
  - intros x Hx. apply (whole_In b _ Hb). apply nth_In. rewrite (whole_length b Hb), <- (whole_length a Ha). apply idx_lt. apply (whole_In a x Ha). exact Hx.
  - intros x y Hx Hy E. apply (whole_In a x Ha) in Hx. apply (whole_In a y Ha) in Hy. unfold swap in E.
    apply (proj1 (NoDup_nth (whole b) 0) (whole_NoDup b Hb)) in E.
    + rewrite <- (nth_idx x (whole a) Hx), <- (nth_idx y (whole a) Hy), E. reflexivity.
    + rewrite (whole_length b Hb), <- (whole_length a Ha). apply idx_lt. exact Hx.
    + rewrite (whole_length b Hb), <- (whole_length a Ha). apply idx_lt. exact Hy.
Qed.

Lemma swap_sample : np_unique (map swap a) = b.
Proof.
  apply ssorted_lt_ext; [apply np_unique_sorted|apply Hb|]. intros x. rewrite np_unique_In.
  assert (Hi : incl (map swap a) b).
  { intros y Hy. apply in_map_iff in Hy as (z & <- & Hz). unfold swap, whole. rewrite (idx_app z a (rest a) Hz).
    pose proof (idx_lt z a Hz) as Hlt. destruct Ha as (La & _). destruct Hb as (Lb & _). rewrite app_nth1 by lia. apply nth_In. lia. }
  split; [apply Hi|]. revert x. apply (NoDup_length_incl).
  - apply NoDup_map_inj; [|apply StronglySorted_Zlt_NoDup; apply Ha]. intros x y Hx Hy. apply swap_permutes; apply Ha; assumption.
  - rewrite map_length. destruct Ha as (La & _). destruct Hb as (Lb & _). lia.
  - exact Hi.
Qed.

Lemma swap_back l : is_sample n N l -> np_unique (map swap l) = b -> l = a.
Proof.
  intros Hl E. rewrite <- swap_sample in E. destruct swap_permutes as [_ Hinj].
  apply ssorted_lt_ext; [apply Hl|apply Ha|]. intros x.
  assert (H : forall y, In y (map swap l) <-> In y (map swap a)) by (intros y; rewrite <- np_unique_In, E, np_unique_In; reflexivity).
  split; intros Hx.
  - pose proof (in_map swap _ _ Hx) as Hm. apply H, in_map_iff in Hm as (z & Ez & Hz). rewrite <- (Hinj z x); [exact Hz|apply Ha; exact Hz|apply Hl; exact Hx|exact Ez].
  - pose proof (in_map swap _ _ Hx) as Hm. apply H, in_map_iff in Hm as (z & Ez & Hz). rewrite <- (Hinj z x); [exact Hz|apply Hl; exact Hz|apply Ha; exact Hx|exact Ez].
Qed.

Definition shuffle (x : Z) : Z := N * (x / N) + swap (x mod N).

Lemma shuffle_mod x : shuffle x mod N = swap (x mod N).
Proof.
  unfold shuffle. rewrite Z.add_comm, Z.mul_comm, Z_mod_plus_full. apply Z.mod_small. apply swap_permutes. apply Z.mod_pos_bound. exact HN.
Qed.

Lemma shuffle_range x : 0 <= x < L -> 0 <= shuffle x < L.
Proof.
  intros Hx. destruct (Hdiv N ltac:(lia)) as [q Hq]. unfold shuffle.
  pose proof (proj1 swap_permutes (x mod N) (Z.mod_pos_bound x N HN)) as Hs.
  assert (0 <= x / N) by (apply Z.div_pos; lia). assert (x / N < q) by (apply Z.div_lt_upper_bound; lia). nia.
Qed.

Lemma shuffle_inj x y : 0 <= x < L -> 0 <= y < L -> shuffle x = shuffle y -> x = y.
Proof.
  intros Hx Hy E. assert (Em : x mod N = y mod N).
  { apply (proj2 swap_permutes); try (apply Z.mod_pos_bound; exact HN). rewrite <- !shuffle_mod, E. reflexivity. }
  unfold shuffle in E. rewrite Em in E. rewrite (Z.div_mod x N), (Z.div_mod y N), Em by lia. lia.
Qed.

Lemma rejection_swap T v c : In v (vectors L T) -> (c <= T)%nat ->
  (rejection (S T) (drawn L (map shuffle v)) 0%nat = Ok (b, c) <-> rejection (S T) (drawn L v) 0%nat = Ok (a, c)).
Proof.
  intros Hv Hc. pose proof (vectors_len _ _ _ Hv) as Hlen. pose proof (drawn_ok L HL T v Hv) as HR.
  pose proof (@rejection_relabel_top swap (drawn L v) N dtype n (S T) 0 swap_permutes HR HN HT) as Hrel.
  assert (Hag : forall i, (i < c)%nat -> rnd_int (drawn L (map shuffle v)) i N = rnd_int (relabel swap (drawn L v)) i N).
  { intros i Hi. cbn. rewrite <- shuffle_mod. f_equal. rewrite (nth_indep (map shuffle v) 0 (shuffle 0)) by (rewrite map_length; lia). apply map_nth. }
  unfold rejection in *. split; intros E.
  - assert (E' : rejection_sampling (relabel swap (drawn L v)) (S T) 0 n N dtype = Ok (b, c)).
    { unfold rejection_sampling in *. pose proof (rejection_loop_reads _ (relabel swap (drawn L v)) _ _ _ _ (S T) _ 0 _ _ _ _ E) as [_ H].
      rewrite H; [f_equal; f_equal; lia| |lia]. intros i Hi. apply Hag. lia. }
    rewrite Hrel in E'. pose proof (@rejection_spec (drawn L v) HR (S T) 0 n N dtype Hn HN HT) as Hs.
    destruct (rejection_sampling (drawn L v) (S T) 0 n N dtype) as [[l c0]|e]; [|discriminate].
    injection E' as E1 ->. rewrite (swap_back l Hs E1). reflexivity.
  - rewrite E, swap_sample in Hrel. unfold rejection_sampling in *.
    pose proof (rejection_loop_reads _ (drawn L (map shuffle v)) _ _ _ _ (S T) _ 0 _ _ _ _ Hrel) as [_ H].
    rewrite H; [f_equal; f_equal; lia| |lia]. intros i Hi. symmetry. apply Hag. lia.
Qed.

Lemma rejection_fin T : fin L zlist_dec rejection a T = fin L zlist_dec rejection b T.
Proof.
  unfold fin. rewrite <- (cnt_map L T shuffle (fun v => within (ends L zlist_dec rejection b T v) T) shuffle_range shuffle_inj).
  apply cnt_ext. intros v Hv. apply bool_iff. rewrite !within_spec.
  split; intros (c & E & Hc); exists c; (split; [|exact Hc]); apply ends_spec; apply ends_spec in E; apply (rejection_swap T v c Hv Hc); exact E.
Qed.

End Swap.

(** With all the values among the first [H] draws, no more than [n] others are needed. *)
Lemma rejection_loop_covered R H : rng_ok R -> 0 < N ->
  (forall x, 0 <= x < N -> exists i, (i < H)%nat /\ rnd_int R i N = x) ->
  forall fuel c sample,
  (forall i, (i < c)%nat -> In (rnd_int R i N) sample) -> StronglySorted Z.lt sample -> (forall x, In x sample -> 0 <= x < N) ->
  (c <= H + Z.to_nat n)%nat -> (H + Z.to_nat n < fuel + c)%nat ->
  exists l c', rejection_loop R fuel c dtype n N sample (n - Z.of_nat (length sample)) = Ok (l, c') /\ (c' <= H + Z.to_nat n)%nat.
Proof.
  intros HR HN Hcov. induction fuel as [|fuel IH]; intros c sample Hin Hs Hi Hc Hf; [lia|]. cbn [rejection_loop].
  destruct (0 <? n - Z.of_nat (length sample)) eqn:E; [|exists sample, c; split; [reflexivity|exact Hc]].
  apply Z.ltb_lt in E.
  assert (HcH : (c < H)%nat).
  { destruct (Nat.lt_ge_cases c H) as [G|G]; [exact G|]. exfalso.
    assert (Hall : incl (zrange N) sample).
    { intros x Hx. apply zrange_In in Hx. destruct (Hcov x Hx) as (i & Hi' & <-). apply Hin. lia. }
    pose proof (NoDup_incl_length (zrange_NoDup N) Hall) as G1. pose proof (zrange_length N ltac:(lia)). lia. }
  destruct (@round_spec R HR dtype n N c sample _ Hn HN HT Hs Hi eq_refl E) as (A & B & C & D).
  apply IH; auto; try lia.
  intros i Hlt. apply D. destruct (Nat.lt_ge_cases i c) as [G|G]; [left; auto|]. right. unfold randints.
  apply in_map_iff. exists i. split; [reflexivity|]. apply in_seq. lia.
Qed.

Definition missed (x u : Z) : bool := negb (u mod N =? x).

Lemma missed_count x : 0 < N -> 0 <= x < N -> (length (filter (missed x) (zrange L)) <= Z.to_nat L - 1)%nat.
Proof.
  intros HN Hx. assert (HNL : N <= L) by (apply Z.divide_pos_le; [exact HL|]; apply Hdiv; lia).
  assert (Hin : In x (zrange L)).
  { unfold zrange. apply in_map_iff. exists (Z.to_nat x). split; [lia|]. apply in_seq. lia. }
  assert (E : (length (x :: filter (missed x) (zrange L)) <= length (zrange L))%nat).
  { apply NoDup_incl_length.
    - constructor; [|apply NoDup_filter, zrange_NoDup]. rewrite filter_In. intros [_ H]. unfold missed in H.
      rewrite Z.mod_small, Z.eqb_refl in H by lia. discriminate.
    - intros y [<-|Hy]; [exact Hin|]. apply filter_In in Hy. apply Hy. }
  pose proof (zrange_length L ltac:(lia)). cbn [length] in E. lia.
Qed.

Lemma rejection_unfinished T : 0 < N -> (Z.to_nat n <= T)%nat ->
  (unfinished L rejection T <= Z.to_nat N * ((Z.to_nat L - 1) ^ (T - Z.to_nat n) * Z.to_nat L ^ Z.to_nat n))%nat.
Proof.
  intros HN HTn. set (H := (T - Z.to_nat n)%nat).
  apply Nat.le_trans with (cnt L T (fun v => existsb (fun x => forallb (missed x) (firstn H v)) (zrange N))).
  - unfold unfinished. apply cnt_le. intros v Hv E. pose proof (vectors_len _ _ _ Hv) as Hlen.
    destruct (existsb _ (zrange N)) eqn:Ex; [reflexivity|]. exfalso.
    assert (Hcov : forall x, 0 <= x < N -> exists i, (i < H)%nat /\ rnd_int (drawn L v) i N = x).
    { intros x Hx. assert (Hf : forallb (missed x) (firstn H v) = false).
      { destruct (forallb (missed x) (firstn H v)) eqn:Ef; [|reflexivity]. rewrite <- Ex. symmetry. apply existsb_exists. exists x.
        split; [|exact Ef]. unfold zrange. apply in_map_iff. exists (Z.to_nat x). split; [lia|]. apply in_seq. lia. }
      assert (G : forall l : list Z, forallb (missed x) l = false -> exists u, In u l /\ missed x u = false).
      { clear. induction l as [|u l IH]; [discriminate|]. cbn. destruct (missed x u) eqn:Eu; [|intros _; exists u; auto].
        intros Hl. destruct (IH Hl) as (u' & H1 & H2). exists u'. auto. }
      apply G in Hf as (u & Hu & Hm). apply In_nth with (d := 0) in Hu as (i & Hi & Hnth). rewrite firstn_length in Hi.
      exists i. split; [lia|]. cbn. unfold missed in Hm. apply negb_false_iff, Z.eqb_eq in Hm. rewrite <- Hm, <- Hnth.
      f_equal. rewrite <- (firstn_skipn H v) at 1. apply app_nth1. rewrite firstn_length. lia. }
    destruct (rejection_loop_covered (drawn L v) H (drawn_ok L HL T v Hv) HN Hcov (S T) 0 []) as (l & c' & E1 & Hc').
    + intros i Hi. lia.
    + constructor.
    + intros x [].
    + lia.
    + unfold H. lia.
    + cbn [length] in E1. rewrite Z.sub_0_r in E1. unfold rejection, rejection_sampling in E. rewrite E1 in E.
      apply Nat.ltb_lt in E. unfold H in Hc'. lia.
  - eapply Nat.le_trans; [apply cnt_list_le|].
    assert (G : forall l, (forall x, In x l -> 0 <= x < N) ->
      (sumn (map (fun x => cnt L T (fun v => forallb (missed x) (firstn H v))) l) <= length l * ((Z.to_nat L - 1) ^ H * Z.to_nat L ^ Z.to_nat n))%nat).
    { induction l as [|x l IH]; intros Hl; [apply le_n|]. cbn [map length]. change (sumn (?a :: ?b)) with (a + sumn b)%nat.
      rewrite Nat.mul_succ_l, Nat.add_comm. apply Nat.add_le_mono; [apply IH; intros; apply Hl; right; assumption|].
      assert (E : cnt L T (fun v => forallb (missed x) (firstn H v)) = (length (filter (missed x) (zrange L)) ^ H * Z.to_nat L ^ Z.to_nat n)%nat).
      { rewrite <- (cnt_forallb L H (missed x)), <- (cnt_all L (Z.to_nat n)), <- cnt_split by lia.
        replace (H + Z.to_nat n)%nat with T by (unfold H; lia). apply cnt_ext. intros v _. rewrite andb_true_r. reflexivity. }
      rewrite E. apply Nat.mul_le_mono_r. apply Nat.pow_le_mono_l. apply missed_count; [exact HN|]. apply Hl. left. reflexivity. }
    eapply Nat.le_trans; [apply G; intros x Hx; apply zrange_In; exact Hx|].
    replace (length (zrange N)) with (Z.to_nat N); [apply le_n|]. apply Nat2Z.inj. rewrite zrange_length; lia.
Qed.

Lemma rejection_law : 0 < N -> law L zlist_dec rejection (samples n N).
Proof.
  intros HN. apply (law_even L HL zlist_dec rejection (samples n N) 0).
  - exact rejection_reads.
  - apply samples_nonempty. exact Hn.
  - apply samples_NoDup.
  - intros fuel R c l c' HR E. apply samples_In; [lia|].
    pose proof (@rejection_spec R HR fuel c n N dtype Hn HN HT) as Hs. unfold rejection in E. rewrite E in Hs. exact Hs.
  - intros T a b _ Ha Hb. apply samples_In in Ha; [|lia]. apply samples_In in Hb; [|lia]. apply rejection_fin; assumption.
  - pose proof (IZR_lt _ _ HL) as HLR.
    set (r := ((IZR L - 1) / IZR L)%R).
    assert (H1 : (1 <= IZR L)%R) by (apply (IZR_le 1); lia).
    assert (Hr : (0 <= r < 1)%R).
    { unfold r. split; [apply Rmult_le_pos; [lra|left; apply Rinv_0_lt_compat; lra]|].
      apply Rmult_lt_reg_r with (IZR L); [lra|]. unfold Rdiv. rewrite Rmult_assoc, Rinv_l by lra. lra. }
    apply (cv_squeeze (fun _ => 0%R) _ (fun T => (IZR N * r ^ (T - Z.to_nat n))%R) 0 (Z.to_nat n)).
    + intros T HTn. split.
      * apply Rmult_le_pos; [apply pos_INR|]. left. apply Rinv_0_lt_compat. apply powL_pos. exact HL.
      * pose proof (le_INR _ _ (rejection_unfinished T HN HTn)) as Hle. rewrite !mult_INR, !pow_INR, minus_INR in Hle by lia.
        rewrite !(INR_IZR_INZ (Z.to_nat _)), !Z2Nat.id in Hle by lia. change (INR 1) with 1%R in Hle.
        pose proof (powL_pos L HL T) as Hp. apply Rmult_le_reg_r with (IZR L ^ T)%R; [exact Hp|].
        unfold Rdiv at 1. rewrite Rmult_assoc, Rinv_l by lra. rewrite Rmult_1_r. eapply Rle_trans; [exact Hle|]. right.
        rewrite (powL_split L (Z.to_nat n) T HTn). unfold r, Rdiv. rewrite Rpow_mult_distr, pow_inv.
        pose proof (powL_pos L HL (T - Z.to_nat n)). field. lra.
    + apply cv_const.
    + replace 0%R with (IZR N * 0)%R by ring. apply CV_mult; [apply cv_const|].
      apply (cv_sub (fun k => (r ^ k)%R) (fun T => (T - Z.to_nat n)%nat)).
      * intros M. exists (M + Z.to_nat n)%nat. intros k Hk. lia.
      * intros e He. destruct (pow_lt_1_zero r) with (y := e) as [M HM]; [rewrite Rabs_pos_eq by apply Hr; apply Hr|exact He|].
        exists M. intros k Hk. unfold R_dist. rewrite Rminus_0_r. apply HM. exact Hk.
Qed.

Lemma swr_law : law L zlist_dec (swr n N dtype) (samples n N).
Proof.
  destruct ((100 <? N) && (5 * n <? 3 * N)) eqn:E.
  - apply (law_ext L zlist_dec rejection).
    + intros. unfold swr, sample_without_replacement, rejection. rewrite E. reflexivity.
    + apply rejection_law. apply andb_true_iff in E as [E _]. apply Z.ltb_lt in E. lia.
  - apply (law_ext L zlist_dec knuth).
    + intros. unfold swr, sample_without_replacement, knuth. rewrite E. reflexivity.
    + exact knuth_law.
Qed.

End Sample.
