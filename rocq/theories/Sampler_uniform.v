(** Both sampling algorithms treat all subsets alike. *)
From Verif Require Import Prelude ListFacts Sampler Sampler_spec Sampler_proofs.
Open Scope Z_scope.

Lemma binom_diag_S r q : (r < q)%nat -> binom r q = 0.
Proof.
  revert q. induction r as [|r IH]; intros [|q] H; cbn [binom]; try lia.
  rewrite !IH by lia. lia.
Qed.

Lemma binom_absorb r : forall q, Z.of_nat (S q) * binom (S r) (S q) = Z.of_nat (S r) * binom r q.
Proof.
  induction r as [|r IH]; intros q.
  - destruct q as [|q]; [reflexivity|]. cbn. lia.
  - change (binom (S (S r)) (S q)) with (binom (S r) q + binom (S r) (S q)).
    destruct q as [|q].
    + specialize (IH O). cbn [binom] in *. destruct r; cbn [binom] in *; lia.
    + pose proof (IH q) as H1. pose proof (IH (S q)) as H2.
      change (binom (S r) (S q)) with (binom r q + binom r (S q)) in *.
      change (binom (S r) (S (S q))) with (binom r (S q) + binom r (S (S q))) in *. nia.
Qed.

Lemma binom_absorb_r r q : (q <= r)%nat ->
  Z.of_nat (S r - q) * binom (S r) q = Z.of_nat (S r) * binom r q.
Proof.
  intros H. destruct q as [|q].
  - destruct r; cbn [binom]; lia.
  - pose proof (binom_absorb r q) as H1.
    change (binom (S r) (S q)) with (binom r q + binom r (S q)) in *. nia.
Qed.

Lemma zrange_length D : 0 <= D -> Z.of_nat (length (zrange D)) = D.
Proof. intros. unfold zrange. rewrite map_length, seq_length. lia. Qed.

Lemma vectors_length D n : 0 <= D -> Z.of_nat (length (vectors D n)) = D ^ Z.of_nat n.
Proof.
  intros HD. induction n as [|n IH]; [reflexivity|].
  cbn [vectors]. rewrite length_flat_map.
  rewrite (map_ext _ (fun _ => length (vectors D n))) by (intros; apply map_length).
  replace (Z.of_nat (S n)) with (1 + Z.of_nat n) by lia. rewrite Z.pow_add_r by lia.
  rewrite <- IH, Z.pow_1_r.
  rewrite <- (zrange_length D HD) at 2. generalize (length (vectors D n)) (zrange D). intros k l.
  induction l as [|a l IHl]; [reflexivity|]. cbn [map sumn length] in *.
  change (sumn (k :: map (fun _ : Z => k) l)) with (k + sumn (map (fun _ : Z => k) l))%nat. lia.
Qed.

(** Number of vectors of length [S n] satisfying a test that looks at the first draw. *)
Lemma count_vectors_S D n (P : list Z -> bool) (Q : Z -> bool) a b :
  (forall u, In u (zrange D) -> Q u = true ->
     Z.of_nat (length (filter (fun us => P (u :: us)) (vectors D n))) = a) ->
  (forall u, In u (zrange D) -> Q u = false ->
     Z.of_nat (length (filter (fun us => P (u :: us)) (vectors D n))) = b) ->
  Z.of_nat (length (filter P (vectors D (S n)))) =
  Z.of_nat (length (filter Q (zrange D))) * a +
  Z.of_nat (length (filter (fun u => negb (Q u)) (zrange D))) * b.
Proof.
  cbn [vectors]. generalize (vectors D n) (zrange D). intros vs l Ha Hb.
  assert (HM : forall u, length (filter P (map (cons u) vs)) = length (filter (fun us => P (u :: us)) vs)).
  { intros u. clear. induction vs as [|v vs IH]; [reflexivity|]. cbn [map filter].
    destruct (P (u :: v)); cbn [length]; lia. }
  induction l as [|u l IH]; [cbn; lia|].
  cbn [flat_map]. rewrite filter_app, app_length, HM, Nat2Z.inj_add.
  rewrite IH by (intros; auto with datatypes).
  cbn [filter]. destruct (Q u) eqn:E; cbn [negb length].
  - rewrite (Ha u) by auto with datatypes. lia.
  - rewrite (Hb u) by auto with datatypes. lia.
Qed.

Lemma count_below D k : 0 <= k <= D ->
  Z.of_nat (length (filter (fun u => u <? k) (zrange D))) = k /\
  Z.of_nat (length (filter (fun u => negb (u <? k)) (zrange D))) = D - k.
Proof.
  intros Hk. unfold zrange.
  replace (Z.to_nat D) with (Z.to_nat k + Z.to_nat (D - k))%nat by lia.
  rewrite seq_app, map_app, !filter_app, !app_length.
  rewrite (@filter_all _ (fun u => u <? k) (map Z.of_nat (seq 0 (Z.to_nat k)))).
  2:{ intros x Hx. apply in_map_iff in Hx. destruct Hx as [i [<- Hi]]. apply in_seq in Hi. lia. }
  rewrite (@filter_none _ (fun u => u <? k) (map Z.of_nat (seq (0 + _) _))).
  2:{ intros x Hx. apply in_map_iff in Hx. destruct Hx as [i [<- Hi]]. apply in_seq in Hi. lia. }
  rewrite (@filter_none _ (fun u => negb (u <? k)) (map Z.of_nat (seq 0 (Z.to_nat k)))).
  2:{ intros x Hx. apply in_map_iff in Hx. destruct Hx as [i [<- Hi]]. apply in_seq in Hi. lia. }
  rewrite (@filter_all _ (fun u => negb (u <? k)) (map Z.of_nat (seq (0 + _) _))).
  2:{ intros x Hx. apply in_map_iff in Hx. destruct Hx as [i [<- Hi]]. apply in_seq in Hi. lia. }
  rewrite !map_length, !seq_length. cbn [length]. lia.
Qed.

(** The loop only looks at the draws ahead. *)
Lemma knuth_loop_shift D dtype n N us u : forall fuel c t m,
  match knuth_loop (unit_rng D (u :: us)) fuel (S c) dtype n N t m,
        knuth_loop (unit_rng D us) fuel c dtype n N t m with
  | Ok (l, _), Ok (l', _) => l = l'
  | Err e, Err e' => e = e'
  | _, _ => False
  end.
Proof.
  induction fuel as [|fuel IH]; intros c t m; [reflexivity|].
  cbn [knuth_loop]. destruct (m <? n); [|reflexivity].
  cbn [unit_rng rnd_unit rnd_den nth].
  destruct ((N - t) * nth c us 0 <? (n - m) * D).
  - specialize (IH (S c) (t + 1) (m + 1)). cbn [unit_rng] in IH.
    destruct (knuth_loop _ fuel (S (S c)) _ _ _ _ _) as [[l1 c1]|e1];
      destruct (knuth_loop _ fuel (S c) _ _ _ _ _) as [[l2 c2]|e2]; cbn [bind fst snd];
      try contradiction; try assumption. subst. reflexivity.
  - apply IH.
Qed.

Lemma draws_to_shift D dtype n N us u fuel c t m l :
  draws_to (knuth_loop (unit_rng D (u :: us)) fuel (S c) dtype n N t m) l =
  draws_to (knuth_loop (unit_rng D us) fuel c dtype n N t m) l.
Proof.
  pose proof (knuth_loop_shift D dtype n N us u fuel c t m) as H.
  destruct (knuth_loop (unit_rng D (u :: us)) _ _ _ _ _ _ _) as [[l1 c1]|e1];
    destruct (knuth_loop (unit_rng D us) _ _ _ _ _ _ _) as [[l2 c2]|e2]; cbn;
    try contradiction; subst; reflexivity.
Qed.

Lemma zlist_eqb_cons a l1 b l2 : zlist_eqb (a :: l1) (b :: l2) = (a =? b) && zlist_eqb l1 l2.
Proof.
  unfold zlist_eqb. destruct (list_eq_dec Z.eq_dec (a :: l1) (b :: l2)) as [E|E];
    destruct (list_eq_dec Z.eq_dec l1 l2) as [E'|E']; destruct (a =? b) eqn:Eab; cbn;
    try reflexivity; try (injection E as -> ->); try (rewrite Z.eqb_refl in Eab); try congruence.
  apply Z.eqb_eq in Eab. congruence.
Qed.

Lemma zrange_In D u : In u (zrange D) -> 0 <= u < D.
Proof.
  unfold zrange. intros H. apply in_map_iff in H. destruct H as [i [<- Hi]]. apply in_seq in Hi. lia.
Qed.

Lemma vectors_In D n : forall us, In us (vectors D n) -> forall u, In u us -> 0 <= u < D.
Proof.
  induction n as [|n IH]; cbn [vectors]; intros us H u Hu.
  - destruct H as [<-|[]]. destruct Hu.
  - apply in_flat_map in H. destruct H as [v [Hv H]]. apply in_map_iff in H.
    destruct H as [vs [<- Hvs]]. destruct Hu as [<-|Hu]; [apply zrange_In; assumption|].
    apply (IH vs Hvs u Hu).
Qed.

Lemma unit_rng_ok D us : 0 < D -> (forall u, In u us -> 0 <= u < D) -> rng_ok (unit_rng D us).
Proof.
  intros HD H. split; [assumption|]. split; [|cbn; lia]. intros c. cbn [unit_rng rnd_unit rnd_den].
  destruct (nth_in_or_default c us 0) as [HI|HE]; [apply H; assumption|rewrite HE; lia].
Qed.

Lemma count_false (P : list Z -> bool) vs : (forall v, P v = false) -> length (filter P vs) = O.
Proof. intros H. rewrite filter_none by (intros; apply H). reflexivity. Qed.

Lemma knuth_ways D dtype n N :
  0 < D -> (forall r, 0 < r <= N -> (r | D)) -> N - 1 <= tmax dtype ->
  forall r fuel t m l,
    0 <= t -> m <= n -> N - t = Z.of_nat r -> n - m <= N - t -> (r < fuel)%nat ->
    Z.of_nat (length l) = n - m -> StronglySorted Z.lt l -> (forall x, In x l -> t <= x < N) ->
    Z.of_nat (length (filter (fun us => draws_to (knuth_loop (unit_rng D us) fuel 0 dtype n N t m) l)
                             (vectors D r))) * binom r (Z.to_nat (n - m)) = D ^ Z.of_nat r.
Proof.
  intros HD Hdiv HT. induction r as [|r IH]; intros fuel t m l Ht Hm Hr Hq Hf Hl Hs Hi.
  - destruct fuel as [|fuel]; [lia|]. assert (n = m) by lia. subst n.
    destruct l; [|cbn in Hl; lia]. cbn [vectors filter knuth_loop]. rewrite Z.ltb_irrefl.
    rewrite Z.sub_diag. reflexivity.
  - destruct fuel as [|fuel]; [lia|].
    destruct (Z.eq_dec m n) as [->|Hne].
    + destruct l; [|cbn in Hl; lia]. rewrite (filter_ext _ (fun _ => true)).
      2:{ intros us. cbn [knuth_loop]. rewrite Z.ltb_irrefl. reflexivity. }
      rewrite filter_all by reflexivity. rewrite vectors_length by lia.
      rewrite Z.sub_diag. cbn [binom Z.to_nat]. lia.
    + assert (Hmn : (m <? n) = true) by lia.
      destruct (Hdiv (N - t) ltac:(lia)) as [d Hd].
      assert (Hd0 : 0 < d) by nia.
      assert (HQ : forall u, (N - t) * u <? (n - m) * D = (u <? (n - m) * d)).
      { intros u. rewrite Hd. apply eq_true_iff_eq. rewrite !Z.ltb_lt.
        replace ((n - m) * (d * (N - t))) with ((N - t) * ((n - m) * d)) by ring.
        rewrite <- Z.mul_lt_mono_pos_l by lia. reflexivity. }
      assert (Hcast : cast dtype t = t) by (apply cast_id; pose proof (tmin_nonpos dtype); lia).
      destruct (@count_below D ((n - m) * d) ltac:(nia)) as [HC1 HC2].
      set (P := fun us => draws_to (knuth_loop (unit_rng D us) (S fuel) 0 dtype n N t m) l).
      assert (HPsel : forall u us, u <? (n - m) * d = true ->
        P (u :: us) = match l with
                      | [] => false
                      | x :: l' => (t =? x) && draws_to (knuth_loop (unit_rng D us) fuel 0 dtype n N (t + 1) (m + 1)) l'
                      end).
      { intros u us Hu. unfold P. cbn [knuth_loop]. rewrite Hmn.
        cbn [unit_rng rnd_unit rnd_den nth]. rewrite HQ, Hu, Hcast.
        destruct l as [|x l']; [cbn in Hl; lia|].
        rewrite <- (draws_to_shift D dtype n N us u fuel 0 (t + 1) (m + 1) l').
        unfold unit_rng at 2.
        destruct (knuth_loop _ fuel 1 dtype n N (t + 1) (m + 1)) as [[l1 c1]|e]; cbn [bind fst snd draws_to].
        - apply zlist_eqb_cons.
        - rewrite andb_false_r. reflexivity. }
      assert (HPnot : forall u us, u <? (n - m) * d = false ->
        P (u :: us) = draws_to (knuth_loop (unit_rng D us) fuel 0 dtype n N (t + 1) m) l).
      { intros u us Hu. unfold P. cbn [knuth_loop]. rewrite Hmn.
        cbn [unit_rng rnd_unit rnd_den nth]. rewrite HQ, Hu.
        apply (draws_to_shift D dtype n N us u fuel 0 (t + 1) m l). }
      destruct l as [|x l']; [cbn in Hl; lia|].
      assert (Hx : t <= x < N) by (apply Hi; left; reflexivity).
      destruct (StronglySorted_inv Hs) as [Hs' HF]. rewrite Forall_forall in HF.
      replace (D ^ Z.of_nat (S r)) with (D * D ^ Z.of_nat r)
        by (replace (Z.of_nat (S r)) with (1 + Z.of_nat r) by lia; rewrite Z.pow_add_r, Z.pow_1_r by lia; lia).
      destruct (Z.eq_dec x t) as [->|Hxt].
      * (* t is selected *)
        pose proof (IH fuel (t + 1) (m + 1) l' ltac:(lia) ltac:(lia) ltac:(lia) ltac:(lia) ltac:(lia)
                       ltac:(cbn [length] in Hl; lia) Hs') as HI.
        specialize (HI ltac:(intros y Hy; specialize (HF y Hy); specialize (Hi y (or_intror Hy)); lia)).
        set (w := Z.of_nat (length (filter _ (vectors D r)))) in HI.
        rewrite (@count_vectors_S D r P (fun u => u <? (n - m) * d) w 0).
        -- rewrite HC1. pose proof (binom_absorb r (Z.to_nat (n - (m + 1)))) as HB.
           replace (S (Z.to_nat (n - (m + 1)))) with (Z.to_nat (n - m)) in HB by lia.
           rewrite <- HI. rewrite Hd.
           replace (Z.of_nat (Z.to_nat (n - m))) with (n - m) in HB by lia.
           replace (Z.of_nat (S r)) with (N - t) in HB by lia.
           rewrite Z.mul_0_r, Z.add_0_r.
           replace ((n - m) * d * w * binom (S r) (Z.to_nat (n - m)))
             with (d * w * ((n - m) * binom (S r) (Z.to_nat (n - m)))) by ring.
           rewrite HB. ring.
        -- intros u _ Hu. unfold w. f_equal. f_equal. apply filter_ext. intros us.
           rewrite HPsel by assumption. rewrite Z.eqb_refl. reflexivity.
        -- intros u Hin Hu. rewrite (filter_ext_in _ (fun _ => false)).
           { rewrite filter_none by reflexivity. reflexivity. }
           intros us Hus. rewrite HPnot by assumption.
           apply zrange_In in Hin. apply Z.ltb_ge in Hu.
           destruct (@knuth_loop_spec (unit_rng D us) (unit_rng_ok D us HD (vectors_In D r us Hus))
                       dtype n N fuel 0 (t + 1) m ltac:(lia) ltac:(lia) ltac:(nia) HT ltac:(lia))
             as (l1 & c1 & -> & _ & _ & Hge).
           cbn [draws_to]. unfold zlist_eqb. destruct (list_eq_dec Z.eq_dec l1 (t :: l')); [|reflexivity].
           subst l1. specialize (Hge t (or_introl eq_refl)). lia.
      * (* t is skipped *)
        assert (Hlt : n - m <= N - (t + 1)).
        { pose proof (@ssorted_range_length (t + 1) N (x :: l') Hs) as HL. rewrite Hl in HL.
          apply HL; [|lia]. intros y [<-|Hy]; [lia|]. specialize (HF y Hy).
          specialize (Hi y (or_intror Hy)). lia. }
        pose proof (IH fuel (t + 1) m (x :: l') ltac:(lia) ltac:(lia) ltac:(lia) ltac:(lia) ltac:(lia)
                       ltac:(lia) Hs) as HI.
        specialize (HI ltac:(intros y [<-|Hy]; [lia|]; specialize (HF y Hy); specialize (Hi y (or_intror Hy)); lia)).
        set (w := Z.of_nat (length (filter _ (vectors D r)))) in HI.
        rewrite (@count_vectors_S D r P (fun u => u <? (n - m) * d) 0 w).
        -- rewrite HC2. pose proof (@binom_absorb_r r (Z.to_nat (n - m)) ltac:(lia)) as HB.
           replace (Z.of_nat (S r - Z.to_nat (n - m))) with (N - t - (n - m)) in HB by lia.
           replace (Z.of_nat (S r)) with (N - t) in HB by lia.
           rewrite <- HI. rewrite Hd. rewrite Z.mul_0_r, Z.add_0_l.
           replace ((d * (N - t) - (n - m) * d) * w * binom (S r) (Z.to_nat (n - m)))
             with (d * w * ((N - t - (n - m)) * binom (S r) (Z.to_nat (n - m)))) by ring.
           rewrite HB. ring.
        -- intros u _ Hu. rewrite (filter_ext_in _ (fun _ => false)).
           { rewrite filter_none by reflexivity. reflexivity. }
           intros us _. rewrite HPsel by assumption. replace (t =? x) with false by lia. reflexivity.
        -- intros u _ Hu. unfold w. f_equal. f_equal. apply filter_ext. intros us.
           rewrite HPnot by assumption. reflexivity.
Qed.

Lemma knuth_uniform D n N dtype l :
  0 < D -> 0 <= N -> (forall r, 0 < r <= N -> (r | D)) -> N - 1 <= tmax dtype ->
  is_sample n N l ->
  ways D n N dtype l * binom (Z.to_nat N) (Z.to_nat n) = D ^ N.
Proof.
  intros HD H0 Hdiv HT (Hl & Hs & Hi).
  assert (HnN : 0 <= n <= N) by (pose proof (@ssorted_range_length 0 N l Hs Hi H0); lia).
  unfold ways, knuth_sampling. replace (n <? 0) with false by lia.
  pose proof (@knuth_ways D dtype n N HD Hdiv HT (Z.to_nat N) (S (Z.to_nat N) + Z.to_nat n) 0 0 l
                ltac:(lia) ltac:(lia) ltac:(lia) ltac:(lia) ltac:(lia) ltac:(lia) Hs Hi) as H.
  rewrite Z.sub_0_r in H. rewrite Z2Nat.id in H by lia. exact H.
Qed.

(** Rejection algorithm: relabelling the integers relabels the sample. *)
Lemma relabel_ok pi R N : permutes pi N -> rng_ok R -> forall c, 0 < N -> 0 <= rnd_int (relabel pi R) c N < N.
Proof. intros [H _] [_ [_ HI]] c HN. cbn. apply H, HI, HN. Qed.

Lemma np_unique_ext l1 l2 : (forall x, In x l1 <-> In x l2) -> np_unique l1 = np_unique l2.
Proof.
  intros H. apply ssorted_lt_ext; try apply np_unique_sorted.
  intros x. rewrite !np_unique_In. apply H.
Qed.

Lemma np_unique_map_length pi l :
  (forall x y, In x l -> In y l -> pi x = pi y -> x = y) ->
  length (np_unique (map pi l)) = length (np_unique l).
Proof.
  intros Hinj. rewrite <- (map_length pi (np_unique l)). apply Nat.le_antisymm; apply NoDup_incl_length.
  - apply np_unique_NoDup.
  - intros x Hx. rewrite np_unique_In in Hx. apply in_map_iff in Hx. destruct Hx as [y [<- Hy]].
    apply in_map. apply np_unique_In. assumption.
  - apply NoDup_map_inj; [|apply np_unique_NoDup]. intros x y Hx Hy. rewrite np_unique_In in Hx, Hy. auto.
  - intros x Hx. apply in_map_iff in Hx. destruct Hx as [y [<- Hy]]. apply np_unique_In.
    apply in_map. rewrite np_unique_In in Hy. assumption.
Qed.

Lemma rejection_relabel pi R N dtype n :
  permutes pi N -> rng_ok R -> 0 < N -> N - 1 <= tmax dtype ->
  forall fuel c sample remaining,
  (forall x, In x sample -> 0 <= x < N) ->
  rejection_loop (relabel pi R) fuel c dtype n N (np_unique (map pi sample)) remaining =
  match rejection_loop R fuel c dtype n N (np_unique sample) remaining with
  | Ok (l, c') => Ok (np_unique (map pi l), c')
  | Err e => Err e
  end.
Proof.
  intros [Hpi Hinj] HR HN HT. induction fuel as [|fuel IH]; intros c sample remaining Hi; [reflexivity|].
  cbn [rejection_loop]. destruct (0 <? remaining) eqn:E.
  - set (A := randints R c N remaining).
    assert (HA : forall x, In x A -> 0 <= x < N) by (intros x Hx; eapply randints_in; eauto).
    assert (HB : randints (relabel pi R) c N remaining = map pi A).
    { unfold A, randints. rewrite map_map. reflexivity. }
    assert (HcA : map (cast dtype) A = A) by (apply randints_cast; assumption).
    assert (HcB : map (cast dtype) (map pi A) = map pi A).
    { rewrite <- (map_id (map pi A)) at 2. apply map_ext_in. intros y Hy. apply in_map_iff in Hy.
      destruct Hy as [x [<- Hx]]. apply HA, Hpi in Hx. apply cast_id. pose proof (tmin_nonpos dtype). lia. }
    rewrite HB, HcA, HcB.
    set (s2 := sample ++ A).
    assert (Hs2 : forall x, In x s2 -> 0 <= x < N).
    { intros x Hx. apply in_app_iff in Hx. destruct Hx; auto. }
    replace (np_unique (np_unique sample ++ np_unique A)) with (np_unique s2).
    2:{ apply np_unique_ext. intros x. unfold s2. rewrite !in_app_iff, !np_unique_In. tauto. }
    replace (np_unique (np_unique (map pi sample) ++ np_unique (map pi A))) with (np_unique (map pi s2)).
    2:{ apply np_unique_ext. intros x. unfold s2. rewrite map_app, !in_app_iff, !np_unique_In. tauto. }
    rewrite np_unique_map_length by auto. apply IH. assumption.
  - f_equal. f_equal. apply np_unique_ext. intros x. rewrite !in_map_iff.
    split; intros [y [<- Hy]]; exists y; (split; [reflexivity|]); apply np_unique_In; assumption.
Qed.

Lemma rejection_relabel_top pi R N dtype n fuel c :
  permutes pi N -> rng_ok R -> 0 < N -> N - 1 <= tmax dtype ->
  rejection_sampling (relabel pi R) fuel c n N dtype =
  match rejection_sampling R fuel c n N dtype with
  | Ok (l, c') => Ok (np_unique (map pi l), c')
  | Err e => Err e
  end.
Proof.
  intros. unfold rejection_sampling.
  change (@nil Z) with (np_unique (map pi [])) at 1. change (@nil Z) with (np_unique []) at 2.
  apply rejection_relabel; auto. intros x [].
Qed.
