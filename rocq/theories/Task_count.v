(** [sort_and_threshold] on its own: what is kept, the bounds of the runs, and the count without drawing. *)
From Coq Require Import Ascii String.
From Verif Require Import Prelude ListFacts TypeFitting TypeFitting_proofs
  Sampler Sampler_spec Sampler_proofs Task Task_blocks Task_sort Task_thr_ends.
Set Implicit Arguments.
Open Scope Z_scope.

Lemma changes_length x s : length (changes (x :: s)) = length s.
Proof. revert x. induction s as [|y s IH]; intros x; [reflexivity|]. cbn [changes length]. f_equal. apply IH. Qed.

Lemma changes_nth x s i : (i < length s)%nat ->
  nth_error (changes (x :: s)) i = Some (negb (nth (S i) (x :: s) 0 =? nth i (x :: s) 0)).
Proof.
  revert x i. induction s as [|y s IH]; intros x i H; cbn [length] in H; [lia|].
  destruct i as [|i]; [reflexivity|]. change (changes (x :: y :: s)) with (negb (y =? x) :: changes (y :: s)).
  cbn [nth_error]. rewrite IH by lia. reflexivity.
Qed.

Lemma run_starts_spec s i : s <> [] ->
  In i (run_starts s) <-> i = 0%nat \/ i = length s \/ (0 < i < length s)%nat /\ nth i s 0 <> nth (i - 1) s 0.
Proof.
  intros Hs. destruct s as [|x s]; [congruence|]. unfold run_starts. rewrite np_where_spec.
  destruct i as [|i]; [cbn; intuition|]. cbn [nth_error]. replace (S i - 1)%nat with i by lia.
  destruct (Nat.lt_ge_cases i (length s)) as [H|H].
  - rewrite nth_error_app1 by (rewrite changes_length; exact H). rewrite changes_nth by exact H. cbn [length].
    split.
    + intros E. injection E as E. apply negb_true_iff, Z.eqb_neq in E. right. right. split; [lia|exact E].
    + intros [E|[E|[_ E]]]; [discriminate|lia|]. f_equal. apply negb_true_iff, Z.eqb_neq. exact E.
  - rewrite nth_error_app2 by (rewrite changes_length; exact H). rewrite changes_length. cbn [length].
    destruct (Nat.eq_dec i (length s)) as [->|Hne].
    + rewrite Nat.sub_diag. cbn. intuition.
    + destruct (i - length s)%nat as [|k] eqn:E; [lia|]. cbn. split; [destruct k; discriminate|lia].
Qed.

Lemma sumZ_perm l l' : Permutation l l' -> sumZ l = sumZ l'.
Proof. induction 1; unfold sumZ in *; cbn [fold_right]; lia. Qed.

Lemma sumZ_plus {A} (f g : A -> Z) l : sumZ (map (fun a => f a + g a) l) = sumZ (map f l) + sumZ (map g l).
Proof. induction l as [|a l IH]; unfold sumZ in *; cbn [map fold_right]; lia. Qed.

(** The count without drawing, for every threshold. *)
Theorem counted :
  forall permut idx, idx <> [] -> Permutation permut (seq 0 (length idx)) ->
  StronglySorted Z.le (map (fun i => nth i idx 0) permut) ->
  forall vals, NoDup vals -> (forall v, In v vals <-> In v idx) ->
  forall t, count_after_threshold permut idx t =
    Ok (sumZ (map (fun v => Z.min t (Zlen (filter (Z.eqb v) idx))) vals)).
Proof.
  intros permut idx Hne Hp Hsort vals Hnd Hv t. unfold count_after_threshold.
  rewrite (@gather_ok _ idx permut 0).
  2:{ intros i Hi. apply (Permutation_in _ Hp), in_seq in Hi. lia. }
  cbn [bind]. pose proof (sorted_perm idx Hp) as HP. set (s := map (fun i => nth i idx 0) permut) in *.
  assert (Hs : s <> []).
  { intros E. rewrite E in HP. apply Permutation_nil in HP. auto. }
  rewrite run_lengths by exact Hs. f_equal.
  assert (PV : Permutation (map fst (rle s)) vals).
  { apply NoDup_Permutation; [apply StronglySorted_Zlt_NoDup, rle_distinct, Hsort|exact Hnd|]. intros v. rewrite Hv. split.
    - intros H. apply in_map_iff in H as ([w n] & <- & H). apply (Permutation_in _ HP). apply (@In_rle s w n H).
    - intros H. apply (Permutation_in _ (Permutation_sym HP)) in H. destruct (rle_In _ _ H) as (n & Hn). apply (in_map fst) in Hn. exact Hn. }
  rewrite <- (sumZ_perm (Permutation_map _ PV)).
  assert (E : map (fun p : Z * nat => Z.min t (Zlen (filter (Z.eqb (fst p)) idx))) (rle s) = map (fun p => Z.min t (Z.of_nat (snd p))) (rle s)).
  { apply map_ext_in. intros [v n] H. cbn [fst snd]. f_equal. destruct (@In_rle_count s v n Hsort H) as (_ & ->).
    rewrite (countZ_perm v HP). reflexivity. }
  transitivity (sumZ (map (fun p : Z * nat => Z.min t (Z.of_nat (snd p))) (rle s))); [|rewrite <- E, map_map; reflexivity]. clear E. unfold Zlen at 1. rewrite <- (Permutation_length HP). rewrite <- (expand_rle s) at 1. rewrite length_expand.
  generalize (rle s). intros rl. clear. induction rl as [|[v n] rl IH]; [cbn; lia|].
  cbn [map snd filter sumn fold_right]. fold (sumn (map snd rl)).
  destruct (Z.ltb_spec t (Z.of_nat n)) as [Hlt|Hge]; unfold sumZ, Zlen in *; cbn [fold_right length]; lia.
Qed.

(** What is kept with a threshold. *)
Theorem kept_positions :
  forall R, rng_ok R -> forall permut idx, idx <> [] -> Permutation permut (seq 0 (length idx)) ->
  StronglySorted Z.le (map (fun i => nth i idx 0) permut) ->
  forall ty, Zlen idx - 1 <= tmax ty -> forall t, 0 < t -> forall fuel c l ui c',
  sort_and_threshold R fuel permut idx ty (Some t) c = Ok (l, ui, c') ->
  NoDup l /\ (forall i, In i l -> (i < length idx)%nat) /\
  StronglySorted Z.le (map (fun i => nth i idx 0) l) /\
  (forall v, Zlen (filter (fun i => nth i idx 0 =? v) l) = Z.min t (Zlen (filter (Z.eqb v) idx))) /\
  count_after_threshold permut idx t = Ok (Zlen l).
Proof.
  intros R R_ok permut idx Hne Hp Hsort ty Hty t Ht fuel c l ui c' H.
  destruct (@sort_and_threshold_some R fuel R_ok permut idx ty t c l ui c' Ht Hne Hp Hsort Hty H) as (A & B & C & D).
  assert (D' : forall v, Zlen (filter (fun i => nth i idx 0 =? v) l) = Z.min t (Zlen (filter (Z.eqb v) idx))).
  { intros v. specialize (D v). unfold countZ in D. unfold Zlen.
    assert (E : length (filter (Z.eqb v) (map (fun i => nth i idx 0) l)) = length (filter (fun i => nth i idx 0 =? v) l)).
    { clear. induction l as [|i l IH]; [reflexivity|]. cbn [map filter]. rewrite (Z.eqb_sym v). destruct (nth i idx 0 =? v); cbn [length]; lia. }
    rewrite <- E, D. lia. }
  split; [exact A|]. split; [intros i Hi; apply B, in_seq in Hi; lia|]. split; [exact C|]. split; [exact D'|].
  set (vals := nodup Z.eq_dec idx).
  rewrite (counted Hne Hp Hsort (NoDup_nodup Z.eq_dec idx) (fun v => nodup_In Z.eq_dec idx v)). f_equal.
  fold vals. rewrite <- (map_ext _ _ D').
  assert (Hin : forall i, In i l -> In (nth i idx 0) vals).
  { intros i Hi. apply nodup_In, nth_In. apply B, in_seq in Hi. lia. }
  assert (Hnd : NoDup vals) by apply NoDup_nodup.
  revert Hin Hnd. generalize vals. clear. intros vals Hin Hnd. induction l as [|i l IH].
  - cbn. clear. induction vals as [|v vals IH]; [reflexivity|]. exact IH.
  - assert (E : sumZ (map (fun v => Zlen (filter (fun i => nth i idx 0 =? v) (i :: l))) vals) =
                sumZ (map (fun v => if nth i idx 0 =? v then 1 else 0) vals) + sumZ (map (fun v => Zlen (filter (fun i => nth i idx 0 =? v) l)) vals)).
    { rewrite <- sumZ_plus. f_equal. apply map_ext. intros v. unfold Zlen. cbn [filter].
      destruct (nth i idx 0 =? v); cbn [length]; lia. }
    rewrite E, IH by (intros; apply Hin; right; assumption).
    assert (F : sumZ (map (fun v => if nth i idx 0 =? v then 1 else 0) vals) = 1).
    { specialize (Hin i (or_introl eq_refl)). revert Hin Hnd. clear. generalize (nth i idx 0). intros w.
      induction vals as [|v vals IH]; intros Hin Hnd; [destruct Hin|]. apply NoDup_cons_iff in Hnd as [H1 H2]. unfold sumZ in *. cbn [map fold_right].
      destruct (Z.eqb_spec w v) as [->|Hne].
      - assert (Z0 : fold_right Z.add 0 (map (fun u => if v =? u then 1 else 0) vals) = 0); [|lia].
        revert H1. clear. induction vals as [|u vals IH]; intros H; [reflexivity|]. cbn [map fold_right In] in *.
        destruct (Z.eqb_spec v u); [exfalso; apply H; auto|]. rewrite IH; [reflexivity|tauto].
      - rewrite IH; [reflexivity| |exact H2]. destruct Hin; [congruence|assumption]. }
    rewrite F. unfold Zlen. cbn [length]. lia.
Qed.

(** Without a threshold. *)
Theorem kept_all :
  forall R fuel permut idx, idx <> [] -> Permutation permut (seq 0 (length idx)) ->
  forall ty thr, thr = None \/ thr = Some 0 -> forall c,
  exists ui, sort_and_threshold R fuel permut idx ty thr c = Ok (permut, ui, c).
Proof. intros R fuel permut idx Hne Hp ty thr Ht c. apply sort_and_threshold_none; auto. Qed.

(** The bounds, with and without a threshold. *)
Theorem run_bounds :
  forall R fuel permut idx, idx <> [] -> Permutation permut (seq 0 (length idx)) ->
  forall ty thr c l ui c', sort_and_threshold R fuel permut idx ty thr c = Ok (l, ui, c') ->
  let s := map (fun i => nth i idx 0) permut in
  StronglySorted lt ui /\
  forall i, In i ui <-> i = 0%nat \/ i = length idx \/ (0 < i < length idx)%nat /\ nth i s 0 <> nth (i - 1) s 0.
Proof.
  intros R fuel permut idx Hne Hp ty thr c l ui c' H s. unfold sort_and_threshold in H.
  rewrite (@gather_ok _ idx permut 0) in H.
  2:{ intros i Hi. apply (Permutation_in _ Hp), in_seq in Hi. lia. }
  cbn [bind] in H. fold s in H. apply bind_ok in H as (r & _ & E). injection E as _ <- _.
  split; [apply np_where_sorted|]. pose proof (sorted_perm idx Hp) as HP. fold s in HP. intros i.
  assert (Hs : s <> []).
  { intros E. rewrite E in HP. apply Permutation_nil in HP. auto. }
  rewrite (run_starts_spec i Hs). rewrite (Permutation_length HP). reflexivity.
Qed.

(** A threshold of 0: the count is 0, everything is kept. *)
Theorem zero_counted :
  forall R fuel c, count_after_threshold [0; 2; 1]%nat [5; 6; 5] 0 = Ok 0 /\
  sort_and_threshold R fuel [0; 2; 1]%nat [5; 6; 5] U8 (Some 0) c = Ok ([0; 2; 1]%nat, [0; 2; 3]%nat, c).
Proof. intros. split; reflexivity. Qed.
