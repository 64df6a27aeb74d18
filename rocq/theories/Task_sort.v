(** Lemmas about the sort by regressors and the threshold. *)
From Coq Require Import String.
From Verif Require Import Prelude ListFacts TypeFitting TypeFitting_proofs
  Sampler Sampler_spec Sampler_proofs Task Task_blocks.
Set Implicit Arguments.
Open Scope Z_scope.

(* ------------------------------------------------------------------ *)
(** ** Run lengths *)

Fixpoint rle (s : list Z) : list (Z * nat) :=
  match s with
  | [] => []
  | x :: s' => match rle s' with
               | (y, n) :: r => if x =? y then (y, S n) :: r else (x, 1%nat) :: (y, n) :: r
               | [] => [(x, 1%nat)]
               end
  end.

Definition expand (rl : list (Z * nat)) : list Z := flat_map (fun p => repeat (fst p) (snd p)) rl.

Lemma expand_cons v n r : expand ((v, n) :: r) = repeat v n ++ expand r.
Proof. reflexivity. Qed.

Lemma expand_rle s : expand (rle s) = s.
Proof.
  induction s as [|x s IH]; [reflexivity|]. cbn. destruct (rle s) as [|[y n] r] eqn:E.
  - cbn in *. now rewrite <- IH.
  - destruct (Z.eqb_spec x y) as [->|Hne]; cbn in *; now rewrite IH.
Qed.

Lemma rle_hd x s : exists n r, rle (x :: s) = (x, S n) :: r.
Proof.
  cbn. destruct (rle s) as [|[y n] r] eqn:E; [eauto|].
  destruct (Z.eqb_spec x y) as [->|Hne]; eauto.
Qed.

Lemma In_rle s v n : In (v, n) (rle s) -> In v s /\ (0 < n)%nat.
Proof.
  revert n. induction s as [|x s IH]; intros n; [cbn; tauto|]. cbn. destruct (rle s) as [|[y m] r] eqn:E.
  - intros [H|[]]. inversion H; subst. split; [auto|lia].
  - destruct (Z.eqb_spec x y) as [->|Hne]; cbn; intros [H|H].
    + inversion H; subst. split; [auto|lia].
    + destruct (IH n); cbn; auto.
    + inversion H; subst. split; [auto|lia].
    + destruct (IH n); cbn; auto.
Qed.

Lemma rle_distinct s : StronglySorted Z.le s -> StronglySorted Z.lt (map fst (rle s)).
Proof.
  induction s as [|x s IH]; [constructor|]. intros H. apply StronglySorted_inv in H as [Hs Hf].
  specialize (IH Hs). cbn. destruct (rle s) as [|[y n] r] eqn:E.
  - constructor; constructor.
  - destruct (Z.eqb_spec x y) as [->|Hne]; cbn in *; [exact IH|].
    constructor; [exact IH|]. rewrite Forall_forall in Hf.
    assert (Hxy : x < y).
    { assert (Hin : In y s) by (apply (@In_rle s y n); rewrite E; left; reflexivity). specialize (Hf y Hin). lia. }
    constructor; [exact Hxy|].
    apply StronglySorted_inv in IH as [_ Hr]. rewrite Forall_forall in *. intros z Hz. specialize (Hr z Hz). lia.
Qed.

Fixpoint ends (o : nat) (rl : list (Z * nat)) : list nat :=
  match rl with [] => [] | (_, n) :: r => (o + n)%nat :: ends (o + n) r end.

Lemma where_changes x s i :
  where_from (S i) (changes (x :: s) ++ [true]) = ends i (rle (x :: s)).
Proof.
  revert x i. induction s as [|y s IH]; intros x i.
  - cbn. now rewrite Nat.add_1_r.
  - change (changes (x :: y :: s)) with (negb (y =? x) :: changes (y :: s)).
    change (rle (x :: y :: s)) with
      (match rle (y :: s) with
       | (y, n) :: r => if x =? y then (y, S n) :: r else (x, 1%nat) :: (y, n) :: r
       | [] => [(x, 1%nat)] end).
    cbn [app where_from]. destruct (rle_hd y s) as (n & r & E). rewrite E in *.
    specialize (IH y (S i)). rewrite E in IH.
    rewrite (Z.eqb_sym y x). destruct (Z.eqb_spec x y) as [->|Hne]; cbn [negb].
    + rewrite IH. cbn [ends]. replace (S i + S n)%nat with (i + S (S n))%nat by lia. reflexivity.
    + rewrite IH. cbn [ends]. rewrite Nat.add_1_r. reflexivity.
Qed.

Lemma run_starts_rle s : s <> [] -> run_starts s = 0%nat :: ends 0 (rle s).
Proof.
  destruct s as [|x s]; [congruence|]. intros _. unfold run_starts, np_where. cbn [where_from].
  f_equal. apply where_changes.
Qed.

Lemma diffs_ends o rl : diffs (o :: ends o rl) = map snd rl.
Proof.
  revert o. induction rl as [|[v n] r IH]; intros o; [reflexivity|].
  cbn [ends]. change (diffs (o :: (o + n)%nat :: ends (o + n) r))
    with ((o + n - o)%nat :: diffs ((o + n)%nat :: ends (o + n) r)).
  rewrite IH. cbn. f_equal. lia.
Qed.

Lemma run_lengths s : s <> [] -> diffs (run_starts s) = map snd (rle s).
Proof. intros H. rewrite run_starts_rle by exact H. apply diffs_ends. Qed.

Lemma length_expand rl : length (expand rl) = sumn (map snd rl).
Proof.
  unfold expand. rewrite length_flat_map. f_equal. apply map_ext. intros [v n]. apply repeat_length.
Qed.

Definition limited (t : nat) (rl : list (Z * nat)) : list (Z * nat) :=
  map (fun p => (fst p, Nat.min t (snd p))) rl.

Definition countZ (w : Z) (l : list Z) : nat := length (filter (Z.eqb w) l).

Lemma countZ_app w l l' : countZ w (l ++ l') = (countZ w l + countZ w l')%nat.
Proof. unfold countZ. rewrite filter_app, app_length. reflexivity. Qed.

Lemma countZ_repeat w v n : countZ w (repeat v n) = if w =? v then n else 0%nat.
Proof.
  unfold countZ. induction n as [|n IH]; cbn; [destruct (w =? v); reflexivity|].
  destruct (w =? v) eqn:E; cbn; rewrite IH; reflexivity.
Qed.

Lemma countZ_expand_none w rl : ~ In w (map fst rl) -> countZ w (expand rl) = 0%nat.
Proof.
  induction rl as [|[v n] r IH]; [reflexivity|]. cbn [map fst In]. intros H. rewrite expand_cons.
  rewrite countZ_app, countZ_repeat, IH by tauto.
  destruct (Z.eqb_spec w v); [subst; tauto|reflexivity].
Qed.

Lemma countZ_limited t w rl :
  NoDup (map fst rl) -> countZ w (expand (limited t rl)) = Nat.min t (countZ w (expand rl)).
Proof.
  induction rl as [|[v n] r IH]; [intros _; unfold countZ; cbn; lia|].
  intros H. cbn [map fst limited] in *. fold (limited t r). cbn [snd]. rewrite !expand_cons. apply NoDup_cons_iff in H as [H1 H2].
  rewrite !countZ_app, !countZ_repeat. destruct (Z.eqb_spec w v) as [->|Hne].
  - rewrite (@countZ_expand_none v r) by exact H1.
    rewrite countZ_expand_none; [lia|]. unfold limited. rewrite map_map. exact H1.
  - cbn. exact (IH H2).
Qed.

Lemma expand_limited_sorted t rl :
  StronglySorted Z.lt (map fst rl) -> StronglySorted Z.le (expand (limited t rl)).
Proof.
  induction rl as [|[v n] r IH]; [constructor|]. intros H.
  cbn [map fst limited] in *. fold (limited t r). cbn [snd]. rewrite expand_cons.
  apply StronglySorted_inv in H as [Hs Hf]. specialize (IH Hs).
  assert (G : Forall (Z.le v) (expand (limited t r))).
  { apply Forall_forall. intros z Hz. unfold expand in Hz. apply in_flat_map in Hz as ([v' n'] & Hin & Hz).
    apply repeat_spec in Hz. subst. unfold limited in Hin. apply in_map_iff in Hin as ([v'' n''] & E & Hin).
    cbn in E. inversion E; subst. rewrite Forall_forall in Hf.
    specialize (Hf v'). cbn. apply Z.lt_le_incl, Hf. apply in_map_iff. exists (v', n''). auto. }
  generalize (Nat.min t n). intros m. induction m as [|m IHm]; cbn; [exact IH|].
  constructor; [exact IHm|]. apply Forall_app. split; [|exact G].
  apply Forall_forall. intros z Hz. apply repeat_spec in Hz. lia.
Qed.

(* ------------------------------------------------------------------ *)
(** ** Threshold *)

Lemma NoDup_app_elim A (s p : list A) :
  NoDup (s ++ p) -> NoDup s /\ NoDup p /\ forall x, In x s -> In x p -> False.
Proof.
  intros Hn. induction s as [|x s IHs]; cbn in *; [split; [constructor|split; [exact Hn|tauto]]|].
  apply NoDup_cons_iff in Hn as [N1 N2]. destruct (IHs N2) as (A1 & A2 & A3).
  rewrite in_app_iff in N1. split; [constructor; tauto|split; [exact A2|]].
  intros y [->|Hy] Hy'; [tauto|eauto].
Qed.

Section Threshold.
Variable R : rng.
Variable fuel : nat.

Definition no_threshold (thr : option Z) : Prop := thr = None \/ thr = Some 0.

Lemma threshold_runs_none permut ty thr counts i c :
  no_threshold thr -> (i + sumn counts <= length permut)%nat ->
  threshold_runs R fuel permut ty thr counts i c = Ok (slice i (i + sumn counts) permut, c).
Proof.
  intros Ht. revert i c. induction counts as [|n counts IH]; intros i c Hl; cbn [threshold_runs].
  - cbn. rewrite Nat.add_0_r. unfold slice. rewrite Nat.sub_diag. reflexivity.
  - assert (E : match thr with Some t => negb (t =? 0) && (t <? Z.of_nat n) | None => false end = false).
    { destruct Ht as [->| ->]; reflexivity. }
    rewrite E. cbn [bind fst snd]. cbn [sumn fold_right] in *. fold (sumn counts) in *.
    rewrite IH by lia. cbn [bind fst snd].
    rewrite (@slice_app _ permut i (i + n) (i + n + sumn counts)) by lia.
    do 3 f_equal. lia.
Qed.

Hypothesis R_ok : rng_ok R.

Lemma threshold_runs_some permut ty t (code : nat -> Z) rl pre post c l c' :
  0 < t ->
  permut = pre ++ post -> NoDup post ->
  Z.of_nat (length permut) - 1 <= tmax ty ->
  map code post = expand rl ->
  threshold_runs R fuel permut ty (Some t) (map snd rl) (length pre) c = Ok (l, c') ->
  NoDup l /\ incl l post /\ map code l = expand (limited (Z.to_nat t) rl).
Proof.
  intros Ht. revert pre post c l c'. induction rl as [|[v n] rl IH]; intros pre post c l c' Ep Hn Hty Hc H.
  - cbn in H. inversion H; subst. repeat split; [constructor|intros x []].
  - cbn [map snd threshold_runs] in H. apply bind_ok in H as ([l1 c1] & H1 & H).
    apply bind_ok in H as ([l2 c2] & H2 & H). cbn [fst snd] in *. inversion H; subst l c'; clear H.
    cbn [expand flat_map fst snd] in Hc. fold (expand rl) in Hc.
    assert (Hlen : length post = (n + length (expand rl))%nat).
    { rewrite <- (map_length code), Hc, app_length, repeat_length. reflexivity. }
    assert (Hex : exists seg post', post = seg ++ post' /\ length seg = n).
    { exists (firstn n post), (skipn n post). rewrite firstn_skipn, firstn_length. split; [reflexivity|lia]. }
    destruct Hex as (seg & post' & Epost & Lseg).
    assert (Cseg : map code seg = repeat v n /\ map code post' = expand rl).
    { rewrite Epost, map_app in Hc.
      assert (L1 : length (map code seg) = length (repeat v n)) by (rewrite map_length, repeat_length; exact Lseg).
      assert (G : forall (a b c d : list Z), length a = length c -> a ++ b = c ++ d -> a = c /\ b = d).
      { induction a as [|x a IHa]; intros b0 [|y c0] d0 L E; cbn in *; try lia; [auto|].
        inversion E; subst. destruct (IHa b0 c0 d0) as [-> ->]; auto. }
      apply G; assumption. }
    destruct Cseg as [Cseg Cpost].
    rewrite Epost in Hn. assert (Hns : NoDup seg /\ NoDup post' /\ forall x, In x seg -> In x post' -> False).
    { apply NoDup_app_elim. exact Hn. }
    destruct Hns as (Ns & Np & Nd).
    assert (Epre : permut = (pre ++ seg) ++ post') by (rewrite Ep, Epost, app_assoc; reflexivity).
    assert (Hl2 : NoDup l2 /\ incl l2 post' /\ map code l2 = expand (limited (Z.to_nat t) rl)).
    { apply (IH (pre ++ seg) post' c1 l2 c2 Epre Np Hty Cpost).
      rewrite app_length, Lseg. exact H2. }
    destruct Hl2 as (N2 & I2 & C2).
    assert (Hl1 : NoDup l1 /\ incl l1 seg /\ map code l1 = repeat v (Nat.min (Z.to_nat t) n)).
    { assert (Hseg : forall j, (j < n)%nat -> nth_error permut (length pre + j) = nth_error seg j).
      { intros j Hj. rewrite Epre, <- app_assoc, nth_error_app2 by lia.
        replace (length pre + j - length pre)%nat with j by lia.
        rewrite nth_error_app1 by lia. reflexivity. }
      destruct (negb (t =? 0) && (t <? Z.of_nat n)) eqn:Es.
      - assert (Htn : t < Z.of_nat n) by lia.
        apply bind_ok in H1 as ([s cs] & Hs & H1). cbn [fst snd] in H1.
        apply bind_ok in H1 as (l1' & Hg & H1). inversion H1; subst l1' c1; clear H1.
        assert (HN : length permut = (length pre + (n + length (expand rl)))%nat).
        { rewrite Ep, app_length. lia. }
        pose proof (@swr_spec R R_ok fuel c t (Z.of_nat n) ty s cs ltac:(lia) ltac:(lia) Hs) as (Ls & Ss & Is).
        assert (Hcast : forall x, In x s -> Z.to_nat (cast ty (x + Z.of_nat (length pre))) = (length pre + Z.to_nat x)%nat).
        { intros x Hx. specialize (Is x Hx). rewrite cast_id; [lia|].
          pose proof (tmin_nonpos ty). lia. }
        assert (Hg2 : gather seg (map Z.to_nat s) = Ok l1).
        { rewrite <- Hg. unfold gather. clear -Hcast Hseg Is. induction s as [|x s IHs]; [reflexivity|].
          cbn [map mapM]. rewrite Hcast by (left; reflexivity).
          unfold nth_res at 1 3. rewrite Hseg by (specialize (Is x (or_introl eq_refl)); lia).
          rewrite IHs; [reflexivity| |]; intros; [apply Is|apply Hcast]; right; assumption. }
        clear Hg. rewrite (@gather_ok _ seg _ 0%nat) in Hg2.
        2:{ intros j Hj. apply in_map_iff in Hj as (x & <- & Hx). specialize (Is x Hx). lia. }
        injection Hg2 as <-. rewrite map_map.
        assert (Hnth : forall x, In x s -> (Z.to_nat x < length seg)%nat) by (intros x Hx; specialize (Is x Hx); lia).
        split; [|split].
        + apply NoDup_map_inj.
          * intros x y Hx Hy E. apply (proj1 (NoDup_nth seg 0%nat)) in E; auto.
            specialize (Is x Hx) as Ix. specialize (Is y Hy) as Iy. lia.
          * apply StronglySorted_Zlt_NoDup. exact Ss.
        + intros y Hy. apply in_map_iff in Hy as (x & <- & Hx). apply nth_In. auto.
        + rewrite Nat.min_l by lia. replace (Z.to_nat t) with (length s) by lia.
          rewrite map_map. clear -Hnth Cseg. induction s as [|x s IHs]; [reflexivity|].
          cbn. f_equal; [|apply IHs; intros; apply Hnth; right; assumption].
          assert (Hin : In (code (nth (Z.to_nat x) seg 0%nat)) (repeat v n)).
          { rewrite <- Cseg. apply in_map, nth_In, Hnth. left. reflexivity. }
          apply repeat_spec in Hin. exact Hin.
      - inversion H1; subst l1 c1; clear H1.
        assert (Esl : slice (length pre) (length pre + n) permut = seg).
        { unfold slice. rewrite Ep, skipn_app, skipn_all, Nat.sub_diag. cbn.
          replace (length pre + n - length pre)%nat with (length seg + 0)%nat by lia.
          rewrite Epost, firstn_app_2. apply app_nil_r. }
        rewrite Esl. repeat split; [exact Ns|apply incl_refl|]. rewrite Cseg. f_equal. lia. }
    destruct Hl1 as (N1 & I1 & C1). split; [|split].
    + apply NoDup_app_intro; auto. intros x Hx Hx'. eapply Nd; eauto.
    + intros x Hx. rewrite Epost. apply in_app_iff in Hx. apply in_app_iff. destruct Hx; auto.
    + rewrite map_app, C1, C2. reflexivity.
Qed.

Lemma sort_and_threshold_none permut idx ty thr c :
  no_threshold thr -> idx <> [] -> Permutation permut (seq 0 (length idx)) ->
  exists ui, sort_and_threshold R fuel permut idx ty thr c = Ok (permut, ui, c).
Proof.
  intros Ht Hne Hp. unfold sort_and_threshold.
  rewrite (@gather_ok _ idx permut 0).
  2:{ intros i Hi. apply (Permutation_in _ Hp), in_seq in Hi. lia. }
  cbn [bind]. set (s := map (fun i => nth i idx 0) permut).
  assert (Ls : length s = length permut) by apply map_length.
  assert (Lp : length permut = length idx) by (rewrite (Permutation_length Hp); apply seq_length).
  assert (Hs : s <> []).
  { intros E. apply Hne. apply length_zero_iff_nil. rewrite <- Lp, <- Ls, E. reflexivity. }
  rewrite run_lengths by exact Hs.
  assert (Esum : sumn (map snd (rle s)) = length permut).
  { rewrite <- length_expand, expand_rle. exact Ls. }
  rewrite threshold_runs_none by (auto; lia). cbn [bind fst snd]. eexists.
  rewrite Esum, Nat.add_0_l, slice_full. reflexivity.
Qed.

(** With a threshold: which positions are kept. *)
Lemma sort_and_threshold_some permut idx ty t c l ui c' :
  0 < t -> idx <> [] -> Permutation permut (seq 0 (length idx)) ->
  StronglySorted Z.le (map (fun i => nth i idx 0) permut) ->
  Z.of_nat (length idx) - 1 <= tmax ty ->
  sort_and_threshold R fuel permut idx ty (Some t) c = Ok (l, ui, c') ->
  NoDup l /\ incl l (seq 0 (length idx)) /\
  StronglySorted Z.le (map (fun i => nth i idx 0) l) /\
  (forall w, countZ w (map (fun i => nth i idx 0) l) = Nat.min (Z.to_nat t) (countZ w idx)).
Proof.
  intros Ht Hne Hp Hsort Hty. unfold sort_and_threshold.
  rewrite (@gather_ok _ idx permut 0).
  2:{ intros i Hi. apply (Permutation_in _ Hp), in_seq in Hi. lia. }
  cbn [bind]. set (s := map (fun i => nth i idx 0) permut) in *.
  assert (Ls : length s = length permut) by apply map_length.
  assert (Lp : length permut = length idx) by (rewrite (Permutation_length Hp); apply seq_length).
  assert (Hs : s <> []).
  { intros E. apply Hne. apply length_zero_iff_nil. rewrite <- Lp, <- Ls, E. reflexivity. }
  rewrite run_lengths by exact Hs. intros H.
  apply bind_ok in H as ([l' c1] & H & E). cbn [fst snd] in E. inversion E; subst l' ui c1; clear E.
  apply (@threshold_runs_some permut ty t (fun i => nth i idx 0) (rle s) [] permut) in H; auto.
  - destruct H as (H1 & H2 & H3). split; [exact H1|]. split; [|split].
    + intros x Hx. apply (Permutation_in _ Hp). auto.
    + rewrite H3. apply expand_limited_sorted, rle_distinct. exact Hsort.
    + intros w. rewrite H3, countZ_limited by (apply StronglySorted_Zlt_NoDup, rle_distinct; exact Hsort).
      rewrite expand_rle. f_equal. unfold countZ.
      assert (HP : Permutation s idx).
      { transitivity (map (fun i => nth i idx 0) (seq 0 (length idx))); [apply Permutation_map; exact Hp|rewrite map_nth_seq; reflexivity]. }
      apply Permutation_length, Permutation_filter. exact HP.
  - apply (Permutation_NoDup (Permutation_sym Hp)), seq_NoDup.
  - lia.
  - symmetry. apply expand_rle.
Qed.

(** With a threshold the sampling can only run out of rounds. *)
Lemma threshold_runs_outcome permut ty t (rl : list (Z * nat)) pre post c :
  0 < t -> permut = pre ++ post -> length post = sumn (map snd rl) ->
  Z.of_nat (length permut) - 1 <= tmax ty ->
  match threshold_runs R fuel permut ty (Some t) (map snd rl) (length pre) c with
  | Ok _ => True | Err e => e = OutOfFuel end.
Proof.
  intros Ht. revert pre post c. induction rl as [|[v n] rl IH]; intros pre post c Ep Hl Hty; [exact I|].
  cbn [map snd threshold_runs]. cbn [map snd sumn fold_right] in Hl. fold (sumn (map snd rl)) in Hl.
  assert (HN : length permut = (length pre + (n + sumn (map snd rl)))%nat).
  { rewrite Ep, app_length. lia. }
  assert (Hrec : forall c1, match threshold_runs R fuel permut ty (Some t) (map snd rl) (length pre + n) c1 with
                 | Ok _ => True | Err e => e = OutOfFuel end).
  { intros c1. specialize (IH (pre ++ firstn n post) (skipn n post) c1).
    rewrite app_length, firstn_length in IH. replace (Nat.min n (length post)) with n in IH by lia.
    apply IH; auto.
    - rewrite Ep, <- app_assoc, firstn_skipn. reflexivity.
    - rewrite skipn_length. lia. }
  destruct (negb (t =? 0) && (t <? Z.of_nat n)) eqn:Es.
  - pose proof (@swr_outcome R R_ok fuel c t (Z.of_nat n) ty ltac:(lia) ltac:(lia)) as O.
    destruct (sample_without_replacement R fuel c t (Z.of_nat n) ty) as [[s cs]|e]; cbn [bind]; [|exact O].
    destruct O as (_ & _ & Is). cbn [fst snd].
    rewrite (@gather_ok _ permut _ 0%nat).
    2:{ intros j Hj. apply in_map_iff in Hj as (x & <- & Hx). specialize (Is x Hx).
        rewrite cast_id; [lia|]. pose proof (tmin_nonpos ty). lia. }
    cbn [bind fst snd]. specialize (Hrec cs).
    destruct (threshold_runs R fuel permut ty (Some t) (map snd rl) (length pre + n) cs); cbn [bind]; auto.
  - cbn [bind fst snd]. specialize (Hrec c).
    destruct (threshold_runs R fuel permut ty (Some t) (map snd rl) (length pre + n) c); cbn [bind]; auto.
Qed.

(** The count announced without drawing. *)
Lemma count_after_threshold_ok permut idx t :
  idx <> [] -> Permutation permut (seq 0 (length idx)) ->
  StronglySorted Z.le (map (fun i => nth i idx 0) permut) -> 0 <= t ->
  exists rl, NoDup (map fst rl) /\ (forall w, countZ w (expand rl) = countZ w idx) /\
    count_after_threshold permut idx t = Ok (Z.of_nat (length (expand (limited (Z.to_nat t) rl)))).
Proof.
  intros Hne Hp Hsort Ht. unfold count_after_threshold.
  rewrite (@gather_ok _ idx permut 0).
  2:{ intros i Hi. apply (Permutation_in _ Hp), in_seq in Hi. lia. }
  cbn [bind]. set (s := map (fun i => nth i idx 0) permut) in *.
  assert (Ls : length s = length permut) by apply map_length.
  assert (Lp : length permut = length idx) by (rewrite (Permutation_length Hp); apply seq_length).
  assert (Hs : s <> []).
  { intros E. apply Hne. apply length_zero_iff_nil. rewrite <- Lp, <- Ls, E. reflexivity. }
  rewrite run_lengths by exact Hs. exists (rle s). split; [|split].
  - apply StronglySorted_Zlt_NoDup, rle_distinct. exact Hsort.
  - intros w. rewrite expand_rle. unfold countZ.
    assert (HP : Permutation s idx).
    { transitivity (map (fun i => nth i idx 0) (seq 0 (length idx))); [apply Permutation_map; exact Hp|rewrite map_nth_seq; reflexivity]. }
    apply Permutation_length, Permutation_filter. exact HP.
  - f_equal. unfold Zlen. rewrite <- Lp, <- Ls. rewrite <- (expand_rle s) at 1.
    rewrite !length_expand. unfold limited. rewrite !map_map. cbn [snd].
    generalize (rle s). intros rl. clear -Ht. induction rl as [|[v n] rl IH]; [cbn; lia|].
    cbn [map snd filter sumn fold_right]. fold (sumn (map snd rl)).
    fold (sumn (map (fun x : Z * nat => Nat.min (Z.to_nat t) (snd x)) rl)).
    destruct (Z.ltb_spec t (Z.of_nat n)) as [Hlt|Hge]; cbn [length]; unfold sumZ in *; cbn [fold_right]; lia.
Qed.

End Threshold.
