(** The task file as the later steps read it. *)
From Coq Require Import String.
From Coq Require Import List ZArith QArith Lia Permutation Sorted.
From Verif Require Import Prelude ListFacts TypeFitting TypeFitting_proofs Sampler Sampler_spec Sampler_proofs Task Task_spec Task_blocks Task_sort Task_regs Task_gen Task_file Task_proofs
  Task_main Task_reg_spec Task_align Pairs Pairs_spec Pairs_proofs Distances Distances_spec Distances_proofs
  Score Score_spec Score_proofs Analyze Analyze_spec Analyze_main Distances_main Rounding H5io Pipeline Pipeline_spec Pipeline_regs.
Import ListNotations.
Local Open Scope Z_scope.
Local Open Scope list_scope.

(** Lists. *)
Lemma filter_combine_map {A B C} (g : A -> B) (p : B -> bool) (l : list A) (m : list C) :
  map snd (filter (fun x => p (fst x)) (combine (map g l) m)) = map snd (filter (fun x => p (g (fst x))) (combine l m)).
Proof.
  revert m. induction l as [|a l IH]; intros [|c m]; try reflexivity. cbn [map combine filter fst].
  destruct (p (g a)); cbn [map snd]; rewrite IH; reflexivity.
Qed.

Lemma filter_combine_fst {A B C} (g : A -> B) (p : B -> bool) (l : list A) (m : list C) :
  map snd (filter (fun x => p (g (fst x))) (combine l m)) = map snd (filter (fun x => p (fst x)) (combine (map g l) m)).
Proof. symmetry. apply filter_combine_map. Qed.

Lemma nth_error_combine {A B} (l : list A) (m : list B) n a b :
  nth_error (combine l m) n = Some (a, b) <-> nth_error l n = Some a /\ nth_error m n = Some b.
Proof.
  revert m n. induction l as [|x l IH]; intros m n.
  - cbn [combine]. destruct n; cbn; (split; [discriminate|intros [? _]; discriminate]).
  - destruct m as [|y m].
    + cbn [combine]. destruct n; cbn; (split; [discriminate|intros [_ ?]; discriminate]).
    + destruct n as [|n]; cbn; [split; [intros E; injection E as -> ->; auto|intros [E1 E2]; congruence]|apply IH].
Qed.

Lemma Forall2_nth_error {A B} (P : A -> B -> Prop) l m n a b : Forall2 P l m ->
  nth_error l n = Some a -> nth_error m n = Some b -> P a b.
Proof. intros F. revert n. induction F as [|x y l m Hxy F IH]; intros [|n]; cbn; try discriminate; [congruence|apply IH]. Qed.

Lemma nth_error_length {A B} (l : list A) (m : list B) n a : length l = length m -> nth_error l n = Some a ->
  exists b, nth_error m n = Some b.
Proof.
  intros E H. destruct (nth_error m n) eqn:En; [eauto|]. apply nth_error_None in En.
  assert (nth_error l n <> None) by congruence. apply nth_error_Some in H0. lia.
Qed.

Lemma Forall2_of_nth {A B} (P : A -> B -> Prop) l m : length l = length m ->
  (forall n a b, nth_error l n = Some a -> nth_error m n = Some b -> P a b) -> Forall2 P l m.
Proof.
  revert m. induction l as [|a l IH]; intros [|b m] E H; cbn in E; try discriminate; constructor.
  - apply (H 0%nat); reflexivity.
  - apply IH; [lia|]. intros n. apply (H (S n)).
Qed.

Lemma nth_error_firstn_lt {A} n m (l : list A) : (n < m)%nat -> nth_error (firstn m l) n = nth_error l n.
Proof. revert n l. induction m as [|m IH]; intros [|n] [|a l] H; cbn; try reflexivity; try lia. apply IH. lia. Qed.

Lemma nth_error_skipn_at {A} n m (l : list A) : nth_error (skipn m l) n = nth_error l (m + n).
Proof. revert l. induction m as [|m IH]; intros [|a l]; cbn; try reflexivity; [destruct n; reflexivity|apply IH]. Qed.

(** Ranges. *)
Lemma tiles_bounds s e l i j : tiles s e l -> In (i, j) l -> s <= i < j /\ j <= e.
Proof.
  revert s. induction l as [|[i' j'] l IH]; intros s H Hin; [destruct Hin|]. destruct H as (-> & Hlt & H).
  assert (Hle : j' <= e).
  { clear -H. revert j' H. induction l as [|[a b] l IH]; intros j' H; cbn in H; [lia|]. destruct H as (-> & Hl & H). apply IH in H. lia. }
  destruct Hin as [E|Hin]; [injection E as -> ->; lia|]. apply (IH _ H) in Hin. lia.
Qed.

Lemma tiles_consecutive s e l : 0 <= s -> tiles s e l -> consecutive (Z.to_nat s) (map nat_range l) (Z.to_nat e).
Proof.
  revert s. induction l as [|[i j] l IH]; intros s Hs H; cbn in *; [congruence|]. destruct H as (-> & Hlt & H).
  split; [reflexivity|]. split; [lia|]. apply IH; [lia|exact H].
Qed.

Lemma rows_of_between {A} ij (l : list A) : 0 <= fst ij <= snd ij ->
  rows_of ij l = rows_between (fst (nat_range ij)) (snd (nat_range ij)) l.
Proof. intros H. unfold rows_of, rows_between, nat_range. cbn [fst snd]. f_equal. lia. Qed.

(** Ranges that follow each other do not overlap. *)
Lemma consecutive_inj {K} (l : list (K * (nat * nat))) i n : consecutive i (map snd l) n ->
  forall k k' s e s' e' p, In (k, (s, e)) l -> In (k', (s', e')) l -> (s <= p < e)%nat -> (s' <= p < e')%nat -> k = k' /\ s = s' /\ e = e'.
Proof.
  assert (B : forall (l : list (K * (nat * nat))) i n k s e, consecutive i (map snd l) n -> In (k, (s, e)) l -> (i <= s)%nat).
  { clear. induction l as [|[k0 [a b]] l IH]; intros i n k s e H Hin; [destruct Hin|]. cbn in H. destruct H as (-> & Hl & H).
    destruct Hin as [E|Hin]; [injection E as -> -> ->; lia|]. apply (IH _ _ _ _ _ H) in Hin. lia. }
  revert i. induction l as [|[k0 [a b]] l IH]; intros i H k k' s e s' e' p H1 H2 P1 P2; [destruct H1|].
  cbn in H. destruct H as (-> & Hl & H).
  destruct H1 as [E1|H1], H2 as [E2|H2].
  - injection E1 as -> -> ->. injection E2 as -> -> ->. auto.
  - injection E1 as -> -> ->. apply (B _ _ _ _ _ _ H) in H2. lia.
  - injection E2 as -> -> ->. apply (B _ _ _ _ _ _ H) in H1. lia.
  - eapply IH; eauto.
Qed.

Lemma consecutive_nth i l n : consecutive i l n -> forall m s e, nth_error l m = Some (s, e) -> (i <= s <= e)%nat /\ (e <= n)%nat.
Proof.
  revert i. induction l as [|[a b] l IH]; intros i H m s e E; [destruct m; discriminate|]. cbn in H. destruct H as (-> & Hl & H).
  assert (Hle : (b <= n)%nat).
  { clear -H. revert b H. induction l as [|[a b'] l IH]; intros b H; cbn in H; [lia|]. destruct H as (-> & H1 & H2). apply IH in H2. lia. }
  destruct m as [|m]; cbn in E; [injection E as -> ->; lia|]. apply (IH _ H) in E. lia.
Qed.

Lemma consecutive_covers i l n p : consecutive i l n -> (i <= p < n)%nat ->
  exists m s e, nth_error l m = Some (s, e) /\ (s <= p < e)%nat.
Proof.
  revert i. induction l as [|[s e] l IH]; intros i H Hp; cbn in H; [lia|]. destruct H as (-> & H1 & H2).
  destruct (Nat.lt_ge_cases p e) as [Hlt|Hge].
  - exists 0%nat, i, e. split; [reflexivity|lia].
  - destruct (IH e H2) as (m & s & e' & Hm & Hse); [lia|]. exists (S m), s, e'. auto.
Qed.

(** Pairs and their codes. *)
Lemma code_inj base a x a' x' : 0 <= a < base -> 0 <= a' < base -> code base a x = code base a' x' -> a = a' /\ x = x'.
Proof.
  unfold code. intros H H' E. assert (a = a').
  { rewrite <- (Z.mod_small a base), <- (Z.mod_small a' base) by lia.
    rewrite <- (Z.mod_add a x base), <- (Z.mod_add a' x' base) by lia. f_equal. lia. }
  split; [assumption|]. subst a'. nia.
Qed.

Section File.
Variables tm L : Type.
Variable leq : forall x y : L, {x = y} + {x <> y}.
Variable plain : L -> bool.
Variable name : key -> string.
Hypothesis name_inj : forall k k', name k = name k' -> k = k'.
Variable gorder : list (string * by_group L) -> list (string * by_group L).
Hypothesis gorder_ok : forall l, Permutation (gorder l) l.
Variable korder : list key -> list key.
Variable enum : list Z -> list Z.
Variable argsort : list Z -> list nat.
Variable R : rng.
Variable fuel : nat.
Hypothesis korder_ok : lists_keys korder.
Hypothesis enum_ok : lists_set enum.
Hypothesis argsort_ok : argsort_spec argsort.
Variables rlen wlen clen : Z -> nat.
Hypothesis rlen_ok : forall z, (0 < rlen z)%nat.
Hypothesis wlen_ok : forall z, (0 < wlen z)%nat.
Hypothesis clen_ok : forall z, (0 < clen z)%nat.
Variables memory o_buffer : Z.
Hypothesis o_buffer_ok : 8 <= o_buffer.

Variable T : task.
Variable cols : list string.
Variable db : list row.
Variable places : list (Distances.item tm).
Variable indexes : list (string * list L).
Variable thr : option Z.
Variable c : nat.
Hypothesis rd : reads cols (t_filters T).
Hypothesis dt : determined T db.
Hypothesis kf : kept_first T db.
Hypothesis rr : reg_reads cols (t_regressors T).
Hypothesis rt : reg_determined T db.
Hypothesis Hplaces : length places = length db.
Hypothesis Hfew : Zlen db <= 94906265.
Hypothesis HA : A_fine T.
Hypothesis HL : levels_ok plain T db indexes.

(** The locations of a by. *)
Lemma feat_db_place k i p : check_database cols (t_on T) (t_across T) (t_by T) = Ok tt ->
  nth_error (feat_db T db places k) i = Some (Z.of_nat i, p) <-> place T db places k (Z.of_nat i) p.
Proof.
  intros Hc. unfold feat_db, place. destruct (with_dummies T db) as [T1 db1] eqn:E.
  assert (E1 : T1 = fst (with_dummies T db)) by (rewrite E; reflexivity).
  assert (E2 : db1 = snd (with_dummies T db)) by (rewrite E; reflexivity).
  assert (Em : map snd (filter (fun p => key_eqb (proj (t_by T1) (fst p)) k) (combine db1 places)) =
    map snd (filter (fun rp => by_match T (fst rp) k) (combine db places))).
  { rewrite E2, (dummies_db T cols db Hc), (filter_combine_map (ext T) (fun r => key_eqb (proj (t_by T1) r) k)), E1.
    pose proof (filter_combine_map snd (fun r => by_match T r k) (reset_index db) places) as Er.
    rewrite map_snd_reset_index in Er. etransitivity; [|symmetry; exact Er].
    f_equal. apply filter_ext. intros [q p']. cbn [fst]. apply (ext_by T cols db Hc). }
  rewrite Em. rewrite nth_error_combine, Nat2Z.id. unfold by_match.
  set (l := map snd _). split.
  - intros [_ H]. split; [lia|]. exact H.
  - intros [_ H]. change (nth_error l i = Some p) in H. split; [|exact H]. apply map_nth_error.
    assert (Hlt : (i < length l)%nat) by (apply nth_error_Some; congruence).
    rewrite nth_error_nth' with (d := 0%nat) by (rewrite seq_length; exact Hlt). rewrite seq_nth by exact Hlt. reflexivity.
Qed.

Lemma feat_db_labels k : map fst (feat_db T db places k) = map Z.of_nat (seq 0 (length (feat_db T db places k))).
Proof.
  unfold feat_db. destruct (with_dummies T db) as [T1 db1]. set (l := map snd _).
  rewrite combine_length, map_length, seq_length, Nat.min_id.
  assert (G : forall A B (u : list A) (v : list B), length u = length v -> map fst (combine u v) = u).
  { intros A B. induction u as [|a u IH]; intros [|b v]; cbn; try discriminate; auto. intros E. f_equal. apply IH. lia. }
  apply G. rewrite map_length, seq_length. reflexivity.
Qed.

Variable T' : task.
Variable bs : list by_block.
Variable st : stats.
Hypothesis init : task_init korder enum T cols db = Ok (T', bs, st).
Variable bs' : list by_block.
Variable f : task_file.
Hypothesis gen : generate_triplets korder enum argsort R fuel T' thr bs st c = Ok (bs', Some f).
Hypothesis Hstore : storable T db (capacity (s_nb_triplets st)).
(** The triplets that are written. *)
Variable sel : key -> triplet -> Prop.
Hypothesis Hsel : forall k t, sel k t -> is_wanted T db k t.
Hypothesis Hfile : Forall2 (fun k ij => lists_that (sel k) (rows_of ij (fl_triplets f))) (fl_bys f) (fl_by_index f).
Hypothesis Hbys : forall k, In k (fl_bys f) <-> exists t, sel k t.
Hypothesis bys_some : fl_bys f <> [].

Lemma remaining : incl bs' bs /\ map b_key bs' = fl_bys f.
Proof.
  destruct (generate_ok korder enum argsort R fuel T' thr bs st c gen) as (_ & outss & c' & Hch & [_ Fb _ _ _ _] & ->).
  split; [intros b Hb; apply filter_In in Hb; tauto|]. rewrite Fb.
  pose proof (keys_NoDup enum korder_ok T cols db init) as HD.
  assert (HLn : length bs = length outss) by (apply chain_by_each, Task_main.Forall2_len in Hch; exact Hch).
  unfold named.
  assert (G : forall (bs0 : list by_block) outss0 bad, length bs0 = length outss0 -> NoDup (map b_key bs0) ->
    (forall k outs, In (k, outs) (combine (map b_key bs0) outss0) -> (In k bad <-> full (k, outs) = false)) ->
    map b_key (filter (fun b => negb (mem_key bad (b_key b))) bs0) = map fst (filter full (combine (map b_key bs0) outss0))).
  { clear. induction bs0 as [|b bs0 IH]; intros [|o outss] bad HL HD Hbad; cbn [length] in HL; try discriminate; [reflexivity|].
    cbn [map combine filter] in *. inversion HD as [|? ? N1 N2]; subst.
    assert (E : mem_key bad (b_key b) = negb (full (b_key b, o))).
    { specialize (Hbad _ _ (or_introl eq_refl)). unfold mem_key. destruct (full (b_key b, o)); cbn [negb].
      - destruct (existsb (key_eqb (b_key b)) bad) eqn:E; [|reflexivity]. apply existsb_exists in E as (k & Hk & E).
        unfold key_eqb in E. destruct (key_dec (b_key b) k); [subst k|discriminate]. apply Hbad in Hk. discriminate.
      - apply existsb_exists. exists (b_key b). split; [apply Hbad; reflexivity|]. unfold key_eqb. destruct (key_dec _ _); congruence. }
    rewrite E. rewrite Bool.negb_involutive.
    assert (IH' := IH outss bad ltac:(lia) N2 (fun k outs H => Hbad k outs (or_intror H))).
    destruct (full (b_key b, o)); cbn [map]; rewrite IH'; reflexivity. }
  apply G; [exact HLn|exact HD|]. intros k outs Hin. split.
  - intros H. apply in_map_iff in H as ([k' outs'] & Ek & H). cbn [fst] in Ek. subst k'. apply filter_In in H as [H Hf].
    assert (outs' = outs).
    { clear -HD H Hin. revert outss H Hin. induction bs as [|b bs0 IH]; intros [|o outss]; cbn; try tauto. inversion HD as [|? ? N1 N2]; subst.
      assert (N : forall o', In (b_key b, o') (combine (map b_key bs0) outss) -> False) by (intros o' H0; apply in_combine_l in H0; contradiction).
      intros [E1|H1] [E2|H2]; [congruence| | |eapply IH; eauto].
      - injection E1 as <- <-. destruct (N _ H2).
      - injection E2 as <- <-. destruct (N _ H1). }
    subst outs'. destruct (full (k, outs)); [discriminate|reflexivity].
  - intros H. apply in_map_iff. exists (k, outs). split; [reflexivity|]. apply filter_In. split; [exact Hin|]. rewrite H. reflexivity.
Qed.

(** The items of the wanted triplets are in the frame of the by. *)
Lemma wanted_labels b a b' x : In b bs -> wanted T db (b_key b) a b' x ->
  In a (labels (b_frame b)) /\ In b' (labels (b_frame b)) /\ In x (labels (b_frame b)).
Proof.
  intros Hb H. apply (blist_In korder_ok enum_ok rd dt kf init _ _ _ _ Hb) in H.
  destruct (proj2 (bs_inv _ korder_ok rd dt kf init) b Hb) as (Hw & Ha & _ & Ef & Hk & Hd).
  apply (by_list_In korder_ok enum_ok (T'_ne _ _ _ _ _ init) Hw Ha _ _ _ Hd) in H.
  destruct H as (ra & rb & rx & H1 & H2 & H3 & _).
  split; [|split]; eapply in_map with (f := fst) in H1; eapply in_map with (f := fst) in H2; eapply in_map with (f := fst) in H3; eassumption.
Qed.

Lemma label_bound b l : In b bs -> In l (labels (b_frame b)) -> 0 <= l < Zlen db.
Proof.
  intros Hb Hl. destruct (proj2 (bs_inv _ korder_ok rd dt kf init) b Hb) as (Hw & _ & _ & Ef & _).
  unfold labels in Hl. apply in_map_iff in Hl as ([l' r] & E & Hl). cbn in E. subst l'.
  destruct (init_inv _ _ _ _ _ init) as (Hc & ET & _). rewrite ET in Ef.
  apply (frame_In Hc rd dt _ _ Ef) in Hl as (g & r0 & H0 & Hn & _). split; [exact H0|].
  assert (Hlt : (Z.to_nat l < length (ig T db (b_key b)))%nat) by (apply nth_error_Some; congruence).
  unfold ig in Hlt. pose proof (filter_length_le (fun p => by_match T (snd p) (b_key b)) (reset_index db)) as Hle.
  assert (length (reset_index db) = length db) by (unfold reset_index; rewrite combine_length, map_length, seq_length; lia).
  unfold Zlen. lia.
Qed.

(** Numbers of the bys, of their ranges. *)
Lemma by_lengths : length bs' = length (fl_bys f) /\ length (fl_by_index f) = length (fl_bys f).
Proof.
  destruct remaining as [_ E]. pose proof Hfile as F.
  split; [rewrite <- E, map_length; reflexivity|]. clear -F. induction F; cbn; congruence.
Qed.

Lemma by_facts n b : nth_error bs' n = Some b ->
  exists ij, nth_error (fl_bys f) n = Some (b_key b) /\ nth_error (fl_by_index f) n = Some ij /\ In b bs /\
    0 <= fst ij < snd ij /\ snd ij <= Zlen (fl_triplets f) /\
    lists_that (sel (b_key b)) (rows_of ij (fl_triplets f)).
Proof.
  intros Hn. destruct remaining as [Hi E]. destruct by_lengths as [L1 L2].
  assert (Hk : nth_error (fl_bys f) n = Some (b_key b)) by (rewrite <- E; apply map_nth_error; exact Hn).
  destruct (nth_error_length (fl_bys f) (fl_by_index f) n _ (eq_sym L2) Hk) as (ij & Hij). exists ij.
  split; [exact Hk|]. split; [exact Hij|]. split; [apply Hi; eapply nth_error_In; exact Hn|].
  destruct (file_partition argsort R fuel korder_ok enum_ok rd dt kf init thr c gen Hstore) as (Ht & _).
  destruct ij as [i j]. destruct (tiles_bounds _ _ _ _ _ Ht (nth_error_In _ _ Hij)) as (B1 & B2). cbn [fst snd].
  split; [exact B1|]. split; [exact B2|].
  pose proof Hfile as F.
  apply (Forall2_nth_error _ _ _ _ _ _ F Hk Hij).
Qed.

Lemma bys_ready : Forall (by_ready (fl_triplets f))
  (combine (map (fun b => labels (b_frame b)) bs') (map nat_range (fl_by_index f))).
Proof.
  apply Forall_forall. intros [lb ij'] Hin. apply In_nth_error in Hin as (n & Hin). apply nth_error_combine in Hin as [H1 H2].
  rewrite nth_error_map in H1. destruct (nth_error bs' n) as [b|] eqn:Eb; [|discriminate]. injection H1 as <-.
  destruct (by_facts n b Eb) as ([i j] & Hk & Hij & Hb & B1 & B2 & Hl). rewrite nth_error_map, Hij in H2. injection H2 as <-.
  cbn [fst snd] in *. unfold by_ready, nat_range. cbn [fst snd].
  split; [change (Zlen (fl_triplets f)) with (Z.of_nat (@List.length (Z * Z * Z) (fl_triplets f))) in B2; lia|].
  destruct (proj2 (bs_inv _ korder_ok rd dt kf init) b Hb) as (Hw & _ & Hne & _).
  split; [unfold labels; intros E; apply map_eq_nil in E; contradiction|].
  split; [intros l Hl'; pose proof (label_bound b l Hb Hl'); lia|].
  intros a b' x Hin. apply (wanted_labels b a b' x Hb). apply (Hsel _ (a, b', x)), (proj2 Hl). rewrite rows_of_between by (cbn [fst snd]; lia). exact Hin.
Qed.

(** The columns of the regressors. *)
Lemma carried_columns rows cols0 chunk : carries T rows cols0 chunk ->
  cols0 = map (fun s => (s, map (value_of T rows s) chunk)) (regressor_names (t_regressors T)).
Proof.
  intros (cA & -> & Hn & Ho).
  assert (EA : cA = columns_of rows chunk (of_A (t_regressors T))).
  { destruct HA as [E|E]; [|apply Ho; exact E]. rewrite E in Hn. unfold of_A. rewrite E. destruct cA; [reflexivity|discriminate]. }
  subst cA. unfold columns_of. rewrite <- !map_app.
  fold (all_regressors (t_regressors T)).
  assert (En : regressor_names (t_regressors T) = map fst (all_regressors (t_regressors T))).
  { unfold regressor_names, all_regressors, of_block, of_A, of_BX. rewrite !map_app, !map_map. cbn [fst]. rewrite <- !app_assoc. reflexivity. }
  rewrite En, map_map. apply map_ext_in. intros [s g] Hin. cbn [fst snd]. f_equal. apply map_ext. intros t.
  unfold value_of.
  assert (Ef : find (fun ng => String.eqb (fst ng) s) (all_regressors (t_regressors T)) = Some (s, g)).
  { pose proof (lv_names HL) as Hnd. clear -Hnd Hin. induction (all_regressors (t_regressors T)) as [|[s' g'] l IH]; [destruct Hin|].
    cbn [map fst] in Hnd. inversion Hnd as [|? ? N1 N2]; subst. cbn [find fst]. destruct (String.eqb_spec s' s) as [->|N].
    - destruct Hin as [E|Hin]; [congruence|]. exfalso. apply N1. apply in_map_iff. exists (s, g). auto.
    - destruct Hin as [E|Hin]; [congruence|]. apply IH; assumption. }
  rewrite Ef. reflexivity.
Qed.

Lemma names_all G : regressor_names G = map fst (all_regressors G).
Proof.
  unfold regressor_names, all_regressors, of_block, of_A, of_BX. rewrite !map_app, !map_map. cbn [fst]. rewrite <- !app_assoc. reflexivity.
Qed.

Lemma level_count s levels : In (s, levels) indexes -> levels <> [] /\ Z.of_nat (length levels) <= 2 ^ 53.
Proof.
  intros Hin. split; [apply (lv_levels HL s Hin)|].
  pose proof (lv_product HL) as Hp. etransitivity; [|exact Hp].
  assert (Hpos : forall ix, In ix indexes -> 1 <= Z.of_nat (length (snd ix))).
  { intros [s' l'] H. pose proof (lv_levels HL s' H). cbn [snd]. destruct l'; [congruence|cbn; lia]. }
  clear -Hin Hpos. change (Z.of_nat (length levels)) with ((fun ix : string * list L => Z.of_nat (length (snd ix))) (s, levels)).
  revert Hin. generalize (s, levels). intros ix. induction indexes as [|ix0 l IH]; intros Hin; [destruct Hin|].
  cbn [map]. change (prodZ (?a :: ?b)) with (a * prodZ b).
  assert (P : 1 <= prodZ (map (fun ix => Z.of_nat (length (snd ix))) l)).
  { clear -Hpos. induction l as [|y l IH]; [cbn; lia|]. cbn [map]. change (prodZ (?a :: ?b)) with (a * prodZ b).
    pose proof (Hpos y (or_intror (or_introl eq_refl))).
    assert (1 <= prodZ (map (fun ix => Z.of_nat (length (snd ix))) l)).
    { apply IH. intros z [<-|Hz]; apply Hpos; [left; reflexivity|right; right; exact Hz]. }
    nia. }
  pose proof (Hpos ix0 (or_introl eq_refl)). destruct Hin as [->|Hin]; [nia|].
  assert (Z.of_nat (length (snd ix)) <= prodZ (map (fun ix => Z.of_nat (length (snd ix))) l)).
  { apply IH; [intros y Hy; apply Hpos; right; exact Hy|exact Hin]. }
  nia.
Qed.

Lemma group_made k blocks : In (k, blocks) (fl_regressors f) ->
  exists g, regressor_group leq plain (regressor_names (t_regressors T)) indexes blocks = Ok g /\
    g_names g = map fst indexes /\ g_indexes g = indexes /\
    g_columns g = length indexes /\ signed (g_type g) = false /\
    forall ij, In (k, ij) (combine (fl_bys f) (fl_by_index f)) ->
      g_data g = map (combination T (by_rows T db k) (map fst indexes)) (rows_of ij (fl_triplets f)) /\
      (forall s levels, In (s, levels) indexes -> Z.of_nat (length levels) <= tmax (g_type g)).
Proof.
  intros Hin.
  destruct (regressors_aligned argsort R fuel korder_ok enum_ok rd dt kf rr rt init thr c gen Hstore) as (_ & _ & Hal).
  destruct (Hal _ _ Hin) as (chunks & F2 & Hrows & Hempty).
  assert (Hw : forall t, In t (concat chunks) -> is_wanted T db k t).
  { intros [[a b] x] Ht. destruct (in_dec key_dec k (fl_bys f)) as [Hk|Hk]; [|rewrite (Hempty Hk) in Ht; destruct Ht].
    apply In_nth_error in Hk as (n & Hk). destruct by_lengths as [_ L2].
    destruct (nth_error_length _ (fl_by_index f) n _ (eq_sym L2) Hk) as (ij & Hij).
    rewrite <- (Hrows ij) in Ht by (eapply nth_error_In, nth_error_combine; eauto).
    pose proof Hfile as F.
    apply Hsel, (proj2 (Forall2_nth_error _ _ _ _ _ _ F Hk Hij)). exact Ht. }
  destruct (regressor_group_ok L leq plain (value_of T (by_rows T db k)) (regressor_names (t_regressors T)) indexes
     (lv_some HL) (lv_distinct HL)) with (blocks := blocks) (chunks := chunks) as (g & E & G1 & G2 & G3 & G4 & G5 & G6).
  - rewrite names_all. apply (lv_known HL).
  - intros s levels H. apply level_count in H. split; [tauto|]. lia.
  - intros s Hs. apply (lv_ascii HL). rewrite names_all in Hs. exact Hs.
  - exact (lv_plain HL).
  - clear -F2 HA HL. induction F2 as [|x y lx ly H F IH]; constructor; [|exact IH]. apply carried_columns. exact H.
  - intros s levels t Hs Ht. apply (lv_values HL s levels k t Hs (Hw t Ht)).
  - exists g. split; [exact E|]. split; [exact G1|]. split; [exact G2|]. split; [exact G3|]. split; [exact G4|].
    intros ij Hij. rewrite (Hrows ij Hij). split; [exact G5|]. apply G6.
    rewrite <- (Hrows ij Hij).
    apply In_nth_error in Hij as (n & Hij). apply nth_error_combine in Hij as [Hk Hij].
    destruct (file_partition argsort R fuel korder_ok enum_ok rd dt kf init thr c gen Hstore) as (Ht & _).
    destruct ij as [i j]. destruct (tiles_bounds _ _ _ _ _ Ht (nth_error_In _ _ Hij)) as (B1 & B2).
    unfold rows_of. cbn [fst snd]. intros E0. apply (f_equal (@length _)) in E0. rewrite firstn_length, skipn_length in E0. cbn [length] in E0.
    unfold Zlen in B2. lia.
Qed.


Lemma groups_exist : exists groups, mapM (fun kb : key * list (list (string * list Z)) =>
    g <- regressor_group leq plain (regressor_names (t_regressors T')) indexes (snd kb) ;;
    Ok (name (fst kb), g)) (fl_regressors f) = Ok groups.
Proof.
  assert (ET : t_regressors T' = t_regressors T) by (destruct (init_inv _ _ _ _ _ init) as (_ & -> & _); reflexivity).
  rewrite ET. pose proof group_made as G. revert G. generalize (fl_regressors f). intros l G.
  induction l as [|[k bl] l IH]; [exists []; reflexivity|].
  destruct (G k bl (or_introl eq_refl)) as (g & E & _). destruct IH as (gs & Es); [intros k' bl' H; apply G; right; exact H|].
  exists ((name k, g) :: gs). cbn [mapM snd fst]. rewrite E. cbn [bind]. rewrite Es. reflexivity.
Qed.

Lemma pairs_exist dty :
  64 * Zlen (fl_triplets f) <= 3 * memory \/ (10 ^ 9 <= memory /\ Zlen (fl_triplets f) <= 10 ^ 14) ->
  exists pairs attrs, generate_pairs argsort rlen wlen clen memory o_buffer dty (fl_triplets f)
    (combine (map (fun b => labels (b_frame b)) bs') (map nat_range (fl_by_index f))) = Ok (pairs, attrs).
Proof.
  intros Hm. destruct (generate_pairs_spec argsort rlen wlen clen argsort_ok rlen_ok wlen_ok clen_ok dty (fl_triplets f)
     memory o_buffer o_buffer_ok Hm _ bys_ready) as (data & at_ & E & _). eauto.
Qed.

(** ** The whole file *)

Variable groups : list (string * by_group L).
Hypothesis Hgroups : mapM (fun kb : key * list (list (string * list Z)) =>
    g <- regressor_group leq plain (regressor_names (t_regressors T')) indexes (snd kb) ;;
    Ok (name (fst kb), g)) (fl_regressors f) = Ok groups.
Variable data_type : itype.
Variable pairs : list Z.
Variable attrs : list (Z * nat * nat).
Hypothesis Hpairs : generate_pairs argsort rlen wlen clen memory o_buffer data_type (fl_triplets f)
  (combine (map (fun b => labels (b_frame b)) bs') (map nat_range (fl_by_index f))) = Ok (pairs, attrs).
Hypothesis Hmemory :
  64 * Zlen (fl_triplets f) <= 3 * memory \/ (10 ^ 9 <= memory /\ Zlen (fl_triplets f) <= 10 ^ 14).

Definition zattr (a : Z * nat * nat) : Z * Z * Z := let '(base, s, e) := a in (base, Z.of_nat s, Z.of_nat e).

Let xattrs := combine (map (fun b => name (b_key b)) bs') (map zattr attrs).

Lemma attrs_made :
  Forall2 (by_result (fl_triplets f) pairs)
    (combine (map (fun b => labels (b_frame b)) bs') (map nat_range (fl_by_index f))) attrs /\
  consecutive 0 (map (fun a => (snd (fst a), snd a)) attrs) (length pairs).
Proof.
  destruct (generate_pairs_spec argsort rlen wlen clen argsort_ok rlen_ok wlen_ok clen_ok data_type (fl_triplets f)
     memory o_buffer o_buffer_ok Hmemory _ bys_ready) as (data & at_ & E & F & C).
  rewrite E in Hpairs. injection Hpairs as -> ->. auto.
Qed.

Lemma attrs_length : length attrs = length bs'.
Proof.
  destruct attrs_made as [F _]. apply Task_main.Forall2_len in F. rewrite <- F, combine_length, !map_length.
  destruct by_lengths as [L1 L2]. rewrite L2, <- L1. apply Nat.min_id.
Qed.

Lemma attr_nth n b : nth_error bs' n = Some b ->
  exists ij base s e, nth_error (fl_bys f) n = Some (b_key b) /\ nth_error (fl_by_index f) n = Some ij /\
    0 <= fst ij < snd ij /\ snd ij <= Zlen (fl_triplets f) /\
    lists_that (sel (b_key b)) (rows_of ij (fl_triplets f)) /\
    nth_error attrs n = Some (base, s, e) /\
    nth_error xattrs n = Some (name (b_key b), (base, Z.of_nat s, Z.of_nat e)) /\
    (s <= e <= length pairs)%nat /\ 1 <= base <= Zlen db /\
    pairs_exactly base (rows_of ij (fl_triplets f)) (rows_between s e pairs) /\
    (forall a b' x, In (a, b', x) (rows_of ij (fl_triplets f)) -> 0 <= a < base /\ 0 <= b' < base /\ 0 <= x < base).
Proof.
  intros Hn. destruct (by_facts n b Hn) as (ij & Hk & Hij & Hb & B1 & B2 & Hl).
  destruct attrs_made as [F C].
  destruct (nth_error_length bs' attrs n b (eq_sym attrs_length) Hn) as ([[base s] e] & Ha).
  exists ij, base, s, e. split; [exact Hk|]. split; [exact Hij|]. split; [exact B1|]. split; [exact B2|]. split; [exact Hl|].
  split; [exact Ha|]. split.
  { unfold xattrs. apply nth_error_combine. split.
    - rewrite nth_error_map, Hn. reflexivity.
    - rewrite nth_error_map, Ha. reflexivity. }
  assert (Hin : nth_error (combine (map (fun b => labels (b_frame b)) bs') (map nat_range (fl_by_index f))) n =
                Some (labels (b_frame b), nat_range ij)).
  { apply nth_error_combine. rewrite !nth_error_map, Hn, Hij. auto. }
  pose proof (Forall2_nth_error _ _ _ _ _ _ F Hin Ha) as (R1 & R2 & R3). cbn [fst snd] in *.
  split.
  { assert (Hc : nth_error (map (fun a : Z * nat * nat => (snd (fst a), snd a)) attrs) n = Some (s, e)) by (rewrite nth_error_map, Ha; reflexivity).
    apply (consecutive_nth _ _ _ C) in Hc. lia. }
  pose proof (label_bound b _ Hb R1). split; [lia|].
  rewrite rows_of_between by lia. split; [exact R3|].
  intros a b' x Hx. rewrite <- rows_of_between in Hx by lia. apply (proj2 Hl), Hsel in Hx.
  apply (wanted_labels b a b' x Hb) in Hx as (I1 & I2 & I3).
  pose proof (R2 _ I1). pose proof (R2 _ I2). pose proof (R2 _ I3).
  pose proof (label_bound b _ Hb I1). pose proof (label_bound b _ Hb I2). pose proof (label_bound b _ Hb I3). lia.
Qed.

Lemma xattrs_length : length xattrs = length bs'.
Proof. unfold xattrs. rewrite combine_length, !map_length, attrs_length. apply Nat.min_id. Qed.

Lemma xattrs_fst : map fst xattrs = map name (fl_bys f).
Proof.
  unfold xattrs. destruct remaining as [_ <-]. rewrite map_map. generalize attrs_length. clear. revert attrs.
  induction bs' as [|b l IH]; intros [|a at_]; cbn; try discriminate; auto. intros E. f_equal. apply IH. lia.
Qed.

Lemma xattrs_In nm base s e : In (nm, (base, s, e)) xattrs ->
  exists n b s' e', nth_error bs' n = Some b /\ nm = name (b_key b) /\ s = Z.of_nat s' /\ e = Z.of_nat e' /\
    nth_error attrs n = Some (base, s', e').
Proof.
  intros Hin. apply In_nth_error in Hin as (n & Hin). unfold xattrs in Hin. apply nth_error_combine in Hin as [H1 H2].
  rewrite nth_error_map in H1, H2. destruct (nth_error bs' n) as [b|] eqn:Eb; [|discriminate].
  destruct (nth_error attrs n) as [[[ba s'] e']|] eqn:Ea; [|discriminate]. injection H1 as <-. injection H2 as <- <- <-.
  exists n, b, s', e'. auto.
Qed.

Lemma bys_NoDup : NoDup (fl_bys f).
Proof. destruct (file_partition argsort R fuel korder_ok enum_ok rd dt kf init thr c gen Hstore) as (_ & H & _). exact H. Qed.

Lemma names_NoDup : NoDup (map name (fl_bys f)).
Proof. apply FinFun.Injective_map_NoDup; [exact name_inj|]. apply bys_NoDup. Qed.

Let x := mk_abx (map name (fl_bys f)) data_type (fl_triplets f) (fl_by_index f) xattrs pairs
  (map (fun b => (name (b_key b), feat_db T db places (b_key b))) bs') (gorder groups).

Lemma xattrs_consecutive :
  consecutive 0 (map (fun x => (Z.to_nat (snd (fst (snd x))), Z.to_nat (snd (snd x)))) xattrs) (length pairs).
Proof.
  destruct attrs_made as [_ C].
  assert (E : map (fun x => (Z.to_nat (snd (fst (snd x))), Z.to_nat (snd (snd x)))) xattrs =
              map (fun a : Z * nat * nat => (snd (fst a), snd a)) attrs); [|rewrite E; exact C].
  unfold xattrs. generalize attrs_length. clear. revert attrs.
  induction bs' as [|b l IH]; intros [|[[ba s] e] at_]; cbn; try discriminate; auto.
  intros E. rewrite !Nat2Z.id. f_equal. apply IH. lia.
Qed.

Lemma pair_file_made : pair_file_ok (for_distances x).
Proof.
  unfold pair_file_ok, for_distances, x. cbn.
  split; [intros E; apply map_eq_nil in E; exact (bys_some E)|].
  split; [exact names_NoDup|].
  split.
  { rewrite map_map. cbn [fst]. rewrite <- (map_map b_key name). destruct remaining as [_ ->]. exact names_NoDup. }
  split; [exact xattrs_fst|].
  split.
  { intros k base s e Hin. apply xattrs_In in Hin as (n & b & s' & e' & Hn & -> & -> & -> & Ha).
    destruct (attr_nth n b Hn) as (ij & base0 & s0 & e0 & _ & _ & _ & _ & _ & Ha' & _ & H1 & H2 & _).
    rewrite Ha in Ha'. injection Ha' as <- <- <-. lia. }
  split; [exact xattrs_consecutive|].
  intros k l Hin. apply in_map_iff in Hin as (b & E & _). injection E as _ <-. apply feat_db_labels.
Qed.

Lemma scorable_made {V} (dis : list V) : length dis = length pairs -> scorable (for_score x) dis.
Proof.
  intros Hd. unfold for_score, x. constructor; cbn.
  - exact names_NoDup.
  - rewrite xattrs_fst. exact names_NoDup.
  - rewrite !map_length. apply by_lengths.
  - destruct (file_partition argsort R fuel korder_ok enum_ok rd dt kf init thr c gen Hstore) as (Ht & _).
    apply tiles_consecutive in Ht; [|lia]. unfold Zlen in Ht. rewrite Nat2Z.id in Ht. exact Ht.
  - intros n by_ i j Hn Hij. rewrite nth_error_map in Hn. destruct (nth_error (fl_bys f) n) as [k|] eqn:Ek; [|discriminate].
    injection Hn as <-. destruct remaining as [_ Er].
    destruct (nth_error_length (fl_bys f) bs' n k (eq_sym (proj1 by_lengths)) Ek) as (b & Hb).
    destruct (attr_nth n b Hb) as (ij & base & s & e & Hk & Hi & B1 & B2 & _ & _ & Hx & H1 & H2 & H3 & H4).
    rewrite Ek in Hk. injection Hk as ->. rewrite nth_error_map, Hi in Hij. injection Hij as <- <-.
    exists base, (Z.of_nat s), (Z.of_nat e). split; [eapply nth_error_In; exact Hx|].
    split; [lia|]. split; [lia|]. split; [lia|]. split; [unfold few_items; lia|]. rewrite !Nat2Z.id.
    rewrite rows_of_between in H3 by lia. split; [exact H3|].
    intros a b' y Hy. apply H4. rewrite rows_of_between by lia. exact Hy.
  - exact Hd.
Qed.

(** ** Regressors *)

Lemma groups_made k g : In (name k, g) groups <->
  exists blocks, In (k, blocks) (fl_regressors f) /\
    regressor_group leq plain (regressor_names (t_regressors T)) indexes blocks = Ok g.
Proof.
  assert (ET : t_regressors T' = t_regressors T) by (destruct (init_inv _ _ _ _ _ init) as (_ & -> & _); reflexivity).
  pose proof Hgroups as H. rewrite ET in H. clear -H name_inj.
  revert groups H. induction (fl_regressors f) as [|[k0 bl] l IH]; intros gs H; cbn in H.
  - injection H as <-. split; [intros []|intros (? & [] & _)].
  - destruct (regressor_group leq plain (regressor_names (t_regressors T)) indexes bl) as [g0|] eqn:E0; [|discriminate].
    cbn in H. destruct (mapM _ l) as [gs'|] eqn:Em; [|discriminate]. cbn in H. injection H as <-.
    specialize (IH gs' eq_refl). cbn [In]. rewrite IH. split.
    + intros [E|(bl' & H1 & H2)]; [|eauto]. injection E as En <-. apply name_inj in En. subst. eauto.
    + intros (bl' & [E|H1] & H2); [|eauto]. injection E as -> ->. left. congruence.
Qed.

Lemma groups_fst : map fst groups = map name (map fst (fl_regressors f)).
Proof.
  pose proof Hgroups as H. clear -H. revert groups H.
  induction (fl_regressors f) as [|[k0 bl] l IH]; intros gs H; cbn in H; [injection H as <-; reflexivity|].
  destruct (regressor_group _ _ _ _) as [g0|]; [|discriminate]. cbn in H.
  destruct (mapM _ l) as [gs'|] eqn:Em; [|discriminate]. cbn in H. injection H as <-. cbn. f_equal. apply IH. reflexivity.
Qed.

Lemma group_facts n b ij : nth_error bs' n = Some b -> nth_error (fl_by_index f) n = Some ij ->
  exists g, In (name (b_key b), g) (gorder groups) /\
    g_names g = map fst indexes /\ g_indexes g = indexes /\ g_columns g = length indexes /\ signed (g_type g) = false /\
    g_data g = map (combination T (by_rows T db (b_key b)) (map fst indexes)) (rows_of ij (fl_triplets f)) /\
    (forall s levels, In (s, levels) indexes -> Z.of_nat (length levels) <= tmax (g_type g)).
Proof.
  intros Hb Hij. destruct (by_facts n b Hb) as (ij' & Hk & Hi & _). rewrite Hij in Hi. injection Hi as <-.
  destruct (regressors_aligned argsort R fuel korder_ok enum_ok rd dt kf rr rt init thr c gen Hstore) as (Hinc & _).
  assert (Hr : In (b_key b) (map fst (fl_regressors f))) by (apply Hinc; eapply nth_error_In; exact Hk).
  apply in_map_iff in Hr as ([k bl] & E & Hr). cbn in E. subst k.
  destruct (group_made _ _ Hr) as (g & Eg & G1 & G2 & G3 & G4 & G5). exists g.
  split; [eapply Permutation_in; [apply Permutation_sym, gorder_ok|]; apply groups_made; eauto|].
  split; [exact G1|]. split; [exact G2|]. split; [exact G3|]. split; [exact G4|]. apply G5.
  eapply nth_error_In. apply nth_error_combine. split; eassumption.
Qed.

Lemma index_unique s levels levels' : In (s, levels) indexes -> In (s, levels') indexes -> levels = levels'.
Proof.
  pose proof (lv_distinct HL) as ND. clear -ND. induction indexes as [|[s0 l0] l IH]; [intros []|].
  cbn in ND. inversion ND as [|? ? N1 N2]; subst. intros [E|H] [E'|H'].
  - congruence.
  - injection E as -> ->. exfalso. apply N1. apply in_map_iff. exists (s, levels'). auto.
  - injection E' as -> ->. exfalso. apply N1. apply in_map_iff. exists (s, levels). auto.
  - auto.
Qed.

Let sizes := map (fun ix : string * list L => Z.of_nat (length (snd ix))) indexes.

Lemma group_good n b ij g : nth_error bs' n = Some b -> nth_error (fl_by_index f) n = Some ij ->
  g_names g = map fst indexes -> g_indexes g = indexes -> g_columns g = length indexes -> signed (g_type g) = false ->
  g_data g = map (combination T (by_rows T db (b_key b)) (map fst indexes)) (rows_of ij (fl_triplets f)) ->
  (forall s levels, In (s, levels) indexes -> Z.of_nat (length levels) <= tmax (g_type g)) ->
  group_ok (2 ^ 53) g sizes.
Proof.
  intros Hb Hij G1 G2 G3 G4 G5 G6.
  destruct (by_facts n b Hb) as (ij' & Hk & Hi & _ & _ & _ & Hl). rewrite Hij in Hi. injection Hi as <-.
  constructor; rewrite ?G1, ?G2, ?G3, ?G5.
  - exact G4.
  - rewrite map_length. reflexivity.
  - intros E. apply map_eq_nil in E. exact (lv_some HL E).
  - exact (lv_distinct HL).
  - intros nm Hin. apply in_map_iff in Hin as ([s l] & <- & Hin). exists l. exact Hin.
  - unfold sizes. rewrite !map_length. reflexivity.
  - intros r Hr. apply in_map_iff in Hr as (t & <- & _). unfold combination. rewrite map_length. reflexivity.
  - intros r j i m Hr Hj Hm. apply in_map_iff in Hr as ([[a b'] y] & <- & Ht). unfold combination in Hj. unfold sizes in Hm.
    rewrite map_map, nth_error_map in Hj. rewrite nth_error_map in Hm. destruct (nth_error indexes j) as [[s levels]|] eqn:Ej; [|discriminate].
    injection Hj as <-. injection Hm as <-. cbn [fst snd]. apply (lv_values HL).
    + eapply nth_error_In. exact Ej.
    + apply Hsel, (proj2 Hl). exact Ht.
  - intros j nm m levels Hj Hm Hin. unfold sizes in Hm. rewrite nth_error_map in Hj, Hm.
    destruct (nth_error indexes j) as [[s levels']|] eqn:Ej; [|discriminate]. injection Hj as <-. injection Hm as <-. cbn [fst snd] in *.
    pose proof (index_unique s levels levels' Hin (nth_error_In _ _ Ej)) as El. subst levels'. split; [lia|]. eapply G6. exact Hin.
  - exact (lv_product HL).
Qed.

Lemma analysable_made scores : length scores = length (fl_triplets f) -> analysable (2 ^ 53) (for_analysis x) scores.
Proof.
  intros Hs. constructor; cbn.
  - rewrite !map_length. apply by_lengths.
  - eapply Permutation_NoDup; [apply Permutation_map, Permutation_sym, gorder_ok|]. rewrite groups_fst.
    apply FinFun.Injective_map_NoDup; [exact name_inj|].
    apply (regressors_aligned argsort R fuel korder_ok enum_ok rd dt kf rr rt init thr c gen Hstore).
  - intros n by_ i j Hn Hij. rewrite nth_error_map in Hn. destruct (nth_error (fl_bys f) n) as [k|] eqn:Ek; [|discriminate].
    injection Hn as <-.
    destruct (nth_error_length (fl_bys f) bs' n k (eq_sym (proj1 by_lengths)) Ek) as (b & Hb).
    destruct (by_facts n b Hb) as (ij & Hk & Hi & _ & B1 & B2 & _). rewrite Ek in Hk. injection Hk as ->.
    rewrite nth_error_map, Hi in Hij. injection Hij as <- <-. unfold Zlen in B2. split; [lia|].
    destruct (group_facts n b ij Hb Hi) as (g & Hg & G1 & G2 & G3 & G4 & G5 & G6).
    exists g, sizes. split; [exact Hg|]. split; [eapply group_good; eassumption|].
    rewrite G5, map_length. unfold rows_of. rewrite firstn_length, skipn_length. lia.
Qed.

Lemma header_made : exists g0 rest, a_groups (for_analysis x) = g0 :: rest /\ g_names (snd g0) = map fst indexes.
Proof.
  cbn. pose proof (gorder_ok groups) as P. destruct (gorder groups) as [|[nm g] rest] eqn:E.
  - apply Permutation_nil in P. exfalso. pose proof groups_fst as H. rewrite P in H. cbn in H. symmetry in H.
    apply map_eq_nil in H. apply map_eq_nil in H.
    destruct (regressors_aligned argsort R fuel korder_ok enum_ok rd dt kf rr rt init thr c gen Hstore) as (Hinc & _).
    rewrite H in Hinc. destruct (fl_bys f) eqn:Ef; [exact (bys_some eq_refl)|]. destruct (Hinc k (or_introl eq_refl)).
  - exists (nm, g), rest. split; [reflexivity|]. cbn [snd].
    assert (Hin : In (nm, g) groups) by (eapply Permutation_in; [exact P|left; reflexivity]).
    assert (Hnm : In nm (map name (map fst (fl_regressors f)))).
    { rewrite <- groups_fst. apply in_map_iff. exists (nm, g). auto. }
    apply in_map_iff in Hnm as (k & <- & _). apply groups_made in Hin as (bl & Hbl & Eg).
    destruct (group_made _ _ Hbl) as (g' & Eg' & G1 & _). congruence.
Qed.

(** ** Distances *)
Section Answers.
Variables F V : Type.
Variable tle : tm -> tm -> bool.
Variable vlt : V -> V -> bool.
Variable distance : option bool -> list F -> list F -> res V.
Variable files : list (feature_data tm F).
Variable normalize : option Z.
Variable dis : list V.
Hypothesis Hlen : length dis = length pairs.
Hypothesis Hdis : forall p v, nth_error dis p = Some v -> row_value tle distance (for_distances x) files normalize p v.

Lemma distance_meant k item y d : (exists b, 0 <= item < b /\ In (name k, b) (map (fun a => (fst a, fst (fst (snd a)))) xattrs)) ->
  distance_of (for_score x) dis (name k) item y d ->
  exists p p' m m', place T db places k item p /\ place T db places k y p' /\
    matrix_of tle files p m /\ matrix_of tle files p' m' /\ distance (meant normalize) m m' = Ok d.
Proof.
  intros (b0 & Hb0 & Hin0) (base & s & e & p & Hin & Hp & Hc & Hd). cbn in Hin, Hc.
  destruct (Hdis p d Hd) as (k' & base' & s' & e' & items & i & j & it & it' & m & m' & Hin' & Hp' & Hit & Hc' & Hi & N1 & N2 & M1 & M2 & HD).
  cbn in Hin', Hit, Hc'.
  assert (Eq : (name k, (base, s, e)) = (k', (base', s', e'))).
  { pose proof xattrs_consecutive as C.
    assert (H1 : forall nm ba u v, In (nm, (ba, u, v)) xattrs -> 0 <= u /\ 0 <= v).
    { intros nm ba u v H. apply xattrs_In in H as (? & ? & ? & ? & _ & _ & -> & -> & _). lia. }
    assert (H2 : map (fun x => (Z.to_nat (snd (fst (snd x))), Z.to_nat (snd (snd x)))) xattrs =
      map snd (map (fun x => (x, (Z.to_nat (snd (fst (snd x))), Z.to_nat (snd (snd x))))) xattrs)) by (rewrite map_map; reflexivity).
    rewrite H2 in C. pose proof (H1 _ _ _ _ Hin). pose proof (H1 _ _ _ _ Hin').
    apply (in_map (fun x => (x, (Z.to_nat (snd (fst (snd x))), Z.to_nat (snd (snd x)))))) in Hin, Hin'. cbn [fst snd] in Hin, Hin'.
    refine (proj1 (consecutive_inj _ _ _ C _ _ _ _ _ _ p Hin Hin' _ _)); lia. }
  injection Eq as <- <- <- <-.
  assert (b0 = base).
  { apply in_map_iff in Hin0 as ([nm [[ba u] v]] & E & Hin0). cbn in E. injection E as -> ->.
    pose proof names_NoDup as ND. rewrite <- xattrs_fst in ND. clear -ND Hin Hin0.
    induction xattrs as [|a l IH]; [destruct Hin|]. cbn in ND. inversion ND as [|? ? N1 N2]; subst.
    destruct Hin as [->|Hin], Hin0 as [E|Hin0].
    - injection E as -> _ _. reflexivity.
    - exfalso. apply N1. apply in_map_iff. exists (name k, (b0, u, v)). auto.
    - exfalso. subst a. apply N1. apply in_map_iff. exists (name k, (base, s, e)). auto.
    - auto. }
  subst b0. rewrite Hc in Hc'. injection Hc' as Hc'. apply code_inj in Hc'; [|lia|lia]. destruct Hc' as [-> ->].
  apply in_map_iff in Hit as (b & E & Hb). injection E as En <-. apply name_inj in En. subst k.
  destruct (init_inv _ _ _ _ _ init) as (Hck & _).
  exists it, it', m, m'. split; [apply feat_db_place; assumption|]. split; [apply feat_db_place; assumption|]. auto.
Qed.

Hypothesis Hfeat : features_ok files.

(** The scores of a by are the answers for its triplets. *)
Lemma answers_made scores n b ij : scores_of vlt (for_score x) dis scores ->
  nth_error bs' n = Some b -> nth_error (fl_by_index f) n = Some ij ->
  Forall2 (answer tle vlt distance T db places files normalize (b_key b))
          (rows_of ij (fl_triplets f)) (scores_in (nat_range ij) scores).
Proof.
  intros [Hl Hs] Hb Hij. cbn in Hl.
  destruct (attr_nth n b Hb) as (ij' & base & s & e & Hk & Hi & B1 & B2 & _ & _ & Hx & H1 & H2 & H3 & H4).
  rewrite Hij in Hi. injection Hi as <-. rewrite rows_of_between by lia.
  assert (Hst : forall q a b' y, (fst (nat_range ij) <= q < snd (nat_range ij))%nat ->
    nth_error (fl_triplets f) q = Some (a, b', y) -> In (a, b', y) (rows_of ij (fl_triplets f)) ->
    exists v, nth_error scores q = Some v /\ answer tle vlt distance T db places files normalize (b_key b) (a, b', y) v).
  { intros q a b' y Hq Ht Hin. destruct (Hs q (name (b_key b)) a b' y) as (dax & dbx & v & D1 & D2 & Hv & Hver).
    { exists n, (fst (nat_range ij)), (snd (nat_range ij)). cbn. rewrite !nth_error_map, Hk, Hij. auto. }
    destruct (H4 _ _ _ Hin) as (R1 & R2 & R3).
    assert (Hbase : In (name (b_key b), base) (map (fun a => (fst a, fst (fst (snd a)))) xattrs)).
    { apply in_map_iff. exists (name (b_key b), (base, Z.of_nat s, Z.of_nat e)). split; [reflexivity|]. eapply nth_error_In. exact Hx. }
    destruct (distance_meant (b_key b) a y dax (ex_intro _ base (conj R1 Hbase)) D1) as (p1 & p2 & m1 & m2 & P1 & P2 & M1 & M2 & E1).
    destruct (distance_meant (b_key b) b' y dbx (ex_intro _ base (conj R2 Hbase)) D2) as (p3 & p4 & m3 & m4 & P3 & P4 & M3 & M4 & E2).
    exists v. split; [exact Hv|]. cbn.
    assert (p4 = p2) by (destruct P2 as [_ P2], P4 as [_ P4]; congruence). subst p4.
    assert (m4 = m2) by exact (matrix_unique tm F tle (mk_setting (for_distances x) files normalize) p2 m4 m2 Hfeat M4 M2).
    subst m4. exists p1, p3, p2, m1, m3, m2, dax, dbx. repeat split; assumption || apply P1 || apply P2 || apply P3. }
  assert (Hlt : (snd (nat_range ij) <= length (fl_triplets f))%nat) by (unfold nat_range, Zlen in *; cbn [snd]; lia).
  assert (Hle : (fst (nat_range ij) <= snd (nat_range ij))%nat) by (unfold nat_range; cbn [fst snd]; lia).
  apply Forall2_of_nth.
  - unfold rows_between, scores_in. rewrite !firstn_length, !skipn_length, Hl. reflexivity.
  - intros q [[a b'] y] v Ht Hv. unfold rows_between in Ht. unfold scores_in in Hv.
    assert (Hq : (q < snd (nat_range ij) - fst (nat_range ij))%nat).
    { assert (N : nth_error (firstn (snd (nat_range ij) - fst (nat_range ij)) (skipn (fst (nat_range ij)) (fl_triplets f))) q <> None) by congruence.
      apply nth_error_Some in N. rewrite firstn_length in N. lia. }
    assert (Hin : In (a, b', y) (rows_of ij (fl_triplets f))).
    { rewrite rows_of_between by lia. eapply nth_error_In. exact Ht. }
    rewrite nth_error_firstn_lt in Ht by exact Hq. rewrite nth_error_firstn_lt in Hv by exact Hq. rewrite nth_error_skipn_at in Ht. rewrite nth_error_skipn_at in Hv.
    destruct (Hst (fst (nat_range ij) + q)%nat a b' y ltac:(lia) Ht Hin) as (v' & Ev & Hans). congruence.
Qed.

Lemma line_made n b ij g r ln scores : nth_error bs' n = Some b -> nth_error (fl_by_index f) n = Some ij ->
  scores_of vlt (for_score x) dis scores ->
  g_names g = map fst indexes -> g_indexes g = indexes ->
  g_data g = map (combination T (by_rows T db (b_key b)) (map fst indexes)) (rows_of ij (fl_triplets f)) ->
  In r (g_data g) ->
  line_for g (name (b_key b)) r (scores_with (g_data g) (scores_in (nat_range ij) scores) r) ln ->
  line_among tle vlt distance name sel T db places files normalize indexes (b_key b) r ln.
Proof.
  intros Hb Hij Hsc G1 G2 G5 Hr (Hlab & Hby & Hn & Hs).
  pose proof (answers_made scores n b ij Hsc Hb Hij) as Hans.
  destruct (by_facts n b Hb) as (ij' & Hk & Hi & _ & _ & _ & Hl). rewrite Hij in Hi. injection Hi as <-.
  set (rows := rows_of ij (fl_triplets f)) in *. set (comb := combination T (by_rows T db (b_key b)) (map fst indexes)) in *.
  set (sc := scores_in (nat_range ij) scores) in *.
  assert (Hf : Forall2 (answer tle vlt distance T db places files normalize (b_key b))
                 (filter (fun t => same r (comb t)) rows) (scores_with (g_data g) sc r)).
  { rewrite G5. unfold scores_with. clear -Hans. induction Hans as [|t v l m H F0 IH]; [constructor|].
    cbn. destruct (same r (comb t)); cbn; [constructor; assumption|assumption]. }
  split; [|split; [exact Hby|]].
  - destruct Hlab as [Hll Hlab]. rewrite G1, G2 in Hlab.
    assert (Hlr : length r = length indexes).
    { rewrite G5 in Hr. apply in_map_iff in Hr as (t & <- & _). unfold comb, combination. rewrite !map_length. reflexivity. }
    apply Forall2_of_nth; [rewrite combine_length; lia|].
    intros j [[s levels] i] label Hj Hlb. apply nth_error_combine in Hj as [Hj1 Hj2]. cbn [fst snd].
    destruct (Hlab j s i) as (levels' & Hin & H0 & E & _); [rewrite nth_error_map, Hj1; reflexivity|exact Hj2|].
    rewrite (index_unique s levels' levels Hin (nth_error_In _ _ Hj1)) in E. split; [exact H0|]. congruence.
  - exists (filter (fun t => same r (comb t)) rows), (scores_with (g_data g) sc r).
    split; [|split; [exact Hf|split]].
    + split; [apply NoDup_filter, (proj1 Hl)|]. intros [[a b'] y]. rewrite filter_In, same_spec. split.
      * intros [H1 H2]. split; [apply (proj2 Hl); exact H1|]. symmetry. exact H2.
      * intros [H1 H2]. split; [apply (proj2 Hl); exact H1|]. symmetry. exact H2.
    + rewrite Hn. apply Task_main.Forall2_len in Hf. rewrite Hf. reflexivity.
    + rewrite Hs. apply proportion_score.
      * intros E. rewrite E in Hf. inversion Hf as [E'|]. rewrite G5 in Hr. apply in_map_iff in Hr as (t & <- & Ht).
        assert (Hin : In t (filter (fun t0 => same (comb t) (comb t0)) rows)) by (apply filter_In; split; [exact Ht|apply same_spec; reflexivity]).
        rewrite <- E' in Hin. destruct Hin.
      * clear -Hf. induction Hf as [|[[a b'] y] v l m H F0 IH]; constructor; [|exact IH].
        destruct H as (? & ? & ? & ? & ? & ? & ? & ? & _ & _ & _ & _ & _ & _ & _ & _ & [[_ ->] | [[_ ->] | [_ [_ ->]]]]); auto.
Qed.

Lemma result_made scores lines : scores_of vlt (for_score x) dis scores -> analysed (for_analysis x) scores lines ->
  result_among tle vlt distance name sel T db places files normalize indexes lines.
Proof.
  intros Hsc (ls & -> & Hlen' & Hls). cbn in Hlen', Hls. rewrite map_length in Hlen'.
  set (good := fun (k : key) (part : list (list Z * line L)) =>
      StronglySorted lex (map fst part) /\
      (forall r, In r (map fst part) <->
         exists t, sel k t /\ combination T (by_rows T db k) (map fst indexes) t = r) /\
      forall r ln, In (r, ln) part -> line_among tle vlt distance name sel T db places files normalize indexes k r ln).
  assert (F2 : Forall2 (fun k l => exists part, map snd part = l /\ good k part) (fl_bys f) ls).
  { apply Forall2_of_nth; [symmetry; exact Hlen'|]. intros n k l Hk Hl.
    destruct (nth_error_length (fl_bys f) bs' n k (eq_sym (proj1 by_lengths)) Hk) as (b & Hb).
    destruct (by_facts n b Hb) as (ij & Hk' & Hij & _ & _ & _ & Hex). rewrite Hk in Hk'. injection Hk' as ->.
    destruct (group_facts n b ij Hb Hij) as (g & Hg & G1 & G2 & G3 & G4 & G5 & G6).
    destruct (Hls n (name (b_key b)) (nat_range ij) l g) as (rows & S1 & S2 & S3);
      [rewrite nth_error_map, Hk; reflexivity|rewrite nth_error_map, Hij; reflexivity|exact Hl|exact Hg|].
    exists (combine rows l).
    assert (Hf : map fst (combine rows l) = rows) by (clear -S3; induction S3; cbn; congruence).
    split; [clear -S3; induction S3; cbn; congruence|]. unfold good. rewrite Hf.
    split; [exact S1|]. split.
    - intros r. rewrite S2, G5, in_map_iff. split.
      + intros ([[a b'] y] & E & Ht). exists (a, b', y). split; [apply (proj2 Hex); exact Ht|exact E].
      + intros ([[a b'] y] & Ht & E). exists (a, b', y). split; [exact E|]. apply (proj2 Hex). exact Ht.
    - intros r ln Hin.
      assert (Hln : line_for g (name (b_key b)) r (scores_with (g_data g) (scores_in (nat_range ij) scores) r) ln).
      { clear -S3 Hin. induction S3 as [|r0 l0 rows l H F0 IH]; [destruct Hin|]. destruct Hin as [E|Hin]; [injection E as -> ->; exact H|auto]. }
      eapply line_made; try eassumption. apply S2. rewrite <- Hf. apply in_map_iff. exists (r, ln). auto. }
  assert (G : exists parts, map fst parts = fl_bys f /\ concat ls = concat (map (fun p => map snd (snd p)) parts) /\
                forall k part, In (k, part) parts -> good k part).
  { clear -F2. induction F2 as [|k l ks ls (part & E & H) F0 (parts & P1 & P2 & P3)]; [exists []; split; [reflexivity|split; [reflexivity|intros ? ? []]]|].
    exists ((k, part) :: parts). cbn. rewrite P1, P2, E. split; [reflexivity|]. split; [reflexivity|].
    intros k' p' [E'|Hin]; [injection E' as <- <-; exact H|auto]. }
  destruct G as (parts & P1 & P2 & P3). exists parts. split; [exact P2|]. rewrite P1.
  split; [exact bys_NoDup|]. split; [|exact P3].
  exact Hbys.
Qed.

End Answers.


(** ** The steps after the task *)
Section Steps.
Variables F V : Type.
Variable tle : tm -> tm -> bool.
Variable vlt : V -> V -> bool.
Variable distance : option bool -> list F -> list F -> res V.
Variable files : list (feature_data tm F).
Variable normalize : option Z.
Hypothesis Hfeat : features_ok files.

Lemma computable_made : answerable tle vlt distance T db places files normalize ->
  computable tle distance (for_distances x) files normalize.
Proof.
  intros [Hans Hrec]. split; [|exact Hrec]. cbn. intros p Hp.
  destruct attrs_made as [_ C]. destruct (consecutive_covers _ _ _ p C) as (n & s & e & Hn & Hse); [lia|].
  rewrite nth_error_map in Hn. destruct (nth_error attrs n) as [[[base0 s0] e0]|] eqn:Ea; [|discriminate].
  injection Hn as <- <-. destruct (nth_error_length attrs bs' n _ attrs_length Ea) as (b & Hb).
  destruct (attr_nth n b Hb) as (ij & base & s & e & Hk & Hij & B1 & B2 & Hl & Ha & Hx & H1 & H2 & [_ H3] & H4).
  rewrite Ea in Ha. injection Ha as -> -> ->. cbn [fst snd] in Hse.
  destruct (nth_error pairs p) as [cd|] eqn:Ep; [|apply nth_error_None in Ep; lia].
  assert (Hin : In cd (rows_between s e pairs)).
  { unfold rows_between. apply (nth_error_In _ (p - s)). rewrite nth_error_firstn_lt by lia. rewrite nth_error_skipn_at.
    replace (s + (p - s))%nat with p by lia. exact Ep. }
  apply H3 in Hin as (a & b' & y & Ht & Hor). destruct (H4 _ _ _ Ht) as (R1 & R2 & R3).
  destruct (Hans (b_key b) (a, b', y)) as (sc & pa & pb & px & ma & mb & mx & dax & dbx & P1 & P2 & P3 & M1 & M2 & M3 & D1 & D2 & _).
  { apply Hsel, (proj2 Hl). exact Ht. }
  destruct (init_inv _ _ _ _ _ init) as (Hck & _).
  assert (G : forall i pi mi d, 0 <= i < base -> cd = code base i y -> place T db places (b_key b) i pi ->
      matrix_of tle files pi mi -> distance (meant normalize) mi mx = Ok d ->
      exists v, row_value tle distance (for_distances x) files normalize p v).
  { intros i pi mi d Hi Ec Pi Mi Di. exists d.
    exists (name (b_key b)), base, (Z.of_nat s), (Z.of_nat e), (feat_db T db places (b_key b)), (Z.to_nat i), (Z.to_nat y), pi, px, mi, mx.
    cbn. rewrite !Z2Nat.id by lia.
    split; [eapply nth_error_In; exact Hx|]. split; [lia|].
    split; [apply in_map_iff; exists b; split; [reflexivity|eapply nth_error_In; exact Hb]|].
    split; [congruence|]. split; [lia|].
    split; [rewrite <- (Z2Nat.id i) at 2 by lia; apply feat_db_place; [exact Hck|]; rewrite Z2Nat.id by lia; exact Pi|].
    split; [rewrite <- (Z2Nat.id y) at 2 by lia; apply feat_db_place; [exact Hck|]; rewrite Z2Nat.id by lia; exact P3|].
    auto. }
  destruct Hor as [E|E]; [exact (G a pa ma dax R1 E P1 M1 D1)|exact (G b' pb mb dbx R2 E P2 M2 D2)].
Qed.

Lemma has_items_made : has_items (for_distances x).
Proof.
  intros k Hk. cbn in *. rewrite map_map. cbn [fst]. rewrite <- (map_map b_key name). destruct remaining as [_ ->]. exact Hk.
Qed.

Lemma steps_result zero dfuel n_cpu df0 df' s0 s rnd slen stem : (1 <= n_cpu)%nat ->
  compute_distances zero argsort dfuel (mk_setting (for_distances x) files normalize) df0 n_cpu = (df', Ok s0) ->
  reaches tle distance (mk_setting (for_distances x) files normalize) s0 s -> s_main s = M_returned ->
  exact53 rnd -> (forall z, (0 < slen z)%nat) -> (forall d d', vlt d d' = true -> vlt d' d = false) ->
  exists dis, d_data (s_file s) = Some dis /\
  forall k tf dfn sf, lookup (k_tasks k) tf = Ok (for_score x) -> lookup (k_distances k) dfn = Ok dis ->
    ~ there k (score_name stem tf dfn sf) ->
    exists k' scores lines, score vlt rnd slen stem k tf dfn sf = (k', Ok tt) /\
      lookup (k_scores k') (score_name stem tf dfn sf) = Ok scores /\
      analyze rnd argsort (for_analysis x) scores = Ok (map fst indexes, lines) /\
      result_among tle vlt distance name sel T db places files normalize indexes lines.
Proof.
  intros Hn Hc Hr Hm Hrnd Hsl Hasym.
  destruct (returned_complete tm F V tle zero distance (mk_setting (for_distances x) files normalize) argsort argsort_ok
              dfuel n_cpu df0 Hn pair_file_made Hfeat df' s0 Hc s Hr Hm) as (dis & Ed & El & Hrows).
  cbn in El, Hrows. exists dis. split; [exact Ed|]. intros k tf dfn sf Htf Hdf Hth.
  destruct (score_writes V vlt rnd Hrnd slen Hsl Hasym stem k tf dfn sf (for_score x) dis Htf Hdf (scorable_made dis El) Hth)
    as (k' & scores & Es & Esc & Hsc).
  destruct header_made as (g0 & rest & Eg & En).
  destruct (analyze_ok L rnd argsort (for_analysis x) scores g0 rest Hrnd argsort_ok (analysable_made scores (proj1 Hsc)) Eg)
    as (lines & Ea & Han).
  exists k', scores, lines. split; [exact Es|]. split; [exact Esc|]. rewrite <- En. split; [exact Ea|].
  eapply result_made; eassumption.
Qed.

Lemma steps_return zero dfuel n_cpu df0 : (1 <= n_cpu)%nat -> d_data df0 = None -> (length pairs <= dfuel)%nat ->
  answerable tle vlt distance T db places files normalize -> blocks_fit (for_distances x) n_cpu ->
  exists df' s0,
    compute_distances zero argsort dfuel (mk_setting (for_distances x) files normalize) df0 n_cpu = (df', Ok s0) /\
    forall s, reaches tle distance (mk_setting (for_distances x) files normalize) s0 s ->
      (exists s', reaches tle distance (mk_setting (for_distances x) files normalize) s s' /\ ended s') /\
      (ended s -> s_main s = M_returned).
Proof.
  intros Hn Hd Hf Hans Hfit.
  destruct (compute_distances zero argsort dfuel (mk_setting (for_distances x) files normalize) df0 n_cpu) as [df' r] eqn:Ec.
  pose proof (start_cases tm F V zero (mk_setting (for_distances x) files normalize) argsort argsort_ok dfuel n_cpu df0 Hn
                pair_file_made df' r Ec) as (_ & Hst).
  destruct r as [s0|e0]; [|destruct (Hst Hd) as (e & _ & Hlt); cbn in Hlt; lia].
  exists df', s0. split; [reflexivity|]. intros s Hr. split.
  - exact (all_can_end tm F V tle zero distance (mk_setting (for_distances x) files normalize) argsort argsort_ok dfuel n_cpu df0 Hn pair_file_made Hfeat df' s0 Ec s
             has_items_made Hfit Hr).
  - exact (ends_by_returning tm F V tle zero distance (mk_setting (for_distances x) files normalize) argsort argsort_ok dfuel n_cpu df0 Hn pair_file_made Hfeat
             (computable_made Hans) df' s0 Ec s has_items_made Hfit Hr).
Qed.
End Steps.

End File.
