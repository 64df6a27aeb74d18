(** Proofs about [compute_distances]. *)
From Coq Require Import String.
From Coq Require Import List ZArith Lia Permutation Sorted.
From Verif Require Import Prelude ListFacts Pairs Pairs_spec Distances Distances_spec
     Distances_jobs Distances_proofs Distances_run.
Import ListNotations.
Local Open Scope Z_scope.
Local Open Scope list_scope.

Section Main.
Variables T F V : Type.
Variable tle : T -> T -> bool.
Variable zero : V.
Variable distance : option bool -> list F -> list F -> res V.
Variable c : setting T F.
Let pf := c_pairs c.
Let files := c_files c.
Let normalize := c_normalize c.

(** ** What is expected is a function of the row *)

Lemma NoDup_app_parts A (l1 l2 : list A) : NoDup (l1 ++ l2) -> NoDup l1 /\ NoDup l2 /\
  forall x, In x l1 -> In x l2 -> False.
Proof.
  induction l1 as [|a l1 IH]; cbn; intros H.
  - repeat split; auto; constructor.
  - inversion H as [|? ? Hn H']; subst. destruct (IH H') as (H1 & H2 & H3). repeat split; auto.
    + constructor; auto. intros Hi. apply Hn. apply in_or_app. now left.
    + intros x [->|Hx] Hx2; [apply Hn; apply in_or_app; now right|eauto].
Qed.

Lemma recorded_unique f times frames times' frames' :
  features_ok files -> recorded files f times frames -> recorded files f times' frames' ->
  times = times' /\ frames = frames'.
Proof.
  intros (Hok & Hnd) (fd & I1 & T1 & F1) (fd' & I2 & T2 & F2).
  assert (E : fd = fd').
  { clear Hok F1 F2. revert Hnd I1 I2. induction files as [|x l IH]; [contradiction|].
    cbn [flat_map]. intros Hnd. apply NoDup_app_parts in Hnd as (N1 & N2 & D).
    assert (J : forall fd0 ts, In fd0 l -> In (f, ts) (fst fd0) -> In f (flat_map (fun fd => map fst (fst fd)) l)).
    { intros fd0 ts A B. apply in_flat_map. exists fd0. split; auto. now apply (in_map fst) in B. }
    intros [->|I1] [->|I2]; auto.
    - exfalso. apply (D f); eauto. now apply (in_map fst) in T1.
    - exfalso. apply (D f); eauto. now apply (in_map fst) in T2. }
  subst fd'. destruct (Hok fd I1) as (N & E). split.
  - eapply NoDup_keys_inj; eauto.
  - rewrite E in N. eapply NoDup_keys_inj; eauto.
Qed.

Lemma matrix_unique it m m' : features_ok files ->
  matrix_of tle files it m -> matrix_of tle files it m' -> m = m'.
Proof.
  intros Hok (ts & fr & R & ->) (ts' & fr' & R' & ->).
  destruct (recorded_unique _ _ _ _ _ Hok R R') as (-> & ->). reflexivity.
Qed.

Lemma consecutive_rows (l : list (string * (Z * Z * Z))) : forall i n k base s e k' base' s' e' p,
  consecutive i (map (fun x => (Z.to_nat (snd (fst (snd x))), Z.to_nat (snd (snd x)))) l) n ->
  (forall k base s e, In (k, (base, s, e)) l -> 0 < base /\ 0 <= s <= e) ->
  In (k, (base, s, e)) l -> In (k', (base', s', e')) l ->
  s <= p < e -> s' <= p < e' -> (k, (base, s, e)) = (k', (base', s', e')).
Proof.
  induction l as [|(k0, ((b0, s0), e0)) l IH]; [contradiction|].
  cbn [map snd fst consecutive]. intros i n k base s e k' base' s' e' p (E & Hle & Hc) Hb H H' Hp Hp'.
  assert (G : forall k1 b1 s1 e1, In (k1, (b1, s1, e1)) l -> e0 <= s1).
  { intros k1 b1 s1 e1 H1.
    assert (I1 : In (Z.to_nat s1, Z.to_nat e1)
       (map (fun x => (Z.to_nat (snd (fst (snd x))), Z.to_nat (snd (snd x)))) l)).
    { apply in_map_iff. exists (k1, (b1, s1, e1)). split; [reflexivity|exact H1]. }
    pose proof (consecutive_In _ _ _ _ _ Hc I1).
    destruct (Hb _ _ _ _ (or_intror H1)). destruct (Hb _ _ _ _ (or_introl eq_refl)). lia. }
  destruct H as [[= -> -> -> ->]|H], H' as [[= -> -> -> ->]|H'].
  - reflexivity.
  - apply G in H'. lia.
  - apply G in H. lia.
  - eapply IH; eauto. intros; eapply Hb; right; eauto.
Qed.

Lemma row_value_unique p v v' : pair_file_ok pf -> features_ok files ->
  row_value tle distance pf files normalize p v -> row_value tle distance pf files normalize p v' ->
  v = v'.
Proof.
  intros (_ & _ & Hi & _ & Hb & Hc & _) Hok
    (k & base & s & e & items & i & j & it & it' & m & m' & A1 & A2 & A3 & A4 & A5 & A6 & A7 & A8 & A9 & A10)
    (k2 & base2 & s2 & e2 & items2 & i2 & j2 & it2 & it2' & m2 & m2' & B1 & B2 & B3 & B4 & B5 & B6 & B7 & B8 & B9 & B10).
  assert (E := consecutive_rows _ _ _ _ _ _ _ _ _ _ _ _ Hc Hb A1 B1 A2 B2).
  injection E as <- <- <- <-.
  assert (items2 = items) by (eapply NoDup_keys_inj; eauto). subst items2.
  rewrite A4 in B4. injection B4 as B4. unfold code in B4.
  assert (i = i2 /\ j = j2) as (<- & <-).
  { destruct (Hb _ _ _ _ A1) as (Hp & _).
    assert (Ej : Z.of_nat j = Z.of_nat j2) by nia.
    assert (Ei : Z.of_nat i = Z.of_nat i2) by nia. lia. }
  rewrite A6 in B6. injection B6 as <-. rewrite A7 in B7. injection B7 as <-.
  assert (m2 = m) by (eapply matrix_unique; eauto). subst m2.
  assert (m2' = m') by (eapply matrix_unique; eauto). subst m2'. congruence.
Qed.

Lemma complete_unique df df' : pair_file_ok pf -> features_ok files ->
  complete tle distance pf files normalize df -> complete tle distance pf files normalize df' ->
  d_data df = d_data df'.
Proof.
  intros Hpf Hok (d & -> & L & C) (d' & -> & L' & C'). f_equal.
  apply nth_error_ext. intros p.
  destruct (nth_error d p) as [v|] eqn:E, (nth_error d' p) as [v'|] eqn:E'; auto.
  - f_equal. eapply row_value_unique; eauto.
  - apply nth_error_None in E'. assert (p < length d)%nat by (apply nth_error_Some; congruence). lia.
  - apply nth_error_None in E. assert (p < length d')%nat by (apply nth_error_Some; congruence). lia.
Qed.

(** ** The start *)

Definition sizes_of : list (string * Z) :=
  map (fun x => (fst x, snd (snd x) - snd (fst (snd x)))) (pf_attrs pf).

Lemma by_sizes_ok : pair_file_ok pf -> by_sizes pf = Ok sizes_of.
Proof.
  intros (_ & Hn & _ & E & _). unfold by_sizes, sizes_of. rewrite <- E in *. clear E.
  assert (G : forall l, incl l (pf_attrs pf) ->
     mapM (fun k => a <- lookup (pf_attrs pf) k ;; let '(_, s, e) := a in Ok (k, e - s)) (map fst l)
     = Ok (map (fun x => (fst x, snd (snd x) - snd (fst (snd x)))) l)).
  { induction l as [|(k, ((b, s), e)) l IH]; intros Hi; [reflexivity|].
    cbn [map mapM fst snd]. rewrite (lookup_NoDup _ _ k (b, s, e)) by (auto; apply Hi; now left).
    cbn [bind]. rewrite IH by (intros x Hx; apply Hi; now right). reflexivity. }
  apply G, incl_refl.
Qed.

Lemma sizes_pos : pair_file_ok pf -> forall k n, In (k, n) sizes_of -> 0 <= n.
Proof.
  intros (_ & _ & _ & _ & Hb & _) k n H. apply in_map_iff in H as ((k', ((b, s), e)) & [= <- <-] & H).
  apply Hb in H. cbn. lia.
Qed.

Lemma sizes_nodup : pair_file_ok pf -> NoDup (map fst sizes_of).
Proof.
  intros (_ & Hn & _ & E & _). unfold sizes_of. rewrite map_map. cbn [fst].
  now rewrite <- E in Hn.
Qed.

Lemma sizes_total : pair_file_ok pf -> sumZ (map snd sizes_of) = Z.of_nat (length (pf_data pf)).
Proof.
  intros (_ & _ & _ & _ & Hb & Hc & _). unfold sizes_of. rewrite map_map. cbn [snd].
  enough (G : forall l i n,
    consecutive i (map (fun x => (Z.to_nat (snd (fst (snd x))), Z.to_nat (snd (snd x)))) l) n ->
    (forall k base s e, In (k, (base, s, e)) l -> 0 < base /\ 0 <= s <= e) ->
    sumZ (map (fun x : string * (Z * Z * Z) => snd (snd x) - snd (fst (snd x))) l) = Z.of_nat n - Z.of_nat i).
  { rewrite (G _ _ _ Hc Hb). lia. }
  clear. induction l as [|(k, ((b, s), e)) l IH]; cbn [map consecutive fst snd]; intros i n Hc Hb.
  - subst. cbn. lia.
  - destruct Hc as (Es & Hle & Hc). apply IH in Hc; [|intros; eapply Hb; right; eauto].
    destruct (Hb _ _ _ _ (or_introl eq_refl)). unfold sumZ in *. cbn [fold_right]. lia.
Qed.

Variable argsort : list Z -> list nat.
Hypothesis Hsort : argsort_spec argsort.
Variables (fuel n_cpu : nat) (df : dist_file V).
Hypothesis Hcpu : (1 <= n_cpu)%nat.
Hypothesis Hpf : pair_file_ok pf.
Hypothesis Hfeat : features_ok files.

Lemma Hfiles : forall x, In x files -> feature_file_ok x.
Proof. apply Hfeat. Qed.

(** What [compute_distances] has done before starting the workers. *)
Lemma start_cases df' r : compute_distances zero argsort fuel c df n_cpu = (df', r) ->
  d_done df' = Some false /\
  match r with
  | Err _ => d_data df = None -> (exists e, r = Err e /\ Z.of_nat fuel < Z.of_nat (length (pf_data pf)))
  | Ok s0 => d_data df = None /\ exists jobs,
      distance_jobs argsort fuel n_cpu 100 sizes_of = Ok jobs /\
      df' = mk_dist_file (Some false) (Some (repeat zero (length (pf_data pf)))) /\
      s0 = mk_sys None df' (map (@W_init T V) jobs) M_running
  end.
Proof.
  unfold compute_distances, create_distance_jobs. fold pf. rewrite (by_sizes_ok Hpf).
  unfold create_output. pose proof Hpf as (Hne & _).
  destruct (pf_bys pf) as [|b bs] eqn:Eb; [contradiction|].
  destruct (d_data df) as [d|] eqn:Ed.
  - intros [= <- <-]. split; [reflexivity|discriminate].
  - destruct (distance_jobs argsort fuel n_cpu 100 sizes_of) as [jobs|e] eqn:Ej; intros [= <- <-].
    + split; [reflexivity|]. split; [reflexivity|]. exists jobs. repeat split.
    + split; [reflexivity|]. intros _. exists e. split; [reflexivity|].
      destruct (Z.lt_ge_cases (Z.of_nat fuel) (Z.of_nat (length (pf_data pf)))) as [L|L]; [exact L|].
      exfalso. destruct (jobs_total argsort Hsort fuel n_cpu 100 sizes_of Hcpu) as (jobs & E); try lia.
      * apply (sizes_pos Hpf).
      * rewrite (sizes_total Hpf). exact L.
      * congruence.
Qed.

Lemma jobs_facts jobs : distance_jobs argsort fuel n_cpu 100 sizes_of = Ok jobs ->
  length jobs = n_cpu /\
  (forall j r, In j jobs -> In r j -> range_ok T F c r) /\
  (forall p, (p < length (pf_data pf))%nat -> exists j r, In j jobs /\ In r j /\ rows T F c r p).
Proof.
  intros H.
  assert (Hb : 1 <= 100) by lia.
  destruct (jobs_cover argsort Hsort fuel n_cpu 100 sizes_of Hcpu Hb (sizes_pos Hpf) jobs (sizes_nodup Hpf) H)
    as (L & C1 & C2).
  split; [exact L|]. split.
  - intros j r Hj Hr. assert (Hin : In r (concat jobs)) by (apply in_concat; eauto).
    destruct (C1 r Hin) as (n & Hn & Hr1 & Hr2). apply in_map_iff in Hn as ((k, ((b, s), e)) & E & Hn).
    cbn in E. injection E as Ek En. rewrite Ek in Hn. exists b, s, e. split; [exact Hn|]. split; [lia|]. rewrite En. lia.
  - intros p Hp. destruct Hpf as (_ & _ & _ & _ & Hbd & Hc & _).
    destruct (consecutive_cover _ _ _ p Hc) as (s & e & Hin & Hse); [lia|].
    apply in_map_iff in Hin as ((k, ((b, s0), e0)) & E & Hin). cbn in E. injection E as Es Ee.
    destruct (Hbd _ _ _ _ Hin).
    destruct (C2 k (e0 - s0) (Z.of_nat p - s0)) as (i & (r & Hr & Hk & Hc') & _).
    + apply in_map_iff. exists (k, (b, s0, e0)). split; [reflexivity|exact Hin].
    + lia.
    + apply nth_error_In in Hr. apply in_concat in Hr as (j & Hj & Hr).
      exists j, r. split; [exact Hj|]. split; [exact Hr|]. exists b, s0, e0. rewrite Hk. split; [exact Hin|lia].
Qed.


(** ** Nothing fails when everything can be computed *)

Lemma merge_total : features_ok files -> exists fd, merge_features files = Ok fd /\
  forall f times frames, recorded files f times frames ->
    lookup (fst fd) f = Ok times /\ lookup (snd fd) f = Ok frames.
Proof.
  intros (Hok & Hnd). unfold merge_features.
  assert (G : forall l acc, (forall x, In x l -> feature_file_ok x) ->
    NoDup (flat_map (fun fd : feature_data T F => map fst (fst fd)) l) -> NoDup (map fst (fst acc)) ->
    map fst (fst acc) = map fst (snd acc) ->
    (forall k, In k (map fst (fst acc)) -> In k (flat_map (fun fd : feature_data T F => map fst (fst fd)) l) -> False) ->
    exists fd, foldM (fun acc tf =>
           let '(times, features) := acc in
           let '(t, f) := tf in
           if existsb (fun k => mem_str k (map fst t)) (map fst times)
           then Err AssertionError
           else Ok (update times t, update features f)) l acc = Ok fd /\
      NoDup (map fst (fst fd)) /\ map fst (fst fd) = map fst (snd fd) /\
      (forall x, In x (fst acc) -> In x (fst fd)) /\ (forall x, In x (snd acc) -> In x (snd fd)) /\
      forall x, In x l -> (forall y, In y (fst x) -> In y (fst fd)) /\ (forall y, In y (snd x) -> In y (snd fd))).
  { induction l as [|(t, f) l IH]; intros (ts, fs) Hl Hn Hna Hk Hd; cbn [foldM].
    - exists (ts, fs). repeat split; auto; contradiction.
    - cbn [flat_map fst snd] in *. destruct (NoDup_app_parts _ _ _ Hn) as (N1 & N2 & D).
      destruct (existsb _ _) eqn:E.
      { exfalso. apply existsb_exists in E as (k & K1 & K2). apply existsb_exists in K2 as (k' & K2 & K3).
        apply String.eqb_eq in K3. subst k'. apply (Hd k K1). apply in_or_app. now left. }
      cbn [bind]. destruct (Hl (t, f) (or_introl eq_refl)) as (O1 & O2). cbn [fst snd] in *.
      destruct (IH (update ts t, update fs f)) as (fd & Hf & R1 & R2 & R3 & R4 & R5); cbn [fst snd]; auto.
      + intros x Hx. apply Hl. now right.
      + unfold update. rewrite map_app. apply NoDup_app_intro; auto.
        intros k A B. apply (Hd k B). apply in_or_app. now left.
      + unfold update. rewrite !map_app. congruence.
      + intros k A B. unfold update in A. rewrite map_app in A. apply in_app_or in A as [A|A].
        * eauto.
        * apply (Hd k A). apply in_or_app. now right.
      + exists fd. split; [exact Hf|]. split; [exact R1|]. split; [exact R2|].
        cbn [fst snd] in *. unfold update in R3, R4.
        split; [intros; apply R3; apply in_or_app; now right|].
        split; [intros; apply R4; apply in_or_app; now right|].
        intros x [<-|Hx]; [|auto]. cbn [fst snd].
        split; intros y Hy; [apply R3|apply R4]; apply in_or_app; now left. }
  destruct (G files ([], [])) as (fd & Hf & R1 & R2 & _ & _ & R5); auto; try constructor; try contradiction.
  exists fd. split; [exact Hf|]. intros f times frames (x & Hx & Hx1 & Hx2).
  destruct (R5 x Hx) as (A & B). split; apply lookup_NoDup; auto. rewrite <- R2. exact R1.
Qed.

Hypothesis Hcomp : computable tle distance pf files normalize.

Lemma features_total fd it m :
  (forall f times frames, recorded files f times frames ->
    lookup (fst fd) f = Ok times /\ lookup (snd fd) f = Ok frames) ->
  matrix_of tle files it m -> exists m', item_features tle fd it = Ok m'.
Proof.
  intros Hl (times & frames & R & _). destruct (Hl _ _ _ R) as (L1 & L2).
  unfold item_features. rewrite L1. cbn [bind]. rewrite L2. cbn [bind].
  destruct Hcomp as (_ & Hlen). specialize (Hlen _ _ _ R).
  destruct (mapM_exists _ _ (nth_res frames) (fun _ _ => True)
              (np_where (map (fun x => tle (i_onset it) x && tle x (i_offset it))%bool times))) as (m' & Hm & _).
  - intros i Hi. apply np_where_spec in Hi.
    assert (L : (i < length times)%nat).
    { rewrite <- (map_length (fun x => tle (i_onset it) x && tle x (i_offset it))%bool). apply nth_error_Some. congruence. }
    unfold nth_res. destruct (nth_error frames i) eqn:E; [eauto|].
    apply nth_error_None in E. lia.
  - exists m'. exact Hm.
Qed.

Lemma get_features_total (fd : feature_data T F) (items : list (Z * item T)) : forall (d : list (Z * list F)),
  (forall x, In x items -> exists m, item_features tle fd (snd x) = Ok m) ->
  exists d', foldM (fun d x => m <- item_features tle fd (snd x) ;; Ok ((fst x, m) :: d)) items d = Ok d'.
Proof.
  induction items as [|x items IH]; intros d H; cbn [foldM]; [eauto|].
  destruct (H x (or_introl eq_refl)) as (m & ->). cbn [bind]. apply IH. intros; apply H; now right.
Qed.

Lemma compute_total r bd fd : range_ok T F c r -> read_block pf r = Ok bd ->
  merge_features files = Ok fd ->
  (forall f times frames, recorded files f times frames ->
    lookup (fst fd) f = Ok times /\ lookup (snd fd) f = Ok frames) ->
  exists dis, compute_block tle distance fd normalize bd = Ok dis.
Proof.
  intros (base & s & e & Hin & Hr & Hse) Hread Hm Hl.
  pose proof (attrs_bounds T F c Hpf _ _ _ _ Hin) as (Hb & Hs & He).
  fold pf in He. unfold read_block in Hread. apply bind_ok in Hread as (items & Hi & Hread).
  pose proof (attrs_keys T F c Hpf) as AK. fold pf in AK.
  rewrite (lookup_NoDup _ _ _ _ AK Hin) in Hread. cbn [bind] in Hread.
  destruct (r_start r) as [a|a], (r_stop r) as [b|b]; try discriminate.
  injection Hread as <-. cbn [val] in *. apply lookup_In in Hi.
  set (pairs := slice (Z.to_nat (s + a)) (Z.to_nat (s + b)) (pf_data pf)).
  assert (Hrow : forall cd, In cd pairs -> exists v, pair_value T F V tle distance files normalize items base cd v).
  { intros cd Hcd. apply In_nth_error in Hcd as (q & Hq). unfold pairs in Hq.
    rewrite nth_error_slice in Hq. destruct (Nat.ltb_spec q (Z.to_nat (s + b) - Z.to_nat (s + a))) as [Q|Q]; [|discriminate].
    destruct Hcomp as (Hall & _). set (p := (Z.to_nat (s + a) + q)%nat) in *.
    destruct (Hall p) as (v & k & base' & s' & e' & items' & i & j & it & it' & m & m' & A1 & A2 & A3 & A4 & A5 & A6 & A7 & A8 & A9 & A10).
    { apply nth_error_Some. congruence. }
    destruct Hpf as (_ & _ & Hni & _ & Hbd & Hc & _).
    assert (E : (k, (base', s', e')) = (r_by r, (base, s, e))).
    { eapply consecutive_rows; [exact Hc|exact Hbd|exact A1|exact Hin|exact A2|]. unfold p. lia. }
    injection E as -> -> -> ->.
    assert (items' = items) by (eapply NoDup_keys_inj; eauto). subst items'.
    exists v, i, j, it, it', m, m'. repeat split; auto. congruence. }
  assert (Hpos : forall cd i j, cd = code base (Z.of_nat i) (Z.of_nat j) -> Z.of_nat i < base ->
                   cd mod base = Z.of_nat i /\ cd / base = Z.of_nat j).
  { intros cd i j -> Hlt. unfold code. rewrite Z.mul_comm. split.
    - rewrite Z.mod_add by lia. apply Z.mod_small. lia.
    - rewrite Z.div_add by lia. rewrite Z.div_small by lia. lia. }
  unfold compute_block. cbn [bd_items bd_base bd_pairs]. fold pairs.
  set (A := map (fun cd => fst (decode_pair base cd)) pairs).
  set (B := map (fun cd => snd (decode_pair base cd)) pairs).
  assert (Hix : forall x, In x (np_unique (A ++ B)) -> exists i it m,
             x = Z.of_nat i /\ nth_error items i = Some (Z.of_nat i, it) /\ matrix_of tle files it m).
  { intros x Hx. apply (proj1 (np_unique_In _ _)) in Hx. apply in_app_or in Hx as [Hx|Hx];
      apply in_map_iff in Hx as (cd & <- & Hcd);
      destruct (Hrow cd Hcd) as (v & i & j & it & it' & m & m' & E & Hlt & N1 & N2 & M1 & M2 & _);
      destruct (Hpos cd i j E Hlt) as (D1 & D2); cbn [decode_pair fst snd].
    - exists i, it, m. auto.
    - exists j, it', m'. auto. }
  assert (Hloc : forall x, In x (np_unique (A ++ B)) -> exists it m, iloc items x = Ok (x, it) /\ matrix_of tle files it m).
  { intros x Hx. destruct (Hix x Hx) as (i & it & m & -> & N & M). exists it, m. split; [|exact M].
    unfold iloc. destruct (Z.ltb_spec (Z.of_nat i) 0); [lia|]. rewrite Nat2Z.id. apply nth_res_ok. exact N. }
  destruct (mapM_exists _ _ (iloc items) (fun x y => iloc items x = Ok y) (np_unique (A ++ B))) as (sel & Hsel & Fsel).
  { intros x Hx. destruct (Hloc x Hx) as (it & m & E & _). rewrite E. eauto. }
  rewrite Hsel. cbn [bind].
  assert (Hselm : forall y, In y sel -> In (fst y) (np_unique (A ++ B)) /\ iloc items (fst y) = Ok y).
  { intros y Hy. destruct (@mapM_In _ _ _ _ _ _ Hsel Hy) as (x & Hx & E).
    destruct (Hloc x Hx) as (it & m & E' & _). rewrite E' in E. injection E as <-. cbn. auto. }
  destruct (get_features_total fd sel []) as (d & Hd).
  { intros y Hy. destruct (Hselm y Hy) as (Hx & E). destruct (Hloc _ Hx) as (it & m & E' & M).
    rewrite E' in E. injection E as <-. cbn. eapply features_total; eauto. }
  unfold get_features. rewrite Hd. cbn [bind].
  assert (Hdl : forall x, In x (np_unique (A ++ B)) -> exists m it, lookupZ d x = Ok m /\
                  iloc items x = Ok (x, it) /\ matrix_of tle files it m).
  { intros x Hx. destruct (Hloc x Hx) as (it & m0 & E & M0).
    assert (Hsx : In (x, it) sel).
    { clear - Fsel Hx E. induction Fsel as [|x0 y0 l l' H0 Ff IH]; [contradiction|].
      destruct Hx as [->|Hx]; [left; congruence|right; auto]. }
    assert (Hk : In x (map fst d)).
    { eapply get_features_has; [exact Hd|]. left. now apply (in_map fst) in Hsx. }
    assert (exists m, lookupZ d x = Ok m) as (m & Em).
    { clear - Hk. induction d as [|(k', m') d IH]; cbn in *; [contradiction|].
      destruct (Z.eqb_spec k' x); [eauto|]. apply IH. tauto. }
    exists m, it. split; [exact Em|]. split; [exact E|].
    apply lookupZ_In in Em. destruct (get_features_In _ _ _ _ _ _ _ Hd x m Em) as [[]|(it2 & Hi2 & Hf)].
    destruct (Hselm _ Hi2) as (_ & E2). cbn in E2. rewrite E in E2. injection E2 as <-.
    eapply item_features_matrix; eauto. apply merge_features_ok; auto. apply Hfiles. }
  assert (Epairs : combine A B = map (decode_pair base) pairs).
  { unfold A, B. generalize pairs. clear. induction pairs as [|x l IH]; [reflexivity|].
    cbn [map combine]. rewrite IH. reflexivity. }
  unfold pair_distances. rewrite Epairs.
  match goal with |- exists dis, mapM ?g ?l = Ok dis =>
    destruct (mapM_exists _ _ g (fun _ _ => True) l) as (dis & Hdis & _) end; [|eauto].
  intros x Hx. apply in_map_iff in Hx as (cd & <- & Hcd).
  destruct (Hrow cd Hcd) as (v & i & j & it & it' & m & m' & E & Hlt & N1 & N2 & M1 & M2 & Hv).
  destruct (Hpos cd i j E Hlt) as (D1 & D2).
  assert (I1 : In (fst (decode_pair base cd)) (np_unique (A ++ B))).
  { apply (proj2 (np_unique_In _ _)). apply in_or_app. left. now apply (in_map (fun cd => fst (decode_pair base cd))). }
  assert (I2 : In (snd (decode_pair base cd)) (np_unique (A ++ B))).
  { apply (proj2 (np_unique_In _ _)). apply in_or_app. right. now apply (in_map (fun cd => snd (decode_pair base cd))). }
  destruct (Hdl _ I1) as (m1 & it1 & L1 & P1 & Q1). destruct (Hdl _ I2) as (m2 & it2 & L2 & P2 & Q2).
  rewrite L1, L2. cbn [bind]. cbn [decode_pair fst snd] in *. rewrite D1 in *. rewrite D2 in *.
  unfold iloc in P1, P2. destruct (Z.ltb_spec (Z.of_nat i) 0); [lia|]. destruct (Z.ltb_spec (Z.of_nat j) 0); [lia|].
  rewrite Nat2Z.id in *. apply nth_res_ok in P1. apply nth_res_ok in P2.
  rewrite N1 in P1. injection P1 as <-. rewrite N2 in P2. injection P2 as <-.
  assert (m1 = m) by (eapply matrix_unique; eauto). assert (m2 = m') by (eapply matrix_unique; eauto). subst.
  exists v. split; [|exact I]. rewrite normalized_meant. exact Hv.
Qed.

Definition nofail (s : sys T V) : Prop := first_failure (s_workers s) = None /\
  forall e, s_main s <> M_raised e.

Lemma first_failure_set ws : forall i w, first_failure (V := V) ws = None ->
  (forall e, w <> @W_failed T V e) -> first_failure (set_nth ws i w) = None.
Proof.
  induction ws as [|x ws IH]; intros [|i] w H Hw; cbn in *; auto.
  - destruct w; auto; try (destruct x; auto; discriminate). exfalso. now apply (Hw e).
  - destruct x; auto; discriminate.
Qed.

Lemma nofail_step jobs s who s' data fd :
  (forall j r, In j jobs -> In r j -> range_ok T F c r) ->
  (forall j r, In j jobs -> In r j -> exists bd, read_block pf r = Ok bd) ->
  merge_features files = Ok fd ->
  (forall f times frames, recorded files f times frames ->
    lookup (fst fd) f = Ok times /\ lookup (snd fd) f = Ok frames) ->
  sinv T F V tle distance c jobs s data -> nofail s ->
  step tle distance c s who = Some s' -> nofail s'.
Proof.
  intros Hjobs Hread Hm Hl Hs (Hn & Hr) H. unfold step in H.
  destruct (nth_error (s_workers s) who) as [w|] eqn:Ew.
  - destruct (Forall2_nth_error _ _ _ _ _ _ _ (si_work _ _ _ _ _ _ _ _ _ Hs) Ew) as (j & Ej & Hw).
    assert (Ij : In j jobs) by (eapply nth_error_In; eauto).
    assert (K : forall w1, (forall e, w1 <> W_failed e) -> nofail (with_worker s who w1)).
    { intros w1 Hw1. split; [cbn; apply first_failure_set; auto|exact Hr]. }
    assert (R : forall b s1, nofail s1 -> nofail (release b s1)).
    { intros [] s1 H1; exact H1. }
    assert (A : forall b s1, acquire b s who = Some s1 -> s_workers s1 = s_workers s /\ s_main s1 = s_main s).
    { intros b s1. unfold acquire. destruct b; [destruct (s_lock s); [discriminate|]|]; intros [= <-]; auto. }
    destruct w as [todo|[|r todo]|r todo|r todo bd|r todo first dis|r todo first dis|e];
      cbn [worker_step] in H; try discriminate.
    + fold files in H. rewrite Hm in H. injection H as <-. apply K. discriminate.
    + destruct (acquire _ s who) as [s1|] eqn:Ea; [|discriminate]. injection H as <-.
      destruct (A _ _ Ea) as (A1 & A2). split; cbn; rewrite ?A1, ?A2; auto. apply first_failure_set; auto. discriminate.
    + destruct Hw as (l & -> & _). destruct (Hread _ r Ij) as (bd & Eb); [apply in_or_app; right; now left|].
      unfold pf in Eb. rewrite Eb in H. injection H as <-. apply R, K. discriminate.
    + destruct Hw as (l & -> & _ & Hrb). assert (Irr : In r (l ++ r :: todo)) by (apply in_or_app; right; now left).
      fold files normalize in H. rewrite Hm in H. cbn [bind] in H.
      destruct (compute_total r bd fd (Hjobs _ _ Ij Irr) Hrb Hm Hl) as (dis & Ed).
      rewrite Ed in H. injection H as <-. apply K. discriminate.
    + destruct (acquire _ s who) as [s1|] eqn:Ea; [|discriminate]. injection H as <-.
      destruct (A _ _ Ea) as (A1 & A2). split; cbn; rewrite ?A1, ?A2; auto. apply first_failure_set; auto. discriminate.
    + destruct Hw as (l & -> & _ & Hrd). assert (Irr : In r (l ++ r :: todo)) by (apply in_or_app; right; now left).
      destruct (write_ready T F V tle zero distance c Hpf r first dis (s_file s) data (Hjobs _ _ Ij Irr) Hrd
                  (si_data _ _ _ _ _ _ _ _ _ Hs) (si_len _ _ _ _ _ _ _ _ _ Hs)) as (data' & E & _).
      rewrite E in H. injection H as <-. apply R. split; [cbn; apply first_failure_set; auto; discriminate|exact Hr].
  - unfold main_step in H. destruct (s_main s); try discriminate.
    destruct (forallb _ _); [|discriminate]. rewrite Hn in H.
    destruct (1 <? _)%nat in H; injection H as <-; split; cbn; auto; discriminate.
Qed.

Section Started.
Variables (df' : dist_file V) (s0 : sys T V).
Hypothesis Hstart : compute_distances zero argsort fuel c df n_cpu = (df', Ok s0).

Lemma started : exists jobs data,
  distance_jobs argsort fuel n_cpu 100 sizes_of = Ok jobs /\ jobs <> [] /\
  length jobs = n_cpu /\
  s_workers s0 = map (@W_init T V) jobs /\
  (forall j r, In j jobs -> In r j -> range_ok T F c r) /\
  (forall p, (p < length (pf_data pf))%nat -> exists j r, In j jobs /\ In r j /\ rows T F c r p) /\
  sinv T F V tle distance c jobs s0 data /\ linv T V s0 /\ held T V s0.
Proof.
  destruct (start_cases _ _ Hstart) as (_ & _ & jobs & Hj & -> & ->).
  destruct (jobs_facts jobs Hj) as (L & H1 & H2).
  exists jobs, (repeat zero (length (pf_data pf))). split; [exact Hj|].
  split; [intros ->; cbn in L; lia|]. split; [exact L|]. split; [reflexivity|].
  split; [exact H1|]. split; [exact H2|].
  split; [|split].
  - constructor; cbn; auto; try discriminate.
    + apply repeat_length.
    + clear. induction jobs; constructor; auto. reflexivity.
  - unfold linv. cbn [s_workers s_lock]. rewrite map_length. destruct (1 <? length jobs)%nat; [|reflexivity].
    intros i w Hw Hc. apply nth_error_In in Hw. apply in_map_iff in Hw as (j & <- & _). contradiction.
  - intros i Hi. discriminate.
Qed.

Lemma good_complete (data : list V) f : d_data f = Some data -> length data = length (pf_data pf) ->
  (forall p, (p < length (pf_data pf))%nat -> good T F V tle distance c p data) ->
  complete tle distance pf files normalize f.
Proof.
  intros Hd L H. exists data. split; [exact Hd|]. split; [exact L|].
  intros p v Hv. assert (Hp : (p < length (pf_data pf))%nat).
  { rewrite <- L. apply nth_error_Some. congruence. }
  destruct (H p Hp) as (v' & Hv' & G). replace v with v' by congruence. exact G.
Qed.

Theorem returned_complete s : reaches tle distance c s0 s -> s_main s = M_returned ->
  complete tle distance pf files normalize (s_file s).
Proof.
  intros (schedule & ->) Hret.
  destruct started as (jobs & data & Hj & Hne & L & Ew & H1 & H2 & Hs & _).
  destruct (run_sinv T F V tle zero distance c Hpf Hfiles jobs H1 H2 Hne schedule s0 data Hs)
    as (data' & [S1 S2 S3 S4 S5]).
  destruct (S5 Hret) as (G & _). eapply good_complete; eauto.
Qed.

Theorem done_complete s : reaches tle distance c s0 s -> d_done (s_file s) = Some true ->
  complete tle distance pf files normalize (s_file s).
Proof.
  intros (schedule & ->) Hd.
  destruct started as (jobs & data & Hj & Hne & L & Ew & H1 & H2 & Hs & _).
  destruct (run_sinv T F V tle zero distance c Hpf Hfiles jobs H1 H2 Hne schedule s0 data Hs)
    as (data' & [S1 S2 S3 S4 S5]).
  destruct (S4 Hd) as (Hret & _). destruct (S5 Hret) as (G & _). eapply good_complete; eauto.
Qed.

Theorem done_one_cpu s : n_cpu = 1%nat -> reaches tle distance c s0 s -> s_main s = M_returned ->
  d_done (s_file s) = Some true.
Proof.
  intros E (schedule & ->) Hret.
  destruct started as (jobs & data & Hj & Hne & L & Ew & H1 & H2 & Hs & _).
  destruct (run_sinv T F V tle zero distance c Hpf Hfiles jobs H1 H2 Hne schedule s0 data Hs)
    as (data' & [S1 S2 S3 S4 S5]).
  destruct (S5 Hret) as (_ & G). apply G. lia.
Qed.

Theorem never_done s : (1 < n_cpu)%nat -> reaches tle distance c s0 s ->
  d_done (s_file s) <> Some true.
Proof.
  intros E (schedule & ->) Hd.
  destruct started as (jobs & data & Hj & Hne & L & Ew & H1 & H2 & Hs & _).
  destruct (run_sinv T F V tle zero distance c Hpf Hfiles jobs H1 H2 Hne schedule s0 data Hs)
    as (data' & [S1 S2 S3 S4 S5]).
  destruct (S4 Hd). lia.
Qed.

Theorem mutual_exclusion s : reaches tle distance c s0 s -> exclusive s.
Proof.
  intros (schedule & ->).
  destruct started as (jobs & data & Hj & Hne & L & Ew & H1 & H2 & Hs & Hl & _).
  eapply linv_exclusive; eauto using Hfiles.
  apply (run_linv T F V tle distance c schedule s0 Hl).
Qed.

Theorem bounded_moves : exists n, forall l s, moves tle distance c s0 l = Some s -> (length l <= n)%nat.
Proof.
  destruct started as (jobs & data & Hj & Hne & L & Ew & H1 & H2 & Hs & Hl & _).
  exists (measure T V s0). intros l s H.
  pose proof (moves_bounded T F V tle distance c Hfiles jobs H1 H2 l s0 s H). lia.
Qed.

Lemma reads_ok jobs : distance_jobs argsort fuel n_cpu 100 sizes_of = Ok jobs ->
  has_items pf -> blocks_fit pf n_cpu ->
  forall j r, In j jobs -> In r j -> exists bd, read_block pf r = Ok bd.
Proof.
  intros Hj Hit Hfit j r Hjin Hr.
  destruct (jobs_facts jobs Hj) as (_ & H1 & _).
  destruct (H1 j r Hjin Hr) as (base & s & e & Hin & _).
  assert (Hb : 1 <= 100) by lia.
  destruct (jobs_sliceable argsort Hsort fuel n_cpu 100 sizes_of Hcpu Hb (sizes_pos Hpf) jobs) with (j := j) (r := r)
    as (x & y & Ex & Ey); auto.
  { change (100 * 1000000 / 8) with 12500000. rewrite (sizes_total Hpf).
    destruct Hfit as [Hfit|Hfit]; [now left|right].
    intros k n Hn. apply in_map_iff in Hn as ((k', ((b, s'), e')) & E & Hn). cbn in E. injection E as <- <-.
    eapply Hfit; eauto. }
  unfold read_block.
  assert (K : In (r_by r) (pf_bys pf)).
  { destruct Hpf as (_ & _ & _ & E & _). rewrite <- E. now apply (in_map fst) in Hin. }
  apply Hit in K. apply in_map_iff in K as ((k, items) & Ek & K). cbn in Ek. subst k.
  destruct Hpf as (_ & Hn & Hni & E & _).
  rewrite (lookup_NoDup _ _ _ _ Hni K). cbn [bind].
  assert (Hka : NoDup (map fst (pf_attrs pf))) by (rewrite E; exact Hn).
  rewrite (lookup_NoDup _ _ _ _ Hka Hin). cbn [bind]. rewrite Ex, Ey. eauto.
Qed.

Theorem all_can_end s : has_items pf -> blocks_fit pf n_cpu ->
  reaches tle distance c s0 s ->
  exists s', reaches tle distance c s s' /\ ended s'.
Proof.
  intros Hit Hfit (schedule & ->).
  destruct started as (jobs & data & Hj & Hne & L & Ew & H1 & H2 & Hs & Hl & Hh).
  pose proof (reads_ok jobs Hj Hit Hfit) as Hread.
  destruct (run_sinv T F V tle zero distance c Hpf Hfiles jobs H1 H2 Hne schedule s0 data Hs) as (data' & Hs').
  destruct (run_linv T F V tle distance c schedule s0 Hl) as (Hl' & _).
  pose proof (run_held T F V tle zero distance c Hpf Hfiles jobs H1 H2 Hne Hread schedule s0 data Hs Hl Hh) as Hh'.
  destruct (can_end T F V tle zero distance c Hpf Hfiles jobs H1 H2 Hne Hread _ _ _ (Nat.lt_succ_diag_r _) Hs' Hl' Hh')
    as (sch & He).
  eexists. split; [exists sch; reflexivity|exact He].
Qed.

Theorem ends_by_returning s : has_items pf -> blocks_fit pf n_cpu ->
  reaches tle distance c s0 s -> ended s -> s_main s = M_returned.
Proof.
  intros Hit Hfit (schedule & ->) He.
  destruct started as (jobs & data & Hj & Hne & L & Ew & H1 & H2 & Hs & Hl & Hh).
  pose proof (reads_ok jobs Hj Hit Hfit) as Hread.
  destruct (merge_total Hfeat) as (fd & Hm & Hlk).
  assert (N0 : nofail s0).
  { destruct (start_cases _ _ Hstart) as (_ & _ & jobs' & _ & -> & ->). split; [|intros e; cbn; discriminate].
    cbn. clear. induction jobs' as [|j l IH]; [reflexivity|exact IH]. }
  assert (G : forall l s data, sinv T F V tle distance c jobs s data -> nofail s ->
                nofail (run tle distance c s l)).
  { induction l as [|who l IH]; cbn; intros s data0 Hs0 Hn; [exact Hn|].
    unfold next at 2. destruct (step tle distance c s who) as [s'|] eqn:E; [|eapply IH; eauto].
    destruct (step_inv T F V tle zero distance c Hpf Hfiles jobs H1 H2 Hne s who s' data0 Hs0 E) as (data1 & Hs1).
    eapply IH; [exact Hs1|]. exact (nofail_step jobs s who s' data0 fd H1 Hread Hm Hlk Hs0 Hn E). }
  destruct (G schedule s0 data Hs N0) as (_ & Hr). unfold ended in He.
  destruct (s_main (run tle distance c s0 schedule)) as [| |e]; auto; [contradiction|].
  exfalso. now apply (Hr e).
Qed.
End Started.
End Main.

(** When no process can move any more, [compute_distances] has ended. *)
Lemma stuck_ended (T F V : Type) (tle : T -> T -> bool) (zero : V)
      (distance : option bool -> list F -> list F -> res V) (c : setting T F) argsort :
  argsort_spec argsort -> forall (fuel n_cpu : nat) (df : dist_file V), (1 <= n_cpu)%nat ->
  pair_file_ok (c_pairs c) -> features_ok (c_files c) ->
  forall df' (s0 s : sys T V),
  compute_distances zero argsort fuel c df n_cpu = (df', Ok s0) ->
  has_items (c_pairs c) -> blocks_fit (c_pairs c) n_cpu ->
  reaches tle distance c s0 s -> (forall who, step tle distance c s who = None) -> ended s.
Proof.
  intros Hs fuel n_cpu df Hc Hp Hf df' s0 s Hst Hi Hb Hr Hstuck.
  destruct (@all_can_end T F V tle zero distance c argsort Hs fuel n_cpu df Hc Hp Hf df' s0 Hst s Hi Hb Hr)
    as (s' & (l & ->) & E).
  assert (H : run tle distance c s l = s).
  { clear E. induction l as [|w l IH]; [reflexivity|]. unfold run in *. cbn [fold_left].
    assert (N : next tle distance c s w = s) by (unfold next; rewrite Hstuck; reflexivity).
    rewrite N. exact IH. }
  rewrite H in E. exact E.
Qed.
