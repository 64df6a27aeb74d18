(** Proofs about features, blocks and the processes computing the distances. *)
From Coq Require Import String.
From Coq Require Import List ZArith Lia Permutation Sorted.
From Verif Require Import Prelude ListFacts Pairs Pairs_spec Distances Distances_spec Distances_jobs.
Import ListNotations.
Local Open Scope Z_scope.
Local Open Scope list_scope.

(** ** Dictionaries *)

Lemma lookup_In A (d : list (string * A)) k a : lookup d k = Ok a -> In (k, a) d.
Proof.
  induction d as [|(k', a') d IH]; cbn; [discriminate|].
  destruct (String.eqb_spec k' k); [intros [= ->]; subst; now left|right; auto].
Qed.

Lemma lookup_NoDup A (d : list (string * A)) k a :
  NoDup (map fst d) -> In (k, a) d -> lookup d k = Ok a.
Proof.
  induction d as [|(k', a') d IH]; cbn; [contradiction|].
  intros Hn [[= -> ->]|H]; inversion Hn; subst.
  - now rewrite String.eqb_refl.
  - destruct (String.eqb_spec k' k); [|auto]. subst. exfalso.
    apply (in_map fst) in H. contradiction.
Qed.

Lemma NoDup_keys_inj A (d : list (string * A)) k a a' :
  NoDup (map fst d) -> In (k, a) d -> In (k, a') d -> a = a'.
Proof.
  intros Hn H H'. apply lookup_NoDup in H; auto. apply lookup_NoDup in H'; auto. congruence.
Qed.

Lemma lookupZ_In A (d : list (Z * A)) k a : lookupZ d k = Ok a -> In (k, a) d.
Proof.
  induction d as [|(k', a') d IH]; cbn; [discriminate|].
  destruct (Z.eqb_spec k' k); [intros [= ->]; subst; now left|right; auto].
Qed.

Section Proofs.
Variables T F V : Type.
Variable tle : T -> T -> bool.
Variable zero : V.
Variable distance : option bool -> list F -> list F -> res V.

(** ** Features *)

Definition merged_ok (files : list (feature_data T F)) (fd : feature_data T F) : Prop :=
  map fst (fst fd) = map fst (snd fd) /\ NoDup (map fst (fst fd)) /\
  forall f times frames, In (f, times) (fst fd) -> In (f, frames) (snd fd) ->
                         recorded files f times frames.

Lemma merge_step (files : list (feature_data T F)) acc t f :
  merged_ok files acc -> In (t, f) files -> feature_file_ok (t, f) ->
  existsb (fun k => mem_str k (map fst t)) (map fst (fst acc)) = false ->
  merged_ok files (update (fst acc) t, update (snd acc) f).
Proof.
  intros (E & N & R) Hin (Nt & Et) Hex. cbn [fst snd] in *. unfold update.
  assert (D : forall k, In k (map fst t) -> In k (map fst (fst acc)) -> False).
  { intros k Hk Hk'. assert (X : existsb (fun k => mem_str k (map fst t)) (map fst (fst acc)) = true).
    { apply existsb_exists. exists k. split; auto. apply existsb_exists. exists k.
      split; [assumption|apply String.eqb_refl]. }
    congruence. }
  split; [|split]; cbn [fst snd].
  - rewrite !map_app. congruence.
  - rewrite map_app. apply NoDup_app_intro; eauto.
  - intros k times frames H1 H2. apply in_app_or in H1 as [H1|H1]; apply in_app_or in H2 as [H2|H2].
    + exists (t, f). auto.
    + exfalso. apply (D k); [now apply (in_map fst) in H1|].
      rewrite E. now apply (in_map fst) in H2.
    + exfalso. apply (D k); [|now apply (in_map fst) in H1].
      rewrite Et. now apply (in_map fst) in H2.
    + apply R; auto.
Qed.

Lemma merge_features_ok (files : list (feature_data T F)) fd :
  (forall x, In x files -> feature_file_ok x) ->
  merge_features files = Ok fd -> merged_ok files fd.
Proof.
  unfold merge_features. intros Hok.
  assert (G : forall l acc fd, incl l files -> merged_ok files acc ->
    foldM (fun acc tf =>
           let '(times, features) := acc in
           let '(t, f) := tf in
           if existsb (fun k => mem_str k (map fst t)) (map fst times)
           then Err AssertionError
           else Ok (update times t, update features f)) l acc = Ok fd -> merged_ok files fd).
  { induction l as [|(t, f) l IH]; intros (ts, fs) fd' Hi Ha; cbn [foldM].
    - now intros [= <-].
    - destruct (existsb _ _) eqn:E; [discriminate|]. cbn [bind].
      apply IH.
      + intros x Hx. apply Hi. now right.
      + apply (merge_step files (ts, fs)); auto.
        * apply Hi. now left.
        * apply Hok. apply Hi. now left. }
  intros H. eapply G; [apply incl_refl| |exact H].
  repeat split; try constructor. intros ? ? ? [].
Qed.

Lemma where_combine (p : T -> bool) (d : F) times : forall pre frames,
  (forall k, In k (where_from (length pre) (map p times)) -> (k < length (pre ++ frames))%nat) ->
  map (fun k => nth k (pre ++ frames) d) (where_from (length pre) (map p times)) =
  map snd (filter (fun tf => p (fst tf)) (combine times frames)).
Proof.
  induction times as [|t times IH]; intros pre frames H; [reflexivity|].
  cbn [map where_from] in *.
  destruct frames as [|f frames].
  - cbn [combine filter map].
    match goal with |- map _ ?w = [] => destruct w as [|k l] eqn:E; [reflexivity|] end.
    exfalso. specialize (H k (or_introl eq_refl)).
    assert (X : In k (where_from (length pre) (map p (t :: times)))).
    { cbn [map where_from]. rewrite E. now left. }
    assert (G : (length pre <= k)%nat).
    { apply where_from_spec in X. tauto. }
    rewrite app_nil_r in H. lia.
  - cbn [combine filter fst].
    assert (El : S (length pre) = length (pre ++ [f])) by (rewrite app_length; cbn; lia).
    assert (Ep : pre ++ f :: frames = (pre ++ [f]) ++ frames) by (rewrite <- app_assoc; reflexivity).
    destruct (p t).
    + cbn [map]. f_equal.
      * rewrite app_nth2 by lia. now rewrite Nat.sub_diag.
      * rewrite Ep, El. apply IH. intros k Hk. rewrite <- Ep. apply H. right. now rewrite El.
    + rewrite Ep, El. apply IH. intros k Hk. rewrite <- Ep. apply H. now rewrite El.
Qed.

Lemma item_features_matrix (files : list (feature_data T F)) fd it m :
  merged_ok files fd -> item_features tle fd it = Ok m -> matrix_of tle files it m.
Proof.
  intros (_ & _ & R) H. unfold item_features in H.
  apply bind_ok in H as (times & Ht & H). apply bind_ok in H as (frames & Hf & H).
  exists times, frames. split.
  - apply R; now apply lookup_In.
  - pose proof (gather_bounds _ _ H) as B.
    destruct frames as [|d frames'] eqn:E.
    + unfold frames_between. replace (combine times []) with (@nil (T * F)) by (destruct times; reflexivity).
      cbn. destruct (np_where _) as [|k l]; [now injection H as <-|].
      exfalso. specialize (B k (or_introl eq_refl)). cbn in B. lia.
    + rewrite <- E in *.
      rewrite gather_ok with (d := d) in H by exact B. injection H as <-.
      apply (where_combine (fun x => tle (i_onset it) x && tle x (i_offset it))%bool d times [] frames).
      exact B.
Qed.

Lemma get_features_In (fd : feature_data T F) (items : list (Z * item T)) : forall (d d' : list (Z * list F)),
  foldM (fun d x => m <- item_features tle fd (snd x) ;; Ok ((fst x, m) :: d)) items d = Ok d' ->
  forall k m, In (k, m) d' -> In (k, m) d \/ exists it, In (k, it) items /\ item_features tle fd it = Ok m.
Proof.
  induction items as [|(k0, it0) items IH]; intros d d' H k m Hin; cbn [foldM] in H.
  - injection H as <-. auto.
  - apply bind_ok in H as (d1 & H1 & H). apply bind_ok in H1 as (m0 & Hm0 & [= <-]).
    cbn [fst snd] in *. destruct (IH _ _ H k m Hin) as [[[= <- <-]|Hd]|(it & Hi & Hf)]; auto.
    + right. exists it0. split; [now left|assumption].
    + right. exists it. split; [now right|assumption].
Qed.

Lemma get_features_has (fd : feature_data T F) (items : list (Z * item T)) : forall (d d' : list (Z * list F)),
  foldM (fun d x => m <- item_features tle fd (snd x) ;; Ok ((fst x, m) :: d)) items d = Ok d' ->
  forall k, (In k (map fst items) \/ In k (map fst d)) -> In k (map fst d').
Proof.
  induction items as [|(k0, it0) items IH]; intros d d' H k Hin; cbn [foldM] in H.
  - injection H as <-. destruct Hin as [[]|Hin]; auto.
  - apply bind_ok in H as (d1 & H1 & H). apply bind_ok in H1 as (m0 & Hm0 & [= <-]).
    eapply IH; [exact H|]. destruct Hin as [[<-|Hin]|Hin]; cbn; auto.
Qed.

(** The dictionary of features: exactly the items, each with its frames. *)
Theorem features_of_items (files : list (feature_data T F)) fd (items : list (Z * item T)) d :
  (forall x, In x files -> feature_file_ok x) -> merge_features files = Ok fd ->
  get_features tle fd items = Ok d -> NoDup (map fst items) ->
  forall k it, In (k, it) items -> exists m, lookupZ d k = Ok m /\ matrix_of tle files it m.
Proof.
  intros Hok Hm H Hn k it Hin. apply merge_features_ok in Hm; auto.
  unfold get_features in H.
  assert (Hk : In k (map fst d)).
  { eapply get_features_has; [exact H|]. left. now apply (in_map fst) in Hin. }
  assert (exists m, lookupZ d k = Ok m) as (m & Em).
  { clear - Hk. induction d as [|(k', m') d IH]; cbn in *; [contradiction|].
    destruct (Z.eqb_spec k' k); [eauto|]. apply IH. tauto. }
  exists m. split; auto. apply lookupZ_In in Em.
  destruct (get_features_In _ _ _ _ H k m Em) as [[]|(it' & Hi & Hf)].
  assert (it' = it); [|subst; eapply item_features_matrix; eauto].
  clear - Hn Hin Hi. induction items as [|(k', x) items IH]; [contradiction|].
  cbn in Hn. inversion Hn as [|? ? Hni Hn']; subst.
  destruct Hin as [[= -> ->]|Hin], Hi as [[= E]|Hi]; auto.
  - exfalso. apply Hni. now apply (in_map fst) in Hi.
  - subst. exfalso. apply Hni. now apply (in_map fst) in Hin.
Qed.

(** ** Blocks *)

Lemma normalized_meant z : normalized_arg z = meant z.
Proof.
  destruct z as [z|]; [|reflexivity]. cbn.
  destruct (Z.eqb_spec z 1), (Z.eqb_spec z 0); cbn; auto; lia.
Qed.

Definition pair_value (files : list (feature_data T F)) (normalize : option Z)
           (items : list (Z * item T)) (base : Z) (c : Z) (v : V) : Prop :=
  exists i j it it' m m',
    c = code base (Z.of_nat i) (Z.of_nat j) /\ Z.of_nat i < base /\
    nth_error items i = Some (Z.of_nat i, it) /\ nth_error items j = Some (Z.of_nat j, it') /\
    matrix_of tle files it m /\ matrix_of tle files it' m' /\
    distance (meant normalize) m m' = Ok v.

Lemma label_position A (l : list (Z * A)) i lab x :
  map fst l = map Z.of_nat (seq 0 (length l)) -> nth_error l i = Some (lab, x) -> lab = Z.of_nat i.
Proof.
  intros E H. pose proof (map_nth_error fst _ _ H) as G. rewrite E in G.
  assert (L : (i < length l)%nat) by (apply nth_error_Some; congruence).
  rewrite (map_nth_error Z.of_nat i (seq 0 (length l)) (d := i)) in G; [now injection G|].
  rewrite nth_error_nth' with (d := 0%nat) by (now rewrite seq_length). now rewrite seq_nth.
Qed.

Lemma compute_block_values files fd normalize bd dis :
  (forall x, In x files -> feature_file_ok x) -> merge_features files = Ok fd ->
  map fst (bd_items bd) = map Z.of_nat (seq 0 (length (bd_items bd))) -> 0 < bd_base bd ->
  compute_block tle distance fd normalize bd = Ok dis ->
  Forall2 (pair_value files normalize (bd_items bd) (bd_base bd)) (bd_pairs bd) dis.
Proof.
  intros Hok Hm Hlab Hbase H. pose proof (merge_features_ok _ _ Hok Hm) as M.
  unfold compute_block in H.
  apply bind_ok in H as (items & Hi & H). apply bind_ok in H as (d & Hd & H).
  unfold pair_distances in H. apply mapM_forall2 in H.
  assert (E : combine (map (fun c => fst (decode_pair (bd_base bd) c)) (bd_pairs bd))
                      (map (fun c => snd (decode_pair (bd_base bd) c)) (bd_pairs bd))
              = map (decode_pair (bd_base bd)) (bd_pairs bd)).
  { generalize (bd_pairs bd). clear. induction l as [|c l IH]; [reflexivity|].
    cbn [map combine]. rewrite IH. reflexivity. }
  rewrite E in H. apply Forall2_map_l_inv in H.
  revert H. apply Forall2_impl. intros c v Hv. cbn [decode_pair fst snd] in Hv.
  apply bind_ok in Hv as (a & Ha & Hv). apply bind_ok in Hv as (b & Hb & Hv).
  assert (G : forall x m, lookupZ d x = Ok m -> exists i it, x = Z.of_nat i /\
                nth_error (bd_items bd) i = Some (Z.of_nat i, it) /\ matrix_of tle files it m).
  { intros x m Hx. apply lookupZ_In in Hx.
    destruct (get_features_In _ _ _ _ Hd x m Hx) as [[]|(it & Hit & Hf)].
    destruct (@mapM_In _ _ _ _ _ _ Hi Hit) as (ix & _ & Hix). unfold iloc in Hix.
    destruct (Z.ltb_spec ix 0); [discriminate|]. apply nth_res_ok in Hix.
    pose proof (label_position _ _ _ _ _ Hlab Hix) as El. exists (Z.to_nat ix), it.
    split; [exact El|]. split; [|eapply item_features_matrix; eauto]. rewrite Hix. congruence. }
  destruct (G _ _ Ha) as (i & it & Ei & Ni & Mi). destruct (G _ _ Hb) as (j & it' & Ej & Nj & Mj).
  exists i, j, it, it', a, b. repeat split; auto.
  - unfold code. rewrite <- Ei, <- Ej. pose proof (Z.div_mod c (bd_base bd)). lia.
  - rewrite <- Ei. apply Z.mod_pos_bound. exact Hbase.
  - rewrite <- normalized_meant. exact Hv.
Qed.
End Proofs.
