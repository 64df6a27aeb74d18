(** Proofs about what H5IO refuses to write. *)
From Coq Require Import String.
From Coq Require Import List ZArith Lia.
From Verif Require Import Prelude ListFacts TypeFitting Distances Distances_proofs H5io H5io_spec H5io_proofs H5io_use LookupTable_keys.
Import ListNotations.
Local Open Scope Z_scope.
Local Open Scope list_scope.

Section Reject.
Variable V : Type.
Variable veq : forall x y : V, {x = y} + {x <> y}.
Variable H : h5io V.

Lemma write_all_app bs : forall o o' bs', write_all veq H o bs = Ok o' ->
  write_all veq H o (bs ++ bs') = write_all veq H o' bs'.
Proof.
  induction bs as [|[data ix] bs IH]; intros o o' bs' E; cbn [app write_all] in *; [congruence|].
  destruct (match o with None => initialize H data | Some o => Ok o end) as [o1|]; cbn [bind] in *; [|discriminate].
  destruct (write_data veq H o1 data ix) as [o2|]; cbn [bind] in *; [|discriminate]. apply IH. exact E.
Qed.

Lemma parse_rejects d : (exists s, ~ (In s (map fst d) <-> In s (h_managed H))) -> parse_input H (InDict d) = Err ValueError.
Proof.
  intros (s & Hs). unfold parse_input.
  destruct (subset (map fst d) (h_managed H) && subset (h_managed H) (map fst d)) eqn:E; [|reflexivity].
  apply andb_prop in E. destruct E as [E1 E2]. apply subset_incl in E1, E2. exfalso. apply Hs. split; [apply E1|apply E2].
Qed.

Lemma parse_short l : NoDup (h_managed H) -> (length l < length (h_managed H))%nat -> parse_input H (InList l) = Err ValueError.
Proof.
  intros Hn Hl. unfold parse_input. rewrite map_rev.
  destruct (subset (rev _) (h_managed H) && subset (h_managed H) (rev (map fst (combine (h_managed H) l)))) eqn:E; [|reflexivity].
  apply andb_prop in E. destruct E as [_ E]. apply subset_incl in E. apply (NoDup_incl_length Hn) in E.
  rewrite rev_length, map_length, combine_length in E. lia.
Qed.

Lemma write_unparsed bs o data ix bs' : write_all veq H None bs = Ok o -> parse_input H data = Err ValueError ->
  write_all veq H None (bs ++ (data, ix) :: bs') = Err ValueError.
Proof.
  intros E P. rewrite (write_all_app _ _ _ _ E). cbn [write_all]. destruct o as [o|]; cbn [bind].
  - unfold write_data. rewrite P. reflexivity.
  - unfold initialize. rewrite P. reflexivity.
Qed.

Lemma write_names bs o d ix bs' : write_all veq H None bs = Ok o -> (exists s, ~ (In s (map fst d) <-> In s (h_managed H))) ->
  write_all veq H None (bs ++ (InDict d, ix) :: bs') = Err ValueError.
Proof. intros E N. apply (write_unparsed _ _ _ _ _ E). apply parse_rejects. exact N. Qed.

Lemma write_short bs o l ix bs' : write_all veq H None bs = Ok o -> NoDup (h_managed H) -> (length l < length (h_managed H))%nat ->
  write_all veq H None (bs ++ (InList l, ix) :: bs') = Err ValueError.
Proof. intros E N L. apply (write_unparsed _ _ _ _ _ E). apply parse_short; assumption. Qed.

Hypothesis Hd : declared_ok H.

Definition blank (kv : string * values V) : string * values V :=
  (fst kv, match lookup (h_indexed H) (fst kv) with Ok _ => Labels [] | Err _ => Ints V [] end).

Lemma blank_names d : map fst (map blank d) = map fst d.
Proof. rewrite map_map. reflexivity. Qed.

Lemma blank_batch d : NoDup (map fst d) -> (forall s, In s (h_managed H) <-> In s (map fst d)) -> labels_batch H (map blank d) 0.
Proof.
  intros Hn Ha. constructor.
  - rewrite blank_names. exact Hn.
  - intros s. rewrite blank_names. apply Ha.
  - intros s v l Hin Hl. apply in_map_iff in Hin. destruct Hin as ([s' v'] & E & _). unfold blank in E. cbn [fst] in E. injection E as <- <-.
    destruct (index_for_lookup _ _ Hd _ _ Hl) as (ix & E & _). rewrite E. exists []. split; [reflexivity|]. split; [reflexivity|intros ? []].
  - intros s v Hin Hl. apply in_map_iff in Hin. destruct Hin as ([s' v'] & E & _). unfold blank in E. cbn [fst] in E. injection E as <- <-.
    rewrite lookup_absent by exact Hl. exists []. split; reflexivity.
Qed.

Lemma blank_width d s : (forall v, In (s, v) d -> width v = 1%nat) ->
  (v <- lookup d s ;; Ok (width v)) = (v <- lookup (map blank d) s ;; Ok (width v)).
Proof.
  induction d as [|[k v] d IH]; intros Hw; [reflexivity|]. cbn [map blank fst lookup]. destruct (String.eqb_spec k s) as [->|N].
  - cbn [bind]. rewrite (Hw v) by (now left). destruct (lookup (h_indexed H) s); reflexivity.
  - apply IH. intros v' Hv'. apply Hw. now right.
Qed.

Lemma mapM_cong {A B} (f g : A -> res B) l : (forall x, f x = g x) -> mapM f l = mapM g l.
Proof. intros E. induction l as [|a l IH]; [reflexivity|]. cbn [mapM]. rewrite E, IH. reflexivity. Qed.

Lemma initialize_widths d : NoDup (map fst d) -> (forall s, In s (h_managed H) <-> In s (map fst d)) ->
  (forall s v, In (s, v) d -> width v = 1%nat) -> exists o, initialize H (InDict d) = Ok o.
Proof.
  intros Hn Ha Hw. pose proof (blank_batch d Hn Ha) as B.
  destruct (initialize_state V veq H Hd _ _ _ (labels_batch_ok V veq H Hd _ _ B)) as (o & E & _). cbn [fst] in E. exists o. rewrite <- E.
  unfold initialize, parse_input. rewrite blank_names.
  destruct (subset (map fst d) (h_managed H) && subset (h_managed H) (map fst d)); [|reflexivity]. cbn [bind].
  match goal with |- bind ?x _ = bind ?x _ => destruct x; [|reflexivity] end. cbn [bind].
  rewrite (mapM_cong _ (init_fused H (fun s => v <- lookup (map blank d) s ;; Ok (width v)))); [reflexivity|].
  intros nf. unfold init_fused. rewrite (mapM_cong _ (fun s => v <- lookup (map blank d) s ;; Ok (width v))); [reflexivity|].
  intros s. apply blank_width. intros v. apply Hw.
Qed.

Lemma index_of_unknown e l : forall i0, ~ In e l -> index_of veq e l i0 = Err ValueError.
Proof.
  induction l as [|x l IH]; intros i0 Hn; cbn [index_of]; [reflexivity|]. destruct (veq e x) as [->|N]; [exfalso; apply Hn; now left|].
  apply IH. intros Hin. apply Hn. now right.
Qed.

Lemma write_unknown bs o d bs' : write_all veq H None bs = Ok o ->
  NoDup (map fst d) -> (forall s, In s (h_managed H) <-> In s (map fst d)) ->
  (forall s v, In (s, v) d -> exists labels zs, v = Ints V zs \/ In s (map fst (h_indexed H)) /\ v = Labels labels) ->
  (exists s v l, In (s, v) d /\ index_for H s l /\
     ((exists z zs, v = Ints V (z :: zs)) \/ exists labels e, v = Labels labels /\ In e labels /\ ~ In e l)) ->
  write_all veq H None (bs ++ (InDict d, false) :: bs') = Err ValueError.
Proof.
  intros E Hn Ha Hv (s0 & v0 & l0 & Hin0 & Hl0 & Bad). rewrite (write_all_app _ _ _ _ E). cbn [write_all].
  assert (Ei : exists o1, (match o with None => initialize H (InDict d) | Some o => Ok o end) = Ok o1).
  { destruct o as [o|]; [eauto|]. apply initialize_widths; [exact Hn|exact Ha|].
    intros s v Hin. destruct (Hv s v Hin) as (labels & zs & [-> | [_ ->]]); reflexivity. }
  destruct Ei as (o1 & Ei). rewrite Ei. cbn [bind]. unfold write_data.
  assert (S1 : subset (map fst d) (h_managed H) = true) by (apply subset_incl; intros s Hs; apply Ha; exact Hs).
  assert (S2 : subset (h_managed H) (map fst d) = true) by (apply subset_incl; intros s Hs; apply Ha; exact Hs).
  unfold parse_input. rewrite S1, S2. cbn [andb bind].
  rewrite (mapM_fails _ _ _ ValueError); [reflexivity| |].
  - intros [s v] Hin. cbn [fst snd]. unfold compute_indexes. destruct (in_dec String.string_dec s (map fst (h_indexed H))) as [Hi|Hi].
    + destruct (indexed_index V H Hd s Hi) as (l & Hl). destruct (index_for_lookup _ _ Hd _ _ Hl) as (ix & A1 & A2). rewrite A1, A2. cbn [bind].
      destruct (Hv s v Hin) as (labels & zs & [-> | [_ ->]]).
      * destruct zs; [left; eexists; reflexivity|right; reflexivity].
      * assert (G : (exists is, mapM (fun e => index_of veq e l 0) labels = Ok is) \/ mapM (fun e => index_of veq e l 0) labels = Err ValueError).
        { clear. induction labels as [|e labels IH]; [left; eexists; reflexivity|]. cbn [mapM].
          destruct (in_dec veq e l) as [Hin|Hn]; [|rewrite index_of_unknown by exact Hn; right; reflexivity].
          destruct (index_of_ok V veq e l 0 Hin) as (i & ->). cbn [bind]. destruct IH as [(is & ->) | ->]; [left; eexists; reflexivity|right; reflexivity]. }
        destruct G as [(is & ->) | ->]; [left; eexists; reflexivity|right; reflexivity].
    + rewrite lookup_absent by exact Hi. cbn [bind]. destruct (Hv s v Hin) as (labels & zs & [-> | [C _]]); [|contradiction].
      left. eexists. reflexivity.
  - exists (s0, v0). split; [exact Hin0|]. cbn [fst snd]. unfold compute_indexes.
    destruct (index_for_lookup _ _ Hd _ _ Hl0) as (ix & A1 & A2). rewrite A1, A2. cbn [bind].
    destruct Bad as [(z & zs & ->)|(labels & e & -> & He & Hne)]; [reflexivity|].
    assert (G : mapM (fun e => index_of veq e l0 0) labels = Err ValueError).
    { apply mapM_fails; [|exists e; split; [exact He|apply index_of_unknown; exact Hne]].
      intros a _. destruct (in_dec veq a l0) as [Hin|Hn']; [left; apply index_of_ok; exact Hin|right; apply index_of_unknown; exact Hn']. }
    rewrite G. reflexivity.
Qed.

End Reject.
