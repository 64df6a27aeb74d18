(** Walks, searches and attributes in trees of objects; trees given by nested lists. *)
From Coq Require Import String.
From Coq Require Import List Arith Bool Lia Permutation.
From Verif Require Import Prelude TreeHeap TreeHeap_spec TreeHeap_proofs.
Import ListNotations.
Set Implicit Arguments.

Lemma mapM_all A B (f : A -> res B) (g : A -> B) l : (forall a, In a l -> f a = Ok (g a)) -> mapM f l = Ok (map g l).
Proof.
  induction l as [|a l IH]; intros H; [reflexivity|]. cbn. rewrite (H a (or_introl eq_refl)). cbn. rewrite IH by (intros; apply H; right; assumption). reflexivity.
Qed.

Lemma mapM_of A B C (f : B -> res C) (h : A -> B) l : mapM f (map h l) = mapM (fun a => f (h a)) l.
Proof. induction l as [|a l IH]; [reflexivity|]. cbn. rewrite IH. reflexivity. Qed.

Lemma objects_length_below t i c : In t c -> length (objects t) < length (objects (At i c)).
Proof.
  intros H. cbn. apply Nat.lt_succ_r. induction c as [|s c IH]; [destruct H|]. cbn. rewrite app_length. destruct H as [<-|H]; [lia|]. apply IH in H. lia.
Qed.

Section Walks.
Variable V : Type.
Implicit Types m : memory V.

Theorem pre_order_objects m : forall t p fuel, holds m p t -> length (objects t) <= fuel -> pre_order fuel m (top t) = Ok (objects t).
Proof.
  induction t as [i c IH] using shape_ind'. intros p [|fuel] H L; [cbn in L; lia|]. cbn [pre_order top]. inversion H as [p0 i0 c0 Hc Hp Hb]; subst.
  rewrite Hc, mapM_of. rewrite mapM_all with (g := objects).
  - cbn. rewrite flat_map_concat_map. reflexivity.
  - intros t Ht. apply (IH t Ht (Some i)); [apply Hb, Ht|]. apply (objects_length_below t i) in Ht. lia.
Qed.

Theorem post_order_objects m : forall t p fuel, holds m p t -> length (objects t) <= fuel -> post_order fuel m (top t) = Ok (objects_post t).
Proof.
  induction t as [i c IH] using shape_ind'. intros p [|fuel] H L; [cbn in L; lia|]. cbn [post_order top]. inversion H as [p0 i0 c0 Hc Hp Hb]; subst.
  rewrite Hc, mapM_of. rewrite mapM_all with (g := objects_post).
  - cbn. rewrite flat_map_concat_map. reflexivity.
  - intros t Ht. apply (IH t Ht (Some i)); [apply Hb, Ht|]. apply (objects_length_below t i) in Ht. lia.
Qed.

Lemma put_length : forall w t, length (objects (put w t)) = length (objects t) + length (way_objects w).
Proof. intros. rewrite (Permutation_length (objects_put w t)), app_length. reflexivity. Qed.

Lemma way_length : forall w, length w <= length (way_objects w).
Proof. induction w as [|[[p l] r] w IH]; [apply Nat.le_refl|]. unfold way_objects in *. cbn [flat_map List.length]. rewrite app_length. cbn [fst snd List.length]. lia. Qed.

Lemma enough w t : length w < length (objects (put w t)).
Proof. rewrite put_length. pose proof (way_length w). rewrite objects_top. cbn. lia. Qed.

Lemma path_around m : forall w i fuel, n_parent (m i) = above w -> around m i w -> length w < fuel -> path_to_root fuel m i = Ok (i :: up w).
Proof.
  induction w as [|[[p l] r] w IH]; intros i [|fuel] Hp A L; cbn in L; try lia; cbn [path_to_root]; rewrite Hp; cbn [above]; [reflexivity|].
  destruct A as (H1 & H2 & _ & A). rewrite (IH p fuel H2 A) by lia. reflexivity.
Qed.

Theorem path_forest m w t ts fuel : forest m (put w t :: ts) -> length (objects (put w t)) <= fuel -> path_to_root fuel m (top t) = Ok (top t :: up w).
Proof.
  intros F L. apply forest_put in F. destruct F as (H & A & _). apply path_around; [exact (holds_parent H)|exact A|]. pose proof (enough w t). lia.
Qed.

Lemma top_put : forall w t d, last (top t :: up w) d = top (put w t).
Proof.
  induction w as [|[[p l] r] w IH]; intros t d; [reflexivity|]. cbn [put]. rewrite <- (IH (At p (l ++ t :: r)) d). reflexivity.
Qed.

Lemma put_holds m w t ts : forest m (put w t :: ts) -> holds m (above w) t.
Proof. intros F. apply forest_put in F. apply F. Qed.

Theorem walks_forest m w t ts fuel : forest m (put w t :: ts) -> length (objects (put w t)) <= fuel ->
  pre_order fuel m (top t) = Ok (objects t) /\ post_order fuel m (top t) = Ok (objects_post t) /\ count fuel m (top t) = Ok (length (objects t)) /\
  path_to_root fuel m (top t) = Ok (top t :: up w) /\ path_from_root fuel m (top t) = Ok (rev (up w) ++ [top t]) /\
  get_depth fuel m (top t) = Ok (S (length w)) /\ get_root fuel m (top t) = Ok (top (put w t)).
Proof.
  intros F L. pose proof (path_forest _ _ F L) as P. assert (Lt : length (objects t) <= fuel) by (rewrite put_length in L; lia).
  pose proof (put_holds _ _ F) as H. split; [apply (pre_order_objects H Lt)|]. split; [apply (post_order_objects H Lt)|].
  split; [unfold count; rewrite (pre_order_objects H Lt); reflexivity|]. split; [exact P|].
  unfold path_from_root, get_depth, get_root. rewrite P. cbn [bind]. split; [reflexivity|]. split; [unfold up; cbn; rewrite map_length; reflexivity|].
  rewrite top_put. reflexivity.
Qed.

(** Every object of a tree is somewhere in it. *)
Theorem somewhere : forall u i, In i (objects u) -> exists w t, u = put w t /\ top t = i.
Proof.
  induction u as [j c IH] using shape_ind'. intros i [<-|Hi]; [exists [], (At j c); split; reflexivity|].
  apply in_flat_map in Hi. destruct Hi as (s & Hs & Hi). destruct (IH s Hs i Hi) as (w & t & E & Et).
  apply in_split in Hs. destruct Hs as (l & r & ->). exists (w ++ [(j, l, r)]), t. split; [|exact Et].
  assert (G : forall w t, put (w ++ [(j, l, r)]) t = At j (l ++ put w t :: r)).
  { clear. induction w as [|[[p l'] r'] w IH]; intros t; [reflexivity|]. cbn [app put]. apply IH. }
  rewrite G, <- E. reflexivity.
Qed.

(** ** Relatives *)
Theorem siblings_forest m w t ts : forest m (put w t :: ts) ->
  siblings m (top t) = match w with [] => [top t] | (p, l, r) :: _ => map top (l ++ t :: r) end /\
  forall i, is_sibling_of m i (top t) = true <-> match w with [] => i = top t | (p, l, r) :: _ => exists s, In s (l ++ t :: r) /\ top s = i end.
Proof.
  intros F. apply forest_put in F. destruct F as (H & A & _). unfold is_sibling_of, siblings. rewrite (holds_parent H). destruct w as [|[[p l] r] w]; cbn [above].
  - split; [reflexivity|]. intros i. cbn. rewrite orb_false_r, Nat.eqb_eq. tauto.
  - destruct A as (E & _). rewrite E. split; [rewrite map_app; reflexivity|]. intros i. rewrite existsb_exists.
    change (map top l ++ top t :: map top r) with (map top l ++ map top (t :: r)). rewrite <- map_app. split.
    + intros (j & Hj & Ej). apply Nat.eqb_eq in Ej. subst j. apply in_map_iff in Hj. destruct Hj as (s & Es & Hs). eauto.
    + intros (s & Hs & Es). exists i. split; [apply in_map_iff; eauto|apply Nat.eqb_refl].
Qed.

Theorem descendant_forest m w t ts fuel i : forest m (put w t :: ts) -> length (objects (put w t)) <= fuel ->
  exists b, is_descendant_of fuel m i (top t) = Ok b /\ (b = true <-> i = top t \/ In i (up w)).
Proof.
  intros F L. unfold is_descendant_of. rewrite (path_forest _ _ F L). cbn [bind]. eexists. split; [reflexivity|]. rewrite existsb_exists. split.
  - intros (j & [<-|Hj] & E); apply Nat.eqb_eq in E; subst; auto.
  - intros [->|H]; [exists (top t)|exists i]; (split; [cbn; auto|apply Nat.eqb_refl]).
Qed.

(** ** Attributes *)
Lemma attr_some name : forall l (v : V), attr l name = Some v <-> exists a b, l = a ++ (name, v) :: b /\ forall v', ~ In (name, v') a.
Proof.
  induction l as [|[k v0] l IH]; intros v; cbn.
  - split; [discriminate|]. intros ([|x a] & b & E & _); discriminate.
  - destruct (String.eqb_spec k name) as [->|N].
    + split.
      * intros [= ->]. exists [], l. split; [reflexivity|]. intros v' [].
      * intros ([|x a] & b & E & H); [injection E as -> _; reflexivity|]. injection E as E1 _. exfalso. apply (H v0). left. symmetry. exact E1.
    + rewrite IH. split.
      * intros (a & b & -> & H). exists ((k, v0) :: a), b. split; [reflexivity|]. intros v' [E|Hv]; [congruence|apply (H v' Hv)].
      * intros ([|x a] & b & E & H); [injection E as E1 _; contradiction|]. cbn in E. injection E as _ E. exists a, b. split; [exact E|]. intros v' Hv. apply (H v'). right. exact Hv.
Qed.

Lemma valued_attr m name i v : valued m name i v <-> attr (n_attrs (m i)) name = Some v.
Proof. unfold valued. rewrite attr_some. reflexivity. Qed.

Lemma not_valued m name i : attr (n_attrs (m i)) name = None <-> forall v, ~ valued m name i v.
Proof.
  split.
  - intros E v H. apply valued_attr in H. congruence.
  - intros H. destruct (attr _ _) as [v|] eqn:E; [|reflexivity]. exfalso. apply (H v), valued_attr, E.
Qed.

Section Find.
Variable veq : V -> V -> bool.

Lemma find_test m func kwargs i : (matches veq m kwargs i && forallb (fun f => f i) func)%bool = true <-> selected veq m func kwargs i.
Proof.
  unfold matches, selected. rewrite andb_true_iff, !forallb_forall. split.
  - intros [H1 H2]. split; [exact H2|]. intros name v Hv. apply H1 in Hv. cbn in Hv. destruct (attr _ _) as [v'|] eqn:E; [|discriminate].
    exists v'. split; [apply valued_attr, E|exact Hv].
  - intros [H1 H2]. split; [|exact H1]. intros [name v] Hv. apply H2 in Hv. destruct Hv as (v' & Hv & E). apply valued_attr in Hv. cbn. rewrite Hv. exact E.
Qed.

Lemma find_first m func kwargs : forall itr, first_with (selected veq m func kwargs) itr (find_in veq m itr func kwargs).
Proof.
  induction itr as [|i itr IH]; cbn [find_in].
  - intros j [].
  - destruct (_ && _)%bool eqn:E.
    + apply find_test in E. exists [], itr. split; [reflexivity|]. split; [exact E|]. intros j [].
    + assert (Ni : ~ selected veq m func kwargs i) by (intros S; apply find_test in S; congruence). destruct (find_in veq m itr func kwargs) as [k|]; cbn in *.
      * destruct IH as (a & b & -> & Hk & Ha). exists (i :: a), b. split; [reflexivity|]. split; [exact Hk|]. intros j [<-|Hj]; auto.
      * intros j [<-|Hj]; auto.
Qed.

Theorem find_child_forest m w t ts fuel func kwargs : forest m (put w t :: ts) -> length (objects (put w t)) <= fuel ->
  exists o, find_child veq fuel m (top t) func kwargs = Ok o /\ first_with (selected veq m func kwargs) (objects t) o.
Proof.
  intros F L. unfold find_child. destruct (walks_forest _ _ F L) as (E & _). rewrite E. eexists. split; [reflexivity|]. apply find_first.
Qed.

Theorem find_parent_forest m w t ts fuel func kwargs : forest m (put w t :: ts) -> length (objects (put w t)) <= fuel ->
  exists o, find_parent veq fuel m (top t) func kwargs = Ok o /\ first_with (selected veq m func kwargs) (up w) o.
Proof.
  intros F L. unfold find_parent. rewrite (path_forest _ _ F L). eexists. split; [reflexivity|]. apply find_first.
Qed.

Lemma root_objects m w t ts fuel : forest m (put w t :: ts) -> length (objects (put w t)) <= fuel ->
  get_root fuel m (top t) = Ok (top (put w t)) /\ pre_order fuel m (top (put w t)) = Ok (objects (put w t)).
Proof.
  intros F L. destruct (walks_forest _ _ F L) as (_ & _ & _ & _ & _ & _ & E). split; [exact E|]. apply (pre_order_objects (p := None)); [|exact L].
  apply F. left. reflexivity.
Qed.

Lemma after_here i : forall a b, ~ In i a -> after i (a ++ i :: b) = b.
Proof.
  induction a as [|j a IH]; intros b H; cbn; [rewrite Nat.eqb_refl; reflexivity|]. destruct (Nat.eqb_spec j i) as [->|]; [exfalso; apply H; left; reflexivity|].
  apply IH. intros H'. apply H. right. exact H'.
Qed.

Lemma once m u ts i a b : forest m (u :: ts) -> objects u = a ++ i :: b -> ~ In i a /\ ~ In i b.
Proof.
  intros [_ N] E. cbn [flat_map] in N. apply nodup_left in N. rewrite E in N. apply NoDup_remove_2 in N. rewrite in_app_iff in N. tauto.
Qed.
Arguments once {m u ts i a b}.

Theorem find_forwards_forest m w t ts fuel func kwargs a b : forest m (put w t :: ts) -> length (objects (put w t)) <= fuel ->
  objects (put w t) = a ++ top t :: b ->
  exists o, find_forwards veq fuel m (top t) func kwargs = Ok o /\ first_with (selected veq m func kwargs) b o.
Proof.
  intros F L E. unfold find_forwards. destruct (root_objects _ _ F L) as [R P]. rewrite R. cbn [bind]. rewrite P. cbn [bind]. rewrite E.
  rewrite after_here by apply (once F E). eexists. split; [reflexivity|]. apply find_first.
Qed.

Theorem find_backwards_forest m w t ts fuel func kwargs a b : forest m (put w t :: ts) -> length (objects (put w t)) <= fuel ->
  objects (put w t) = a ++ top t :: b ->
  exists o, find_backwards veq fuel m (top t) func kwargs = Ok o /\ first_with (selected veq m func kwargs) (rev a) o.
Proof.
  intros F L E. unfold find_backwards. destruct (root_objects _ _ F L) as [R P]. rewrite R. cbn [bind]. rewrite P. cbn [bind]. rewrite E.
  rewrite rev_app_distr. cbn [rev]. rewrite <- app_assoc. cbn [app]. rewrite index_of_here by (rewrite <- in_rev; apply (once F E)). cbn [bind].
  eexists. split; [reflexivity|]. rewrite skipn_app, skipn_all2 by lia. replace (S (length (rev b)) - length (rev b)) with 1 by lia. cbn [app skipn]. apply find_first.
Qed.

Lemma find_any m l : find_in veq m l [fun _ => true] [] = hd_error l.
Proof. destruct l; reflexivity. Qed.

Theorem neighbours_forest m w t ts fuel a b : forest m (put w t :: ts) -> length (objects (put w t)) <= fuel ->
  objects (put w t) = a ++ top t :: b ->
  get_next veq fuel m (top t) = Ok (hd_error b) /\ get_previous veq fuel m (top t) = Ok (hd_error (rev a)).
Proof.
  intros F L E. unfold get_next, get_previous, find_forwards, find_backwards. destruct (root_objects _ _ F L) as [R P]. rewrite R. cbn [bind]. rewrite P. cbn [bind]. rewrite E.
  rewrite after_here by apply (once F E). rewrite rev_app_distr. cbn [rev]. rewrite <- app_assoc. cbn [app].
  rewrite index_of_here by (rewrite <- in_rev; apply (once F E)). cbn [bind]. rewrite !find_any. split; [reflexivity|].
  rewrite skipn_app, skipn_all2 by lia. replace (S (length (rev b)) - length (rev b)) with 1 by lia. reflexivity.
Qed.
End Find.

Lemma first_attr_nearest m name default : forall l, exists o, nearest m name l o /\ first_attr m l name default = match o with Some v => v | None => default end.
Proof.
  induction l as [|i l (o & Ho & E)]; cbn [first_attr].
  - exists None. split; [intros j v' []|reflexivity].
  - destruct (attr (n_attrs (m i)) name) as [v|] eqn:Ea.
    + exists (Some v). split; [|reflexivity]. exists [], i, l. split; [reflexivity|]. split; [apply valued_attr, Ea|]. intros j v' [].
    + rewrite not_valued in Ea. exists o. split; [|exact E]. destruct o as [v|]; cbn in *.
      * destruct Ho as (a & j & b & -> & Hj & Ha). exists (i :: a), j, b. split; [reflexivity|]. split; [exact Hj|]. intros k v' [<-|Hk]; [apply Ea|apply Ha, Hk].
      * intros k v' [<-|Hk]; [apply Ea|apply Ho, Hk].
Qed.

Theorem find_attr_forest m w t ts fuel name default : forest m (put w t :: ts) -> length (objects (put w t)) <= fuel ->
  exists o, nearest m name (top t :: up w) o /\ find_attr fuel m (top t) name default = Ok (match o with Some v => v | None => default end).
Proof.
  intros F L. unfold find_attr. rewrite (path_forest _ _ F L). cbn [bind]. destruct (first_attr_nearest m name default (top t :: up w)) as (o & Ho & E).
  exists o. split; [exact Ho|]. rewrite E. reflexivity.
Qed.

Theorem attrs_to_root_forest (vtrue : V -> bool) m w t ts fuel name : forest m (put w t :: ts) -> length (objects (put w t)) <= fuel ->
  exists ls, attrs_to_root vtrue fuel m (top t) name = Ok (concat ls) /\
    Forall2 (fun i l => (exists v, valued m name i v /\ vtrue v = true /\ l = [v]) \/ ((forall v, valued m name i v -> vtrue v = false) /\ l = [])) (top t :: up w) ls.
Proof.
  intros F L. unfold attrs_to_root. rewrite (path_forest _ _ F L). cbn [bind]. rewrite flat_map_concat_map. eexists. split; [reflexivity|].
  induction (top t :: up w) as [|i l IH]; [constructor|]. cbn [map]. constructor; [|exact IH]. destruct (attr (n_attrs (m i)) name) as [v|] eqn:E.
  - destruct (vtrue v) eqn:Ev; [left; exists v; split; [apply valued_attr, E|auto]|]. right. split; [|reflexivity]. intros v' Hv. apply valued_attr in Hv. congruence.
  - right. split; [|reflexivity]. intros v' Hv. apply valued_attr in Hv. congruence.
Qed.

Lemma tree_prop_path m name : forall fuel i l, path_to_root fuel m i = Ok l -> exists o, nearest m name l o /\
  tree_prop fuel m i name = match o with Some v => Ok v | None => Err ValueError end.
Proof.
  induction fuel as [|fuel IH]; intros i l E; [discriminate|]. cbn [path_to_root tree_prop] in *. destruct (n_parent (m i)) as [p|] eqn:Ep.
  - destruct (path_to_root fuel m p) as [l0|e] eqn:E0; [|discriminate]. injection E as <-. destruct (IH _ _ E0) as (o & Ho & Eo).
    destruct (attr (n_attrs (m i)) name) as [v|] eqn:Ea.
    + exists (Some v). split; [|reflexivity]. exists [], i, l0. split; [reflexivity|]. split; [apply valued_attr, Ea|]. intros j v' [].
    + rewrite not_valued in Ea. exists o. split; [|exact Eo]. destruct o as [v|]; cbn in *.
      * destruct Ho as (a & j & b & -> & Hj & Ha). exists (i :: a), j, b. split; [reflexivity|]. split; [exact Hj|]. intros k v' [<-|Hk]; [apply Ea|apply Ha, Hk].
      * intros k v' [<-|Hk]; [apply Ea|apply Ho, Hk].
  - injection E as <-. destruct (attr (n_attrs (m i)) name) as [v|] eqn:Ea.
    + exists (Some v). split; [|reflexivity]. exists [], i, []. split; [reflexivity|]. split; [apply valued_attr, Ea|]. intros j v' [].
    + rewrite not_valued in Ea. exists None. split; [|reflexivity]. intros j v' [<-|[]]. apply Ea.
Qed.

Theorem tree_prop_forest m w t ts fuel name : forest m (put w t :: ts) -> length (objects (put w t)) <= fuel ->
  exists o, nearest m name (top t :: up w) o /\ tree_prop fuel m (top t) name = match o with Some v => Ok v | None => Err ValueError end.
Proof. intros F L. apply tree_prop_path, (path_forest _ _ F L). Qed.

Lemma holds_fields m m' : (forall i, n_children (m' i) = n_children (m i) /\ n_parent (m' i) = n_parent (m i)) ->
  forall t p, holds m p t -> holds m' p t.
Proof.
  intros E. induction t as [i c IH] using shape_ind'. intros p H. inversion H as [p0 i0 c0 Hc Hp Hb]; subst.
  constructor; [destruct (E i) as [-> _]; exact Hc|apply E|]. intros t Ht. apply IH; [exact Ht|apply Hb, Ht].
Qed.

Theorem set_prop_forest m ts i name v : forest m ts ->
  forest (set_prop m i name v) ts /\ valued (set_prop m i name v) name i v /\
  (forall j name' v', (j, name') <> (i, name) -> valued (set_prop m i name v) name' j v' <-> valued m name' j v').
Proof.
  intros [H N]. unfold set_prop. split; [|split].
  - split; [|exact N]. intros t Ht. eapply holds_fields; [|apply H, Ht]. intros j. destruct (Nat.eq_dec j i) as [->|Nj]; [rewrite set_same; auto|rewrite set_other by exact Nj; auto].
  - exists [], (n_attrs (m i)). rewrite set_same. split; [reflexivity|]. intros v' [].
  - intros j name' v' Nn. rewrite !valued_attr. destruct (Nat.eq_dec j i) as [->|Nj]; [|rewrite set_other by exact Nj; reflexivity].
    rewrite set_same. cbn [n_attrs attr]. destruct (String.eqb_spec name name') as [->|]; [congruence|reflexivity].
Qed.

(** ** Nested lists *)
Lemma add_children_cons m self x l : add_children m self (Sequence (x :: l)) =
  andthen (add_child m self x) (fun m _ =>
    match l with
    | y :: l'' => if is_sequence y then match x with Tree i => andthen (add_children m i y) (fun m _ => add_children m self (Sequence l'')) | _ => (m, Err AttributeError) end
                  else add_children m self (Sequence l)
    | [] => (m, Ok tt)
    end).
Proof. destruct l; reflexivity. Qed.

Variable has : nat -> list shape.
Definition given (l : list thing) : list shape := map (fun i => At i (has i)) (mentioned (Sequence l)).

Theorem add_children_forest : forall l ts, spells has l ts -> forall m w n c rest,
  forest m (put w (At n c) :: given l ++ rest) ->
  exists m', add_children m n (Sequence l) = (m', Ok tt) /\ forest m' (put w (At n (c ++ ts)) :: rest) /\ only (n :: mentioned (Sequence l)) m m'.
Proof.
  induction 1 as [|i l ts Hl S IH|i l' l cs ts S1 IH1 S2 IH2]; intros m w n c rest F.
  - exists m. rewrite app_nil_r. split; [reflexivity|]. split; [exact F|apply only_refl].
  - rewrite add_children_cons. unfold given in F. cbn [mentioned flat_map map app] in F. fold (mentioned (Sequence l)) in F.
    destruct (add_child_forest _ _ _ F) as (m1 & E1 & F1 & O1). cbn [top] in E1. rewrite E1. cbn [andthen].
    destruct (IH _ _ _ _ _ F1) as (m2 & E2 & F2 & O2). rewrite <- app_assoc in F2. exists m2. split; [|split; [exact F2|]].
    + destruct l as [|y l'']; [cbn in E2; exact E2|]. destruct y; cbn [is_sequence]; [exact E2|destruct Hl|exact E2].
    + eapply only_incl; [|apply (only_trans O1 O2)]. cbn [mentioned flat_map]. intros j Hj. rewrite in_app_iff in Hj. cbn in Hj |- *. rewrite ?in_app_iff. cbn. tauto.
  - rewrite add_children_cons. unfold given in F. cbn [mentioned flat_map app map] in F. rewrite map_app, <- app_assoc in F.
    destruct (add_child_forest _ _ _ F) as (m1 & E1 & F1 & O1). cbn [top] in E1. rewrite E1. cbn [andthen is_sequence].
    destruct (IH1 m1 ((n, c, []) :: w) i (has i) (map (fun i => At i (has i)) (mentioned (Sequence l)) ++ rest) F1) as (m2 & E2 & F2 & O2).
    rewrite E2. cbn [andthen put] in *. destruct (IH2 m2 w n (c ++ [At i (has i ++ cs)]) rest F2) as (m3 & E3 & F3 & O3).
    exists m3. split; [exact E3|]. rewrite <- app_assoc in F3. split; [exact F3|].
    eapply only_incl; [|apply (only_trans O1 (only_trans O2 O3))]. cbn [mentioned flat_map]. intros j Hj. rewrite !in_app_iff in Hj. cbn in Hj |- *. rewrite ?in_app_iff. cbn.
    cbn [mentioned] in *. tauto.
Qed.

Fixpoint size (x : thing) : nat := match x with Sequence l => S (fold_right (fun y n => S (size y) + n) 0 l) | _ => 0 end.

Lemma add_children_sorts : forall k l, size (Sequence l) <= k -> forall m n,
  (exists ts m', spells has l ts /\ add_children m n (Sequence l) = (m', Ok tt)) \/
  ((forall ts, ~ spells has l ts) /\ exists m', add_children m n (Sequence l) = (m', Err ValueError)).
Proof.
  induction k as [|k IH]; intros l Hk m n; [cbn in Hk; lia|].
  destruct l as [|x l]; [left; exists [], m; split; [constructor|reflexivity]|].
  rewrite add_children_cons. destruct x as [i|lx|].
  - cbn [add_child andthen]. destruct l as [|y l].
    + left. eexists [_], _. split; [apply spells_leaf; [exact I|constructor]|reflexivity].
    + destruct y as [j|l'|].
      * cbn [is_sequence]. destruct (IH (Tree j :: l) ltac:(cbn in *; lia) (register (set_children m n (n_children (m n) ++ [i])) i n) n) as [(ts & m' & S & E)|(S & m' & E)].
        -- left. exists (At i (has i) :: ts), m'. split; [apply spells_leaf; [exact I|exact S]|exact E].
        -- right. split; [|eauto]. intros ts S'. inversion S'; subst. eapply S. eassumption.
      * cbn [is_sequence]. destruct (IH l' ltac:(cbn in *; lia) (register (set_children m n (n_children (m n) ++ [i])) i n) i) as [(cs & m' & S & E)|(S & m' & E)].
        -- rewrite E. cbn [andthen]. destruct (IH l ltac:(cbn in *; lia) m' n) as [(ts & m2 & S2 & E2)|(S2 & m2 & E2)].
           ++ left. exists (At i (has i ++ cs) :: ts), m2. split; [apply spells_node; assumption|exact E2].
           ++ right. split; [|eauto]. intros ts S'. inversion S'; subst; [contradiction|]. eapply S2. eassumption.
        -- rewrite E. cbn [andthen]. right. split; [|eauto]. intros ts S'. inversion S'; subst; [contradiction|]. eapply S. eassumption.
      * cbn [is_sequence]. right. split; [intros ts S'; inversion S' as [|? ? ? ? S2|]; subst; inversion S2|]. rewrite add_children_cons. cbn. eauto.
  - right. split; [intros ts S'; inversion S'|]. cbn. eauto.
  - right. split; [intros ts S'; inversion S'|]. cbn. eauto.
Qed.

Theorem add_children_refused l m n : (forall ts, ~ spells has l ts) -> exists m', add_children m n (Sequence l) = (m', Err ValueError).
Proof.
  intros H. destruct (add_children_sorts (le_n (size (Sequence l))) m n) as [(ts & m' & S & _)|(_ & E)]; [|exact E]. exfalso. eapply H, S.
Qed.

Theorem new_tree_forest l ts m self rest : spells has l ts -> forest m (given l ++ rest) -> ~ In self (flat_map objects (given l ++ rest)) ->
  exists m', new_tree m self (Some l) = (m', Ok tt) /\ forest m' (At self ts :: rest) /\ n_attrs (m' self) = [] /\
    (forall i, i <> self -> n_attrs (m' i) = n_attrs (m i)).
Proof.
  intros S F Hs. unfold new_tree. set (m0 := set m self _).
  assert (F0 : forest m0 (put [] (At self []) :: given l ++ rest)).
  { destruct F as [H N]. split; [|cbn; constructor; assumption]. intros t [<-|Ht].
    - constructor; [unfold m0; rewrite set_same; reflexivity|unfold m0; rewrite set_same; reflexivity|intros t []].
    - eapply holds_frame; [apply H, Ht|]. intros i Hi. apply set_other. intros ->. apply Hs, in_flat_map. eauto. }
  destruct (add_children_forest S _ _ _ _ F0) as (m1 & E1 & F1 & O1). cbn [app put] in F1.
  assert (Am : n_attrs (m1 self) = [] /\ forall i, i <> self -> n_attrs (m1 i) = n_attrs (m i)).
  { destruct O1 as [A _]. split; [rewrite A; unfold m0; rewrite set_same; reflexivity|]. intros i Hi. rewrite A. unfold m0. rewrite set_other by exact Hi. reflexivity. }
  destruct l as [|x l].
  - inversion S; subst. cbn in E1. injection E1 as <-. exists m0. split; [reflexivity|]. split; [exact F1|exact Am].
  - rewrite E1. cbn [andthen]. eexists. split; [reflexivity|].
    assert (Es : forall j, n_children (set_parent m1 self None j) = n_children (m1 j) /\ n_parent (set_parent m1 self None j) = n_parent (m1 j)).
    { intros j. split; [apply children_set_parent|]. destruct (Nat.eq_dec j self) as [->|N]; [|apply parent_set_other, N]. rewrite parent_set.
      destruct F1 as [H _]. symmetry. apply (holds_parent (H (At self ts) (or_introl eq_refl))). }
    destruct F1 as [H N]. split; [split; [intros t Ht; eapply holds_fields; [exact Es|apply H, Ht]|exact N]|].
    destruct (only_parent m1 self None) as [A _]. rewrite A. split; [apply Am|]. intros i Hi. rewrite A. apply Am, Hi.
Qed.

Lemma construct_forest : forall l ts, spells has l ts -> forall m before done rest, forest m (done ++ given l ++ rest) ->
  exists m', construct m before l = (m', Ok (map (fun t => Tree (top t)) ts)) /\ forest m' (done ++ ts ++ rest) /\ only (mentioned (Sequence l)) m m'.
Proof.
  induction 1 as [|i l ts Hl S IH|i l' l cs ts S1 IH1 S2 IH2]; intros m before done rest F.
  - exists m. split; [reflexivity|]. split; [exact F|apply only_refl].
  - cbn [construct is_sequence]. unfold given in F. cbn [mentioned flat_map map app] in F.
    assert (F1 : forest m ((done ++ [At i (has i)]) ++ given l ++ rest)) by (rewrite <- app_assoc; exact F).
    destruct (IH m (Some (Tree i)) _ _ F1) as (m1 & E1 & F2 & O). rewrite E1. cbn [andthen]. exists m1. split; [reflexivity|].
    rewrite <- app_assoc in F2. split; [exact F2|]. eapply only_incl; [|exact O]. cbn. intros j Hj. right. exact Hj.
  - cbn [construct is_sequence]. unfold given in F. cbn [mentioned flat_map app map] in F. rewrite map_app, <- app_assoc in F.
    assert (F0 : forest m (put [] (At i (has i)) :: given l' ++ (done ++ given l ++ rest))).
    { eapply forest_perm; [|exact F]. cbn [put]. rewrite <- Permutation_middle. apply perm_skip. unfold given. cbn [mentioned].
      rewrite !app_assoc. do 2 apply Permutation_app_tail. apply Permutation_app_comm. }
    destruct (add_children_forest S1 _ _ _ _ F0) as (m1 & E1 & F1 & O1). rewrite E1. cbn [andthen put] in *.
    assert (F2 : forest m1 ((done ++ [At i (has i ++ cs)]) ++ given l ++ rest)).
    { eapply forest_perm; [|exact F1]. rewrite <- app_assoc. cbn [app]. apply Permutation_middle. }
    destruct (IH2 m1 (Some (Sequence l')) _ _ F2) as (m2 & E2 & F3 & O2). rewrite E2. cbn [andthen]. exists m2. split; [reflexivity|].
    rewrite <- app_assoc in F3. split; [exact F3|].
    eapply only_incl; [|apply (only_trans O1 O2)]. cbn [mentioned flat_map]. intros j Hj. rewrite in_app_iff in Hj. cbn in Hj |- *. rewrite in_app_iff. tauto.
Qed.

Theorem construct_from_list_forest l ts m rest : spells has l ts -> forest m (given l ++ rest) ->
  exists m', construct_from_list m l = (m', Ok (map (fun t => Tree (top t)) ts)) /\ forest m' (ts ++ rest) /\ only (mentioned (Sequence l)) m m'.
Proof. intros S F. exact (construct_forest S None [] rest F). Qed.

Lemma construct_refused : forall k l, length l <= k -> pure (Sequence l) -> (forall ts, ~ spells has l ts) -> forall m before,
  (match l with Sequence _ :: _ => match before with Some (Tree _) => False | Some Other => False | _ => True end | _ => True end) ->
  exists m', construct m before l = (m', Err ValueError).
Proof.
  induction k as [|k IH]; intros l Hk Hp Hn m before Hb.
  { destruct l; [exfalso; eapply Hn; constructor|cbn in Hk; lia]. }
  destruct l as [|x l]; [exfalso; eapply Hn; constructor|]. cbn [construct]. destruct x as [i|lx|].
  - cbn [is_sequence]. destruct l as [|y l]; [exfalso; eapply Hn; apply spells_leaf; [exact I|constructor]|]. destruct y as [j|l'|].
    + destruct (IH (Tree j :: l)) with (m := m) (before := Some (Tree i)) as (m' & E); [cbn in *; lia|cbn in *; tauto| |exact I|].
      * intros ts S. eapply Hn. apply spells_leaf; [exact I|exact S].
      * rewrite E. cbn. eauto.
    + cbn [construct is_sequence]. destruct (add_children_sorts (le_n (size (Sequence l'))) m i) as [(cs & m1 & S1 & E1)|(_ & m1 & E1)].
      * rewrite E1. cbn [andthen]. destruct (IH l) with (m := m1) (before := Some (Sequence l')) as (m' & E); [cbn in *; lia|cbn in *; tauto| | |].
        -- intros ts S. eapply Hn. apply spells_node; eassumption.
        -- destruct l as [|[]]; exact I.
        -- rewrite E. cbn. eauto.
      * rewrite E1. cbn. eauto.
    + cbn in Hp. tauto.
  - cbn [is_sequence]. destruct before as [[]|]; cbn in *; try contradiction; eauto.
  - cbn in Hp. tauto.
Qed.

Theorem construct_from_list_refused l m : pure (Sequence l) -> (forall ts, ~ spells has l ts) -> exists m', construct_from_list m l = (m', Err ValueError).
Proof. intros Hp Hn. apply (construct_refused (le_n (length l)) Hp Hn). destruct l as [|[]]; exact I. Qed.

End Walks.

(** ** Positions, and what is not a tree *)
Theorem index_forest V (m : memory V) w p l s r ts : forest m (put w (At p (l ++ s :: r)) :: ts) -> index m (top s) = Ok (length l).
Proof.
  intros F. destruct (remove_forest _ _ _ _ _ F) as (m' & E & _). unfold remove in E. destruct (index m (top s)) as [idx|e]; [|discriminate].
  destruct (n_parent _) in E; [|discriminate]. injection E as _ E. rewrite E. reflexivity.
Qed.

Theorem not_a_tree V (m : memory V) n x : (forall i, x <> Tree i) -> add_child m n x = (m, Err ValueError).
Proof. intros H. destruct x as [i| |]; [|reflexivity|reflexivity]. exfalso. apply (H i). reflexivity. Qed.
