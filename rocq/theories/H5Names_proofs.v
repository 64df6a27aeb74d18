(** Facts about the names in HDF5 files. *)
From Coq Require Import Ascii String.
From Coq Require Import List Permutation Lia.
From Verif Require Import Prelude H5Names.
Import ListNotations.
Local Open Scope string_scope.
Local Open Scope list_scope.

Lemma path_eqb_eq p q : path_eqb p q = true <-> p = q.
Proof. unfold path_eqb. destruct (list_eq_dec string_dec p q); split; congruence. Qed.
Lemma path_eqb_refl p : path_eqb p p = true.
Proof. apply path_eqb_eq. reflexivity. Qed.
Lemma path_eqb_neq p q : p <> q -> path_eqb p q = false.
Proof. intros N. destruct (path_eqb p q) eqn:E; [apply path_eqb_eq in E; congruence|reflexivity]. Qed.

Lemma snoc_neq {A} (q : list A) n : q ++ [n] <> q.
Proof. intros E. apply (f_equal (@List.length A)) in E. rewrite app_length in E. cbn in E. lia. Qed.

Section Names.
Context {C : Type}.
Implicit Types (f : file C) (p q : path) (o : object C).

Lemma get_app f g p : get (f ++ g) p = match get f p with Some o => Some o | None => get g p end.
Proof. induction f as [|[q o] f IH]; [reflexivity|]. cbn. destruct (path_eqb q p); [reflexivity|exact IH]. Qed.

Lemma get_snoc f q o p : get f q = None -> get (f ++ [(q, o)]) p = if path_eqb q p then Some o else get f p.
Proof.
  intros E. rewrite get_app. cbn. destruct (path_eqb q p) eqn:D.
  - apply path_eqb_eq in D. subst p. rewrite E. reflexivity.
  - destruct (get f p); reflexivity.
Qed.

Lemma get_in f p : get f p <> None <-> In p (map fst f).
Proof.
  induction f as [|[q o] f IH]; cbn; [tauto|]. destruct (path_eqb q p) eqn:D.
  - apply path_eqb_eq in D. split; [left; exact D|discriminate].
  - rewrite IH. split; [tauto|]. intros [->|Hi]; [rewrite path_eqb_refl in D; discriminate|exact Hi].
Qed.

Lemma get_none f p : get f p = None <-> ~ In p (map fst f).
Proof. rewrite <- get_in. destruct (get f p); split; try congruence; intros N; exfalso; apply N; discriminate. Qed.

(** What a change of the object at a path does. *)
Lemma get_map f p (g : object C -> object C) q :
  get (map (fun po => if path_eqb (fst po) p then (fst po, g (snd po)) else po) f) q =
  if path_eqb p q then option_map g (get f q) else get f q.
Proof.
  induction f as [|[k o] f IH]; cbn; [destruct (path_eqb p q); reflexivity|]. destruct (path_eqb k p) eqn:D; cbn [fst snd].
  - apply path_eqb_eq in D. subst k. destruct (path_eqb p q) eqn:D'; [reflexivity|]. rewrite IH. reflexivity.
  - destruct (path_eqb k q) eqn:D'; [|exact IH]. apply path_eqb_eq in D'. subst k.
    destruct (path_eqb p q) eqn:D2; [|reflexivity]. apply path_eqb_eq in D2. subst. rewrite path_eqb_refl in D. discriminate.
Qed.

Lemma get_set_attr f p n b q : get (set_attr f p n b) q =
  if path_eqb p q then option_map (fun o => match o with Group a => Group ((n, b) :: a) | Dataset c => Dataset c end) (get f q)
  else get f q.
Proof. apply (get_map f p (fun o => match o with Group a => Group ((n, b) :: a) | Dataset c => Dataset c end)). Qed.

Lemma get_set_data f p c q : get (set_data f p c) q =
  if path_eqb p q then option_map (fun o => match o with Group a => Group a | Dataset _ => Dataset c end) (get f q)
  else get f q.
Proof. apply (get_map f p (fun o => match o with Group a => Group a | Dataset _ => Dataset c end)). Qed.

Lemma keys_map f p (g : object C -> object C) :
  map fst (map (fun po => if path_eqb (fst po) p then (fst po, g (snd po)) else po) f) = map fst f.
Proof. rewrite map_map. apply map_ext. intros [k o]. cbn. destruct (path_eqb k p); reflexivity. Qed.
Lemma keys_set_attr f p n b : map fst (set_attr f p n b) = map fst f.
Proof. apply (keys_map f p (fun o => match o with Group a => Group ((n, b) :: a) | Dataset c => Dataset c end)). Qed.
Lemma keys_set_data f p c : map fst (set_data f p c) = map fst f.
Proof. apply (keys_map f p (fun o => match o with Group a => Group a | Dataset _ => Dataset c end)). Qed.

(** Files whose objects are in groups. *)
Definition is_group f p : Prop := exists a, get f p = Some (Group a).
Record file_ok f : Prop := mk_file_ok {
  ok_once : NoDup (map fst f);
  ok_root : is_group f [];
  ok_parent : forall p n, get f (p ++ [n]) <> None -> is_group f p
}.

Lemma ok_above f p r : file_ok f -> get f (p ++ r) <> None -> r <> [] -> is_group f p.
Proof.
  intros K. revert p. induction r as [|n r IH]; intros p G N; [congruence|]. clear N. destruct r as [|n' r].
  - apply (ok_parent f K p n G).
  - assert (A : is_group f (p ++ [n])) by (apply IH; [rewrite <- app_assoc; exact G|discriminate]).
    destruct A as [a A]. apply (ok_parent f K p n). congruence.
Qed.

Lemma new_file_ok : file_ok (new_file C).
Proof.
  constructor; [repeat constructor; intros []|exists []; reflexivity|].
  intros [|m p] n G; exfalso; apply G; reflexivity.
Qed.

Lemma snoc_ok f p n o : file_ok f -> is_group f p -> get f (p ++ [n]) = None -> file_ok (f ++ [(p ++ [n], o)]).
Proof.
  intros K A E. constructor.
  - rewrite map_app. cbn [map fst]. pose proof (proj1 (get_none f (p ++ [n])) E) as N.
    apply (Permutation_NoDup (l := (p ++ [n]) :: map fst f)); [apply Permutation_cons_append|]. constructor; [exact N|apply (ok_once f K)].
  - destruct (ok_root f K) as [a R]. exists a. rewrite get_app, R. reflexivity.
  - intros p' n' G. destruct (list_eq_dec string_dec (p ++ [n]) (p' ++ [n'])) as [D|D].
    + apply app_inj_tail in D. destruct D as [<- <-]. destruct A as [a A]. exists a. rewrite get_app, A. reflexivity.
    + rewrite (get_snoc f _ o _ E), (path_eqb_neq _ _ D) in G. destruct (ok_parent f K p' n' G) as [a R]. exists a. rewrite get_app, R. reflexivity.
Qed.

Lemma set_attr_ok f p n b : file_ok f -> file_ok (set_attr f p n b).
Proof.
  intros K. assert (G : forall q, is_group f q -> is_group (set_attr f p n b) q).
  { intros q [a A]. unfold is_group. rewrite get_set_attr, A. destruct (path_eqb p q); cbn; eauto. }
  constructor; [rewrite keys_set_attr; apply (ok_once f K)|apply G; apply (ok_root f K)|].
  intros q m Hm. apply G. apply (ok_parent f K q m). apply get_in. apply get_in in Hm. rewrite keys_set_attr in Hm. exact Hm.
Qed.

Lemma set_data_ok f p c : file_ok f -> file_ok (set_data f p c).
Proof.
  intros K. assert (G : forall q, is_group f q -> is_group (set_data f p c) q).
  { intros q [a A]. unfold is_group. rewrite get_set_data, A. destruct (path_eqb p q); cbn; eauto. }
  constructor; [rewrite keys_set_data; apply (ok_once f K)|apply G; apply (ok_root f K)|].
  intros q m Hm. apply G. apply (ok_parent f K q m). apply get_in. apply get_in in Hm. rewrite keys_set_data in Hm. exact Hm.
Qed.

Lemma make_parents_there e f r : forall p, file_ok f -> is_group f (p ++ r) -> make_parents e f p r = Ok f.
Proof.
  induction r as [|n r IH]; intros p K A; [reflexivity|]. cbn [make_parents].
  replace (p ++ n :: r) with ((p ++ [n]) ++ r) in A by (rewrite <- app_assoc; reflexivity).
  assert (B : is_group f (p ++ [n])).
  { destruct r as [|n' r]; [rewrite app_nil_r in A; exact A|]. apply (ok_above f (p ++ [n]) (n' :: r) K); [|discriminate].
    destruct A as [a A]. congruence. }
  destruct B as [b B]. rewrite B. apply IH; assumption.
Qed.

Lemma make_child e f q n o : file_ok f -> is_group f q -> get f (q ++ [n]) = None ->
  make e f (q ++ [n]) o = Ok (f ++ [(q ++ [n], o)]).
Proof.
  intros K A E. unfold make. rewrite E, removelast_last, (make_parents_there e f q [] K A). reflexivity.
Qed.

Lemma make_there e f p o : get f p <> None -> make e f p o = Err e.
Proof. unfold make. destruct (get f p); congruence. Qed.

(** The members of a group. *)
Lemma member_in p q n : In n (member p q) <-> q = p ++ [n].
Proof.
  revert q. induction p as [|a p IH]; intros q; cbn.
  - destruct q as [|b [|c q]]; cbn; [split; [intros []|discriminate]| |split; [intros []|discriminate]].
    split; [intros [->|[]]; reflexivity|intros E; injection E as ->; now left].
  - destruct q as [|b q]; [split; [intros []|discriminate]|]. destruct (String.eqb_spec a b) as [->|N].
    + rewrite IH. split; [intros ->; reflexivity|intros E; injection E as ->; reflexivity].
    + split; [intros []|intros E; injection E as -> _; congruence].
Qed.

Lemma insert_perm s l : Permutation (s :: l) (insert s l).
Proof.
  induction l as [|t l IH]; [apply Permutation_refl|]. cbn. destruct (String.leb s t); [apply Permutation_refl|].
  rewrite perm_swap. apply perm_skip. exact IH.
Qed.
Lemma sort_perm l : Permutation l (sort l).
Proof. induction l as [|s l IH]; [apply Permutation_refl|]. cbn. rewrite <- insert_perm. apply perm_skip. exact IH. Qed.

Lemma listing_in f p n : In n (listing f p) <-> get f (p ++ [n]) <> None.
Proof.
  unfold listing. rewrite get_in. assert (P := sort_perm (flat_map (fun po : path * object C => member p (fst po)) f)).
  assert (In n (sort (flat_map (fun po : path * object C => member p (fst po)) f)) <-> In n (flat_map (fun po : path * object C => member p (fst po)) f)) as ->.
  { split; apply Permutation_in; [symmetry; exact P|exact P]. }
  rewrite in_flat_map, in_map_iff. split; intros ([k o] & A & B).
  - cbn [fst] in B. apply member_in in B. subst k. exists (p ++ [n], o). split; [reflexivity|exact A].
  - cbn [fst] in A. subst k. exists (p ++ [n], o). split; [exact B|]. cbn [fst]. apply member_in. reflexivity.
Qed.

Lemma listing_once f p : NoDup (map fst f) -> NoDup (listing f p).
Proof.
  intros N. unfold listing. apply (Permutation_NoDup (sort_perm _)). induction f as [|[k o] f IH]; [constructor|].
  cbn [map fst] in N. apply NoDup_cons_iff in N. destruct N as [N1 N2]. cbn [flat_map fst].
  assert (M : member p k = [] \/ exists n, member p k = [n] /\ k = p ++ [n]).
  { destruct (member p k) as [|n l] eqn:E; [left; reflexivity|right]. exists n.
    assert (K : k = p ++ [n]) by (apply member_in; rewrite E; now left). split; [|exact K]. subst k.
    clear -E. revert n l E. induction p as [|a p IH]; intros n l E; cbn in E; [congruence|].
    rewrite String.eqb_refl in E. exact (IH n l E). }
  destruct M as [-> | (n & -> & ->)]; [apply IH; exact N2|]. cbn [app]. constructor; [|apply IH; exact N2].
  intros Hi. apply in_flat_map in Hi. destruct Hi as ([k o'] & H1 & H2). cbn [fst] in H2. apply member_in in H2. subst k.
  apply N1. apply in_map_iff. exists (p ++ [n], o'). auto.
Qed.

End Names.

(** Texts without slashes. *)
Definition no_slash (s : string) : Prop := ~ In "/"%char (list_ascii_of_string s).

Lemma pieces_simple s : no_slash s -> pieces s = [s].
Proof.
  induction s as [|c s IH]; intros N; [reflexivity|]. cbn. destruct (Ascii.eqb_spec c "/") as [->|D]; [exfalso; apply N; now left|].
  rewrite IH; [reflexivity|]. intros Hi. apply N. right. exact Hi.
Qed.

Lemma pieces_ne s : pieces s <> [].
Proof. destruct s as [|c s]; [discriminate|]. cbn. destruct (Ascii.eqb c "/"); [discriminate|]. destruct (pieces s); discriminate. Qed.

Lemma pieces_slash s t : pieces (s ++ String "/" t) = pieces s ++ pieces t.
Proof.
  induction s as [|c s IH]; [reflexivity|]. cbn. rewrite IH. destruct (Ascii.eqb c "/"); [reflexivity|].
  pose proof (pieces_ne s). destruct (pieces s); [congruence|reflexivity].
Qed.

Lemma components_slash s t : components (s ++ String "/" t) = components s ++ components t.
Proof. unfold components. rewrite pieces_slash, filter_app. reflexivity. Qed.

Lemma components_simple s : no_slash s -> s <> "" -> components s = [s].
Proof. intros N E. unfold components. rewrite (pieces_simple s N). cbn. destruct (String.eqb_spec s ""); [congruence|reflexivity]. Qed.

Lemma resolve_simple here s : no_slash s -> s <> "" -> resolve here s = here ++ [s].
Proof.
  intros N E. destruct s as [|c s]; [congruence|]. unfold resolve. rewrite <- (components_simple _ N E).
  destruct c as [[] [] [] [] [] [] [] []]; try reflexivity. exfalso. apply N. now left.
Qed.
