From Coq Require Import String.
From Verif Require Import Prelude Tree Tree_spec.
Set Implicit Arguments.

Section TreeInd.
Variable P : tree -> Prop.
Hypothesis H : forall n c, (forall i s, nth_error c i = Some s -> P s) -> P (Node n c).
Fixpoint tree_ind' (t : tree) : P t :=
  match t with
  | Node n c => @H n c (fun i s E => proj1 (Forall_forall P c)
      ((fix go c : Forall P c := match c with [] => Forall_nil P | t' :: c' => Forall_cons t' (tree_ind' t') (go c') end) c)
      s (@nth_error_In tree c i s E))
  end.
End TreeInd.

Definition kids (order : tree -> list position) : nat -> list tree -> list position :=
  fix children n l := match l with [] => [] | s :: l' => map (cons n) (order s) ++ children (S n) l' end.

Lemma pre_order_eq n c : pre_order (Node n c) = [] :: kids pre_order 0 c.
Proof. reflexivity. Qed.

Lemma post_order_eq n c : post_order (Node n c) = kids post_order 0 c ++ [[]].
Proof. reflexivity. Qed.

Lemma in_kids order : forall c n p, In p (kids order n c) <-> exists i s q, p = (n + i) :: q /\ nth_error c i = Some s /\ In q (order s).
Proof.
  induction c as [|s c IH]; intros n p; cbn [kids].
  - split; [intros []|]. intros (i & s & q & _ & E & _). destruct i; discriminate.
  - rewrite in_app_iff, IH, in_map_iff. split.
    + intros [(q & <- & Hq)|(i & s' & q & -> & E & Hq)].
      * exists 0, s, q. rewrite Nat.add_0_r. auto.
      * exists (S i), s', q. rewrite <- plus_n_Sm. auto.
    + intros ([|i] & s' & q & -> & E & Hq).
      * injection E as ->. left. exists q. rewrite Nat.add_0_r. auto.
      * right. exists i, s', q. rewrite <- plus_n_Sm. auto.
Qed.

Lemma sorted_app {A} (R : A -> A -> Prop) : forall l l', StronglySorted R l -> StronglySorted R l' ->
  (forall a b, In a l -> In b l' -> R a b) -> StronglySorted R (l ++ l').
Proof.
  induction l as [|a l IH]; intros l' Hl Hl' H; [exact Hl'|]. inversion_clear Hl. cbn. constructor.
  - apply IH; auto. intros; apply H; auto. right; auto.
  - apply Forall_app. split; [assumption|]. apply Forall_forall. intros b Hb. apply H; [left; reflexivity|exact Hb].
Qed.

Lemma kids_sorted order (R : position -> position -> Prop) :
  (forall i j p q, i < j -> R (i :: p) (j :: q)) -> (forall i p q, R p q -> R (i :: p) (i :: q)) ->
  forall c n, (forall i s, nth_error c i = Some s -> StronglySorted R (order s)) -> StronglySorted R (kids order n c).
Proof.
  intros Hs Hw. induction c as [|s c IH]; intros n H; cbn [kids]; [constructor|]. apply sorted_app.
  - specialize (H 0 s eq_refl). induction H as [|p l Hl IHl Hp]; cbn; constructor; [exact IHl|].
    rewrite Forall_forall in Hp |- *. intros q Hq. apply in_map_iff in Hq as (q' & <- & Hq). auto.
  - apply IH. intros i s' E. apply (H (S i)). exact E.
  - intros a b Ha Hb. apply in_map_iff in Ha as (p & <- & _). apply in_kids in Hb as (i & s' & q & -> & _). apply Hs. lia.
Qed.

Lemma below_nil t s : below t [] s <-> s = t.
Proof. split; [intros H; inversion H; reflexivity|intros ->; constructor]. Qed.

Lemma below_cons n c i p r : below (Node n c) (i :: p) r <-> exists s, nth_error c i = Some s /\ below s p r.
Proof. split; [intros H; inversion H; subst; eauto|intros (s & E & H); econstructor; eauto]. Qed.

Lemma pre_order_visits t : visits before t (pre_order t).
Proof.
  induction t as [n c IH] using tree_ind'. split.
  - rewrite pre_order_eq. constructor.
    + apply kids_sorted; [constructor; assumption|constructor; assumption|]. intros i s E. exact (proj1 (IH i s E)).
    + apply Forall_forall. intros p Hp. apply in_kids in Hp as (i & s & q & -> & _). constructor.
  - intros p. rewrite pre_order_eq. cbn [In]. rewrite in_kids. split.
    + intros [<-|(i & s & q & -> & E & Hq)]; [eexists; constructor|]. apply (proj2 (IH i s E)) in Hq as (r & Hr).
      exists r. econstructor; eauto.
    + intros (r & Hr). destruct p as [|i q]; [left; reflexivity|]. right. apply below_cons in Hr as (s & E & Hr).
      exists i, s, q. split; [reflexivity|]. split; [exact E|]. apply (proj2 (IH i s E)). eauto.
Qed.

Lemma post_order_visits t : visits before_post t (post_order t).
Proof.
  induction t as [n c IH] using tree_ind'. split.
  - rewrite post_order_eq. apply sorted_app.
    + apply kids_sorted; [constructor; assumption|constructor; assumption|]. intros i s E. exact (proj1 (IH i s E)).
    + repeat constructor.
    + intros p q Hp [<-|[]]. apply in_kids in Hp as (i & s & q & -> & _). constructor.
  - intros p. rewrite post_order_eq. rewrite in_app_iff, in_kids. cbn [In]. split.
    + intros [(i & s & q & -> & E & Hq)|[<-|[]]]; [|eexists; constructor]. apply (proj2 (IH i s E)) in Hq as (r & Hr).
      exists r. econstructor; eauto.
    + intros (r & Hr). destruct p as [|i q]; [right; left; reflexivity|]. left. apply below_cons in Hr as (s & E & Hr).
      exists i, s, q. split; [reflexivity|]. split; [exact E|]. apply (proj2 (IH i s E)). eauto.
Qed.

Lemma node_at_below : forall p t s, node_at t p = Some s <-> below t p s.
Proof.
  induction p as [|i p IH]; intros [n c] s; cbn.
  - rewrite below_nil. split; [intros E; injection E; auto|intros ->; reflexivity].
  - rewrite below_cons. destruct (nth_error c i) as [r|].
    + rewrite IH. split; [eauto|]. intros (r' & E & H). injection E as ->. exact H.
    + split; [discriminate|]. intros (r' & E & _). discriminate.
Qed.

Lemma find_in_first (R : position -> position -> Prop) t funcs : forall itr, StronglySorted R itr ->
  first_such R (fun p => In p itr /\ selected t funcs p) (find_in t itr funcs).
Proof.
  induction itr as [|p itr IH]; intros Hs; cbn [find_in]; [intros q [[] _]|].
  inversion_clear Hs. specialize (IH H).
  assert (Hskip : ~ selected t funcs p -> first_such R (fun p0 => In p0 (p :: itr) /\ selected t funcs p0) (find_in t itr funcs)).
  { intros Hno. destruct (find_in t itr funcs) as [p'|]; cbn in IH |- *.
    - destruct IH as [[Hin Hsel] Hq]. split; [auto|]. intros q [[<-|Hq'] Hsq]; [contradiction|]. auto.
    - intros q [[<-|Hq'] Hsq]; [contradiction|]. apply (IH q). auto. }
  destruct (node_at t p) as [s|] eqn:E.
  - apply node_at_below in E. destruct (forallb (fun f => f s) funcs) eqn:Ef.
    + cbn. rewrite forallb_forall in Ef. split; [split; [auto|exists s; auto]|].
      intros q [[<-|Hq] _]; [auto|]. right. rewrite Forall_forall in H0. auto.
    + apply Hskip. intros (s' & Hs' & Hf). apply node_at_below in E, Hs'. rewrite E in Hs'. injection Hs' as <-.
      assert (forallb (fun f => f s) funcs = true) by (apply forallb_forall; auto). congruence.
  - apply Hskip. intros (s' & Hs' & _). apply node_at_below in Hs'. congruence.
Qed.

Lemma first_such_ext R (P Q : position -> Prop) o : (forall p, P p <-> Q p) -> first_such R P o -> first_such R Q o.
Proof.
  intros H. destruct o as [p|]; cbn.
  - intros [Hp Hq]. split; [apply H; exact Hp|]. intros q Hq'. apply Hq, H, Hq'.
  - intros Hn q Hq. apply (Hn q), H, Hq.
Qed.

Lemma find_child_first t funcs : first_such before (selected t funcs) (find_child t funcs).
Proof.
  destruct (pre_order_visits t) as [Hs Hin]. eapply first_such_ext; [|apply find_in_first; exact Hs].
  intros p. cbv beta. rewrite Hin. split; [tauto|]. intros H. split; [|exact H]. destruct H as (s & H & _). eauto.
Qed.

Lemma after_in (R : position -> position -> Prop) p : (forall q, ~ R q q) -> (forall q r, R q r -> ~ R r q) ->
  forall l, StronglySorted R l -> In p l ->
  StronglySorted R (after p l) /\ forall q, In q (after p l) <-> In q l /\ R p q.
Proof.
  intros Hirr Hasym. induction l as [|a l IH]; intros Hs Hp; [destruct Hp|]. inversion_clear Hs. rewrite Forall_forall in H0.
  cbn [after]. unfold position_eqb. destruct (list_eq_dec Nat.eq_dec a p) as [->|Hne].
  - split; [exact H|]. intros q. split; [intros Hq; split; [right; exact Hq|auto]|].
    intros [[<-|Hq] HR]; [exfalso; eapply Hirr; eauto|exact Hq].
  - destruct Hp as [Hp|Hp]; [contradiction|]. destruct (IH H Hp) as [Hs' Hin]. split; [exact Hs'|].
    intros q. rewrite Hin. cbn [In]. split; [tauto|]. intros [[<-|Hq] HR]; [|tauto]. exfalso. apply (Hasym _ _ HR). auto.
Qed.

Lemma before_irr q : ~ before q q.
Proof. induction q; intros H; inversion H; subst; [lia|auto]. Qed.

Lemma before_asym : forall q r, before q r -> ~ before r q.
Proof. induction q as [|i q IH]; intros r H H'; inversion H; subst; inversion H'; subst; try lia; try (eapply before_irr; eassumption). eapply IH; eauto. Qed.

Lemma sorted_rev {A} (R : A -> A -> Prop) l : StronglySorted R l -> StronglySorted (fun a b => R b a) (rev l).
Proof.
  induction 1 as [|a l Hl IH Ha]; cbn; [constructor|]. apply sorted_app; [exact IH|repeat constructor|].
  intros x y Hx [<-|[]]. rewrite Forall_forall in Ha. apply Ha. apply in_rev. exact Hx.
Qed.

Lemma find_forwards_first t funcs p s : below t p s ->
  first_such before (fun q => selected t funcs q /\ before p q) (find_forwards t p funcs).
Proof.
  intros Hp. destruct (pre_order_visits t) as [Hs Hin]. unfold find_forwards.
  destruct (@after_in before p before_irr before_asym (pre_order t) Hs) as [Hs' Hin']; [apply Hin; eauto|].
  eapply first_such_ext; [|apply find_in_first; exact Hs']. intros q. cbv beta. rewrite Hin', Hin.
  split; [tauto|]. intros [H1 H2]. split; [|exact H1]. split; [|exact H2]. destruct H1 as (r & H & _). eauto.
Qed.

Lemma find_backwards_first t funcs p s : below t p s ->
  first_such (fun q r => before r q) (fun q => selected t funcs q /\ before q p) (find_backwards t p funcs).
Proof.
  intros Hp. destruct (pre_order_visits t) as [Hs Hin]. unfold find_backwards.
  destruct (@after_in (fun q r => before r q) p before_irr) with (l := rev (pre_order t)) as [Hs' Hin'].
  - intros q r H H'. eapply before_asym; eauto.
  - apply sorted_rev. exact Hs.
  - rewrite <- in_rev. apply Hin. eauto.
  - eapply first_such_ext; [|apply find_in_first; exact Hs']. intros q. cbv beta. rewrite Hin', <- in_rev, Hin.
    split; [tauto|]. intros [H1 H2]. split; [|exact H1]. split; [|exact H2]. destruct H1 as (r & H & _). eauto.
Qed.

Lemma selected_all t q : selected t [fun _ => true] q <-> exists s, below t q s.
Proof. split; [intros (s & H & _); eauto|]. intros (s & H). exists s. split; [exact H|]. intros f [<-|[]]. reflexivity. Qed.

Lemma get_next_first t p s : below t p s -> first_such before (fun q => (exists r, below t q r) /\ before p q) (get_next t p).
Proof.
  intros Hp. eapply first_such_ext; [|eapply find_forwards_first; exact Hp]. intros q. cbv beta. rewrite selected_all. reflexivity.
Qed.

Lemma get_previous_first t p s : below t p s ->
  first_such (fun q r => before r q) (fun q => (exists r, below t q r) /\ before q p) (get_previous t p).
Proof.
  intros Hp. eapply first_such_ext; [|eapply find_backwards_first; exact Hp]. intros q. cbv beta. rewrite selected_all. reflexivity.
Qed.

(** Paths. *)
Lemma path_to_root_firstn : forall p, path_to_root p = map (fun n => firstn (length p - n) p) (seq 0 (S (length p))).
Proof.
  induction p as [|i p IH]; [reflexivity|]. cbn [path_to_root length]. rewrite IH.
  rewrite (seq_S (S (length p)) 0), map_app, map_map. cbn [map]. rewrite Nat.sub_diag. cbn [firstn]. f_equal.
  apply map_ext_in. intros n Hn. apply in_seq in Hn. replace (S (length p) - n) with (S (length p - n)) by lia. reflexivity.
Qed.

Lemma get_depth_length p : get_depth p = S (length p).
Proof. unfold get_depth. rewrite path_to_root_firstn, map_length, seq_length. reflexivity. Qed.

Lemma path_from_root_firstn p : path_from_root p = map (fun n => firstn n p) (seq 0 (S (length p))).
Proof.
  unfold path_from_root. induction p as [|i p IH]; [reflexivity|]. cbn [path_to_root length].
  rewrite rev_app_distr, <- map_rev. unfold position in *. rewrite IH. cbn [rev app]. change (seq 0 (S (S (length p)))) with (0 :: seq 1 (S (length p))).
  rewrite <- seq_shift. cbn [map firstn]. rewrite !map_map. reflexivity.
Qed.

(** Counting. *)
Lemma kids_length order : forall c n, length (kids order n c) = list_sum (map (fun s => length (order s)) c).
Proof. induction c as [|s c IH]; intros n; cbn [kids map list_sum fold_right]; [reflexivity|]. rewrite app_length, map_length, IH. reflexivity. Qed.

Lemma count_eq n c : count (Node n c) = S (list_sum (map count c)).
Proof. unfold count. rewrite pre_order_eq. cbn [length]. rewrite kids_length. reflexivity. Qed.

(** Building. *)
Lemma names_node n c : names (Node n c) = n :: flat_map names c.
Proof.
  unfold names at 1. rewrite pre_order_eq. cbn [flat_map node_at name app]. f_equal.
  assert (G : forall c0 k, (forall i, nth_error c (k + i) = nth_error c0 i) ->
    flat_map (fun p => match node_at (Node n c) p with Some s => [name s] | None => [] end) (kids pre_order k c0) = flat_map names c0).
  { induction c0 as [|s c0 IH]; intros k Hk; cbn [kids flat_map]; [reflexivity|].
    rewrite flat_map_app. f_equal.
    - unfold names. rewrite !flat_map_concat_map, map_map. f_equal. apply map_ext. intros p. cbn [node_at children].
      specialize (Hk 0). rewrite Nat.add_0_r in Hk. rewrite Hk. reflexivity.
    - apply IH. intros i. specialize (Hk (S i)). rewrite <- plus_n_Sm in Hk. exact Hk. }
  apply G. reflexivity.
Qed.

Fixpoint spec_size (i : spec_item) : nat :=
  match i with Leaf _ => 1 | Sub l => S (list_sum (map spec_size l)) end.

Definition built := fix go l := match l with
                   | [] => Ok []
                   | Sub _ :: _ => Err ValueError
                   | Leaf t :: l' =>
                       match l' with
                       | (Sub _ as s) :: l'' => c <- sub_children s ;; r <- go l'' ;; Ok (Node (name t) (children t ++ c) :: r)
                       | _ => r <- go l' ;; Ok (t :: r)
                       end
                   end.

Lemma sub_children_sub l : sub_children (Sub l) = built l.
Proof. reflexivity. Qed.

Lemma names_single t : children t = [] -> names t = [name t].
Proof. destruct t as [n c]. cbn. intros ->. reflexivity. Qed.

Lemma sub_children_names : forall m i c, spec_size i <= m -> single_nodes i -> sub_children i = Ok c -> flat_map names c = spelled i.
Proof.
  induction m as [|m IHm]; intros i c Hm; [destruct i; cbn in Hm; lia|].
  destruct i as [t|l]; intros Hs E; [discriminate|].
  rewrite sub_children_sub in E. cbn [spelled]. cbn [spec_size] in Hm. cbn [single_nodes] in Hs.
  remember (length l) as k eqn:Hk. assert (Hk' : length l <= k) by lia. clear Hk.
  revert l c Hk' Hm Hs E. induction k as [|k IHk]; intros l c Hk' Hm Hs E.
  { destruct l; [|cbn in Hk'; lia]. injection E as <-. reflexivity. }
  destruct l as [|[t|l0] l]; [injection E as <-; reflexivity| |discriminate].
  cbn in Hs. destruct Hs as [Ht Hs]. cbn [built] in E. destruct l as [|[t'|l0] l'].
  - cbn in E. injection E as <-. cbn. rewrite names_single; auto.
  - destruct (built (Leaf t' :: l')) as [r|] eqn:Er; cbn [bind] in E; [|cbn in E; discriminate].
    injection E as <-. cbn [flat_map]. rewrite names_single by exact Ht. change (name t :: flat_map names r = name t :: flat_map spelled (Leaf t' :: l')).
    f_equal. apply IHk; auto; [cbn in *; lia|cbn in Hm |- *; lia].
  - destruct (sub_children (Sub l0)) as [c0|] eqn:E0; cbn [bind] in E; [|discriminate].
    destruct (built l') as [r|] eqn:Er; [|discriminate]. cbn [bind] in E. injection E as <-.
    cbn [flat_map]. rewrite Ht. cbn [app]. rewrite names_node.
    change (name t :: flat_map names c0 ++ flat_map names r = name t :: spelled (Sub l0) ++ flat_map spelled l'). f_equal. f_equal.
    + eapply IHm; [|apply Hs|exact E0]. cbn in Hm |- *. lia.
    + apply IHk; auto; [cbn in *; lia| |apply Hs].
      assert (Hl : list_sum (map spec_size (Leaf t :: Sub l0 :: l')) = 1 + (spec_size (Sub l0) + list_sum (map spec_size l'))) by reflexivity. lia.
Qed.

Lemma add_children_names t l t' : children t = [] -> single_nodes (Sub l) -> add_children t l = Ok t' ->
  names t' = name t :: spelled (Sub l).
Proof.
  intros Ht Hs E. unfold add_children in E. destruct (sub_children (Sub l)) as [c|] eqn:E0; [|discriminate]. injection E as <-.
  rewrite names_node, Ht. cbn [app]. f_equal. eapply sub_children_names; eauto.
Qed.
