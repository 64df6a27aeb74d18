(** The lists that the statistics count can always be written down. *)
From Coq Require Import String.
From Verif Require Import Prelude ListFacts Task Task_spec Task_blocks Task_stats_spec Task_stats Task_ex.
Set Implicit Arguments.
Open Scope Z_scope.

Section Lists.
Variable T : task.
Variable db : list row.
Variable k : key.

Definition kept_list : list (Z * row) :=
  filter (fun p => f_generic (t_filters T) (snd p) (snd p)) (reset_index (by_rows T db k)).

Lemma In_kept_list i r : In (i, r) kept_list <-> kept_item T db k i r.
Proof. unfold kept_list, kept_item, item. rewrite filter_In, reset_index_In. reflexivity. Qed.

Lemma kept_list_NoDup : NoDup (map fst kept_list).
Proof. apply NoDup_labels_filter, NoDup_reset_index. Qed.

Lemma items_listed : lists_items T db k (map fst kept_list).
Proof.
  split; [apply kept_list_NoDup|]. intros i. rewrite in_map_iff. split.
  - intros ([j r] & <- & H). apply In_kept_list in H. eauto.
  - intros (r & H). exists (i, r). split; [reflexivity|apply In_kept_list; exact H].
Qed.

Lemma values_listed cs : lists_values T db k cs (nodup key_dec (map (fun p => map (snd p) cs) kept_list)).
Proof.
  split; [apply NoDup_nodup|]. intros v. rewrite nodup_In, in_map_iff. split.
  - intros ([j r] & <- & H). apply In_kept_list in H. eauto.
  - intros (i & r & H & <-). exists (i, r). split; [reflexivity|apply In_kept_list; exact H].
Qed.

Definition pairs_list (P : Z -> row -> Z -> row -> bool) : list (Z * Z) :=
  map (fun pq => (fst (fst pq), fst (snd pq)))
      (filter (fun pq => P (fst (fst pq)) (snd (fst pq)) (fst (snd pq)) (snd (snd pq))) (list_prod kept_list kept_list)).

Lemma pairs_list_In P a b : In (a, b) (pairs_list P) <->
  exists ra rb, kept_item T db k a ra /\ kept_item T db k b rb /\ P a ra b rb = true.
Proof.
  unfold pairs_list. rewrite in_map_iff. split.
  - intros ([[i r] [j r']] & E & H). cbn in E. inversion E; subst. apply filter_In in H as [H1 H2].
    apply in_prod_iff in H1 as [H3 H4]. exists r, r'. rewrite <- !In_kept_list. auto.
  - intros (ra & rb & H1 & H2 & H3). exists ((a, ra), (b, rb)). split; [reflexivity|].
    apply filter_In. split; [|exact H3]. apply in_prod_iff. rewrite !In_kept_list. auto.
Qed.

Lemma pairs_list_NoDup P : NoDup (pairs_list P).
Proof.
  unfold pairs_list.
  assert (N : NoDup (list_prod kept_list kept_list)).
  { pose proof kept_list_NoDup as N. apply NoDup_map_inv in N. apply NoDup_list_prod; exact N. }
  assert (G : forall x y, In x (list_prod kept_list kept_list) -> In y (list_prod kept_list kept_list) ->
     (fst (fst x), fst (snd x)) = (fst (fst y), fst (snd y)) -> x = y).
  { intros [[i r] [j r']] [[i2 r2] [j2 r2']] H1 H2 E. cbn in E. inversion E; subst.
    apply in_prod_iff in H1 as [A1 A2]. apply in_prod_iff in H2 as [A3 A4].
    rewrite (label_unique _ _ _ _ kept_list_NoDup A1 A3), (label_unique _ _ _ _ kept_list_NoDup A2 A4). reflexivity. }
  revert G N. generalize (list_prod kept_list kept_list). intros l G N.
  induction N as [|x l Hx N IH]; cbn [filter map]; [constructor|].
  assert (IH' : NoDup (map (fun pq : Z * row * (Z * row) => (fst (fst pq), fst (snd pq)))
     (filter (fun pq => P (fst (fst pq)) (snd (fst pq)) (fst (snd pq)) (snd (snd pq))) l))).
  { apply IH. intros x' y' H1 H2. apply G; right; assumption. }
  destruct (P _ _ _ _); [|exact IH']. cbn [map]. constructor; [|exact IH'].
  intros H. apply in_map_iff in H as (y & E & Hy). apply filter_In in Hy as [Hy _].
  apply Hx. rewrite (G x y); [exact Hy|left; reflexivity|right; exact Hy|congruence].
Qed.

Lemma across_listed : lists_pairs (across_pair T db k)
  (pairs_list (fun _ ra _ rb => f_oab (t_filters T) ra && negb (rb (t_on T) =? ra (t_on T)) &&
                                forallb (fun c => rb c =? ra c) (t_across T))).
Proof.
  split; [apply pairs_list_NoDup|]. intros a b. rewrite pairs_list_In. unfold across_pair. split.
  - intros (ra & rb & H1 & H2 & H3). exists ra, rb. rewrite !andb_true_iff in H3. destruct H3 as [[H3 H4] H5].
    split; [exact H1|]. split; [exact H2|]. split; [exact H3|].
    split; [apply negb_true_iff, Z.eqb_neq in H4; exact H4|].
    rewrite forallb_forall in H5. intros c Hc. apply Z.eqb_eq, H5, Hc.
  - intros (ra & rb & H1 & H2 & H3 & H4 & H5). exists ra, rb. split; [exact H1|]. split; [exact H2|].
    rewrite !andb_true_iff. repeat split; [exact H3|apply negb_true_iff, Z.eqb_neq, H4|].
    apply forallb_forall. intros c Hc. apply Z.eqb_eq, H5, Hc.
Qed.

Lemma on_listed : lists_pairs (on_pair T db k)
  (pairs_list (fun a ra x rx => f_oab (t_filters T) ra && (rx (t_on T) =? ra (t_on T)) &&
     match t_across T with [] => negb (x =? a) | _ => existsb (fun c => negb (rx c =? ra c)) (t_across T) end)).
Proof.
  split; [apply pairs_list_NoDup|]. intros a x. rewrite pairs_list_In. unfold on_pair. split.
  - intros (ra & rb & H1 & H2 & H3). exists ra, rb. rewrite !andb_true_iff in H3. destruct H3 as [[H3 H4] H5].
    split; [exact H1|]. split; [exact H2|]. split; [exact H3|]. split; [apply Z.eqb_eq, H4|].
    destruct (t_across T) as [|c0 ac]; [apply Z.eqb_neq, negb_true_iff, H5|].
    apply existsb_exists in H5 as (c & Hc & H5). exists c. split; [exact Hc|]. apply Z.eqb_neq, negb_true_iff, H5.
  - intros (ra & rb & H1 & H2 & H3 & H4 & H5). exists ra, rb. split; [exact H1|]. split; [exact H2|].
    rewrite !andb_true_iff. repeat split; [exact H3|apply Z.eqb_eq, H4|].
    destruct (t_across T) as [|c0 ac]; [apply negb_true_iff, Z.eqb_neq, H5|].
    destruct H5 as (c & Hc & H5). apply existsb_exists. exists c. split; [exact Hc|]. apply negb_true_iff, Z.eqb_neq, H5.
Qed.

End Lists.

(** Statistics of the by groups of a task. *)
Definition stats_of (T : task) (db : list row) : res (list (key * by_stats)) :=
  i <- task_init idk idz T ex_cols db ;;
  let '(_, bs, st) := i in Ok (combine (map b_key bs) (s_by st)).
