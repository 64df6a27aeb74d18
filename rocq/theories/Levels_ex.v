(** The types that the number of levels counts can always be written down; tables for the
    examples of [Props_Levels]. *)
From Coq Require Import String.
From Verif Require Import Prelude ListFacts Task Task_spec Task_blocks Task_stats_spec Task_stats Task_ex
  Task_stats_ex Levels Levels_spec Levels_proofs.
Set Implicit Arguments.
Open Scope string_scope.
Open Scope list_scope.
Open Scope Z_scope.

Section Lists.
Variable T : task.
Variable db : list row.
Variable k : key.
Variable V : Type.
Variable V_dec : forall v w : V, {v = w} + {v <> w}.

Definition all_items : list (Z * row) := reset_index (by_rows T db k).

Lemma In_all_items i r : In (i, r) all_items <-> item (by_rows T db k) i r.
Proof. unfold all_items. rewrite reset_index_In. reflexivity. Qed.

(** Values of the triples of items that satisfy a test. *)
Definition values_of (P : Z * row -> Z * row -> Z * row -> bool) (f : Z * row -> Z * row -> Z * row -> V) : list V :=
  nodup V_dec (map (fun t => f (fst t) (fst (snd t)) (snd (snd t)))
    (filter (fun t => P (fst t) (fst (snd t)) (snd (snd t))) (list_prod all_items (list_prod all_items all_items)))).

Lemma values_of_ok P f (Q : Z -> Z -> Z -> row -> row -> row -> Prop) :
  (forall a b x ra rb rx, three T db k a b x ra rb rx -> (P (a, ra) (b, rb) (x, rx) = true <-> Q a b x ra rb rx)) ->
  NoDup (values_of P f) /\ forall v, In v (values_of P f) <->
    exists a b x ra rb rx, three T db k a b x ra rb rx /\ Q a b x ra rb rx /\ v = f (a, ra) (b, rb) (x, rx).
Proof.
  intros H. split; [apply NoDup_nodup|]. intros v. unfold values_of. rewrite nodup_In, in_map_iff. split.
  - intros ([[a ra] [[b rb] [x rx]]] & <- & I). apply filter_In in I as [I1 I2]. cbn [fst snd] in *.
    rewrite !in_prod_iff, !In_all_items in I1. destruct I1 as (I1 & I3 & I4).
    exists a, b, x, ra, rb, rx. split; [unfold three; auto|]. split; [|reflexivity]. apply H; [unfold three; auto|exact I2].
  - intros (a & b & x & ra & rb & rx & H3 & HQ & ->). exists ((a, ra), ((b, rb), (x, rx))). split; [reflexivity|].
    pose proof H3 as (I1 & I2 & I3). apply filter_In. rewrite !in_prod_iff, !In_all_items. split; [auto|]. cbn [fst snd]. apply H; assumption.
Qed.
End Lists.

Definition across_b (T : task) (ra rb : row) : bool := forallb (fun c => rb c =? ra c) (t_across T).
Definition abx_b (T : task) (a b x : Z * row) : bool :=
  (snd x (t_on T) =? snd a (t_on T)) && negb (snd b (t_on T) =? snd a (t_on T)) && across_b T (snd a) (snd b) &&
  match t_across T with [] => negb (fst x =? fst a) | _ => forallb (fun c => negb (snd x c =? snd a c)) (t_across T) end.
Definition holds2_b (f : option (row -> row -> bool)) v r := match f with None => true | Some f => f v r end.
Definition holds4_b (f : option (row -> row -> row -> row -> bool)) v a b x := match f with None => true | Some f => f v a b x end.
Definition wanted_b (T : task) (a b x : Z * row) : bool :=
  let F := t_filters T in
  abx_b T a b x && f_by F (snd a) && (f_generic F (snd a) (snd a) && f_generic F (snd a) (snd b) && f_generic F (snd a) (snd x)) &&
  f_oab F (snd a) && holds2_b (f_A F) (snd a) (snd a) && holds2_b (f_B F) (snd a) (snd b) && holds2_b (f_X F) (snd a) (snd x) &&
  holds4_b (f_ABX F) (snd a) (snd a) (snd b) (snd x).

Lemma wanted_b_ok T db k a b x ra rb rx : three T db k a b x ra rb rx ->
  (wanted_b T (a, ra) (b, rb) (x, rx) = true <-> wanted T db k a b x).
Proof.
  intros (I1 & I2 & I3). unfold wanted_b, abx_b, across_b. cbn [fst snd]. rewrite !andb_true_iff, !negb_true_iff, Z.eqb_eq, Z.eqb_neq, forallb_forall.
  assert (EX : match t_across T with [] => negb (x =? a) | _ => forallb (fun c => negb (rx c =? ra c)) (t_across T) end = true <->
     match t_across T with [] => x <> a | _ => forall c, In c (t_across T) -> rx c <> ra c end).
  { destruct (t_across T) as [|c0 l] eqn:E; [rewrite negb_true_iff, Z.eqb_neq; reflexivity|]. rewrite <- E, forallb_forall.
    split; intros H c Hc; specialize (H c Hc); rewrite negb_true_iff, Z.eqb_neq in *; exact H. }
  rewrite EX. unfold wanted, abx, passes.
  assert (H2 : forall f v r, holds2_b f v r = true <-> holds2 f v r) by (intros [f|] v r; cbn; tauto).
  assert (H4 : forall f v a b x, holds4_b f v a b x = true <-> holds4 f v a b x) by (intros [f|] v r1 r2 r3; cbn; tauto).
  rewrite !H2, !H4. split.
  - intros H. exists ra, rb, rx. repeat match goal with H : _ /\ _ |- _ => destruct H end.
    do 3 (split; [assumption|]). split; [|tauto]. split; [assumption|]. split; [assumption|]. split; [|assumption].
    intros c Hc. apply Z.eqb_eq. auto.
  - intros (r1 & r2 & r3 & J1 & J2 & J3 & (D1 & D2 & D3 & D4) & P).
    destruct I1 as [_ I1], I2 as [_ I2], I3 as [_ I3], J1 as [_ J1], J2 as [_ J2], J3 as [_ J3].
    assert (r1 = ra) by congruence. assert (r2 = rb) by congruence. assert (r3 = rx) by congruence. subst r1 r2 r3.
    assert (D3' : forall c, In c (t_across T) -> (rb c =? ra c) = true) by (intros c Hc; apply Z.eqb_eq, D3, Hc). tauto.
Qed.

Definition types_dec : forall v w : key * Z * key, {v = w} + {v <> w}.
Proof. repeat decide equality. Defined.
Definition item_types_dec : forall v w : Z * Z, {v = w} + {v <> w}.
Proof. repeat decide equality. Defined.

Definition types_list (T : task) (db : list row) (k : key) : list (key * Z * key) :=
  values_of T db k types_dec (wanted_b T) (fun a b x => type_of T (snd a) (snd b) (snd x)).
Definition item_types_list (T : task) (db : list row) (k : key) : list (Z * Z) :=
  values_of T db k item_types_dec (wanted_b T) (fun a b x => (fst a, snd b (t_on T))).

Lemma types_listed T db k : lists_types T db k (types_list T db k).
Proof. apply (values_of_ok types_dec _ (fun a b x => type_of T (snd a) (snd b) (snd x)) (fun a b x _ _ _ => wanted T db k a b x)), wanted_b_ok. Qed.

Lemma item_types_listed T db k : lists_item_types T db k (item_types_list T db k).
Proof. apply (values_of_ok item_types_dec _ (fun a b x => (fst a, snd b (t_on T))) (fun a b x _ _ _ => wanted T db k a b x)), wanted_b_ok. Qed.

(** On phone, across some columns, by lang, without item filters. *)
Definition lv_filters : filters := mk_filters (f_by ex_filters) (f_generic ex_filters) (f_oab ex_filters) None None None None.
Definition lv_task (across : list string) : task := mk_task "phone" across ["lang"] lv_filters no_regressors.

Lemma lv_reads : reads ex_cols lv_filters.
Proof.
  destruct ex_reads as [R1 R2 R3 _ _ _ _]. constructor; cbn [lv_filters f_by f_generic f_oab f_A f_B f_X f_ABX]; auto; intros; discriminate.
Qed.

Lemma lv_determined across : In "talker" across \/ across = [] -> determined (lv_task across) ex_db.
Proof.
  intros Ha. constructor; cbn [lv_task t_on t_across t_by t_filters lv_filters ex_filters f_by f_generic f_oab f_A f_B f_X f_ABX]; intros;
    try discriminate.
  - rewrite (H1 "lang" ltac:(cbn; tauto)). reflexivity.
  - reflexivity.
  - destruct Ha as [Ha|Ha]; [|congruence]. rewrite (H2 "talker"); [reflexivity|]. right. apply in_or_app. left. exact Ha.
Qed.

Lemma lv_kept_first across : kept_first (lv_task across) ex_db.
Proof. exact (kept_first_split (lv_task across) (firstn 14 ex_db) (skipn 14 ex_db) eq_refl eq_refl). Qed.

(** Levels and printed statistics of a new task. *)
Definition levels_of (hix : bool) (T : task) (db : list row) : res (list key * list by_stats * (levels * res unit)) :=
  i <- task_init idk idz T ex_cols db ;;
  let '(T', bs, st) := i in
  Ok (map b_key bs, s_by st, compute_nb_levels idk idz hix T' bs (mk_levels (map (fun _ => None) bs) None)).
Definition print_of (hix : bool) (T : task) (db : list row) : res (list out * levels * res unit) :=
  i <- task_init idk idz T ex_cols db ;;
  let '(T', bs, st) := i in
  Ok (print_stats idk idz hix T' bs st (mk_levels (map (fun _ => None) bs) None) true).

(** Two across columns: X differs from A in one of them only, so there is no triplet. *)
Definition two_task : task :=
  mk_task "phone" ["talker"; "lang"] [] (mk_filters (fun _ => true) (fun _ _ => true) (fun _ => true) None None None None) no_regressors.
Definition two_db : list row := [ln 1 1 7 0; ln 2 1 7 0; ln 1 1 8 0].

Lemma two_refuted :
  match levels_of true two_task two_db with
  | Ok (ks, ss, (lv, r)) => ks = [[0]] /\ map st_nb_triplets ss = [0] /\ lv = mk_levels [Some 1] (Some 1) /\ r = Ok tt
  | Err _ => False
  end /\ lists_types two_task two_db [0] [] /\ forall a b x, ~ wanted two_task two_db [0] a b x.
Proof.
  split; [vm_compute; auto|].
  assert (L : lists_types two_task two_db [0] []) by (apply (types_listed two_task two_db [0])).
  split; [exact L|]. intros a b x W. pose proof W as (ra & rb & rx & I1 & I2 & I3 & _).
  apply (proj2 L (type_of two_task ra rb rx)). exists a, b, x, ra, rb, rx. unfold three. auto 10.
Qed.
