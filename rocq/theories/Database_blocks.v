From Coq Require Import ZArith List Bool Arith Lia Ascii String Permutation.
From Verif Require Import Prelude ListFacts Tree Task Database Database_spec Database_proofs.
Import ListNotations.
Local Open Scope nat_scope.
Local Open Scope list_scope.

(* ------------------------------------------------------------------ *)
(** ** Rows of the table *)

Lemma to_row_describes mid names l :
  NoDup names -> describes mid names l (to_row names (attributes mid l)).
Proof.
  intros Hnd j c z Hc Hz. revert j Hc Hz. generalize (attributes mid l) as cells.
  induction Hnd as [|n names Hn Hnd IH]; intros cells j Hc Hz.
  - destruct j; discriminate.
  - destruct cells as [|v cells]; [destruct j; discriminate|]. cbn.
    destruct j as [|j]; cbn in Hc, Hz.
    + injection Hc as <-. injection Hz as ->. now rewrite String.eqb_refl.
    + destruct (String.eqb_spec c n) as [->|Hne].
      * apply nth_error_In in Hc. contradiction.
      * eapply IH; eauto.
Qed.

Lemma set_cell_describes mid names l r c v :
  ~ In c names -> describes mid names l r -> describes mid names l (set_cell r c v).
Proof.
  intros Hc H j c' z Hc' Hz. unfold set_cell. destruct (string_dec c' c) as [->|Hne].
  - destruct Hc. eapply nth_error_In; eauto.
  - eapply H; eauto.
Qed.

(** The lines numbered as [range] does, and their rows with the dummy columns. *)
Definition dummy_by (by_ : list string) (r : row) : row :=
  match by_ with [] => set_cell r "#by" 0 | _ => r end.
Definition dummy_across (across : list string) (i : nat) (r : row) : row :=
  match across with [] => set_cell r "#across" (Z.of_nat i) | _ => r end.

Fixpoint final_rows (i : nat) (by_ across : list string) (rows : list row) : list row :=
  match rows with
  | [] => []
  | r :: rows' => dummy_across across i (dummy_by by_ r) :: final_rows (S i) by_ across rows'
  end.

Lemma final_rows_length by_ across rows : forall i, List.length (final_rows i by_ across rows) = List.length rows.
Proof. induction rows; intros i; cbn; auto. Qed.

Lemma combine_final by_ across (fr : frame) : forall i,
  match across with
  | [] => map (fun q => (fst (snd q), set_cell (snd (snd q)) "#across" (fst q)))
              (combine (map Z.of_nat (seq i (List.length fr)))
                       (map (fun p => (fst p, dummy_by by_ (snd p))) fr))
  | _ => map (fun p => (fst p, dummy_by by_ (snd p))) fr
  end = combine (map fst fr) (final_rows i by_ across (map snd fr)).
Proof.
  induction fr as [|p fr IH]; intros i; destruct across as [|c across]; try reflexivity; cbn.
  - f_equal. apply (IH (S i)).
  - f_equal. apply (IH (S i)).
Qed.

Lemma add_dummies_eq by_ across fr :
  snd (add_dummies by_ across fr) = combine (map fst fr) (final_rows 0 by_ across (map snd fr)).
Proof.
  rewrite <- combine_final. unfold add_dummies. cbn [snd].
  destruct by_ as [|b by_]; unfold dummy_by.
  - destruct across as [|c across]; [|reflexivity]. rewrite map_length. reflexivity.
  - rewrite (map_ext (fun p : Z * row => (fst p, snd p)) (fun p => p)) by now intros [].
    rewrite map_id. destruct across; reflexivity.
Qed.

Lemma final_rows_describe mid names by_ across (ls : list (list cell)) rows : forall i,
  ~ In "#by"%string names -> ~ In "#across"%string names ->
  Forall2 (describes mid names) ls rows ->
  Forall2 (describes mid names) ls (final_rows i by_ across rows).
Proof.
  intros i Hb Ha H. revert i. induction H as [|l r ls rows Hr H IH]; intros i; cbn; constructor.
  - unfold dummy_across, dummy_by. destruct across, by_; auto using set_cell_describes.
  - apply IH.
Qed.

Lemma plain_not_by c : plain c -> c <> "#by"%string /\ c <> "#across"%string.
Proof. intros (x & c' & -> & Hx). split; intros [= E]; now apply Hx. Qed.

(* ------------------------------------------------------------------ *)
(** ** One block, when labels are positions *)

Section Aligned.

Variable mid : list string.
Variable good : list (list cell).
Variable rows : list row.
Hypothesis Hlen : List.length rows = List.length good.

Definition zseq (n : nat) : list Z := map Z.of_nat (seq 0 n).

Let fr : frame := combine (zseq (List.length good)) rows.
Let feats : list (Z * list cell) :=
  map (fun p => (fst p, place mid (snd p))) (combine (zseq (List.length good)) good).

Lemma feats_nth i l : nth_error good i = Some l ->
  exists z, nth_error feats i = Some (z, place mid l).
Proof.
  intros H. unfold feats. rewrite nth_error_map.
  assert (Hi : i < List.length good) by (apply nth_error_Some; congruence).
  assert (Hc : nth_error (combine (zseq (List.length good)) good) i =
               Some (Z.of_nat i, l)).
  { assert (G : forall (g : list (list cell)) s j x, nth_error g j = Some x ->
       nth_error (combine (map Z.of_nat (seq s (List.length g))) g) j = Some (Z.of_nat (s + j), x)).
    { clear. induction g as [|y g IH]; intros s [|j] x H; cbn in *; try discriminate.
      - injection H as ->. now rewrite Nat.add_0_r.
      - replace (s + S j) with (S s + j) by lia. apply IH, H. }
    apply (G good 0 i l H). }
  rewrite Hc. cbn. eauto.
Qed.

(** Lines of the block [P], as (row, line). *)
Definition both (P : row -> bool) : list (row * list cell) :=
  filter (fun x => P (fst x)) (combine rows good).

Lemma fr_filter (P : row -> bool) :
  map snd (filter (fun p => P (snd p)) fr) = map fst (both P).
Proof.
  unfold fr, both, zseq. generalize 0 as s. revert Hlen. clear. revert rows.
  induction good as [|l g IH]; intros [|r rs] H s; cbn in *; try lia; [reflexivity|].
  destruct (P r); cbn; [f_equal|]; apply IH; lia.
Qed.

Lemma fr_iloc (P : row -> bool) :
  iloc_list feats (labels (filter (fun p => P (snd p)) fr)) =
  Ok (map (fun x => place mid (snd x)) (both P)).
Proof.
  assert (G : forall (g : list (list cell)) rs s,
    List.length rs = List.length g ->
    (forall j x, nth_error g j = Some x -> exists z, nth_error feats (s + j) = Some (z, place mid x)) ->
    iloc_list feats (labels (filter (fun p => P (snd p))
                              (combine (map Z.of_nat (seq s (List.length g))) rs))) =
    Ok (map (fun x => place mid (snd x)) (filter (fun x => P (fst x)) (combine rs g)))).
  { induction g as [|l g IH]; intros [|r rs] s H Hf; cbn [List.length seq map combine filter] in *;
      try lia; [reflexivity|]. cbn [fst snd].
    assert (IH' := IH rs (S s)). cbn in H. specialize (IH' ltac:(lia)).
    assert (Hf' : forall j x, nth_error g j = Some x ->
                   exists z, nth_error feats (S s + j) = Some (z, place mid x)).
    { intros j x Hx. destruct (Hf (S j) x Hx) as (z & Hz). exists z.
      replace (S s + j) with (s + S j) by lia. exact Hz. }
    specialize (IH' Hf').
    destruct (P r); [|exact IH'].
    destruct (Hf 0 l eq_refl) as (z & Hz). rewrite Nat.add_0_r in Hz.
    cbn [labels map fst snd iloc_list mapM]. unfold iloc_list in IH'. cbn [mapM].
    destruct (Z.ltb_spec (Z.of_nat s) 0); [lia|]. rewrite Nat2Z.id.
    assert (Hn : nth_res feats s = Ok (z, place mid l)) by (unfold nth_res; now rewrite Hz).
    rewrite Hn. cbn [bind snd].
    unfold labels in IH'. rewrite IH'. reflexivity. }
  apply G; [exact Hlen|]. intros j x Hx. apply feats_nth. exact Hx.
Qed.

Lemma block_aligned byf genf by_ feat_cols k :
  In k (keys by_ rows) ->
  exists r0, hd_error (map fst (both (fun r => key_eqb (proj by_ r) k))) = Some r0 /\
  prepare_block byf genf by_ fr (mk_table feat_cols feats) k =
  Ok (if byf r0
      then Some (k, (filter (fun p => genf r0 (snd p))
                            (reset_index (map fst (both (fun r => key_eqb (proj by_ r) k)))),
                     map (fun x => place mid (snd x)) (both (fun r => key_eqb (proj by_ r) k))))
      else None).
Proof.
  intros Hk. set (P := fun r => key_eqb (proj by_ r) k).
  assert (Hne : both P <> []).
  { unfold keys in Hk. apply nodup_In, in_map_iff in Hk as (r & Hr & Hin).
    destruct (In_nth_error _ _ Hin) as (i & Hi).
    assert (Hig : i < List.length good)
      by (rewrite <- Hlen; apply nth_error_Some; congruence).
    destruct (nth_error good i) as [l|] eqn:El;
      [|apply nth_error_None in El; lia].
    assert (H : In (r, l) (both P)).
    { apply filter_In. split.
      - clear - Hi El. revert i good Hi El. induction rows as [|r' rs IH]; intros [|i] [|l' g] Hi El;
          cbn in *; try discriminate.
        + left. congruence.
        + right. eapply IH; eauto.
      - cbn. unfold P. rewrite Hr. destruct (key_eqb k k) eqn:E; [reflexivity|].
        unfold key_eqb in E. destruct (key_dec k k); congruence. }
    intros E. rewrite E in H. destruct H. }
  destruct (both P) as [|(r0, l0) bs] eqn:Eb; [congruence|]. exists r0. split; [reflexivity|].
  rewrite <- Eb. unfold prepare_block.
  change (fun p : Z * row => key_eqb (proj by_ (snd p)) k) with (fun p : Z * row => P (snd p)).
  rewrite fr_filter.
  replace (nth_res (map fst (both P)) 0) with (Ok r0) by (rewrite Eb; reflexivity).
  cbn [bind]. destruct (byf r0); [|reflexivity].
  cbn [lines]. rewrite fr_iloc. reflexivity.
Qed.

End Aligned.

(* ------------------------------------------------------------------ *)
(** ** All the blocks *)

Lemma catMaybes_in A (l : list (option A)) a : In a (catMaybes l) <-> In (Some a) l.
Proof.
  induction l as [|[x|] l IH]; cbn; [tauto| |].
  - rewrite IH. split; intros [H|H]; auto; left; congruence.
  - rewrite IH. split; [auto|]. intros [H|H]; [discriminate|exact H].
Qed.

Lemma kept_prefix mid f good bad :
  body f = good ++ bad -> Forall (complete mid) good -> Forall (fun l => ~ complete mid l) bad ->
  kept mid f = combine (zseq (List.length good)) good.
Proof.
  intros Hb Hg Hbad. unfold kept, numbered. rewrite Hb, app_length, seq_app, map_app.
  unfold zseq. cbn [Nat.add].
  assert (G : forall (l1 l2 : list Z) (m1 m2 : list (list cell)), List.length l1 = List.length m1 ->
    combine (l1 ++ l2) (m1 ++ m2) = combine l1 m1 ++ combine l2 m2).
  { clear. induction l1; intros l2 [|y m1] m2 H; cbn in *; try lia; [reflexivity|].
    f_equal. apply IHl1. lia. }
  rewrite G by now rewrite map_length, seq_length.
  rewrite filter_app.
  rewrite (@filter_none _ _ (combine (map Z.of_nat (seq (List.length good) (List.length bad))) bad)).
  2:{ intros (z, l) H. apply in_combine_r in H. rewrite Forall_forall in Hbad.
      cbn [snd]. destruct (completeb mid l) eqn:E; [|reflexivity].
      exfalso. apply (Hbad l H). now apply completeb_spec. }
  rewrite app_nil_r. apply filter_all.
  assert (existsb (fun x : Z * list cell => negb (completeb mid (snd x)))
    (combine (map Z.of_nat (seq 0 (List.length good))) good) = false) as ->; [|reflexivity].
  assert (G' : forall A (P : A -> bool) l, (forall x, In x l -> P x = false) -> existsb P l = false).
  { clear. induction l as [|x l IH]; intros H; cbn; [reflexivity|].
    rewrite (H x (or_introl eq_refl)). apply IH. intros y Hy. apply H. now right. }
  apply G'. intros (z, l) H. apply in_combine_r in H. rewrite Forall_forall in Hg.
  cbn [snd]. apply negb_false_iff, completeb_spec. auto.
Qed.

(** The items of a list of blocks with their features. *)
Definition items (blocks : list (key * (frame * list (list cell)))) : list (row * list cell) :=
  flat_map (fun b => combine (map snd (fst (snd b))) (snd (snd b))) blocks.

Lemma reset_index_nth rows i r : In (i, r) (reset_index rows) -> nth_error rows (Z.to_nat i) = Some r.
Proof.
  unfold reset_index. intros H.
  assert (G : forall (g : list row) s j x, In (j, x) (combine (map Z.of_nat (seq s (List.length g))) g) ->
    (Z.of_nat s <= j)%Z /\ nth_error g (Z.to_nat j - s) = Some x).
  { clear. induction g as [|y g IH]; intros s j x H; cbn in H; [contradiction|].
    destruct H as [H|H].
    - injection H as <- <-. split; [lia|]. now rewrite Nat2Z.id, Nat.sub_diag.
    - apply IH in H as (H1 & H2). split; [lia|].
      replace (Z.to_nat j - s) with (S (Z.to_nat j - S s)) by lia. exact H2. }
  apply G in H as (_ & H). now rewrite Nat.sub_0_r in H.
Qed.

Lemma reset_index_snd rows : map snd (reset_index rows) = rows.
Proof. unfold reset_index. apply map_snd_combine. now rewrite map_length, seq_length. Qed.

Lemma mapM_map_ok A B C (f : A -> res (option B)) (g : A -> option B) (h : A -> C) l :
  (forall a, In a l -> f a = Ok (g a)) -> mapM f l = Ok (map g l).
Proof. apply mapM_ok_map. Qed.

Section Main.

Variable korder : list key -> list key.
Hypothesis Hko : forall l, Permutation (korder l) l.

(** Grouping loses nothing. *)
Lemma filter_groups A (key_of : A -> key) (l : list A) ks :
  NoDup ks -> (forall x, In x l -> In (key_of x) ks) ->
  Permutation (flat_map (fun k => filter (fun x => key_eqb (key_of x) k) l) ks) l.
Proof.
  intros Hnd. induction l as [|x l IH]; intros Hin.
  - clear. induction ks; cbn; auto.
  - assert (Hx : In (key_of x) ks) by (apply Hin; now left).
    apply in_split in Hx as (k1 & k2 & ->).
    rewrite flat_map_app. cbn [flat_map].
    assert (E : forall ks', ~ In (key_of x) ks' ->
      flat_map (fun k => filter (fun x => key_eqb (key_of x) k) (x :: l)) ks' =
      flat_map (fun k => filter (fun x => key_eqb (key_of x) k) l) ks').
    { induction ks' as [|k ks' IHk]; intros Hn; cbn [flat_map]; [reflexivity|].
      rewrite IHk by (intros H; apply Hn; now right). f_equal. cbn [filter].
      destruct (key_eqb (key_of x) k) eqn:E; [|reflexivity].
      unfold key_eqb in E. destruct (key_dec (key_of x) k); [|discriminate].
      exfalso. apply Hn. now left. }
    apply NoDup_remove_2 in Hnd as Hni.
    rewrite !E by (intros H; apply Hni; apply in_or_app; auto).
    cbn [filter]. assert (key_eqb (key_of x) (key_of x) = true) as ->.
    { unfold key_eqb. destruct (key_dec _ _); congruence. }
    cbn [app]. etransitivity; [symmetry; apply Permutation_middle|]. constructor.
    rewrite flat_map_app in IH. cbn [flat_map] in IH. apply IH.
    intros y Hy. apply Hin. now right.
Qed.

Lemma keys_nodup by_ rows : NoDup (korder (keys by_ rows)).
Proof.
  eapply Permutation_NoDup; [symmetry; apply Hko|]. apply NoDup_nodup.
Qed.

Lemma loaded_good f aux mid a rest good bad db forest feat :
  item_header (header f) mid a rest -> distinct_names mid a rest -> rectangular f ->
  body f = good ++ bad -> Forall (complete mid) good -> Forall (fun l => ~ complete mid l) bad ->
  load f aux = Ok (db, forest, feat) ->
  db = mk_table (a :: rest) (map (fun p => (fst p, attributes mid (snd p)))
                                 (combine (zseq (List.length good)) good)) /\
  feat = mk_table (["file"; "onset"; "offset"]%string ++ mid)
                  (map (fun p => (fst p, place mid (snd p))) (combine (zseq (List.length good)) good)).
Proof.
  intros Hh Hd Hr Hb Hg Hbad Hl.
  assert (Hx := load_no_aux _ _ _ _ _ _ Hh Hd Hr Hl).
  rewrite (load_ok _ _ _ _ _ Hh Hd Hr Hx) in Hl.
  rewrite (kept_prefix mid f good bad Hb Hg Hbad) in Hl.
  injection Hl as <- _ <-. auto.
Qed.

Lemma distinct_attrs mid a rest : distinct_names mid a rest -> NoDup (a :: rest).
Proof.
  assert (G : forall (l m : list string), NoDup (l ++ m) -> NoDup m).
  { induction l as [|x l IH]; intros m H; [exact H|]. inversion_clear H. now apply IH. }
  unfold distinct_names. intros H. now apply G, G in H.
Qed.

Lemma rows_of_good mid a rest good by_ across cols :
  distinct_names mid a rest -> plain a -> Forall plain rest ->
  cols = a :: rest ->
  let fr := to_frame (mk_table cols (map (fun p => (fst p, attributes mid (snd p)))
                                         (combine (zseq (List.length good)) good))) in
  exists rows, snd (add_dummies by_ across fr) = combine (zseq (List.length good)) rows /\
    rows = final_rows 0 by_ across (map snd fr) /\
    List.length rows = List.length good /\ Forall2 (describes mid (a :: rest)) good rows.
Proof.
  intros Hd Ha Hrest -> fr. rewrite add_dummies_eq.
  assert (Hz : List.length (zseq (List.length good)) = List.length good)
    by (unfold zseq; now rewrite map_length, seq_length).
  assert (Hfst : map fst fr = zseq (List.length good)).
  { unfold fr, to_frame. cbn [lines]. rewrite !map_map. cbn [fst].
    apply map_fst_combine. exact Hz. }
  assert (Hsnd : map snd fr = map (fun l => to_row (a :: rest) (attributes mid l)) good).
  { unfold fr, to_frame. cbn [lines columns]. rewrite !map_map. cbn [snd].
    rewrite <- (map_map snd (fun l => to_row (a :: rest) (attributes mid l))).
    now rewrite map_snd_combine by exact Hz. }
  rewrite Hfst. exists (final_rows 0 by_ across (map snd fr)).
  split; [reflexivity|]. split; [reflexivity|]. split.
  - rewrite final_rows_length, Hsnd. apply map_length.
  - assert (Hp : Forall plain (a :: rest)) by now constructor.
    rewrite Forall_forall in Hp.
    apply final_rows_describe.
    + intros H. now apply Hp, plain_not_by in H as (H & _).
    + intros H. now apply Hp, plain_not_by in H as (_ & H).
    + rewrite Hsnd. clear - Hd. induction good as [|l g IH]; cbn; constructor; auto.
      apply to_row_describes. eapply distinct_attrs; eauto.
Qed.

Lemma prepare_eq byf genf by_ across db feat :
  prepare_database korder byf genf by_ across db feat =
  (let by1 := match by_ with [] => ["#by"%string] | _ => by_ end in
   let fr := snd (add_dummies by_ across (to_frame db)) in
   r <- mapM (prepare_block byf genf by1 fr feat) (korder (keys by1 (map snd fr))) ;;
   Ok (catMaybes r)).
Proof. reflexivity. Qed.

Lemma blocks_aligned f aux mid a rest good bad byf genf by_ across db forest feat :
  item_header (header f) mid a rest -> distinct_names mid a rest -> plain a -> rectangular f ->
  body f = good ++ bad -> Forall (complete mid) good -> Forall (fun l => ~ complete mid l) bad ->
  load f aux = Ok (db, forest, feat) ->
  exists blocks, prepare_database korder byf genf by_ across db feat = Ok blocks /\
    (forall k fr feats i r, In (k, (fr, feats)) blocks -> In (i, r) fr ->
       exists l, In l good /\ describes mid (a :: rest) l r /\
                 nth_error feats (Z.to_nat i) = Some (place mid l)) /\
    ((forall r, byf r = true) -> (forall r r', genf r r' = true) ->
     exists arr, Permutation arr good /\
       Forall2 (fun x l => describes mid (a :: rest) l (fst x) /\ snd x = place mid l)
               (items blocks) arr).
Proof.
  intros Hh Hd Ha Hr Hb Hg Hbad Hl.
  destruct (loaded_good _ _ _ _ _ _ _ _ _ _ Hh Hd Hr Hb Hg Hbad Hl) as (-> & ->).
  assert (Hrest : Forall plain rest) by (destruct Hh as (_ & _ & H); exact H).
  destruct (rows_of_good mid a rest good by_ across _ Hd Ha Hrest eq_refl)
    as (rows & Hfr & _ & Hlen & Hdesc).
  rewrite prepare_eq. cbv zeta. rewrite Hfr.
  set (by1 := match by_ with [] => ["#by"%string] | _ => by_ end).
  rewrite map_snd_combine
    by (unfold zseq; rewrite map_length, seq_length; symmetry; exact Hlen).
  set (feats := map _ (combine _ good)).
  set (B := fun k => both good rows (fun r => key_eqb (proj by1 r) k)).
  set (out := fun k => match hd_error (map fst (B k)) with
                       | None => None
                       | Some r0 =>
                         if byf r0 then
                         Some (k, (filter (fun p => genf r0 (snd p)) (reset_index (map fst (B k))),
                                   map (fun x => place mid (snd x)) (B k))) else None
                       end).
  assert (Hin : forall k, In k (korder (keys by1 rows)) -> In k (keys by1 rows)).
  { intros k Hk. eapply Permutation_in; [apply Hko|exact Hk]. }
  assert (Hm : mapM (prepare_block byf genf by1 (combine (zseq (List.length good)) rows)
                       (mk_table (["file"; "onset"; "offset"]%string ++ mid) feats))
                    (korder (keys by1 rows)) = Ok (map out (korder (keys by1 rows)))).
  { apply mapM_ok_map. intros k Hk. apply Hin in Hk.
    destruct (block_aligned mid good rows Hlen byf genf by1
                (["file"; "onset"; "offset"]%string ++ mid) k Hk) as (r0 & Hr0 & Hp).
    unfold feats. rewrite Hp. unfold out, B. rewrite Hr0. reflexivity. }
  rewrite Hm. cbn [bind].
  assert (Hdb : forall x, In x (combine rows good) -> describes mid (a :: rest) (snd x) (fst x)).
  { clear - Hdesc. induction Hdesc as [|l r g rs H Hf IH]; cbn; intros x Hx; [contradiction|].
    destruct Hx as [<-|Hx]; [exact H|auto]. }
  exists (catMaybes (map out (korder (keys by1 rows)))). split; [reflexivity|]. split.
  - intros k fr ft i r Hk Hi. apply catMaybes_in, in_map_iff in Hk as (k' & Hk' & Hk).
    unfold out in Hk'. destruct (hd_error (map fst (B k'))) as [r0|]; [|discriminate].
    destruct (byf r0); [|discriminate]. injection Hk' as <- <- <-.
    apply filter_In in Hi as (Hi & _). apply reset_index_nth in Hi.
    rewrite nth_error_map in Hi. rewrite nth_error_map.
    destruct (nth_error (B k') (Z.to_nat i)) as [(r1, l)|] eqn:E; [|discriminate].
    cbn in Hi. injection Hi as ->. exists l. apply nth_error_In in E.
    unfold B, both in E. apply filter_In in E as (E & _).
    split; [now apply in_combine_r in E|]. split; [|reflexivity].
    apply (Hdb _ E).
  - intros Hbyf Hgen.
    exists (map snd (flat_map B (korder (keys by1 rows)))). split.
    + unfold B, both.
      rewrite (filter_groups (row * list cell) (fun x => proj by1 (fst x)) (combine rows good)).
      * rewrite map_snd_combine by exact Hlen. reflexivity.
      * apply keys_nodup.
      * intros (r, l) H. apply in_combine_l in H. cbn.
        eapply Permutation_in; [symmetry; apply Hko|]. apply nodup_In. now apply in_map.
    + unfold items.
      assert (Hout : forall k, In k (korder (keys by1 rows)) -> exists r0 : row,
        out k = Some (k, (reset_index (map fst (B k)), map (fun x => place mid (snd x)) (B k)))).
      { intros k Hk. apply Hin in Hk.
        destruct (block_aligned mid good rows Hlen byf genf by1
                (["file"; "onset"; "offset"]%string ++ mid) k Hk) as (r0 & Hr0 & _).
        exists r0. unfold out. unfold B at 1. rewrite Hr0, Hbyf. repeat f_equal.
        apply filter_all. clear - Hgen. induction (reset_index (map fst (B k))) as [|q qs IH]; cbn; [reflexivity|].
        rewrite Hgen. exact IH. }
      clear - Hout Hdb.
      induction (korder (keys by1 rows)) as [|k ks IH]; [constructor|].
      destruct (Hout k (or_introl eq_refl)) as (_ & Ek).
      cbn [map catMaybes flat_map]. rewrite Ek. cbn [catMaybes flat_map fst snd].
      rewrite reset_index_snd, map_app. apply Forall2_app.
      * assert (HB : forall x, In x (B k) -> describes mid (a :: rest) (snd x) (fst x)).
        { intros x Hx. apply filter_In in Hx as (Hx & _). auto. }
        clear - HB. induction (B k) as [|x b IH]; cbn; constructor.
        -- cbn. split; [apply HB; now left|reflexivity].
        -- apply IH. intros y Hy. apply HB. now right.
      * apply IH. intros k' Hk'. apply Hout. now right.
Qed.

End Main.
