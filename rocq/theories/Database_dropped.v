From Coq Require Import ZArith List Bool Arith Lia Ascii String Permutation.
From Verif Require Import Prelude ListFacts Tree Task Database Database_spec Database_proofs Database_blocks.
Import ListNotations.
Local Open Scope nat_scope.
Local Open Scope list_scope.

(** The last complete line. *)
Lemma last_complete mid (ls : list (list cell)) : forall j l,
  nth_error ls j = Some l -> complete mid l ->
  exists pre l' post, ls = pre ++ l' :: post /\ complete mid l' /\
    Forall (fun l => ~ complete mid l) post /\ j <= List.length pre.
Proof.
  induction ls as [|x ls IH] using rev_ind; intros j l Hj Hc; [destruct j; discriminate|].
  destruct (completeb mid x) eqn:E.
  - apply completeb_spec in E. exists ls, x, []. repeat split; auto.
    assert (j < List.length (ls ++ [x])) by (apply nth_error_Some; congruence).
    rewrite app_length in H. cbn in H. lia.
  - assert (Hx : ~ complete mid x) by (intros H; apply completeb_spec in H; congruence).
    destruct (Nat.lt_ge_cases j (List.length ls)) as [Hlt|Hge].
    + rewrite nth_error_app1 in Hj by exact Hlt.
      destruct (IH j l Hj Hc) as (pre & l' & post & -> & H1 & H2 & H3).
      exists pre, l', (post ++ [x]). split; [now rewrite <- app_assoc|]. repeat split; auto.
      apply Forall_app. auto.
    + exfalso. rewrite nth_error_app2 in Hj by exact Hge.
      destruct (j - List.length ls) as [|[|]]; cbn in Hj; try discriminate.
      injection Hj as <-. contradiction.
Qed.

Lemma filter_lt A (P : A -> bool) l x : In x l -> P x = false -> List.length (filter P l) < List.length l.
Proof.
  induction l as [|y l IH]; intros Hin Hx; [destruct Hin|].
  assert (Hle : List.length (filter P l) <= List.length l).
  { clear. induction l as [|z l IH]; cbn; [lia|]. destruct (P z); cbn; lia. }
  destruct Hin as [->|Hin]; cbn.
  - rewrite Hx. lia.
  - destruct (P y); cbn; specialize (IH Hin Hx); lia.
Qed.


(** Errors are index errors. *)
Lemma iloc_list_cases ls pos :
  (exists b, iloc_list ls pos = Ok b) \/ iloc_list ls pos = Err IndexError.
Proof.
  induction pos as [|i pos IH]; cbn; [eauto|].
  destruct (i <? 0)%Z; cbn; [auto|].
  destruct (nth_res ls (Z.to_nat i)) eqn:E; cbn.
  2:{ unfold nth_res in E. destruct (nth_error ls (Z.to_nat i)); [discriminate|].
      injection E as <-. auto. }
  unfold iloc_list in IH. destruct IH as [(b & ->)| ->]; cbn; eauto.
Qed.

Lemma iloc_list_out ls pos i :
  In i pos -> (Z.of_nat (List.length ls) <= i)%Z -> iloc_list ls pos = Err IndexError.
Proof.
  intros Hin Hi. destruct (iloc_list_cases ls pos) as [(b & Hb)|Hb]; [|exact Hb]. exfalso.
  unfold iloc_list in Hb. apply mapM_forall2 in Hb.
  clear - Hin Hi Hb. induction Hb as [|j x pos b Hj Hb IH]; [destruct Hin|].
  destruct Hin as [->|Hin]; [|auto].
  destruct (Z.ltb_spec i 0); [discriminate|]. unfold nth_res in Hj.
  destruct (nth_error ls (Z.to_nat i)) eqn:E; [|discriminate].
  assert (Z.to_nat i < List.length ls) by (apply nth_error_Some; congruence). lia.
Qed.

Lemma mapM_one_err A B (f : A -> res B) e l x :
  (forall y, In y l -> (exists b, f y = Ok b) \/ f y = Err e) -> In x l -> f x = Err e ->
  mapM f l = Err e.
Proof.
  intros H Hin Hx.
  assert (G : (exists b, mapM f l = Ok b) \/ mapM f l = Err e).
  { clear Hin Hx. induction l as [|y l IH]; cbn; [eauto|].
    destruct (H y (or_introl eq_refl)) as [(b & ->)| ->]; cbn; [|auto].
    destruct IH as [(bs & ->)| ->]; cbn; eauto. intros z Hz. apply H. now right. }
  destruct G as [(b & Hb)|Hb]; [|exact Hb]. exfalso.
  apply mapM_forall2 in Hb. clear - Hin Hx Hb. induction Hb; [destruct Hin|].
  destruct Hin as [->|Hin]; [congruence|auto].
Qed.

Lemma blocks_dropped korder f aux mid a rest genf by_ across db forest feat i j li lj :
  (forall l, Permutation (korder l) l) ->
  item_header (header f) mid a rest -> distinct_names mid a rest -> rectangular f ->
  nth_error (body f) i = Some li -> ~ complete mid li ->
  nth_error (body f) j = Some lj -> complete mid lj -> i < j ->
  load f aux = Ok (db, forest, feat) ->
  prepare_database korder (fun _ => true) genf by_ across db feat = Err IndexError.
Proof.
  intros Hko Hh Hd Hr Hi Hci Hj Hcj Hij Hl.
  assert (Hx := load_no_aux _ _ _ _ _ _ Hh Hd Hr Hl).
  rewrite (load_ok _ _ _ _ _ Hh Hd Hr Hx) in Hl. injection Hl as <- _ <-.
  destruct (last_complete mid _ _ _ Hj Hcj) as (pre & l & post & Hb & Hc & Hpost & Hle).
  set (n := List.length pre).
  assert (Hk : exists K1, kept mid f = K1 ++ [(Z.of_nat n, l)] /\ List.length K1 < n).
  { exists (filter (fun p => completeb mid (snd p)) (combine (zseq n) pre)). split.
    - unfold kept, numbered. rewrite Hb, app_length. cbn [List.length]. rewrite seq_app, map_app.
      assert (G : forall (l1 l2 : list Z) (m1 m2 : list (list cell)),
        List.length l1 = List.length m1 ->
        combine (l1 ++ l2) (m1 ++ m2) = combine l1 m1 ++ combine l2 m2).
      { clear. induction l1; intros l2 [|y m1] m2 H; cbn in *; try lia; [reflexivity|].
        f_equal. apply IHl1. lia. }
      rewrite G by now rewrite map_length, seq_length. rewrite filter_app. unfold zseq, n.
      f_equal. cbn [seq map combine filter snd Nat.add].
      assert (completeb mid l = true) as -> by now apply completeb_spec.
      f_equal. apply filter_none. intros (z, y) Hy. apply in_combine_r in Hy.
      rewrite Forall_forall in Hpost. cbn [snd].
      destruct (completeb mid y) eqn:E; [|reflexivity]. exfalso. apply (Hpost y Hy).
      now apply completeb_spec.
    - assert (Hlen : List.length (combine (zseq n) pre) = n).
      { unfold zseq. rewrite combine_length, map_length, seq_length. fold n. lia. }
      rewrite <- Hlen at 2. 
      rewrite Hb, nth_error_app1 in Hi by lia. apply nth_error_In in Hi.
      assert (Hin : exists z, In (z, li) (combine (zseq n) pre)).
      { assert (Hs : In li (map snd (combine (zseq n) pre))).
        { rewrite map_snd_combine; [exact Hi|]. unfold zseq. now rewrite map_length, seq_length. }
        apply in_map_iff in Hs as ((z, y) & <- & Hs). exists z. exact Hs. }
      destruct Hin as (z & Hin). eapply filter_lt; [exact Hin|]. cbn [snd].
      destruct (completeb mid li) eqn:E; [|reflexivity]. exfalso. now apply Hci, completeb_spec. }
  destruct Hk as (K1 & Hk & Hlt). rewrite Hk.
  rewrite prepare_eq. cbv zeta. rewrite add_dummies_eq.
  set (by1 := match by_ with [] => ["#by"%string] | _ => by_ end).
  set (fr := combine _ _).
  set (feats := mk_table _ (map _ (K1 ++ _))).
  assert (Hlast : exists r, In (Z.of_nat n, r) fr).
  { assert (Hin : In (Z.of_nat n) (map fst fr)).
    { unfold fr. rewrite map_fst_combine.
      - unfold to_frame. cbn [lines]. rewrite !map_map, map_app. cbn. apply in_or_app. right. now left.
      - rewrite final_rows_length, !map_length. reflexivity. }
    apply in_map_iff in Hin as ((z, r) & <- & Hin). exists r. exact Hin. }
  destruct Hlast as (r & Hlast).
  rewrite (mapM_one_err _ _ _ IndexError _ (proj by1 r)); [reflexivity| | |].
  - intros k Hkk. apply (Permutation_in _ (Hko _)) in Hkk. unfold keys in Hkk.
    apply nodup_In, in_map_iff in Hkk as (r' & <- & Hr').
    unfold prepare_block.
    destruct (nth_res (map snd (filter (fun p => key_eqb (proj by1 (snd p)) (proj by1 r')) fr)) 0)
      as [r0|e] eqn:E0; cbn [bind].
    + destruct (iloc_list_cases (lines feats)
        (labels (filter (fun p => key_eqb (proj by1 (snd p)) (proj by1 r')) fr)))
        as [(b & ->)| ->]; cbn [bind]; eauto.
    + exfalso. unfold nth_res in E0.
      apply in_map_iff in Hr' as (p & <- & Hp).
      assert (Hin : In (snd p) (map snd (filter (fun p0 => key_eqb (proj by1 (snd p0)) (proj by1 (snd p))) fr))).
      { apply in_map, filter_In. split; [exact Hp|]. unfold key_eqb. destruct (key_dec _ _); congruence. }
      revert Hin E0.
      generalize (map snd (filter (fun p0 => key_eqb (proj by1 (snd p0)) (proj by1 (snd p))) fr)).
      intros [|? ?] Hin E0; [destruct Hin|discriminate].
  - eapply Permutation_in; [symmetry; apply Hko|]. unfold keys. apply nodup_In, in_map.
    apply in_map_iff. exists (Z.of_nat n, r). auto.
  - unfold prepare_block.
    assert (Hin : In (Z.of_nat n, r) (filter (fun p => key_eqb (proj by1 (snd p)) (proj by1 r)) fr)).
    { apply filter_In. split; [exact Hlast|]. cbn. unfold key_eqb. destruct (key_dec _ _); congruence. }
    destruct (filter _ fr) as [|p ps] eqn:E; [destruct Hin|]. cbn [map nth_res nth_error bind].
    unfold nth_res. cbn [nth_error bind].
    rewrite (iloc_list_out _ _ (Z.of_nat n)); [reflexivity| |].
    + unfold labels. apply in_map_iff. exists (Z.of_nat n, r). auto.
    + unfold feats. cbn [lines]. rewrite map_length, app_length. cbn. lia.
Qed.

(** The table kept by [load]. *)
Lemma load_table f aux mid a rest db forest feat :
  item_header (header f) mid a rest -> distinct_names mid a rest -> rectangular f ->
  load f aux = Ok (db, forest, feat) ->
  columns db = a :: rest /\ columns feat = ["file"; "onset"; "offset"]%string ++ mid /\
  map snd (lines db) = map (attributes mid) (filter (completeb mid) (body f)) /\
  map snd (lines feat) = map (place mid) (filter (completeb mid) (body f)) /\
  labels (to_frame db) = map fst (lines feat).
Proof.
  intros Hh Hd Hr Hl.
  assert (Hx := load_no_aux _ _ _ _ _ _ Hh Hd Hr Hl).
  rewrite (load_ok _ _ _ _ _ Hh Hd Hr Hx) in Hl. injection Hl as <- _ <-.
  cbn [columns lines]. split; [reflexivity|]. split; [reflexivity|].
  assert (Hs : map snd (kept mid f) = filter (completeb mid) (body f)).
  { unfold kept. rewrite <- (numbered_snd f). clear.
    induction (numbered f) as [|p l IH]; cbn [filter map]; [reflexivity|].
    destruct (completeb mid (snd p)); cbn [map]; [now rewrite IH|exact IH]. }
  rewrite !map_map. cbn [snd]. rewrite <- Hs, !map_map.
  split; [reflexivity|]. split; [reflexivity|].
  unfold labels, to_frame. cbn [lines columns]. rewrite !map_map. reflexivity.
Qed.

(* ------------------------------------------------------------------ *)
(** ** The blocks are those of the task *)

Lemma with_dummies_rows T rows :
  snd (with_dummies T rows) = final_rows 0 (t_by T) (t_across T) rows.
Proof.
  unfold with_dummies. cbn [snd].
  set (db1 := match t_by T with [] => _ | _ => _ end).
  assert (H1 : db1 = map (dummy_by (t_by T)) rows).
  { unfold db1, dummy_by. destruct (t_by T); [reflexivity|]. symmetry. apply map_id. }
  rewrite H1. unfold reset_index. rewrite map_length. generalize 0 as i.
  clear. induction rows as [|r rows IH]; intros i; destruct (t_across T) as [|c ac] eqn:E;
    try reflexivity; cbn in *; f_equal; apply (IH (S i)).
Qed.

Lemma prepare_task korder T db feat blocks :
  let T' := fst (with_dummies T (map snd (to_frame db))) in
  let rows := snd (with_dummies T (map snd (to_frame db))) in
  prepare_database korder (f_by (t_filters T)) (f_generic (t_filters T)) (t_by T) (t_across T)
                   db feat = Ok blocks ->
  exists opts,
    mapM (prepare_by T') (groupby_rows korder (t_by T') rows) = Ok opts /\
    catMaybes opts = map (fun b => (fst b, fst (snd b))) blocks.
Proof.
  intros T' rows H. unfold rows. rewrite with_dummies_rows.
  rewrite prepare_eq in H. cbv zeta in H. rewrite add_dummies_eq in H.
  set (by1 := match t_by T with [] => _ | _ => _ end) in H.
  assert (Hby : t_by T' = by1) by (unfold T', with_dummies, by1; destruct (t_by T); reflexivity).
  assert (HF : t_filters T' = t_filters T) by reflexivity.
  rewrite Hby. clearbody T'. clearbody by1.
  set (rs := final_rows 0 _ _ _) in *.
  set (fr := combine _ rs) in H.
  assert (Hsnd : map snd fr = rs).
  { unfold fr, rs. apply map_snd_combine. rewrite final_rows_length, !map_length. reflexivity. }
  rewrite Hsnd in H. unfold groupby_rows.
  assert (Hf : forall k, map snd (filter (fun p => key_eqb (proj by1 (snd p)) k) fr) =
                         filter (fun r => key_eqb (proj by1 r) k) rs).
  { intros k. rewrite <- Hsnd. clear. induction fr as [|p l IH]; cbn; [reflexivity|].
    destruct (key_eqb _ k); cbn; [now rewrite IH|exact IH]. }
  destruct (mapM _ _) as [r|] eqn:Em in H; cbn [bind] in H; [|discriminate]. injection H as <-.
  revert r Em. induction (korder (keys by1 rs)) as [|k ks IH]; intros r Em.
  - injection Em as <-. exists []. auto.
  - cbn [mapM map] in Em |- *.
    destruct (prepare_block _ _ by1 fr feat k) as [o|] eqn:Ep; cbn [bind] in Em; [|discriminate].
    destruct (mapM _ ks) as [os|]; cbn [bind] in Em; [|discriminate]. injection Em as <-.
    destruct (IH os eq_refl) as (opts & -> & Ho).
    unfold prepare_by at 1. cbn [fst snd]. unfold prepare_block in Ep. rewrite Hf in Ep.
    destruct (nth_res (filter (fun r0 => key_eqb (proj by1 r0) k) rs) 0) as [r0|];
      cbn [bind] in Ep |- *; [|discriminate].
    rewrite HF. destruct (f_by (t_filters T) r0); cbn [bind].
    + destruct (iloc_list _ _); cbn [bind] in Ep; [|discriminate]. injection Ep as <-.
      eexists. split; [reflexivity|]. cbn. now rewrite Ho.
    + injection Ep as <-. eexists. split; [reflexivity|]. cbn. exact Ho.
Qed.
