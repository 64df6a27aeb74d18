From Coq Require Import ZArith List Bool Arith Lia Ascii String Permutation.
From Verif Require Import Prelude ListFacts Tree Task Database Database_spec.
Import ListNotations.
Local Open Scope nat_scope.
Local Open Scope list_scope.

(* ------------------------------------------------------------------ *)
(** ** Headers *)

Definition unsharp (c : string) : string :=
  match c with String "#" c' => c' | _ => c end.

Lemma sharps_plain i l : Forall plain l -> sharps i l = Ok ([], l).
Proof.
  intros H. revert i. induction H as [|c l (a & c' & -> & Ha) _ IH]; intros i; cbn; [reflexivity|].
  rewrite IH. cbn. destruct (Ascii.eqb_spec a "#"); [contradiction|reflexivity].
Qed.

Lemma sharps_app l1 : forall i l2,
  sharps i (l1 ++ l2) =
  (r1 <- sharps i l1 ;; r2 <- sharps (i + List.length l1) l2 ;;
   Ok (fst r1 ++ fst r2, snd r1 ++ snd r2)).
Proof.
  induction l1 as [|c l1 IH]; intros i l2; cbn.
  - rewrite Nat.add_0_r. destruct (sharps i l2) as [[]|]; reflexivity.
  - destruct c as [|a c']; [reflexivity|]. rewrite IH. cbn.
    destruct (sharps (S i) l1) as [[s1 n1]|]; cbn; [|reflexivity].
    rewrite (Nat.add_succ_r i (List.length l1)).
    destruct (sharps (S (i + List.length l1)) l2) as [[s2 n2]|];
      destruct (Ascii.eqb a "#"); reflexivity.
Qed.

Lemma sharps_item h mid a rest :
  item_header h mid a rest ->
  sharps 0 h = Ok ([0; width mid], ["file"; "onset"; "offset"]%string ++ mid ++ a :: rest).
Proof.
  intros (-> & Hm & Hr). rewrite sharps_app.
  replace (sharps 0 ["#file"; "onset"; "offset"]%string)
    with (Ok ([0], ["file"; "onset"; "offset"]%string)) by reflexivity.
  cbn [bind]. rewrite sharps_app, sharps_plain by exact Hm. cbn [bind sharps].
  rewrite sharps_plain by exact Hr. reflexivity.
Qed.

Lemma sharps_inv l : forall i s n, sharps i l = Ok (s, n) ->
  (s = [] -> Forall plain l) /\
  (forall p s', s = p :: s' -> exists l1 a l2,
     l = l1 ++ String "#" a :: l2 /\ Forall plain l1 /\ p = i + List.length l1 /\
     exists n', sharps (S p) l2 = Ok (s', n')).
Proof.
  induction l as [|c l IH]; intros i s n H; cbn in H.
  - injection H as <- <-. split; [constructor|discriminate].
  - destruct c as [|a c']; [discriminate|].
    destruct (sharps (S i) l) as [[s1 n1]|] eqn:E; cbn in H; [|discriminate].
    destruct (Ascii.eqb_spec a "#") as [->|Ha]; injection H as <- <-.
    + split; [discriminate|]. intros p s' [= <- <-]. exists [], c', l. cbn.
      repeat split; auto; try lia. exists n1. exact E.
    + destruct (IH _ _ _ E) as (IH1 & IH2). split.
      * intros Hs. constructor; [exists a, c'; auto|auto].
      * intros p s' Hs. destruct (IH2 _ _ Hs) as (l1 & a' & l2 & -> & Hl1 & -> & Hl2).
        exists (String a c' :: l1), a', l2. cbn.
        split; [reflexivity|]. split; [constructor; [exists a, c'; auto|exact Hl1]|].
        split; [lia|]. replace (S (i + S (List.length l1))) with (S (S i + List.length l1)) by lia.
        exact Hl2.
Qed.

Lemma concat_inj x y s t :
  no_space x -> no_space y -> (x ++ String " " s)%string = (y ++ String " " t)%string ->
  x = y /\ s = t.
Proof.
  revert y. induction x as [|a x IH]; intros [|b y] Hx Hy H; cbn in H.
  - injection H as <-. auto.
  - injection H as <- _. destruct Hy. cbn. auto.
  - injection H as -> _. destruct Hx. cbn. auto.
  - injection H as <- H. destruct (IH y) as (-> & ->); auto.
    + intros H'. apply Hx. cbn. auto.
    + intros H'. apply Hy. cbn. auto.
Qed.

Lemma concat_inj_end (x y t : string) : no_space x -> x = append y (String " " t) -> False.
Proof.
  intros Hx ->. apply Hx. clear. induction y; cbn; auto.
Qed.

Lemma skipn_nth A (l : list A) n d : n < List.length l -> skipn n l = nth n l d :: skipn (S n) l.
Proof.
  revert n. induction l as [|x l IH]; intros [|n] H; cbn in *; try lia; auto.
  apply IH. lia.
Qed.

Lemma join3 l :
  Forall no_space l -> String.concat " " (firstn 3 l) = "#file onset offset"%string ->
  exists l', l = ["#file"; "onset"; "offset"]%string ++ l'.
Proof.
  assert (N1 : no_space "#file") by (unfold no_space; cbn; intros H; repeat (destruct H as [H|H]; [discriminate H|]); exact H).
  assert (N2 : no_space "onset") by (unfold no_space; cbn; intros H; repeat (destruct H as [H|H]; [discriminate H|]); exact H).
  assert (N3 : no_space "offset") by (unfold no_space; cbn; intros H; repeat (destruct H as [H|H]; [discriminate H|]); exact H).
  change "#file onset offset"%string
    with ("#file" ++ String " " ("onset" ++ String " " "offset"))%string.
  intros H. destruct l as [|x [|y [|z l]]]; cbn [firstn String.concat]; intros E.
  - discriminate.
  - inversion_clear H. exfalso. eapply concat_inj_end; [|exact E]. assumption.
  - inversion_clear H as [|? ? Hx H1]. inversion_clear H1 as [|? ? Hy _].
    change (" " ++ y)%string with (String " " y) in E.
    apply concat_inj in E; auto. destruct E as (_ & E).
    exfalso. eapply concat_inj_end; [|exact E]. assumption.
  - inversion_clear H as [|? ? Hx H1]. inversion_clear H1 as [|? ? Hy H2].
    change (" " ++ ?s)%string with (String " " s) in E.
    apply concat_inj in E; auto. destruct E as (-> & E).
    apply concat_inj in E; auto. destruct E as (-> & ->).
    exists l. reflexivity.
Qed.

(* ------------------------------------------------------------------ *)
(** ** Choosing columns *)

Lemma filter_seq_single (P : nat -> bool) : forall n s i,
  s <= i < s + n -> P i = true -> (forall j, s <= j < s + n -> P j = true -> j = i) ->
  filter P (seq s n) = [i].
Proof.
  induction n as [|n IH]; intros s i Hi HP Hu; [lia|]. cbn.
  destruct (Nat.eq_dec s i) as [->|Hne].
  - rewrite HP. f_equal. apply filter_none. intros j Hj. apply in_seq in Hj.
    destruct (P j) eqn:E; [|reflexivity]. exfalso.
    assert (j = i) by (apply Hu; auto; lia). lia.
  - destruct (P s) eqn:E.
    + exfalso. apply Hne, Hu; auto; lia.
    + apply IH; auto; try lia. intros j Hj. apply Hu. lia.
Qed.

Lemma positions_part (cols : list string) n m :
  NoDup cols -> n + m <= List.length cols ->
  positions (firstn m (skipn n cols)) cols = seq n m.
Proof.
  intros Hnd. revert n. induction m as [|m IH]; intros n Hn; [reflexivity|].
  assert (Hlt : n < List.length cols) by lia.
  rewrite (skipn_nth _ cols n EmptyString Hlt).
  cbn [firstn positions flat_map seq].
  change (flat_map _ (firstn m (skipn (S n) cols)))
    with (positions (firstn m (skipn (S n) cols)) cols).
  rewrite IH by lia.
  rewrite (filter_seq_single _ (List.length cols) 0 n); [reflexivity|lia|apply String.eqb_refl|].
  intros j Hj E. apply String.eqb_eq in E. symmetry.
  apply (proj1 (NoDup_nth cols EmptyString) Hnd); [lia|lia|exact E].
Qed.

Lemma map_nth_seq A (d : A) (l : list A) n m :
  n + m <= List.length l -> map (fun i => nth i l d) (seq n m) = firstn m (skipn n l).
Proof.
  revert n. induction m as [|m IH]; intros n H; [reflexivity|]. cbn [seq map].
  rewrite (skipn_nth _ l n d) by lia. cbn [firstn]. f_equal. apply IH. lia.
Qed.

Lemma select_part t n m :
  NoDup (columns t) -> n + m <= List.length (columns t) ->
  Forall (fun p => List.length (snd p) = List.length (columns t)) (lines t) ->
  select t (firstn m (skipn n (columns t))) =
  mk_table (firstn m (skipn n (columns t)))
           (map (fun p => (fst p, firstn m (skipn n (snd p)))) (lines t)).
Proof.
  intros Hnd Hn Hl. unfold select. rewrite positions_part by auto. f_equal.
  - now apply map_nth_seq.
  - apply map_ext_in. intros p Hp. rewrite Forall_forall in Hl. f_equal.
    apply map_nth_seq. now rewrite Hl.
Qed.

(* ------------------------------------------------------------------ *)
(** ** Dropping lines *)

Lemma drop_where_map A (g h : A -> Z * list cell) (P : A -> bool) (l : list A) :
  drop_where (map P l) (map h l) = map h (filter (fun x => negb (P x)) l).
Proof.
  unfold drop_where. induction l as [|x l IH]; cbn; [reflexivity|].
  destruct (P x); cbn; [exact IH|now rewrite IH].
Qed.

Lemma filter_all A (P : A -> bool) l : existsb (fun x => negb (P x)) l = false -> filter P l = l.
Proof.
  induction l as [|x l IH]; cbn; [reflexivity|]. destruct (P x); cbn; [|discriminate].
  intros H. now rewrite IH.
Qed.

Lemma completeb_isnull mid l : completeb mid l = negb (existsb isnull (attributes mid l)).
Proof.
  unfold completeb. induction (attributes mid l) as [|c cs IH]; cbn; [reflexivity|].
  destruct c; cbn; auto.
Qed.

Lemma completeb_spec mid l : completeb mid l = true <-> complete mid l.
Proof.
  unfold completeb, complete. rewrite forallb_forall, Forall_forall.
  split; intros H c Hc; specialize (H c Hc); destruct c; congruence.
Qed.

Lemma filter_filter_and A (P Q : A -> bool) l :
  filter P (filter Q l) = filter (fun x => Q x && P x) l.
Proof.
  induction l as [|x l IH]; cbn; [reflexivity|]. destruct (Q x); cbn; [|exact IH].
  destruct (P x); cbn; now rewrite IH.
Qed.

Lemma load_aux_none aux names : no_aux aux names ->
  load_aux_dbs aux names = Ok (map (fun c => Node c []) names).
Proof.
  unfold no_aux. induction names as [|c names IH]; intros H; cbn [load_aux_dbs map]; [reflexivity|].
  destruct (String.eqb_spec c "item") as [->|Hc]; cbn [bind].
  - rewrite IH; [reflexivity|]. intros c' Hc'. apply H. now right.
  - rewrite (H c); [|now left|exact Hc]. cbn [bind].
    rewrite IH; [reflexivity|]. intros c' Hc'. apply H. now right.
Qed.

Lemma load_aux_ok aux names ts : load_aux_dbs aux names = Ok ts -> no_aux aux names.
Proof.
  unfold no_aux. revert ts. induction names as [|c names IH]; intros ts H; cbn [load_aux_dbs] in H;
    [intros ? []|].
  destruct (String.eqb_spec c "item") as [->|Hc]; cbn [bind] in H.
  - destruct (load_aux_dbs aux names) eqn:E; [|discriminate]. intros c' [<-|Hin] Hne; [congruence|].
    eapply IH; eauto.
  - destruct (aux c) as [hd|] eqn:Ea; cbn [bind] in H.
    + destruct (nth_res hd 0); cbn [bind] in H; [|discriminate].
      destruct (String.eqb c _); discriminate.
    + destruct (load_aux_dbs aux names) eqn:E; [|discriminate].
      intros c' [<-|Hin] Hne; [exact Ea|]. eapply IH; eauto.
Qed.

(* ------------------------------------------------------------------ *)
(** ** [load] *)

(** The complete lines with their place in the file. *)
Definition numbered (f : file) : list (Z * list cell) :=
  combine (map Z.of_nat (seq 0 (List.length (body f)))) (body f).

Definition kept (mid : list string) (f : file) : list (Z * list cell) :=
  filter (fun p => completeb mid (snd p)) (numbered f).

Lemma map_snd_combine A B (l : list A) (m : list B) :
  List.length l = List.length m -> map snd (combine l m) = m.
Proof.
  revert m. induction l as [|x l IH]; intros [|y m] H; cbn in *; try lia; [reflexivity|].
  f_equal. apply IH. lia.
Qed.

Lemma map_fst_combine A B (l : list A) (m : list B) :
  List.length l = List.length m -> map fst (combine l m) = l.
Proof.
  revert m. induction l as [|x l IH]; intros [|y m] H; cbn in *; try lia; [reflexivity|].
  f_equal. apply IH. lia.
Qed.

Lemma numbered_snd f : map snd (numbered f) = body f.
Proof. unfold numbered. apply map_snd_combine. now rewrite map_length, seq_length. Qed.

Lemma load_eq f aux mid a rest :
  item_header (header f) mid a rest -> distinct_names mid a rest -> rectangular f ->
  load f aux =
  (forest <- load_aux_dbs aux (a :: rest) ;;
   Ok (mk_table (a :: rest) (map (fun p => (fst p, attributes mid (snd p))) (kept mid f)),
       forest,
       mk_table (["file"; "onset"; "offset"]%string ++ mid)
                (map (fun p => (fst p, place mid (snd p))) (kept mid f)))).
Proof.
  intros Hh Hd Hr. unfold load, read_table. cbn [columns lines].
  rewrite (sharps_item _ _ _ _ Hh). cbn [bind fst snd].
  assert (Hcat : String.concat " " (firstn 3 (header f)) = "#file onset offset"%string).
  { destruct Hh as (-> & _). reflexivity. }
  rewrite Hcat, String.eqb_refl.
  cbn [bind List.length Nat.ltb Nat.leb nth Nat.eqb andb columns].
  set (names := ["file"; "onset"; "offset"]%string ++ mid ++ a :: rest).
  set (ls := filter _ (combine _ _)).
  assert (Hlen : List.length names = List.length (header f)).
  { destruct Hh as (-> & _). unfold names. rewrite !app_length. reflexivity. }
  assert (Hw : List.length names = width mid + S (List.length rest)).
  { unfold names, width. rewrite !app_length. cbn. lia. }
  assert (Hls : Forall (fun p => List.length (snd p) = List.length names) ls).
  { apply Forall_forall. intros p Hp. apply filter_In in Hp as (Hp & _).
    unfold rectangular in Hr. rewrite Forall_forall in Hr. rewrite Hlen. apply Hr.
    destruct p as (z & l). now apply in_combine_r in Hp. }
  assert (Hf : firstn (width mid) names = ["file"; "onset"; "offset"]%string ++ mid).
  { unfold names. rewrite app_assoc, firstn_app.
    replace (width mid - _) with 0 by (unfold width; cbn; lia).
    cbn [firstn]. rewrite app_nil_r. apply firstn_all2. unfold width. cbn. lia. }
  assert (Hs : skipn (width mid) names = a :: rest).
  { unfold names. rewrite app_assoc, skipn_app.
    replace (width mid - _) with 0 by (unfold width; cbn; lia).
    rewrite skipn_all2 by (unfold width; cbn; lia). reflexivity. }
  set (t := mk_table names ls).
  change names with (columns t) in Hf, Hs |- *.
  replace (firstn (width mid) (columns t)) with (firstn (width mid) (skipn 0 (columns t)))
    by reflexivity.
  rewrite (select_part t 0 (width mid)) by (cbn [columns lines t]; auto; lia).
  assert (Hsel : select t (skipn (width mid) (columns t)) =
                 mk_table (a :: rest) (map (fun p => (fst p, attributes mid (snd p))) (lines t))).
  { rewrite <- (firstn_all2 (n := S (List.length rest)) (skipn (width mid) (columns t)))
      by (rewrite Hs; cbn; lia).
    rewrite select_part; cbn [columns lines t]; auto; try lia.
    cbn [columns t] in Hs. rewrite Hs. rewrite firstn_all2 by (cbn; lia). f_equal.
    apply map_ext_in. intros p Hp. f_equal. unfold attributes. apply firstn_all2.
    rewrite Forall_forall in Hls. rewrite skipn_length, Hls by exact Hp. lia. }
  rewrite Hsel. cbn [columns lines].
  destruct (load_aux_dbs aux (a :: rest)) as [forest|]; cbn [bind]; [|reflexivity].
  assert (Hmask : map (fun p : Z * list cell => existsb isnull (snd p))
                      (map (fun p : Z * list cell => (fst p, attributes mid (snd p))) (lines t)) =
                  map (fun p => negb (completeb mid (snd p))) (lines t)).
  { rewrite map_map. apply map_ext. intros p. rewrite completeb_isnull, negb_involutive. reflexivity. }
  assert (Hk : filter (fun x => negb (negb (completeb mid (snd x)))) (lines t) = kept mid f).
  { unfold kept, numbered. cbn [lines t]. unfold ls. rewrite filter_filter_and.
    apply filter_ext_in. intros p Hp. rewrite negb_involutive.
    destruct (completeb mid (snd p)) eqn:E; [|now rewrite andb_false_r].
    rewrite andb_true_r. apply negb_true_iff.
    destruct p as (z & l). apply in_combine_r in Hp. cbn [snd] in *.
    unfold rectangular in Hr. rewrite Forall_forall in Hr. specialize (Hr l Hp).
    destruct (forallb isnull l) eqn:En; [|reflexivity]. exfalso.
    rewrite forallb_forall in En. apply completeb_spec in E. unfold complete in E.
    rewrite Forall_forall in E.
    destruct (attributes mid l) as [|c cs] eqn:Ea.
    { assert (Hz : List.length (attributes mid l) = 0) by now rewrite Ea.
      unfold attributes in Hz. rewrite skipn_length in Hz. lia. }
    assert (Hin : In c l).
    { rewrite <- (firstn_skipn (width mid) l). apply in_or_app. right.
      fold (attributes mid l). rewrite Ea. now left. }
    specialize (En c Hin). specialize (E c (or_introl eq_refl)). destruct c; cbn in *; congruence. }
  rewrite Hmask. rewrite !(drop_where_map _ (fun p => p)), Hk.
  cbn [columns lines skipn]. rewrite Hf.
  destruct (existsb (fun b => b) _) eqn:Ee; cbn [columns lines].
  - reflexivity.
  - f_equal. f_equal. f_equal. f_equal. f_equal.
    rewrite <- Hk. symmetry. apply filter_all.
    rewrite <- Ee. clear. induction (lines t) as [|x l IH]; cbn; [reflexivity|].
    rewrite negb_involutive. f_equal. exact IH.
Qed.

Lemma load_ok f aux mid a rest :
  item_header (header f) mid a rest -> distinct_names mid a rest -> rectangular f ->
  no_aux aux (a :: rest) ->
  load f aux =
  Ok (mk_table (a :: rest) (map (fun p => (fst p, attributes mid (snd p))) (kept mid f)),
      map (fun c => Node c []) (a :: rest),
      mk_table (["file"; "onset"; "offset"]%string ++ mid)
               (map (fun p => (fst p, place mid (snd p))) (kept mid f))).
Proof.
  intros Hh Hd Hr Hx. rewrite (load_eq f aux mid a rest Hh Hd Hr), load_aux_none by exact Hx.
  reflexivity.
Qed.

Lemma load_inv f aux r :
  Forall no_space (header f) -> load f aux = Ok r ->
  exists mid a rest, item_header (header f) mid a rest.
Proof.
  intros Hns H. unfold load, read_table in H. cbn [columns lines] in H.
  destruct (String.eqb_spec (String.concat " " (firstn 3 (header f))) "#file onset offset") as [E|];
    cbn [bind] in H; [|discriminate].
  apply join3 in E as (l' & E); [|exact Hns].
  destruct (sharps 0 (header f)) as [[s n]|] eqn:Es; cbn [bind fst snd] in H; [|discriminate].
  destruct (_ && _) in H; cbn [bind] in H; [|discriminate].
  destruct (Nat.eqb_spec (List.length s) 2) as [Hs|]; cbn [bind] in H; [|discriminate].
  destruct s as [|p [|q [|]]]; cbn in Hs; try lia. clear Hs H r.
  destruct (sharps_inv _ _ _ _ Es) as (_ & H1).
  destruct (H1 _ _ eq_refl) as (l1 & b & l2 & El & Hl1 & -> & n' & E2).
  destruct (sharps_inv _ _ _ _ E2) as (_ & H2).
  destruct (H2 _ _ eq_refl) as (l3 & c & l4 & -> & Hl3 & -> & n'' & E3).
  destruct (sharps_inv _ _ _ _ E3) as (H3 & _). specialize (H3 eq_refl).
  rewrite E in El. destruct l1 as [|x l1].
  2:{ injection El as <- _. inversion_clear Hl1 as [|? ? H5 H6].
      destruct H5 as (a' & c' & H5 & Ha'). injection H5 as <- _. destruct Ha'. reflexivity. }
  cbn in El. injection El as <- El.
  destruct l3 as [|x l3]; [discriminate|]. injection El as <- El.
  destruct l3 as [|x l3]; [discriminate|]. injection El as <- El.
  exists l3, c, l4. repeat split; auto.
  - rewrite E, El. reflexivity.
  - inversion_clear Hl3 as [|? ? _ H4]. inversion_clear H4. assumption.
Qed.

Lemma load_no_aux f aux mid a rest r :
  item_header (header f) mid a rest -> distinct_names mid a rest -> rectangular f ->
  load f aux = Ok r -> no_aux aux (a :: rest).
Proof.
  intros Hh Hd Hr H. rewrite (load_eq f aux mid a rest Hh Hd Hr) in H.
  destruct (load_aux_dbs aux (a :: rest)) eqn:E; [|discriminate].
  eapply load_aux_ok; eauto.
Qed.

Lemma load_aux_first aux pre c post h0 h :
  no_aux aux pre -> c <> "item"%string -> aux c = Some (h0 :: h) ->
  load_aux_dbs aux (pre ++ c :: post) = Err (if String.eqb c h0 then TypeError else AssertionError).
Proof.
  unfold no_aux. intros Hn Hc Ha. induction pre as [|x pre IH]; cbn [app load_aux_dbs].
  - destruct (String.eqb_spec c "item"); [congruence|]. rewrite Ha. cbn [nth_res nth_error bind].
    destruct (String.eqb c h0); reflexivity.
  - destruct (String.eqb_spec x "item") as [->|Hx]; cbn [bind].
    + rewrite IH; [reflexivity|]. intros y Hy. apply Hn. now right.
    + rewrite (Hn x); [|now left|exact Hx]. cbn [bind]. rewrite IH; [reflexivity|]. intros y Hy. apply Hn. now right.
Qed.

Lemma load_first_aux f aux mid a rest pre c post h0 h :
  item_header (header f) mid a rest -> distinct_names mid a rest -> rectangular f ->
  a :: rest = pre ++ c :: post -> (forall x, In x pre -> x <> "item"%string -> aux x = None) ->
  c <> "item"%string -> aux c = Some (h0 :: h) ->
  load f aux = Err (if String.eqb c h0 then TypeError else AssertionError).
Proof.
  intros Hh Hd Hr E Hn Hc Ha. rewrite (load_eq f aux mid a rest Hh Hd Hr), E.
  rewrite (load_aux_first aux pre c post h0 h Hn Hc Ha). reflexivity.
Qed.
