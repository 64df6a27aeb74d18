From Coq Require Import List Bool Arith Lia Ascii String FinFun.
From Verif Require Import Prelude ListFacts Text Items.
Import ListNotations.
Local Open Scope nat_scope.
Local Open Scope list_scope.

(* ------------------------------------------------------------------ *)
(** ** Words of the lines written *)

Lemma word_app s t : word s -> word t -> word (s ++ t).
Proof.
  intros (Hs & Hs') (Ht & Ht'). split; [|now apply all_chars_app].
  destruct s; [congruence|discriminate].
Qed.

Lemma word_str n : word (str n).
Proof.
  split; [apply str_nonempty|]. eapply Forall_impl; [|apply str_digit].
  intros c. cbn. intros H. repeat (destruct H as [<-|H]; [reflexivity|]). destruct H.
Qed.

Ltac wordt := split; [discriminate|repeat (apply all_chars_cons; split; [reflexivity|]); constructor].

Lemma test_cell_word base i j : word (test_cell base i j).
Proof.
  unfold test_cell. destruct i as [|i].
  - destruct (Nat.ltb_spec j 4).
    + destruct j as [|[|[|[|]]]]; try lia; wordt.
    + apply word_app; [wordt|apply word_str].
  - destruct (Nat.ltb_spec j 4).
    + destruct j as [|[|[|[|]]]]; try lia; (apply word_app; [wordt|apply word_str]).
    + apply word_str.
Qed.

Lemma named_cell_word base i j : word (named_cell base i j).
Proof.
  unfold named_cell. destruct i as [|i].
  - destruct (Nat.ltb_spec j 4).
    + destruct j as [|[|[|[|]]]]; try lia; wordt.
    + apply word_app; [wordt|apply word_str].
  - destruct (j =? 0); [apply word_app; [wordt|apply word_str]|].
    destruct (_ || _); [wordt|].
    destruct (j =? 3); [apply word_app; [wordt|apply word_str]|].
    apply word_app; [wordt|]. apply word_app; [apply word_str|]. apply word_app; [wordt|apply word_str].
Qed.

Lemma concat_spaced ws : ws <> [] -> Forall word ws ->
  spaced ws (String.concat " " ws ++ newline).
Proof.
  assert (Hnl : all_chars (fun c => blank c = true) newline)
    by (apply all_chars_cons; split; [reflexivity|constructor]).
  intros Hne H. induction H as [|w ws Hw H IH]; [congruence|].
  destruct ws as [|w' ws].
  - cbn. now apply spaced_one.
  - specialize (IH ltac:(discriminate)). cbn [String.concat].
    rewrite !app_assoc_s. apply spaced_cons; auto.
    split; [discriminate|]. apply all_chars_cons. split; [reflexivity|constructor].
Qed.

Lemma split_line ws : ws <> [] -> Forall word ws -> split (String.concat " " ws ++ newline) = ws.
Proof. intros H1 H2. now apply split_spaced, concat_spaced. Qed.

Lemma split_savetxt rows :
  Forall (fun ws => ws <> [] /\ Forall word ws) rows -> map split (savetxt rows) = rows.
Proof.
  unfold savetxt. rewrite map_map. intros H. induction H as [|ws rows (H1 & H2) _ IH]; [reflexivity|].
  cbn [map]. rewrite split_line by auto. now rewrite IH.
Qed.

Lemma cells_words (f : nat -> nat -> string) base n repeats :
  (forall i j, word (f i j)) -> Forall (fun ws => ws <> [] /\ Forall word ws) (cells f base n repeats).
Proof.
  intros Hf. unfold cells. apply Forall_map, Forall_forall. intros i _. split.
  - rewrite Nat.add_comm. discriminate.
  - apply Forall_map, Forall_forall. intros j _. apply Hf.
Qed.

Lemma cells_eq f base n repeats :
  cells f base n repeats =
  map (f 0) (seq 0 (n + 4)) ::
  map (fun i => map (f (S i)) (seq 0 (n + 4))) (seq 0 (base ^ n * (repeats + 1))).
Proof.
  unfold cells. rewrite (Nat.add_comm _ 1). cbn [seq map Nat.add]. f_equal.
  rewrite <- seq_shift, map_map. reflexivity.
Qed.

(** The columns after the four first. *)
Lemma factors_eq (f : nat -> string) n :
  skipn 4 (map f (seq 0 (n + 4))) = map (fun j => f (j + 4)) (seq 0 n).
Proof.
  rewrite (Nat.add_comm n 4). cbn [seq map Nat.add skipn].
  rewrite <- !seq_shift, !map_map. apply map_ext. intros j. f_equal. lia.
Qed.

(* ------------------------------------------------------------------ *)
(** ** Digits *)

Definition digits (base n i : nat) : list nat := map (fun j => i / base ^ j mod base) (seq 0 n).

Fixpoint undigits (base : nat) (v : list nat) : nat :=
  match v with [] => 0 | d :: v' => d + base * undigits base v' end.

Lemma digits_S base n i : base <> 0 -> digits base (S n) i = i mod base :: digits base n (i / base).
Proof.
  intros Hb. unfold digits. cbn [seq map]. f_equal.
  - now rewrite Nat.div_1_r.
  - rewrite <- seq_shift, map_map. apply map_ext. intros j. cbn [Nat.pow].
    rewrite Nat.div_div; auto. now apply Nat.pow_nonzero.
Qed.

Lemma digits_undigits base v : base <> 0 -> Forall (fun d => d < base) v ->
  digits base (List.length v) (undigits base v) = v /\ undigits base v < base ^ List.length v.
Proof.
  intros Hb H. induction H as [|d v Hd H (IH1 & IH2)]; [cbn; auto|].
  cbn [List.length undigits]. split.
  - rewrite digits_S by exact Hb. f_equal.
    + rewrite Nat.mul_comm, Nat.mod_add by exact Hb. now apply Nat.mod_small.
    + rewrite Nat.mul_comm, Nat.div_add by exact Hb. rewrite Nat.div_small by exact Hd. exact IH1.
  - cbn [Nat.pow]. nia.
Qed.

Lemma undigits_digits base n : base <> 0 -> forall i, i < base ^ n ->
  undigits base (digits base n i) = i.
Proof.
  intros Hb. induction n as [|n IH]; intros i Hi; [cbn in *; lia|].
  rewrite digits_S by exact Hb. cbn [undigits]. rewrite IH.
  - rewrite Nat.add_comm. symmetry. now apply Nat.div_mod.
  - apply Nat.div_lt_upper_bound; [exact Hb|]. exact Hi.
Qed.

Lemma digits_mod base n i q : base <> 0 -> digits base n (i + base ^ n * q) = digits base n i.
Proof.
  intros Hb. revert i q. induction n as [|n IH]; intros i q; [reflexivity|].
  rewrite !digits_S by exact Hb. cbn [Nat.pow]. f_equal.
  - replace (i + base * base ^ n * q) with (i + (base ^ n * q) * base) by nia.
    now apply Nat.mod_add.
  - replace (i + base * base ^ n * q) with (i + (base ^ n * q) * base) by nia.
    rewrite Nat.div_add by exact Hb. apply IH.
Qed.

Lemma nodup_map_in A B (f : A -> B) l :
  (forall x y, In x l -> In y l -> f x = f y -> x = y) -> NoDup l -> NoDup (map f l).
Proof.
  intros Hf H. induction H as [|x l Hx H IH]; cbn; constructor.
  - intros Hin. apply in_map_iff in Hin as (y & E & Hy). apply Hx.
    rewrite <- (Hf y x); cbn; auto.
  - apply IH. intros y z Hy Hz. apply Hf; now right.
Qed.

Definition lists_dec := list_eq_dec Nat.eq_dec.

Lemma count_one_block base n v : base <> 0 ->
  List.length v = n -> Forall (fun d => d < base) v ->
  count_occ lists_dec (map (digits base n) (seq 0 (base ^ n))) v = 1.
Proof.
  intros Hb Hn Hv. destruct (digits_undigits base v Hb Hv) as (H1 & H2). rewrite Hn in H1, H2.
  assert (Hin : In v (map (digits base n) (seq 0 (base ^ n)))).
  { apply in_map_iff. exists (undigits base v). split; [exact H1|]. apply in_seq. lia. }
  assert (Hnd : NoDup (map (digits base n) (seq 0 (base ^ n)))).
  { apply nodup_map_in.
    - intros x y Hx Hy E. apply in_seq in Hx, Hy.
      rewrite <- (undigits_digits base n Hb x), <- (undigits_digits base n Hb y) by lia. now rewrite E.
    - apply seq_NoDup. }
  apply NoDup_count_occ' with (decA := lists_dec) (x := v) in Hnd; auto.
Qed.

Lemma seq_blocks B m : seq 0 (B * m) = flat_map (fun q => map (fun i => i + B * q) (seq 0 B)) (seq 0 m).
Proof.
  induction m as [|m IH]; [now rewrite Nat.mul_0_r|].
  rewrite Nat.mul_succ_r, seq_app, IH, seq_S, flat_map_app. cbn [flat_map Nat.add].
  rewrite app_nil_r. f_equal. clear.
  assert (G : forall k s, map (fun i => i + k) (seq s B) = seq (k + s) B).
  { intros k. induction B as [|b IH]; intros s; cbn; [reflexivity|]. rewrite IH.
    f_equal; [lia|]. f_equal. lia. }
  rewrite G. f_equal. lia.
Qed.

Lemma count_blocks base n m v : base <> 0 ->
  List.length v = n -> Forall (fun d => d < base) v ->
  count_occ lists_dec (map (digits base n) (seq 0 (base ^ n * m))) v = m.
Proof.
  intros Hb Hn Hv. rewrite seq_blocks.
  assert (E : map (digits base n)
    (flat_map (fun q => map (fun i => i + base ^ n * q) (seq 0 (base ^ n))) (seq 0 m)) =
    flat_map (fun _ => map (digits base n) (seq 0 (base ^ n))) (seq 0 m)).
  { induction (seq 0 m) as [|q qs IH]; [reflexivity|]. cbn [flat_map]. rewrite map_app, IH. f_equal.
    rewrite map_map. apply map_ext. intros i. now apply digits_mod. }
  rewrite E. assert (Hm : List.length (seq 0 m) = m) by apply seq_length. rewrite <- Hm at 2. clear E Hm.
  induction (seq 0 m) as [|q qs IH]; [reflexivity|]. cbn [flat_map List.length].
  rewrite count_occ_app, IH, count_one_block by auto. reflexivity.
Qed.

(** Counting through an injective translation of the combinations. *)
Definition words_dec := list_eq_dec string_dec.

Lemma count_occ_inj (g : list nat -> list string) (P : list nat -> Prop) :
  (forall x y, P x -> P y -> g x = g y -> x = y) ->
  forall l v, P v -> (forall x, In x l -> P x) ->
  count_occ words_dec (map g l) (g v) = count_occ lists_dec l v.
Proof.
  intros Hg l v Hv. induction l as [|x l IH]; intros Hl; [reflexivity|]. cbn [map].
  assert (Hx : P x) by (apply Hl; now left).
  assert (IH' := IH (fun y Hy => Hl y (or_intror Hy))).
  destruct (lists_dec x v) as [->|Hne].
  - rewrite !count_occ_cons_eq by reflexivity. now rewrite IH'.
  - rewrite !count_occ_cons_neq by auto. exact IH'.
Qed.

Lemma app_inj_s (s t u : string) : (s ++ t)%string = (s ++ u)%string -> t = u.
Proof. induction s; cbn; intros H; [exact H|]. injection H as H. auto. Qed.

Lemma digits_length base n i : List.length (digits base n i) = n.
Proof. unfold digits. now rewrite map_length, seq_length. Qed.

Lemma tl_cells f base n repeats :
  (forall i j, word (f i j)) ->
  map (fun l => skipn 4 (split l)) (tl (savetxt (cells f base n repeats))) =
  map (fun i => map (fun j => f (S i) (j + 4)) (seq 0 n)) (seq 0 (base ^ n * (repeats + 1))).
Proof.
  intros Hf. pose proof (split_savetxt _ (cells_words f base n repeats Hf)) as H.
  rewrite cells_eq in *. cbn [savetxt map tl] in *.
  injection H as _ H. rewrite <- (map_map split (skipn 4)).
  unfold savetxt in H. rewrite H. rewrite map_map. apply map_ext. intros i.
  apply (factors_eq (f (S i)) n).
Qed.

Lemma testitems_balanced base n repeats v :
  List.length v = n -> Forall (fun d => d < base) v ->
  count_occ words_dec (map (fun l => skipn 4 (split l)) (tl (generate_testitems base n repeats)))
            (map str v) = repeats + 1.
Proof.
  intros Hn Hv. unfold generate_testitems. rewrite tl_cells by apply test_cell_word.
  assert (E : map (fun i => map (fun j => test_cell base (S i) (j + 4)) (seq 0 n))
                  (seq 0 (base ^ n * (repeats + 1))) =
              map (map str) (map (digits base n) (seq 0 (base ^ n * (repeats + 1))))).
  { rewrite map_map. apply map_ext. intros i. unfold digits. rewrite map_map. apply map_ext.
    intros j. unfold test_cell. destruct (Nat.ltb_spec (j + 4) 4); [lia|].
    do 4 f_equal. lia. }
  rewrite E. rewrite (count_occ_inj (map str) (fun _ => True)); auto.
  - destruct (Nat.eq_dec base 0) as [->|Hb]; [|now apply count_blocks].
    destruct v as [|d v]; [|inversion Hv; lia]. cbn in Hn. subst n.
    change (0 ^ 0) with 1. rewrite Nat.mul_1_l. clear.
    induction (repeats + 1) as [|m IH]; [reflexivity|].
    rewrite seq_S, map_app, count_occ_app, IH. cbn. destruct (lists_dec [] []); [lia|congruence].
  - intros x y _ _. revert y. induction x as [|a x IH]; intros [|b y]; cbn; try discriminate; [reflexivity|].
    intros [= H1 H2]. apply str_inj in H1. f_equal; auto.
Qed.

(** The value of the factor [j] in the named file. *)
Definition named_value (j d : nat) : string := ("c" ++ str j ++ "_v" ++ str d)%string.

Lemma mapi_inj (g : nat -> nat -> string) :
  (forall j x y, g j x = g j y -> x = y) ->
  forall x y s, map (fun p => g (fst p) (snd p)) (combine (seq s (List.length x)) x) =
                map (fun p => g (fst p) (snd p)) (combine (seq s (List.length y)) y) -> x = y.
Proof.
  intros Hg. induction x as [|a x IH]; intros [|b y] s; cbn; try discriminate; [reflexivity|].
  intros [= H1 H2]. apply Hg in H1. f_equal; eauto.
Qed.

Lemma named_balanced base n repeats v :
  List.length v = n -> Forall (fun d => d < base) v ->
  count_occ words_dec (map (fun l => skipn 4 (split l)) (tl (generate_named_testitems base n repeats)))
            (map (fun p => named_value (fst p) (snd p)) (combine (seq 0 n) v)) = repeats + 1.
Proof.
  intros Hn Hv. unfold generate_named_testitems. rewrite tl_cells by apply named_cell_word.
  set (g := fun x => map (fun p => named_value (fst p) (snd p)) (combine (seq 0 (List.length x)) x)).
  assert (E : map (fun i => map (fun j => named_cell base (S i) (j + 4)) (seq 0 n))
                  (seq 0 (base ^ n * (repeats + 1))) =
              map g (map (digits base n) (seq 0 (base ^ n * (repeats + 1))))).
  { rewrite map_map. apply map_ext. intros i. unfold g. rewrite digits_length.
    assert (G : forall l, combine l (map (fun j => i / base ^ j mod base) l) =
                          map (fun j => (j, i / base ^ j mod base)) l).
    { induction l as [|x l IH]; cbn; [reflexivity|]. now rewrite IH. }
    unfold digits. rewrite G, map_map. apply map_ext. intros j. cbn [fst snd].
    unfold named_cell, named_value.
    destruct (Nat.eqb_spec (j + 4) 0); [lia|]. destruct (Nat.eqb_spec (j + 4) 1); [lia|].
    destruct (Nat.eqb_spec (j + 4) 2); [lia|]. destruct (Nat.eqb_spec (j + 4) 3); [lia|].
    cbn [orb]. replace (j + 4 - 4) with j by lia. reflexivity. }
  rewrite E. replace (map _ (combine (seq 0 n) v)) with (g v) by (unfold g; now rewrite Hn).
  rewrite (count_occ_inj g (fun _ => True)); auto.
  - destruct (Nat.eq_dec base 0) as [->|Hb]; [|now apply count_blocks].
    destruct v as [|d v]; [|inversion Hv; lia]. cbn in Hn. subst n.
    change (0 ^ 0) with 1. rewrite Nat.mul_1_l. clear.
    induction (repeats + 1) as [|m IH]; [reflexivity|].
    rewrite seq_S, map_app, count_occ_app, IH. cbn. destruct (lists_dec [] []); [lia|congruence].
  - intros x y _ _ H. apply (mapi_inj named_value) in H; [exact H|].
    intros j a b Hab. unfold named_value in Hab. apply app_inj_s in Hab.
    apply app_inj_s, app_inj_s in Hab. now apply str_inj.
Qed.

(** The whole tables. *)
Lemma testitems_table base n repeats :
  map split (generate_testitems base n repeats) =
  (["#file"; "onset"; "offset"; "#src"]%string ++ map (fun j => ("c" ++ str j)%string) (seq 0 n)) ::
  map (fun i => [("s" ++ str i)%string; ("n" ++ str i)%string; ("f" ++ str i)%string; ("i" ++ str i)%string] ++
                map str (digits base n i))
      (seq 0 (base ^ n * (repeats + 1))).
Proof.
  unfold generate_testitems. rewrite split_savetxt by (apply cells_words, test_cell_word).
  rewrite cells_eq. f_equal.
  - rewrite (Nat.add_comm n 4). cbn [seq map Nat.add]. cbn [app]. do 4 f_equal.
    rewrite <- !seq_shift, !map_map. apply map_ext. intros j. unfold test_cell.
    replace (S (S (S (S j))) - 4) with j by lia. reflexivity.
  - apply map_ext. intros i. rewrite (Nat.add_comm n 4). cbn [seq map Nat.add]. cbn [app].
    do 4 f_equal. rewrite <- !seq_shift, !map_map. unfold digits. rewrite map_map. apply map_ext.
    intros j. unfold test_cell.
    replace (S (S (S (S j))) - 4) with j by lia. reflexivity.
Qed.

Lemma named_table base n repeats :
  map split (generate_named_testitems base n repeats) =
  (["#file"; "onset"; "offset"; "#item"]%string ++ map (fun j => ("c" ++ str j)%string) (seq 0 n)) ::
  map (fun i => [("s" ++ str i)%string; "0"%string; "0"%string; ("i" ++ str i)%string] ++
                map (fun j => named_value j (i / base ^ j mod base)) (seq 0 n))
      (seq 0 (base ^ n * (repeats + 1))).
Proof.
  unfold generate_named_testitems. rewrite split_savetxt by (apply cells_words, named_cell_word).
  rewrite cells_eq. f_equal.
  - rewrite (Nat.add_comm n 4). cbn [seq map Nat.add]. cbn [app]. do 4 f_equal.
    rewrite <- !seq_shift, !map_map. apply map_ext. intros j. unfold named_cell, named_value.
    replace (S (S (S (S j))) - 4) with j by lia. reflexivity.
  - apply map_ext. intros i. rewrite (Nat.add_comm n 4). cbn [seq map Nat.add]. cbn [app].
    do 4 f_equal. rewrite <- !seq_shift, !map_map. apply map_ext.
    intros j. unfold named_cell, named_value.
    replace (S (S (S (S j))) - 4) with j by lia. reflexivity.
Qed.

Lemma sources_distinct base n repeats :
  NoDup (map (fun l => nth 0 (split l) EmptyString) (tl (generate_testitems base n repeats))) /\
  NoDup (map (fun l => nth 0 (split l) EmptyString) (tl (generate_named_testitems base n repeats))).
Proof.
  pose proof (testitems_table base n repeats) as H1. pose proof (named_table base n repeats) as H2.
  destruct (generate_testitems base n repeats) as [|h1 l1]; [discriminate|].
  destruct (generate_named_testitems base n repeats) as [|h2 l2]; [discriminate|].
  cbn [map tl] in *. injection H1 as _ H1. injection H2 as _ H2.
  assert (G : NoDup (map (fun i => ("s" ++ str i)%string) (seq 0 (base ^ n * (repeats + 1))))).
  { apply FinFun.Injective_map_NoDup; [|apply seq_NoDup]. intros x y H. now apply app_inj_s, str_inj in H. }
  split.
  - rewrite <- (map_map split (fun w => nth 0 w EmptyString)), H1, map_map. exact G.
  - rewrite <- (map_map split (fun w => nth 0 w EmptyString)), H2, map_map. exact G.
Qed.

(* ------------------------------------------------------------------ *)
(** ** [csv_cmp] *)

Lemma csv_cmp_true c1 c2 : csv_cmp (Ok c1) (Ok c2) = Ok true.
Proof. reflexivity. Qed.

(* ------------------------------------------------------------------ *)
(** ** [check] *)

(** The header documented for item files. *)
Definition good_header (cols : list string) : Prop :=
  exists c rest, cols = ["#file"; "onset"; "offset"]%string ++ String "#" c :: rest.

Lemma fold_check files others :
  (forall l, In l others -> In (before " " l) files) <->
  foldM (fun _ line => assert! existsb (String.eqb (before " " line)) files else AssertionError ;;
                       Ok tt) others tt = Ok tt.
Proof.
  induction others as [|l others IH]; cbn [foldM].
  - split; [reflexivity|intros _ ? []].
  - destruct (existsb (String.eqb (before " " l)) files) eqn:E; cbn [bind].
    + rewrite <- IH. split; intros H l' Hl'; [apply H; now right|].
      destruct Hl' as [<-|Hl']; [|auto]. apply existsb_exists in E as (x & Hx & E).
      apply String.eqb_eq in E. congruence.
    + split; [|discriminate]. intros H. exfalso.
      assert (existsb (String.eqb (before " " l)) files = true); [|congruence].
      apply existsb_exists. exists (before " " l). split; [apply H; now left|apply String.eqb_refl].
Qed.

Lemma fold_check_err files others e :
  foldM (fun _ line => assert! existsb (String.eqb (before " " line)) files else AssertionError ;;
                       Ok tt) others tt = Err e -> e = AssertionError.
Proof.
  induction others as [|l others IH]; cbn [foldM]; [discriminate|].
  destruct (existsb _ files); cbn [bind]; [exact IH|congruence].
Qed.

Lemma check_ok first others files :
  check first others files = Ok tt <->
  good_header (split first) /\ forall l, In l others -> In (before " " l) files.
Proof.
  rewrite fold_check. unfold check, good_header.
  destruct (split first) as [|c0 [|c1 [|c2 [|c3 rest]]]]; cbn [List.length Nat.leb nth_res nth_error];
    try (split; [discriminate|intros ((? & ? & ?) & _); discriminate]).
  cbn [nth_res nth_error bind].
  destruct (String.eqb_spec c0 "#file") as [->|H0];
    [|split; [discriminate|intros ((? & ? & [=]) & _); congruence]].
  cbn [nth_res nth_error bind].
  destruct (String.eqb_spec c1 "onset") as [->|H1];
    [|split; [discriminate|intros ((? & ? & [=]) & _); congruence]].
  cbn [nth_res nth_error bind].
  destruct (String.eqb_spec c2 "offset") as [->|H2];
    [|split; [discriminate|intros ((? & ? & [=]) & _); congruence]].
  cbn [nth_res nth_error bind].
  destruct c3 as [|a c3]; cbn [list_ascii_of_string].
  { split; [discriminate|intros ((? & ? & [=]) & _)]. }
  cbn [nth_res nth_error bind].
  destruct (Ascii.eqb_spec a "#") as [->|H3];
    [|split; [discriminate|intros ((? & ? & [=]) & _); congruence]].
  split; [intros H|tauto]. split; [|exact H]. exists c3, rest. reflexivity.
Qed.

Lemma check_err first others files e :
  check first others files = Err e -> Forall (fun c => c <> EmptyString) (split first) ->
  e = AssertionError.
Proof.
  intros H Hne. unfold check in H.
  destruct (split first) as [|c0 [|c1 [|c2 [|c3 rest]]]]; cbn [List.length Nat.leb] in H; try congruence.
  cbn [nth_res nth_error bind] in H.
  destruct (String.eqb c0 "#file"); [|congruence].
  cbn [nth_res nth_error bind] in H.
  destruct (String.eqb c1 "onset"); [|congruence].
  cbn [nth_res nth_error bind] in H.
  destruct (String.eqb c2 "offset"); [|congruence].
  cbn [nth_res nth_error bind] in H.
  destruct c3 as [|a c3]; cbn [list_ascii_of_string] in H.
  { rewrite Forall_forall in Hne. exfalso. apply (Hne EmptyString); cbn; auto. }
  cbn [nth_res nth_error bind] in H.
  destruct (Ascii.eqb a "#"); [|congruence]. eapply fold_check_err; eauto.
Qed.

(** On lines whose first word is followed by a space. *)
Lemma before_spaced w ws g s :
  word w -> spaced ws s -> before " " (w ++ String " " g ++ s)%string = w.
Proof.
  intros (_ & Hw) _.
  change (w ++ String " " g ++ s)%string with (w ++ String " " (g ++ s))%string.
  apply before_app. eapply Forall_impl; [|exact Hw]. intros c Hc ->. discriminate.
Qed.

Lemma before_line w ws : word w -> ws <> [] ->
  before " " (String.concat " " (w :: ws) ++ newline) = w.
Proof.
  intros (_ & Hw) Hne. destruct ws as [|w' ws]; [congruence|].
  cbn [String.concat]. rewrite app_assoc_s. cbn [append].
  apply before_app. eapply Forall_impl; [|exact Hw]. intros c Hc ->. discriminate.
Qed.

Lemma generated_verified base n repeats :
  let '(item, files) := generate_db_and_feat base n repeats in
  check (nth 0 item EmptyString) (tl item) files = Ok tt.
Proof.
  unfold generate_db_and_feat. apply check_ok.
  pose proof (named_table base n repeats) as H.
  unfold generate_named_testitems in *. rewrite cells_eq in *. cbn [savetxt map nth tl] in *.
  injection H as H _. split.
  - rewrite H. exists "item"%string. eexists. reflexivity.
  - intros l Hl. rewrite map_map in Hl. apply in_map_iff in Hl as (i & <- & Hi).
    rewrite (Nat.add_comm n 4). cbn [seq map Nat.add].
    rewrite before_line; [|apply named_cell_word|discriminate].
    unfold generate_features. apply in_map_iff. exists i. auto.
Qed.

Lemma check_sources cols first (rows : list (string * string)) files :
  spaced cols first -> Forall (fun p => word (fst p)) rows ->
  (check first (map (fun p => (fst p ++ String " " (snd p))%string) rows) files = Ok tt <->
   good_header cols /\ forall p, In p rows -> In (fst p) files).
Proof.
  intros Hs Hw. rewrite check_ok, (split_spaced _ _ Hs). rewrite Forall_forall in Hw.
  assert (G : forall p, In p rows -> before " " (fst p ++ String " " (snd p))%string = fst p).
  { intros p Hp. apply before_app. destruct (Hw p Hp) as (_ & H). eapply Forall_impl; [|exact H].
    intros c Hc ->. discriminate. }
  split; intros (H1 & H2); (split; [exact H1|]).
  - intros p Hp. rewrite <- (G p Hp). apply H2. apply in_map_iff. eauto.
  - intros l Hl. apply in_map_iff in Hl as (p & <- & Hp). rewrite (G p Hp). auto.
Qed.

(** A line with tabulations. *)
Definition tab_line : string :=
  ("f1" ++ String "009" ("0" ++ String "009" ("1" ++ String "009" "a")))%string.

Lemma tab_refused :
  check "#file onset offset #phone" [tab_line] ["f1"%string] = Err AssertionError /\
  split tab_line = ["f1"; "0"; "1"; "a"]%string.
Proof. vm_compute. auto. Qed.
