(** Lemmas behind the theorems on the progress display. *)
From Coq Require Import Ascii String DecimalString.
From Verif Require Import Prelude Progress Progress_spec.
Set Implicit Arguments.
Local Open Scope string_scope.
Local Open Scope list_scope.

Lemma names_snoc past c :
  names (past ++ [c]) = match c with
                        | Add n _ _ => if in_dec string_dec n (names past) then names past else names past ++ [n]
                        | _ => names past
                        end.
Proof.
  unfold names, added. rewrite flat_map_app, rev_app_distr. cbn [flat_map]. rewrite app_nil_r.
  destruct c; cbn [rev app]; [|reflexivity|reflexivity].
  cbn [nodup]. set (l := rev (flat_map _ past)).
  destruct (in_dec string_dec name l) as [i|i]; destruct (in_dec string_dec name (rev (nodup string_dec l))) as [j|j];
    try reflexivity; exfalso; rewrite <- in_rev, nodup_In in j; contradiction.
Qed.

Lemma names_NoDup past : NoDup (names past).
Proof. unfold names. apply NoDup_rev. apply NoDup_nodup. Qed.

Lemma In_names n past : In n (names past) <-> In n (added past).
Proof. unfold names. rewrite <- in_rev, nodup_In, <- in_rev. reflexivity. Qed.

Lemma put_in {V} n (v : V) (f : string -> V) ns : NoDup ns -> In n ns ->
  dict_put n v (map (fun x => (x, f x)) ns) = map (fun x => (x, if string_dec n x then v else f x)) ns.
Proof.
  induction ns as [|a ns IH]; intros N I; [destruct I|]. inversion N as [|? ? Na Nn]; subst. cbn [map dict_put].
  destruct (String.eqb_spec a n) as [->|E].
  - destruct (string_dec n n) as [_|X]; [|contradiction]. f_equal. apply map_ext_in. intros x Hx.
    destruct (string_dec n x) as [->|]; [contradiction|reflexivity].
  - destruct (string_dec n a) as [->|_]; [contradiction|]. f_equal. apply IH; [exact Nn|].
    destruct I as [->|I]; [contradiction|exact I].
Qed.

Lemma put_new {V} n (v : V) (f : string -> V) ns : ~ In n ns ->
  dict_put n v (map (fun x => (x, f x)) ns) = map (fun x => (x, if string_dec n x then v else f x)) (ns ++ [n]).
Proof.
  induction ns as [|a ns IH]; intros I; cbn [map dict_put app].
  - destruct (string_dec n n); [reflexivity|contradiction].
  - destruct (String.eqb_spec a n) as [->|E]; [exfalso; apply I; left; reflexivity|].
    destruct (string_dec n a) as [->|_]; [contradiction|]. f_equal. apply IH. intros H. apply I. right. exact H.
Qed.

Lemma put_either {V} n (v : V) (f : string -> V) ns : NoDup ns ->
  dict_put n v (map (fun x => (x, f x)) ns) =
  map (fun x => (x, if string_dec n x then v else f x)) (if in_dec string_dec n ns then ns else ns ++ [n]).
Proof. intros N. destruct (in_dec string_dec n ns); [apply put_in|apply put_new]; assumption. Qed.

Lemma get_in {V} n (f : string -> V) ns : In n ns -> dict_get n (map (fun x => (x, f x)) ns) = Ok (f n).
Proof.
  induction ns as [|a ns IH]; intros I; [destruct I|]. cbn [map dict_get].
  destruct (String.eqb_spec a n) as [->|E]; [reflexivity|]. apply IH. destruct I as [->|I]; [contradiction|exact I].
Qed.

Lemma get_out {V} n (f : string -> V) ns : ~ In n ns -> dict_get n (map (fun x => (x, f x)) ns) = Err KeyError.
Proof.
  induction ns as [|a ns IH]; intros I; [reflexivity|]. cbn [map dict_get].
  destruct (String.eqb_spec a n) as [->|E]; [exfalso; apply I; left; reflexivity|]. apply IH. intros H. apply I. right. exact H.
Qed.

(** The object after the calls [past]. *)
Definition holds (tty : bool) (past : list call_) : progress :=
  mk_progress (map (fun n => (n, fst (entry n past))) (names past))
              (map (fun n => (n, snd (entry n past))) (names past))
              (map (fun n => (n, amount n past)) (names past))
              (negb (existsb is_display past)) tty.

Lemma entry_snoc n past c :
  entry n (past ++ [c]) = match c with Add n' m t => if string_dec n' n then (m, t) else entry n past | _ => entry n past end.
Proof. unfold entry. rewrite fold_left_app. destruct c; reflexivity. Qed.

Lemma amount_snoc n past c :
  amount n (past ++ [c]) = match c with
                           | Add n' _ _ => if string_dec n' n then 0%Z else amount n past
                           | Update n' a => if string_dec n' n then (amount n past + a)%Z else amount n past
                           | Display => amount n past
                           end.
Proof. unfold amount. rewrite fold_left_app. destruct c; reflexivity. Qed.

Lemma shown_snoc past c : existsb is_display (past ++ [c]) = existsb is_display past || is_display c.
Proof. rewrite existsb_app. cbn. rewrite orb_false_r. reflexivity. Qed.

Lemma add_holds tty past n m t :
  add_progress (holds tty past) n m t = holds tty (past ++ [Add n m t]).
Proof.
  unfold add_progress, holds. cbn [p_message p_total p_count p_init p_tty].
  rewrite !put_either by apply names_NoDup. rewrite names_snoc, shown_snoc. cbn [is_display]. rewrite orb_false_r.
  f_equal; apply map_ext; intros x; rewrite ?entry_snoc, ?amount_snoc; destruct (string_dec n x); reflexivity.
Qed.

Lemma update_holds tty past n a : In n (added past) ->
  update_progress (holds tty past) n a = Ok (holds tty (past ++ [Update n a])).
Proof.
  intros I. apply In_names in I.
  unfold update_progress, holds. cbn [p_message p_total p_count p_init p_tty].
  rewrite (get_in _ _ _ I). cbn [bind]. rewrite put_in by (auto using names_NoDup).
  rewrite names_snoc, shown_snoc. cbn [is_display]. rewrite orb_false_r.
  do 2 f_equal; apply map_ext; intros x; rewrite ?entry_snoc, ?amount_snoc; try reflexivity.
  destruct (string_dec n x) as [->|]; reflexivity.
Qed.

Lemma update_fails tty past n a : ~ In n (added past) -> update_progress (holds tty past) n a = Err KeyError.
Proof.
  intros I. rewrite <- In_names in I.
  unfold update_progress, holds. cbn [p_message p_total p_count p_init p_tty]. rewrite (get_out _ _ _ I). reflexivity.
Qed.

Lemma sapp_assoc (a b c : string) : ((a ++ b) ++ c = a ++ b ++ c)%string.
Proof. induction a as [|x a IH]; cbn; [reflexivity|]. f_equal. exact IH. Qed.

Lemma sapp_nil (a : string) : (a ++ "" = a)%string.
Proof. induction a as [|x a IH]; cbn; [reflexivity|]. f_equal. exact IH. Qed.

Lemma concat_cons (a : string) l : String.concat "" (a :: l) = (a ++ String.concat "" l)%string.
Proof. destruct l; cbn; [symmetry; apply sapp_nil|reflexivity]. Qed.

Lemma combine_map2 {A B C D} (f : A -> B) (g : A -> C) (h : A -> D) (l : list A) :
  combine (combine (map f l) (map g l)) (map h l) = map (fun x => (f x, g x, h x)) l.
Proof. induction l; cbn; [reflexivity|]. f_equal. assumption. Qed.

Lemma fold_lines {A} (f : A -> string) l m :
  fold_left (fun m x => (m ++ f x)%string) l m = (m ++ String.concat "" (map f l))%string.
Proof.
  revert m. induction l as [|a l IH]; intros m; [cbn; symmetry; apply sapp_nil|]. cbn [fold_left map].
  rewrite IH, concat_cons, sapp_assoc. reflexivity.
Qed.

Lemma display_holds tty past :
  display (holds tty past) = (text_after tty past, holds tty (past ++ [Display])).
Proof.
  unfold display, holds. cbn [p_message p_total p_count p_init p_tty]. f_equal.
  - unfold dict_values. rewrite !map_map. cbn [snd].
    rewrite combine_map2, fold_lines, map_map. unfold text_after. rewrite map_length. f_equal.
    destruct tty, (existsb is_display past); reflexivity.
  - rewrite names_snoc, shown_snoc. cbn [is_display]. rewrite orb_true_r. cbn [negb].
    f_equal; apply map_ext; intros x; rewrite ?entry_snoc, ?amount_snoc; reflexivity.
Qed.

Lemma run_holds tty cs : forall past,
  fst (run_calls (holds tty past) cs) = fst (texts tty past cs) /\
  match snd (run_calls (holds tty past) cs) with
  | Ok p => snd (texts tty past cs) = None /\ p = holds tty (past ++ cs)
  | Err e => snd (texts tty past cs) = Some e
  end.
Proof.
  induction cs as [|c cs IH]; intros past.
  - cbn. rewrite app_nil_r. auto.
  - specialize (IH (past ++ [c])). rewrite <- app_assoc in IH. cbn [app] in IH. destruct c; cbn [run_calls texts].
    + rewrite add_holds. exact IH.
    + destruct (in_dec string_dec name (added past)) as [i|i].
      * rewrite update_holds by exact i. exact IH.
      * rewrite update_fails by exact i. cbn. auto.
    + rewrite display_holds. destruct (run_calls (holds tty (past ++ [Display])) cs) as [o r]. cbn [fst snd] in *.
      destruct IH as [-> IH]. split; [reflexivity|exact IH].
Qed.

Theorem progress_texts (tty : bool) cs :
  fst (run_progress (Ok tty) cs) = fst (texts tty [] cs) /\
  match snd (run_progress (Ok tty) cs) with
  | Ok _ => snd (texts tty [] cs) = None
  | Err e => snd (texts tty [] cs) = Some e
  end.
Proof.
  unfold run_progress, new_progress. cbn [bind].
  replace (mk_progress [] [] [] true (if tty then true else false)) with (holds tty []) by (destruct tty; reflexivity).
  destruct (run_holds tty cs []) as [A B]. split; [exact A|].
  destruct (snd (run_calls (holds tty []) cs)); tauto.
Qed.

(* ------------------------------------------------------------------ *)
(** ** Terminal *)

Definition no_escape (s : string) : Prop := ~ In (ascii_of_nat 27) (list_ascii_of_string s).

Lemma ascii_app a b : list_ascii_of_string (a ++ b)%string = list_ascii_of_string a ++ list_ascii_of_string b.
Proof. induction a; cbn; [reflexivity|]. f_equal. assumption. Qed.

Lemma no_escape_app a b : no_escape a -> no_escape b -> no_escape (a ++ b)%string.
Proof. unfold no_escape. rewrite ascii_app, in_app_iff. tauto. Qed.

Lemma uint_digits d c : In c (list_ascii_of_string (NilEmpty.string_of_uint d)) -> is_digit c = true.
Proof. induction d; cbn; [tauto|..]; (intros [<-|H]; [reflexivity|auto]). Qed.

Lemma decimal_chars z c : In c (list_ascii_of_string (decimal z)) -> c = "-"%char \/ is_digit c = true.
Proof.
  unfold decimal. destruct (Z.to_int z) as [d|d].
  - cbn [NilZero.string_of_int]. unfold NilZero.string_of_uint. destruct d;
      try (intros H; right; apply (uint_digits _ _ H)). cbn. intros [<-|[]]. right. reflexivity.
  - cbn [NilZero.string_of_int list_ascii_of_string]. intros [<-|H]; [left; reflexivity|right]. revert H.
    unfold NilZero.string_of_uint. destruct d; try apply uint_digits. cbn. intros [<-|[]]. reflexivity.
Qed.

Lemma decimal_nat n c : In c (list_ascii_of_string (decimal (Z.of_nat n))) -> is_digit c = true.
Proof.
  unfold decimal. destruct (Z.to_int (Z.of_nat n)) as [d|d] eqn:E.
  - cbn [NilZero.string_of_int]. unfold NilZero.string_of_uint. destruct d;
      try (intros H; apply (uint_digits _ _ H)). cbn. intros [<-|[]]. reflexivity.
  - destruct n; cbn in E; discriminate E.
Qed.

Lemma decimal_plain z : no_escape (decimal z).
Proof. intros H. apply decimal_chars in H as [H|H]; discriminate H. Qed.

Lemma feed_text_app t a b : feed_text t (a ++ b)%string = feed_text (feed_text t a) b.
Proof. unfold feed_text. rewrite ascii_app, fold_left_app. reflexivity. Qed.

Lemma code_27 c : (code c =? 27)%nat = true -> c = ascii_of_nat 27.
Proof. intros H. apply Nat.eqb_eq in H. rewrite <- (ascii_nat_embedding c). unfold code in H. rewrite H. reflexivity. Qed.

(** Text without ESC leaves the terminal out of control sequences. *)
Lemma feed_plain s : forall t, in_mode t = Ground -> no_escape s -> in_mode (feed_text t s) = Ground.
Proof.
  unfold feed_text, no_escape. induction (list_ascii_of_string s) as [|c l IH]; intros t G N; [exact G|].
  cbn [fold_left]. apply IH; [|intros H; apply N; right; exact H].
  destruct t as [ls r k m]. cbn in G. subst m. cbn [feed].
  destruct (code c =? 27)%nat eqn:E; [exfalso; apply N; left; apply code_27; exact E|].
  destruct (code c =? 10)%nat; reflexivity.
Qed.

Lemma feed_params l : forall ls r k ps, forallb is_digit l = true ->
  fold_left feed l (mk_terminal ls r k (Control ps)) = mk_terminal ls r k (Control (ps ++ l)).
Proof.
  induction l as [|c l IH]; intros ls r k ps H; cbn [fold_left]; [rewrite app_nil_r; reflexivity|].
  cbn [forallb] in H. apply andb_prop in H as [Hc H]. cbn [feed].
  assert (E : (48 <=? code c)%nat && (code c <=? 63)%nat = true) by (unfold is_digit in Hc; lia).
  rewrite E, IH by exact H. rewrite <- app_assoc. reflexivity.
Qed.

(** The marker does nothing. *)
Lemma feed_marker n t : in_mode t = Ground -> feed_text t (marker n) = t.
Proof.
  destruct t as [ls r k m]. cbn [in_mode]. intros ->. unfold marker, feed_text.
  cbn [append list_ascii_of_string]. rewrite ascii_app. cbn [list_ascii_of_string].
  cbn [fold_left]. change (feed (mk_terminal ls r k Ground) "027"%char) with (mk_terminal ls r k Escaped).
  change (feed (mk_terminal ls r k Escaped) "["%char) with (mk_terminal ls r k (Control [])).
  change (feed (mk_terminal ls r k (Control [])) "<"%char) with (mk_terminal ls r k (Control ["<"%char])).
  rewrite fold_left_app, feed_params.
  - cbn [fold_left]. cbn [feed app forallb].
    change (code ">"%char) with 62. change (code "A"%char) with 65. cbn [Nat.leb andb].
    change (is_digit "<"%char) with false. cbn. reflexivity.
  - apply forallb_forall. intros c. apply decimal_nat.
Qed.

Lemma entry_plain n past : Forall plain_message past -> no_escape (fst (entry n past)).
Proof.
  induction past as [|c past IH] using rev_ind; intros H; [intros []|].
  apply Forall_app in H as [H H1]. inversion H1; subst. rewrite entry_snoc. destruct c; auto.
  destruct (string_dec name n); [cbn; assumption|auto].
Qed.

Lemma lines_plain past : Forall plain_message past -> no_escape (String.concat "" (lines_after past)).
Proof.
  intros H. unfold lines_after. induction (names past) as [|n ns IH]; [intros []|]. cbn [map]. rewrite concat_cons.
  apply no_escape_app; [|exact IH].
  repeat apply no_escape_app; try apply decimal_plain; try (apply entry_plain; exact H);
    intros Q; cbn in Q; repeat destruct Q as [Q|Q]; try discriminate Q; exact Q.
Qed.

Lemma feed_texts cs : forall past t, Forall plain_message past -> Forall plain_message cs -> in_mode t = Ground ->
  fold_left feed_text (fst (texts true past cs)) t = fold_left feed_text (fst (texts false past cs)) t.
Proof.
  induction cs as [|c cs IH]; intros past t P Q G; [reflexivity|]. inversion Q as [|? ? Qc Qs]; subst.
  assert (P' : Forall plain_message (past ++ [c])) by (apply Forall_app; auto).
  destruct c; cbn [texts]; [auto| |].
  - destruct (in_dec string_dec name (added past)); [auto|reflexivity].
  - cbn [fst fold_left]. unfold text_after. cbn [andb append].
    rewrite feed_text_app.
    assert (E : feed_text t (if existsb is_display past then marker (length (names past)) else "") = t)
      by (destruct (existsb is_display past); [apply feed_marker; exact G|reflexivity]).
    rewrite E. apply IH; auto. apply feed_plain; [exact G|]. apply lines_plain. exact P.
Qed.

Theorem terminal_same cs : Forall plain_message cs ->
  screen (fst (run_progress (Ok true) cs)) = screen (fst (run_progress (Ok false) cs)).
Proof.
  intros H. rewrite !(proj1 (progress_texts _ cs)). unfold screen. f_equal. f_equal.
  apply feed_texts; auto.
Qed.
