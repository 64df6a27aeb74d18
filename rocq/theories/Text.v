(** Texts: the Python string operations used by the modules that read or write names. *)

From Coq Require Import List Bool Arith Lia Ascii String Decimal DecimalNat DecimalString.
Import ListNotations.
Local Open Scope nat_scope.
Local Open Scope list_scope.
Local Open Scope string_scope.

(** [str(n)] for a natural number. *)
Definition str (n : nat) : string := NilEmpty.string_of_uint (Nat.to_uint n).

(** White space, as [str.split()] sees it (ASCII). *)
Definition blank (c : ascii) : bool :=
  existsb (Ascii.eqb c) [" "; "009"; "010"; "011"; "012"; "013"]%char.

Arguments blank : simpl never.

(** [s.split(c)[0]]: the text before the first [c]. *)
Fixpoint before (c : ascii) (s : string) : string :=
  match s with
  | EmptyString => EmptyString
  | String a s' => if Ascii.eqb a c then EmptyString else String a (before c s')
  end.

(** [s.split()]; [cur] is the word being read, reversed by [append]. *)
Fixpoint split_from (cur : string) (s : string) : list string :=
  match s with
  | EmptyString => match cur with EmptyString => [] | _ => [cur] end
  | String a s' =>
    if blank a
    then match cur with EmptyString => split_from EmptyString s'
                   | _ => cur :: split_from EmptyString s' end
    else split_from (cur ++ String a EmptyString) s'
  end.
Definition split (s : string) : list string := split_from EmptyString s.

(** The last position of [c] plus one, 0 if there is none ([s.rfind(c) + 1]). *)
Fixpoint rfind1 (c : ascii) (s : string) : nat :=
  match s with
  | EmptyString => 0
  | String a s' =>
    match rfind1 c s' with
    | 0 => if Ascii.eqb a c then 1 else 0
    | S k => S (S k)
    end
  end.

(** [os.path.splitext(p)[0]] on a posix system: the text before the last dot of the last
    component of the path, unless that component has only dots before it. *)
Definition splitext (p : string) : string :=
  let sep := rfind1 "/" p in
  let dot := rfind1 "." p in
  if Nat.ltb sep dot
     && negb (forallb (Ascii.eqb ".") (list_ascii_of_string (substring sep (dot - 1 - sep) p)))
  then substring 0 (dot - 1) p
  else p.

(* ------------------------------------------------------------------ *)

Definition all_chars (P : ascii -> Prop) (s : string) : Prop := Forall P (list_ascii_of_string s).

Lemma all_chars_cons P a s : all_chars P (String a s) <-> P a /\ all_chars P s.
Proof. unfold all_chars. cbn. split; intros H; [inversion_clear H; auto|constructor; tauto]. Qed.

Lemma all_chars_app P s t : all_chars P (s ++ t) <-> all_chars P s /\ all_chars P t.
Proof.
  induction s as [|a s IH]; cbn; [unfold all_chars; cbn; intuition|].
  rewrite !all_chars_cons, IH. tauto.
Qed.

Lemma app_assoc_s (s t u : string) : ((s ++ t) ++ u) = (s ++ (t ++ u)).
Proof. induction s; cbn; [reflexivity|]. now rewrite IHs. Qed.

Lemma app_nil_s (s : string) : (s ++ "") = s.
Proof. induction s; cbn; [reflexivity|]. now rewrite IHs. Qed.

Lemma str_digit n : all_chars (fun c => In c (list_ascii_of_string "0123456789")) (str n).
Proof.
  unfold str. induction (Nat.to_uint n); cbn; rewrite ?all_chars_cons;
    try (split; [|exact IHu]); cbn; auto 20. constructor.
Qed.

Lemma str_inj n m : str n = str m -> n = m.
Proof.
  unfold str. intros H.
  assert (E : Some (Nat.to_uint n) = Some (Nat.to_uint m)).
  { rewrite <- (NilEmpty.usu (Nat.to_uint n)), <- (NilEmpty.usu (Nat.to_uint m)). now rewrite H. }
  injection E as E. rewrite <- (Unsigned.of_to n), <- (Unsigned.of_to m). now rewrite E.
Qed.

Lemma to_uint_nonnil n : Nat.to_uint n <> Decimal.Nil.
Proof.
  intros E. assert (H := Unsigned.to_of (Nat.to_uint n)). rewrite Unsigned.of_to in H.
  rewrite E in H. cbn in H. discriminate.
Qed.

Lemma str_nonempty n : str n <> EmptyString.
Proof.
  unfold str. pose proof (to_uint_nonnil n) as H. destruct (Nat.to_uint n); cbn; congruence.
Qed.

Lemma before_app c s t :
  all_chars (fun a => a <> c) s -> before c (s ++ String c t) = s.
Proof.
  induction s as [|a s IH]; cbn; intros H.
  - now rewrite Ascii.eqb_refl.
  - apply all_chars_cons in H as (Ha & H). destruct (Ascii.eqb_spec a c); [contradiction|].
    now rewrite IH.
Qed.

Lemma before_all c s : all_chars (fun a => a <> c) s -> before c s = s.
Proof.
  induction s as [|a s IH]; cbn; intros H; [reflexivity|].
  apply all_chars_cons in H as (Ha & H). destruct (Ascii.eqb_spec a c); [contradiction|].
  now rewrite IH.
Qed.

(** Words separated by blanks. *)
Definition word (s : string) : Prop := s <> EmptyString /\ all_chars (fun c => blank c = false) s.
Definition gap (s : string) : Prop := s <> EmptyString /\ all_chars (fun c => blank c = true) s.

Inductive spaced : list string -> string -> Prop :=
| spaced_one w e : word w -> all_chars (fun c => blank c = true) e -> spaced [w] (w ++ e)
| spaced_cons w g ws s : word w -> gap g -> spaced ws s -> spaced (w :: ws) (w ++ g ++ s).

Lemma split_word cur w t : word w -> split_from cur (w ++ t) = split_from (cur ++ w) t.
Proof.
  intros (_ & H). revert cur. induction w as [|a w IH]; intros cur; cbn.
  - now rewrite app_nil_s.
  - apply all_chars_cons in H as (Ha & H). rewrite Ha, IH by exact H.
    now rewrite app_assoc_s.
Qed.

Lemma split_blanks g t : all_chars (fun c => blank c = true) g ->
  split_from EmptyString (g ++ t) = split_from EmptyString t.
Proof.
  induction g as [|a g IH]; cbn; intros H; [reflexivity|].
  apply all_chars_cons in H as (Ha & H). rewrite Ha. now apply IH.
Qed.

Lemma split_spaced ws s : spaced ws s -> split s = ws.
Proof.
  unfold split. induction 1 as [w e Hw He|w g ws s Hw Hg Hs IH].
  - rewrite split_word by exact Hw. cbn [append].
    destruct w as [|a w]; [destruct Hw; congruence|].
    destruct e as [|b e]; [reflexivity|]. apply all_chars_cons in He as (Hb & He).
    cbn. rewrite Hb. f_equal. rewrite <- (app_nil_s e), split_blanks by exact He. reflexivity.
  - rewrite split_word by exact Hw. cbn [append].
    destruct w as [|a w]; [destruct Hw; congruence|].
    destruct Hg as (Hg & Hb). destruct g as [|b g]; [congruence|].
    apply all_chars_cons in Hb as (Hb & Hgs). cbn. rewrite Hb. f_equal.
    now rewrite split_blanks.
Qed.

(** ** Paths *)

Lemma rfind1_none c s : all_chars (fun a => a <> c) s -> rfind1 c s = 0.
Proof.
  induction s as [|a s IH]; cbn; intros H; [reflexivity|].
  apply all_chars_cons in H as (Ha & H). rewrite IH by exact H.
  destruct (Ascii.eqb_spec a c); [contradiction|reflexivity].
Qed.

Lemma rfind1_le c s : (rfind1 c s <= String.length s)%nat.
Proof.
  induction s as [|a s IH]; cbn; [lia|]. destruct (rfind1 c s); [destruct (Ascii.eqb a c)|]; lia.
Qed.

Lemma rfind1_app c s t : all_chars (fun a => a <> c) t ->
  rfind1 c (s ++ t) = rfind1 c s.
Proof.
  intros H. induction s as [|a s IH]; cbn; [now apply rfind1_none|]. now rewrite IH.
Qed.

Lemma rfind1_last c s : rfind1 c (s ++ String c EmptyString) = S (String.length s).
Proof.
  induction s as [|a s IH]; cbn; [now rewrite Ascii.eqb_refl|]. rewrite IH. reflexivity.
Qed.

Lemma append_length s t : String.length (s ++ t) = String.length s + String.length t.
Proof. induction s; cbn; auto. Qed.

Lemma substring_prefix s t : substring 0 (String.length s) (s ++ t) = s.
Proof. induction s; cbn; [destruct t; reflexivity|]. now rewrite IHs. Qed.

Lemma substring_skip s t n m : String.length s = n -> substring n m (s ++ t) = substring 0 m t.
Proof.
  intros <-. induction s; cbn; [reflexivity|]. exact IHs.
Qed.

(** [dir] is empty or ends with a slash. *)
Definition folder (dir : string) : Prop :=
  dir = EmptyString \/ exists d, dir = (d ++ "/").

Lemma splitext_ext dir stem ext :
  folder dir ->
  all_chars (fun c => c <> "/"%char) stem -> ~ all_chars (fun c => c = "."%char) stem ->
  all_chars (fun c => c <> "/"%char /\ c <> "."%char) ext ->
  splitext (dir ++ stem ++ "." ++ ext) = (dir ++ stem).
Proof.
  intros Hd Hs Hn He.
  assert (He1 : all_chars (fun c => c <> "."%char) ext).
  { revert He. apply Forall_impl. tauto. }
  assert (He2 : all_chars (fun c => c <> "/"%char) ext).
  { revert He. apply Forall_impl. tauto. }
  set (p := (dir ++ stem ++ "." ++ ext)).
  assert (Hdot : rfind1 "." p = S (String.length (dir ++ stem))).
  { unfold p. change ("." ++ ext) with (String "." "" ++ ext).
    rewrite <- !app_assoc_s. rewrite rfind1_app by exact He1. now rewrite rfind1_last. }
  assert (Hsep : rfind1 "/" p = String.length dir).
  { unfold p. rewrite <- app_assoc_s. rewrite app_assoc_s.
    assert (H1 : all_chars (fun c => c <> "/"%char) (stem ++ "." ++ ext)).
    { rewrite !all_chars_app. repeat split; auto. apply all_chars_cons. split; [discriminate|constructor]. }
    rewrite rfind1_app by exact H1.
    destruct Hd as [->|(d & ->)]; [reflexivity|]. rewrite rfind1_last, append_length. cbn. lia. }
  unfold splitext. rewrite Hdot, Hsep.
  assert (Hlt : Nat.ltb (String.length dir) (S (String.length (dir ++ stem))) = true).
  { apply Nat.ltb_lt. rewrite append_length. lia. }
  rewrite Hlt. cbn [andb].
  replace (S (String.length (dir ++ stem)) - 1) with (String.length (dir ++ stem)) by lia.
  assert (Hmid : substring (String.length dir) (String.length (dir ++ stem) - String.length dir) p
                 = stem).
  { unfold p. rewrite substring_skip by reflexivity. rewrite append_length.
    replace (String.length dir + String.length stem - String.length dir)
      with (String.length stem) by lia. apply substring_prefix. }
  rewrite Hmid.
  assert (Hall : forallb (Ascii.eqb ".") (list_ascii_of_string stem) = false).
  { destruct (forallb _ _) eqn:E; [|reflexivity]. exfalso. apply Hn. unfold all_chars.
    rewrite forallb_forall in E. apply Forall_forall. intros c Hc. specialize (E c Hc).
    apply Ascii.eqb_eq in E. congruence. }
  rewrite Hall. cbn [negb]. unfold p. rewrite <- app_assoc_s. apply substring_prefix.
Qed.
