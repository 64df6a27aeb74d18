(** A lookup table used in the examples. *)
From Coq Require Import Ascii String.
From Coq Require Import List ZArith Lia.
From Verif Require Import Prelude LookupTable LookupTable_spec.
Import ListNotations.
Local Open Scope string_scope.
Local Open Scope list_scope.
Local Open Scope Z_scope.

(** The function of a phone and a talker with the outputs [dist], two numbers, and [label],
    indexed. *)
Definition ex_t (indexed : bool) : table string Z :=
  mk_table indexed true false ["p"; "t"] ["dist"; "label"] ["phone"; "talker"]
    [("phone", ["a"; "e"; "o"]); ("talker", ["s1"; "s2"]); ("label", ["x"; "y"; "z"])] [3; 2] ["label"] None [] [] None.
Definition ex_ws : list nat := [2; 1]%nat.

Definition ex_e1 : entry string Z := mk_entry ["e"; "s2"] [[7; 8]; [2]].
Definition ex_e2 : entry string Z := mk_entry ["a"; "s1"] [[1; 2]; [0]].
Definition ex_e3 : entry string Z := mk_entry ["o"; "s1"] [[5; 6]; [1]].
Definition ex_b0 : inputs string * list (arr Z) * list (entry string Z) :=
  (InNames [("t", ["s2"; "s1"]); ("p", ["e"; "a"])], [Mat 2 [[7; 8]; [1; 2]]; Mat 1 [[2]; [0]]], [ex_e1; ex_e2]).
Definition ex_b1 : inputs string * list (arr Z) * list (entry string Z) :=
  (InCols [["o"]; ["s1"]], [Mat 2 [[5; 6]]; Mat 1 [[1]]], [ex_e3]).

Definition id_int (z : Z) : Z := z.

Lemma ex_new indexed : new_table (ex_t indexed).
Proof.
  constructor; cbn; try reflexivity; try discriminate.
  - repeat constructor; cbn; intuition discriminate.
  - repeat constructor; cbn; intuition discriminate.
  - intros o [<-|[]]. now right; left.
  - repeat constructor; cbn; intuition discriminate.
  - intros s ix H. destruct H as [H|[H|[H|[]]]]; injection H as <- <-; repeat constructor; cbn; intuition discriminate.
  - intros s H. assert (s = "phone" \/ s = "talker" \/ s = "label") as [-> | [-> | ->]] by (cbn in H; intuition).
    + exists ["a"; "e"; "o"]. split; [now left|reflexivity].
    + exists ["s1"; "s2"]. split; [now right; left|reflexivity].
    + exists ["x"; "y"; "z"]. split; [now right; right; left|reflexivity].
  - repeat constructor; intros ix [H|[H|[H|[]]]]; try discriminate; injection H as <-; reflexivity.
Qed.

Ltac positions := match goal with
  | H : nth_error _ ?i = Some _ |- _ => is_var i; destruct i; cbn in H
  end.

Lemma ex_entries indexed e : In e [ex_e1; ex_e2; ex_e3] -> entry_ok id_int (ex_t indexed) ex_ws e.
Proof.
  intros H. assert (K : known (ex_t indexed) (e_in e)).
  { intros i ty ix l A B D. destruct i as [|[|i]]; [| |destruct i; discriminate]; injection A as <-; destruct B as [B|[B|[B|[]]]]; try discriminate; injection B as <-;
      destruct H as [<-|[<-|[<-|[]]]]; injection D as <-; cbn; auto. }
  split; [exact K|]. split; [destruct H as [<-|[<-|[<-|[]]]]; reflexivity|].
  intros i o ix r c A B D E F. destruct B as [<-|[]]. destruct i as [|[|i]]; [discriminate| |destruct i; discriminate].
  destruct D as [D|[D|[D|[]]]]; try discriminate; injection D as <-. unfold id_int.
  destruct H as [<-|[<-|[<-|[]]]]; injection E as <-; destruct F as [<-|[]]; cbn; lia.
Qed.

Lemma ex_batch0 indexed : batch_ok id_int (ex_t indexed) ex_ws ex_b0.
Proof.
  split; [|split].
  - split; [repeat constructor|]. split; [repeat constructor; cbn; intuition discriminate|]. intros i name H.
    destruct i as [|[|i]]; [| |destruct i; discriminate]; injection H as <-; eexists; (split; [cbn; intuition reflexivity|reflexivity]).
  - split; [reflexivity|]. intros i o H. destruct i as [|[|i]]; [| |destruct i; discriminate]; injection H as <-; eexists _, _;
      (split; [reflexivity|]; split; [reflexivity|]; split; [split; reflexivity|]; intros _; eexists; reflexivity).
  - apply Forall_forall. intros e He. apply ex_entries. cbn in *. intuition.
Qed.

Lemma ex_batch1 indexed : batch_ok id_int (ex_t indexed) ex_ws ex_b1.
Proof.
  split; [|split].
  - split; [repeat constructor|]. intros i H. destruct i as [|[|i]]; [| |cbn in H; lia]; eexists; (split; reflexivity).
  - split; [reflexivity|]. intros i o H. destruct i as [|[|i]]; [| |destruct i; discriminate]; injection H as <-; eexists _, _;
      (split; [reflexivity|]; split; [reflexivity|]; split; [split; reflexivity|]; intros _; eexists; reflexivity).
  - apply Forall_forall. intros e He. apply ex_entries. cbn in *. intuition.
Qed.

Definition ex_filled (indexed : bool) : table string Z :=
  fst (fill_all string_dec 0 id_int (ex_t indexed) (map (@arguments _ _) [ex_b0; ex_b1])).
Definition ex_packed (indexed : bool) : table string Z := fst (pack argsort_ins (ex_filled indexed)).

(** Queries. *)
Definition ex_q : inputs string := InCols [["o"; "e"; "o"]; ["s1"; "s2"; "s1"]].
Lemma ex_q_holds indexed : holds_inputs (ex_t indexed) ex_q [["o"; "s1"]; ["e"; "s2"]; ["o"; "s1"]].
Proof. split; [repeat constructor|]. intros i H. destruct i as [|[|i]]; [| |cbn in H; lia]; eexists; (split; reflexivity). Qed.

Definition ex_one (p t : string) : inputs string := InCols [[p]; [t]].
Lemma ex_one_holds indexed p t : holds_inputs (ex_t indexed) (ex_one p t) [[p; t]].
Proof. split; [repeat constructor|]. intros i H. destruct i as [|[|i]]; [| |cbn in H; lia]; eexists; (split; reflexivity). Qed.

Lemma ex_known indexed p t : In p ["a"; "e"; "o"] -> In t ["s1"; "s2"] -> known (ex_t indexed) [p; t].
Proof.
  intros Hp Ht i ty ix l A B D. destruct i as [|[|i]]; [| |destruct i; discriminate]; injection A as <-; injection D as <-;
    destruct B as [B|[B|[B|[]]]]; try discriminate; injection B as <-; assumption.
Qed.

(** (o, s2) comes after the three entries, (e, s1) does not. *)
Lemma ex_after indexed : after_all (ex_t indexed) [ex_e1; ex_e2; ex_e3] ["o"; "s2"].
Proof.
  assert (P : forall q ds, at_positions (ex_t indexed) q ds -> exists a b c d, q = [a; b] /\ ds = [c; d] /\
      nth_error ["a"; "e"; "o"] c = Some a /\ nth_error ["s1"; "s2"] d = Some b).
  { intros q ds [F L]. destruct q as [|a [|b [|? ?]]], ds as [|c [|d [|? ?]]]; try discriminate; inversion F as [|? ? ? ? F1 F2]; subst; inversion F2 as [|? ? ? ? F3 F4]; subst; try (inversion F4; fail).
    exists a, b, c, d. split; [reflexivity|]. split; [reflexivity|]. cbn in F1, F3. split; [apply F1|apply F3]; cbn; auto. }
  intros e He ds ds' A B. destruct (P _ _ B) as (a & b & c & d & E & -> & N1 & N2). injection E as <- <-.
  destruct (P _ _ A) as (a' & b' & c' & d' & E' & -> & N3 & N4).
  assert (c = 2%nat) as -> by (destruct c as [|[|[|[|c]]]]; cbn in N1; congruence).
  assert (d = 1%nat) as -> by (destruct d as [|[|[|d]]]; cbn in N2; congruence).
  cbn. destruct He as [<-|[<-|[<-|[]]]]; cbn in E'; injection E' as <- <-;
  (destruct c' as [|[|[|[|c']]]]; cbn in N3; try congruence; destruct d' as [|[|[|d']]]; cbn in N4; try congruence); auto with arith.
Qed.

Lemma ex_not_after indexed : ~ after_all (ex_t indexed) [ex_e1; ex_e2; ex_e3] ["e"; "s1"].
Proof.
  intros A. specialize (A ex_e1 (or_introl eq_refl) [1; 1]%nat [1; 0]%nat).
  assert (X : forall b, In b [(1, "s2"); (0, "s1")]%nat -> at_positions (ex_t indexed) ["e"; snd b] [1; fst b]%nat).
  { intros b Hb. split; [|reflexivity]. repeat constructor; cbn; intros ix [H|[H|[H|[]]]]; try discriminate; injection H as <-; cbn; [reflexivity|].
    destruct Hb as [<-|[<-|[]]]; reflexivity. }
  specialize (A (X (1%nat, "s2") (or_introl eq_refl)) (X (0%nat, "s1") (or_intror (or_introl eq_refl)))). cbn in A.
  destruct A as [[[]|[_ A]]|[A _]]; [lia|discriminate].
Qed.

Lemma failed_fill : exists (t : table string Z) b failed b', new_table t /\
  batch_ok id_int t ex_ws b /\ batch_ok id_int t ex_ws b' /\
  let t1 := fst (fill string_dec 0 id_int true t (fst (fst b)) (OutCols (snd (fst b))) false) in
  let o2 := fill string_dec 0 id_int true t1 (ex_one "a" "s2") failed true in
  let t3 := fst (fill string_dec 0 id_int true (fst o2) (fst (fst b')) (OutCols (snd (fst b'))) true) in
  snd o2 = Some AttributeError /\
  evaluate string_dec (fst (pack argsort_ins t3)) (ex_one "a" "s2") = Ok [ACells _ [[0; 0]]; APositions _ _ [[0]]].
Proof.
  exists (ex_t true), ex_b0, (OutNames [("dist", Mat 2 [[3; 4]]); ("label", Mat 1 [[2]])]), ex_b1.
  split; [exact (ex_new true)|]. split; [exact (ex_batch0 true)|]. split; [exact (ex_batch1 true)|]. vm_compute. split; reflexivity.
Qed.
