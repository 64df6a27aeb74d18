(** Small item tables, used by the examples and the counterexamples of Props_Task.v. *)
From Coq Require Import String.
From Verif Require Import Prelude TypeFitting Sampler Task Task_spec.
Set Implicit Arguments.
Open Scope string_scope.
Open Scope list_scope.
Open Scope Z_scope.

(** A line of a table with columns phone, talker, lang and n. *)
Definition ln (p t l n : Z) : row := fun c =>
  if string_dec c "phone" then p else if string_dec c "talker" then t
  else if string_dec c "lang" then l else if string_dec c "n" then n else 0.

Definition ex_cols := ["phone"; "talker"; "lang"; "n"].

Definition ex_db : list row :=
  [ln 1 1 7 0; ln 1 2 7 1; ln 2 1 7 2; ln 2 2 7 4; ln 1 1 8 5; ln 1 2 8 6; ln 2 1 8 7; ln 1 1 7 8;
   ln 1 3 8 9; ln 1 1 5 10; ln 2 1 5 11; ln 1 2 5 12; ln 1 2 7 13; ln 3 3 6 14; ln 2 2 8 77].

Definition no_regressors : regressors := mk_regressors [] [] [] [] [] false.

(** ABX on phone across talker by lang, except lang 5; only numbers below 50; talker of A
    below 3; A is not item number 8; the number of X does not follow that of A. *)
Definition ex_filters : filters :=
  mk_filters (fun r => negb (r "lang" =? 5)) (fun v r => r "n" <? 50) (fun v => v "talker" <? 3)
             (Some (fun v r => negb (r "n" =? 8))) None (Some (fun v r => r "n" <? 100))
             (Some (fun v a b x => negb (x "n" =? a "n" + 1))).

Definition ex_task : task := mk_task "phone" ["talker"] ["lang"] ex_filters no_regressors.

Lemma ex_reads : reads ex_cols ex_filters.
Proof.
  assert (I : forall c, In c ex_cols -> forall r r', agree ex_cols r r' -> r c = r' c) by (intros; auto).
  constructor; cbn [ex_filters f_by f_generic f_oab f_A f_B f_X f_ABX]; intros;
    repeat match goal with
    | H : Some _ = Some _ |- _ => injection H as <-
    | H : None = Some _ |- _ => discriminate H
    end;
    repeat match goal with
    | H : agree ex_cols ?r ?r' |- context [?r ?c] => rewrite (I c ltac:(cbn; tauto) r r' H)
    end; reflexivity.
Qed.

Lemma ex_determined : determined ex_task ex_db.
Proof.
  constructor; cbn [ex_task t_on t_across t_by t_filters ex_filters f_by f_generic f_oab f_A f_B f_X f_ABX]; intros;
    repeat match goal with
    | H : Some _ = Some _ |- _ => injection H as <-
    | H : None = Some _ |- _ => discriminate H
    | H : agree ?l ?r ?r' |- context [?r ?c] => rewrite (H c ltac:(cbn; tauto))
    end; reflexivity.
Qed.

(** Enough for [kept_first]: the lines kept come first in the table. *)
Lemma kept_first_split T l1 l2 :
  forallb (fun r => f_generic (t_filters T) r r) l1 = true ->
  forallb (fun r => negb (f_generic (t_filters T) r r)) l2 = true ->
  kept_first T (l1 ++ l2).
Proof.
  rewrite !forallb_forall. intros H1 H2 k i j ri rj Hij [Hi Ei] [Hj Ej] Kj.
  assert (E : exists m1 m2, by_rows T (l1 ++ l2) k = m1 ++ m2 /\ incl m1 l1 /\ incl m2 l2) .
  { unfold by_rows. destruct (t_by T) as [|c cs].
    - destruct (key_dec k [0]); [exists l1, l2|exists [], []]; (split; [reflexivity|]); split; intros y Hy; auto; destruct Hy.
    - exists (filter (fun r => if key_dec (map r (c :: cs)) k then true else false) l1),
             (filter (fun r => if key_dec (map r (c :: cs)) k then true else false) l2).
      split; [apply filter_app|]. split; intros y Hy; apply filter_In in Hy; tauto. }
  destruct E as (m1 & m2 & E & I1 & I2). rewrite E in *.
  assert (Lj : (Z.to_nat j < length m1)%nat).
  { destruct (Nat.lt_ge_cases (Z.to_nat j) (length m1)) as [|G]; [assumption|].
    rewrite nth_error_app2 in Ej by exact G. apply nth_error_In in Ej. apply I2, H2 in Ej.
    rewrite Kj in Ej. discriminate. }
  rewrite nth_error_app1 in Ei by lia. apply nth_error_In in Ei. apply H1, I1, Ei.
Qed.

Lemma ex_kept_first : kept_first ex_task ex_db.
Proof. exact (kept_first_split ex_task (firstn 14 ex_db) (skipn 14 ex_db) eq_refl eq_refl). Qed.

Definition idk (l : list key) : list key := l.
Definition idz (l : list Z) : list Z := l.
Lemma idk_ok : lists_keys idk.
Proof. intros l. apply Permutation_refl. Qed.
Lemma idz_ok : lists_set idz.
Proof. intros l. apply Permutation_refl. Qed.

(** What generation returns for a task, from the item table. *)
Definition run (R : rng) (fuel : nat) (T : task) (thr : option Z) (db : list row)
  : res (Z * option task_file) :=
  i <- task_init idk idz T ex_cols db ;;
  let '(T', bs, st) := i in
  g <- generate_triplets idk idz argsort_ins R fuel T' thr bs st 0 ;;
  Ok (s_nb_triplets st, snd g).

(** No item number exceeds the number of lines. *)
Lemma storable_small T db hi : Zlen db <= hi + 1 -> storable T db hi.
Proof.
  intros H k a b x (ra & rb & rx & Ha & Hb & Hx & _).
  assert (I : forall i r, item (by_rows T db k) i r -> i <= hi); [|split; [exact (I _ _ Ha)|split; [exact (I _ _ Hb)|exact (I _ _ Hx)]]].
  intros i r [H0 E]. assert (L : (Z.to_nat i < length (by_rows T db k))%nat) by (apply nth_error_Some; congruence).
  assert (L' : (length (by_rows T db k) <= length db)%nat).
  { unfold by_rows. destruct (t_by T) as [|c cs].
    - destruct (key_dec k [0]); cbn; lia.
    - clear. generalize (c :: cs). intros cs'. induction db as [|r db IH]; cbn; [lia|]. destruct (key_dec _ _); cbn; lia. }
  unfold Zlen in H. lia.
Qed.

(** No line is dropped by the generic filters of a group that is kept. *)
Lemma ex_none_emptied : none_emptied ex_task ex_db.
Proof.
  intros k i r [H0 E] _. apply nth_error_In in E. apply filter_In in E as [H1 H2].
  destruct (key_dec (map r ["lang"]) k) as [<-|]; [|discriminate]. clear H2. exists 0.
  repeat (destruct H1 as [<-|H1]; [eexists; split; [split; [lia|vm_compute; reflexivity]|vm_compute; reflexivity]|]).
  destruct H1.
Qed.

(** More than 128 items, two blocks that give one triplet. *)
Definition wide_db : list row := repeat (ln 3 3 7 0) 150 ++ [ln 1 1 7 150; ln 1 2 7 151; ln 2 1 7 152].

(** The first line is dropped by the generic filter. *)
Definition first_dropped : task :=
  mk_task "phone" ["talker"] ["lang"]
    (mk_filters (fun _ => true) (fun v r => negb (r "n" =? 0)) (fun v => v "phone" =? 1) None None None None)
    no_regressors.
Definition dropped_db : list row := [ln 5 5 7 0; ln 1 1 7 1; ln 2 1 7 2; ln 1 2 7 3; ln 2 2 7 4; ln 2 2 7 5].

Lemma first_dropped_reads : reads ex_cols (t_filters first_dropped).
Proof.
  constructor; cbn; intros; try discriminate; try reflexivity.
  - rewrite (H0 "n"); [reflexivity|]. cbn. tauto.
  - rewrite (H "phone"); [reflexivity|]. cbn. tauto.
Qed.

Lemma first_dropped_determined db : determined first_dropped db.
Proof.
  constructor; cbn; intros; try discriminate; try reflexivity.
  rewrite (H2 "phone"); [reflexivity|]. cbn. tauto.
Qed.

(** The same with regressors. *)
Definition ex_regressors : regressors :=
  mk_regressors [("lang", fun v => v "lang")] [("phone_1", fun v => v "phone")] [("n_A", fun v r => r "n")]
                [("phone_B", fun v r => r "phone")] [("talker_X", fun v r => r "talker")] false.
Definition ex_task_reg : task := mk_task "phone" ["talker"] ["lang"] ex_filters ex_regressors.

Lemma ex_reg_determined : determined ex_task_reg ex_db.
Proof. destruct ex_determined as [H1 H2 H3 H4 H5 H6 H7]. constructor; assumption. Qed.
Lemma ex_reg_kept_first : kept_first ex_task_reg ex_db.
Proof. exact ex_kept_first. Qed.
