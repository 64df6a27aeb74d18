(** Examples and witnesses for the analysis. *)
From Coq Require Import Ascii String.
From Coq Require Import List ZArith QArith Qround Lia.
From Verif Require Import Prelude Rounding Analyze Analyze_spec.
Import ListNotations.
Local Open Scope string_scope.
Local Open Scope list_scope.
Local Open Scope Z_scope.

(** Two bys; regressors phone (3 levels) and talker (2 levels). *)
Definition ex_indexes := [("phone", ["aa"; "ee"; "oo"]); ("talker", ["t1"; "t2"])].
Definition ex_g0 : by_group string := mk_group U8 2 [[2; 0]; [0; 1]; [2; 0]; [0; 0]; [2; 0]] ["phone"; "talker"] ex_indexes.
Definition ex_g1 : by_group string := mk_group U8 2 [[1; 1]; [1; 1]] ["phone"; "talker"] ex_indexes.
Definition ex_task : analyzed_task string :=
  mk_analyzed ["b0"; "b1"] [(0, 5); (5, 7)]%nat [("b0", ex_g0); ("b1", ex_g1)].
Definition ex_scores : list Z := [1; -1; 0; 1; -1; 1; 0].

Lemma ex_group (rows : list (list Z)) :
  Forall (fun r => exists a b, r = [a; b] /\ 0 <= a < 3 /\ 0 <= b < 2) rows ->
  group_ok (2 ^ 53) (mk_group U8 2 rows ["phone"; "talker"] ex_indexes) [3; 2].
Proof.
  intros F. pose proof (proj1 (Forall_forall _ _) F) as F'. constructor; cbn [g_type g_columns g_names g_indexes g_data]; try reflexivity.
  - discriminate.
  - repeat constructor; cbn; intuition discriminate.
  - intros name [<-|[<-|[]]]; [exists ["aa"; "ee"; "oo"]|exists ["t1"; "t2"]]; cbn; auto.
  - intros r Hin. destruct (F' r Hin) as (a & b & -> & _). reflexivity.
  - intros r j i n Hin. destruct (F' r Hin) as (a & b & -> & Ha & Hb).
    destruct j as [|[|[|j]]]; cbn; intros E1 E2; try discriminate; injection E1 as <-; injection E2 as <-; lia.
  - intros j name n levels. destruct j as [|[|[|j]]]; cbn; intros E1 E2 Hin; try discriminate;
      injection E1 as <-; injection E2 as <-; destruct Hin as [E|[E|[]]]; try discriminate;
      injection E as <-; vm_compute; split; discriminate.
  - vm_compute. discriminate.
Qed.

Lemma ex_g0_ok : group_ok (2 ^ 53) ex_g0 [3; 2].
Proof. apply ex_group. repeat constructor; eexists _, _; (split; [reflexivity|]); lia. Qed.
Lemma ex_g1_ok : group_ok (2 ^ 53) ex_g1 [3; 2].
Proof. apply ex_group. repeat constructor; eexists _, _; (split; [reflexivity|]); lia. Qed.

Lemma ex_analysable : analysable (2 ^ 53) ex_task ex_scores.
Proof.
  constructor.
  - reflexivity.
  - repeat constructor; cbn; intuition discriminate.
  - intros [|[|n]] by_ i j; cbn; intros E1 E2; try (destruct n; discriminate);
      injection E1 as <-; injection E2 as <- <-; (split; [lia|]).
    + exists ex_g0, [3; 2]. split; [auto|]. split; [exact ex_g0_ok|reflexivity].
    + exists ex_g1, [3; 2]. split; [auto|]. split; [exact ex_g1_ok|reflexivity].
Qed.

(** 64 regressors with two levels each. *)
Fixpoint pad (k : nat) : string := match k with O => "" | S k' => String "r" (pad k') end.
Definition many_names : list string := map pad (seq 0 64).
Definition many_rows : list (list Z) := [repeat 1 64; 0 :: repeat 1 63].
Definition many_g : by_group string :=
  mk_group U8 64 many_rows many_names (map (fun n => (n, ["no"; "yes"])) many_names).
Definition many_task : analyzed_task string := mk_analyzed ["b"] [(0, 2)]%nat [("b", many_g)].

Lemma binary_group names rows : NoDup names -> names <> [] ->
  (forall r, In r rows -> length r = length names /\ Forall (fun i => 0 <= i < 2) r) ->
  group_ok (prodZ (repeat 2 (length names)))
    (mk_group U8 (length names) rows names (map (fun n => (n, ["no"; "yes"])) names)) (repeat 2 (length names)).
Proof.
  intros Hn Hne Hr. constructor; cbn [g_type g_columns g_names g_indexes g_data]; auto.
  - rewrite map_map. cbn [fst]. rewrite map_id. exact Hn.
  - intros name Hin. exists ["no"; "yes"]. apply in_map_iff. eauto.
  - apply repeat_length.
  - intros r Hin. apply Hr. exact Hin.
  - intros r j i n Hin E1 E2. apply nth_error_In, repeat_spec in E2. subst n.
    destruct (Hr r Hin) as [_ F]. apply (proj1 (Forall_forall _ _) F). eapply nth_error_In. exact E1.
  - intros j name n levels _ E2 Hin. apply nth_error_In, repeat_spec in E2. subst n.
    apply in_map_iff in Hin. destruct Hin as (x & E & _). injection E as _ <-. vm_compute. split; discriminate.
  - lia.
Qed.

Lemma pads_NoDup k : NoDup (map pad (seq 0 k)).
Proof.
  apply (NoDup_map_inv String.length). rewrite map_map.
  replace (map (fun x => String.length (pad x)) (seq 0 k)) with (seq 0 k); [apply seq_NoDup|].
  rewrite <- (map_id (seq 0 k)) at 1. apply map_ext. intros x. induction x; cbn; congruence.
Qed.

Lemma many_analysable : analysable (2 ^ 64) many_task [1; -1].
Proof.
  constructor.
  - reflexivity.
  - repeat constructor; cbn; intuition discriminate.
  - intros [|n] by_ i j; cbn; intros E1 E2; try (destruct n; discriminate);
      injection E1 as <-; injection E2 as <- <-; (split; [lia|]).
    exists many_g, (repeat 2 64). split; [auto|]. split; [|reflexivity].
    apply (binary_group many_names many_rows).
    + apply pads_NoDup.
    + discriminate.
    + intros r [<-|[<-|[]]]; (split; [reflexivity|]); repeat (constructor; [lia|]); constructor.
Qed.

(** Both combinations are in the same line. *)
Lemma many_lines : exists ln, analyze rnd64 argsort_ins many_task [1; -1] = Ok (many_names, [ln]) /\ l_n ln = 2.
Proof. eexists. split; [vm_compute; reflexivity|reflexivity]. Qed.

Lemma many_refuted :
  analysable (2 ^ 64) many_task [1; -1] /\ nth 0 many_rows [] <> nth 1 many_rows [] /\ g_data many_g = many_rows /\
  exists ln, analyze rnd64 argsort_ins many_task [1; -1] = Ok (many_names, [ln]) /\ l_n ln = 2.
Proof.
  split; [exact many_analysable|]. split; [discriminate|]. split; [reflexivity|]. exact many_lines.
Qed.

(** 54 regressors with two levels each. *)
Definition some_g : by_group string :=
  mk_group U8 54 [repeat 1 54] (map pad (seq 0 54)) (map (fun n => (n, ["no"; "yes"])) (map pad (seq 0 54))).
Definition some_task : analyzed_task string := mk_analyzed ["b"] [(0, 1)]%nat [("b", some_g)].

Lemma some_analysable : analysable (2 ^ 54) some_task [1].
Proof.
  constructor.
  - reflexivity.
  - repeat constructor; cbn; intuition discriminate.
  - intros [|n] by_ i j; cbn; intros E1 E2; try (destruct n; discriminate);
      injection E1 as <-; injection E2 as <- <-; (split; [lia|]).
    exists some_g, (repeat 2 54). split; [auto|]. split; [|reflexivity].
    apply (binary_group (map pad (seq 0 54)) [repeat 1 54]).
    + apply pads_NoDup.
    + discriminate.
    + intros r [<-|[]]; (split; [reflexivity|]); repeat (constructor; [lia|]); constructor.
Qed.

Lemma some_fails : analyze rnd64 argsort_ins some_task [1] = Err IndexError.
Proof. vm_compute. reflexivity. Qed.

Lemma decode_refuted :
  map (map Qfloor) (npdecode rnd64 [mixed_radix (repeat 2 54) (repeat 1 54)] (repeat 2 54)) <> [repeat 1 54].
Proof. vm_compute. discriminate. Qed.
