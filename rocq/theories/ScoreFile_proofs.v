(** The score file after any scoring, complete or not. *)
From Coq Require Import String.
From Coq Require Import List ZArith QArith Lia.
From Verif Require Import Prelude TypeFitting Sampler Pairs Distances Score Score_spec Score_proofs Score_ex Rounding.
Import ListNotations.
Local Open Scope string_scope.
Local Open Scope list_scope.
Local Open Scope Z_scope.

(** A score: 1 when X is closer to A, -1 when it is closer to B, 0 otherwise. *)
Definition is_score (s : Z) : Prop := s = 1 \/ s = -1 \/ s = 0.

Section ScoreFile.
Variable V : Type.
Variable vlt : V -> V -> bool.
Variable rnd : Q -> Q.
Variable rlen : Z -> nat.
Variable stem : string -> string.

Lemma score_rows_shape t base pairs (dis : list V) rows s : score_rows vlt rnd t base pairs dis rows = Ok s ->
  length s = length rows /\ Forall is_score s.
Proof.
  unfold score_rows. intros H. apply bind_ok in H as (dA & HA & H). apply bind_ok in H as (dB & HB & H). injection H as <-.
  assert (L : forall f ds, gather dis (find_pairs rnd t pairs (map f rows)) = Ok ds -> length ds = length rows).
  { intros f ds G. unfold gather in G. apply mapM_length in G. rewrite G. unfold find_pairs. destruct t; rewrite !map_length; reflexivity. }
  split.
  - rewrite map_length, combine_length, (L _ _ HA), (L _ _ HB). lia.
  - apply Forall_forall. intros z Hz. apply in_map_iff in Hz as (d & <- & _). unfold is_score, int8.
    destruct (vlt (fst d) (snd d)), (vlt (snd d) (fst d)); lia.
Qed.

Lemma score_blocks_shape t base pairs (dis : list V) blocks : forall start scores,
  Forall is_score scores ->
  length (fst (score_blocks vlt rnd t base pairs dis start blocks scores)) = length scores /\
  Forall is_score (fst (score_blocks vlt rnd t base pairs dis start blocks scores)).
Proof.
  induction blocks as [|rows blocks IH]; intros start scores F0; cbn; [auto|].
  destruct (score_rows vlt rnd t base pairs dis rows) as [s|e] eqn:S; cbn; [|auto].
  destruct (Nat.leb_spec (start + length rows) (length scores)) as [L|L]; cbn; [|auto].
  apply score_rows_shape in S as (S1 & S2).
  assert (Q : length (splice start s scores) = length scores) by (apply splice_length; lia).
  rewrite <- Q. apply IH. unfold splice. rewrite !Forall_app.
  pose proof F0 as F. rewrite <- (firstn_skipn start scores) in F. apply Forall_app in F as (F1 & _).
  split; [exact F1|]. split; [exact S2|].
  assert (G : Forall is_score (firstn (start + length s) scores ++ skipn (start + length s) scores)).
  { rewrite firstn_skipn. exact F0. }
  apply Forall_app in G. apply G.
Qed.

Lemma score_bys_shape T (dis : list V) bys : forall n scores, Forall is_score scores ->
  length (fst (score_bys vlt rnd rlen T dis n bys scores)) = length scores /\
  Forall is_score (fst (score_bys vlt rnd rlen T dis n bys scores)).
Proof.
  induction bys as [|b bys IH]; intros n scores F; cbn; [auto|].
  assert (S : length (fst (score_by vlt rnd rlen T dis n b scores)) = length scores /\
              Forall is_score (fst (score_by vlt rnd rlen T dis n b scores))).
  { unfold score_by. destruct (by_data rlen T dis n b) as [[[[[[t base] pairs] d] start] blocks]|]; [|auto]. apply score_blocks_shape, F. }
  destruct (score_by vlt rnd rlen T dis n b scores) as [scores' [e|]]; cbn in *; [exact S|].
  destruct S as (S1 & S2). rewrite <- S1. apply IH, S2.
Qed.

Lemma score_shape (k : disk V) task_file distance_file score_file T k' r :
  lookup (k_tasks k) task_file = Ok T -> there k distance_file ->
  ~ there k (score_name stem task_file distance_file score_file) ->
  score vlt rnd rlen stem k task_file distance_file score_file = (k', r) ->
  exists scores, lookup (k_scores k') (score_name stem task_file distance_file score_file) = Ok scores /\
    length scores = length (sc_triplets T) /\ Forall is_score scores.
Proof.
  intros HT HD HS H. unfold score in H.
  assert (P1 : exists_file k task_file = true).
  { apply exists_file_spec. left. clear -HT. induction (k_tasks k) as [|[n v] l IH]; cbn in *; [discriminate|].
    destruct (String.eqb_spec n task_file) as [->|]; [left; reflexivity|right; apply IH, HT]. }
  apply exists_file_spec in HD. rewrite P1, HD in H. cbn [negb] in H.
  destruct (exists_file k (score_name _ _ _ _)) eqn:P3; [exfalso; apply HS, exists_file_spec, P3|]. rewrite HT in H.
  set (r0 := match sc_bys T with [] => _ | _ => _ end) in H. injection H as <- _. cbn [k_scores]. exists (fst r0).
  split; [cbn; rewrite String.eqb_refl; reflexivity|].
  assert (Z : Forall is_score (repeat 0 (length (sc_triplets T)))).
  { apply Forall_forall. intros z Hz. apply repeat_spec in Hz. subst z. right. right. reflexivity. }
  assert (L : length (repeat 0 (length (sc_triplets T))) = length (sc_triplets T)) by apply repeat_length.
  unfold r0. destruct (sc_bys T) as [|b bs]; [cbn; auto|]. destruct (lookup (k_distances k) distance_file) as [dis|]; [|cbn; auto].
  pose proof (score_bys_shape T dis (b :: bs) 0%nat _ Z) as S. rewrite L in S. exact S.
Qed.
End ScoreFile.

(** The distances of the second by are missing. *)
Definition cut_disk : disk Z := mk_disk [("t.abx", ex_scored)] [("d.distance", firstn 5 ex_dist)] [] [].
Definition cut_run := score Z.ltb rnd64 (fun _ => 3%nat) (fun s => s) cut_disk "t.abx" "d.distance" (Some "s.score").

Lemma cut_refuted :
  snd cut_run = Err IndexError /\ lookup (k_scores (fst cut_run)) "s.score" = Ok [-1; 1; -1; 0; 0; 0].
Proof. split; vm_compute; reflexivity. Qed.
