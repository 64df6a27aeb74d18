(** Scores of triplets with a distance that is not a number. *)
From Coq Require Import String.
From Coq Require Import List ZArith QArith.
From Verif Require Import Prelude TypeFitting Sampler Pairs Pairs_spec Rounding Distances Score Score_spec
     Score_proofs Task Outputs Score_ex.
Import ListNotations.
Open Scope Z_scope.
Open Scope string_scope.
Open Scope list_scope.

Theorem nan_ties V (vlt : V -> V -> bool) (rnd : Q -> Q) (rlen : Z -> nat) (stem : string -> string) nan :
    exact53 rnd -> (forall z, (0 < rlen z)%nat) ->
    (forall d d', vlt d d' = true -> vlt d' d = false) ->
    (forall d, vlt nan d = false /\ vlt d nan = false) ->
  forall (k : disk V) task_file distance_file score_file T dis,
    lookup (k_tasks k) task_file = Ok T -> lookup (k_distances k) distance_file = Ok dis ->
    scorable T dis -> ~ there k (score_name stem task_file distance_file score_file) ->
    exists k' scores,
      score vlt rnd rlen stem k task_file distance_file score_file = (k', Ok tt) /\
      lookup (k_scores k') (score_name stem task_file distance_file score_file) = Ok scores /\
      forall p by_ a b x, triplet_at T p by_ a b x ->
        distance_of T dis by_ a x nan \/ distance_of T dis by_ b x nan -> nth_error scores p = Some 0.
Proof.
  intros R L A N k tf df sf T dis HT HD HS HN.
  destruct (@score_writes V vlt rnd R rlen L A stem k tf df sf T dis HT HD HS HN) as (k' & scores & E1 & E2 & _ & H).
  exists k', scores. split; [exact E1|]. split; [exact E2|]. intros p by_ a b x Hp Hd.
  destruct (H p by_ a b x Hp) as (d1 & d2 & s & D1 & D2 & Es & Vd).
  destruct Hp as (n & i & j & P1 & P2 & _). rewrite Es. f_equal.
  assert (V0 : vlt d1 d2 = false /\ vlt d2 d1 = false).
  { destruct Hd as [Hd|Hd].
    - rewrite (distance_unique V T dis by_ n i j a x _ _ HS P1 P2 D1 Hd). apply N.
    - rewrite (distance_unique V T dis by_ n i j b x _ _ HS P1 P2 D2 Hd). split; apply N. }
  destruct V0 as [V1 V2]. destruct Vd as [(B & _)|[(B & _)|(_ & _ & B)]]; congruence.
Qed.

(** The example of C34 with a distance that is not a number. *)
Definition ltnan (a b : option Z) : bool := match a, b with Some a, Some b => (a <? b)%Z | _, _ => false end.
Definition ex_nan : list (option Z) := [Some 3; Some 3; None; Some 5; Some 8; Some 2; Some 9].
Definition ex_nan_disk : disk (option Z) := mk_disk [("t.abx", ex_scored)] [("d.distance", ex_nan)] [] [].

Lemma ex_nan_scorable : scorable ex_scored ex_nan.
Proof. destruct ex_scorable. constructor; try assumption; reflexivity. Qed.

Lemma ltnan_asym d d' : ltnan d d' = true -> ltnan d' d = false.
Proof. destruct d, d'; cbn; try discriminate; auto. rewrite Z.ltb_lt, Z.ltb_ge. apply Z.lt_le_incl. Qed.

Lemma ltnan_nan d : ltnan None d = false /\ ltnan d None = false.
Proof. destruct d; split; reflexivity. Qed.
