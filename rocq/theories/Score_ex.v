(** Concrete scores, for the examples and the refutation. *)
From Coq Require Import String.
From Coq Require Import List ZArith QArith Lia Sorted.
From Verif Require Import Prelude TypeFitting Sampler Pairs Pairs_spec Rounding Distances Score Score_spec
     Score_proofs Task Outputs.
Import ListNotations.
Local Open Scope Z_scope.
Local Open Scope string_scope.
Local Open Scope list_scope.

(** Two bys of 4 and 3 items, with 4 and 2 triplets. *)
Definition ex_scored : scored_task :=
  mk_scored ["u"; "v"] I8
            [(0, 2, 1); (2, 0, 1); (3, 2, 1); (1, 2, 0); (0, 1, 2); (1, 0, 2)]
            [(0, 4); (4, 6)]%nat
            [("v", (3, 5, 7)); ("u", (4, 0, 5))]
            [1; 2; 4; 6; 7; 6; 7].
Definition ex_dist : list Z := [3; 3; 8; 5; 8; 2; 9].

Lemma ex_scorable : scorable ex_scored ex_dist.
Proof.
  split.
  - repeat constructor; cbn; intuition discriminate.
  - repeat constructor; cbn; intuition discriminate.
  - reflexivity.
  - cbn. lia.
  - intros [|[|[|n]]] by_ i j; cbn; try discriminate; intros [= <-] [= <- <-].
    + exists 4, 0, 5. split; [auto|]. split; [lia|]. split; [lia|]. split; [lia|].
      split; [unfold few_items; lia|]. split.
      * split; [repeat constructor; lia|]. intros c. split.
        { cbn. intros H. unfold is_pair_of, code.
          destruct H as [<-|[<-|[<-|[<-|[<-|[]]]]]].
          - exists 1, 2, 0. cbn. auto 8.
          - exists 1, 2, 0. cbn. auto 8.
          - exists 0, 2, 1. cbn. auto 8.
          - exists 0, 2, 1. cbn. auto 8.
          - exists 3, 2, 1. cbn. auto 8. }
        { intros (a & b & x & H & Hc). cbn in H. unfold code in Hc.
          destruct H as [[= <- <- <-]|[[= <- <- <-]|[[= <- <- <-]|[[= <- <- <-]|[]]]]];
            destruct Hc as [Hc|Hc]; subst c; vm_compute; auto 8. }
      * intros a b x H. cbn in H.
        destruct H as [[= <- <- <-]|[[= <- <- <-]|[[= <- <- <-]|[[= <- <- <-]|[]]]]]; lia.
    + exists 3, 5, 7. split; [auto|]. split; [lia|]. split; [lia|]. split; [lia|].
      split; [unfold few_items; lia|]. split.
      * split; [repeat constructor; lia|]. intros c. split.
        { cbn. intros H. unfold is_pair_of, code. exists 0, 1, 2. cbn. destruct H as [<-|[<-|[]]]; auto. }
        { intros (a & b & x & H & Hc). cbn in H. unfold code in Hc.
          destruct H as [[= <- <- <-]|[[= <- <- <-]|[]]]; destruct Hc as [Hc|Hc]; subst c; vm_compute; auto. }
      * intros a b x H. cbn in H. destruct H as [[= <- <- <-]|[[= <- <- <-]|[]]]; lia.
  - reflexivity.
Qed.

Lemma Zltb_asym a b : Z.ltb a b = true -> Z.ltb b a = false.
Proof. intros H. apply Z.ltb_lt in H. apply Z.ltb_ge. lia. Qed.

Lemma ex_triplet : triplet_at ex_scored 0 "u" 0 2 1 /\ triplet_at ex_scored 1 "u" 2 0 1.
Proof.
  split; exists 0%nat, 0%nat, 4%nat; (split; [reflexivity|]); (split; [reflexivity|]); split; (lia || reflexivity).
Qed.

Definition ex_disk : disk Z :=
  mk_disk [("t.abx", ex_scored)] [("d.distance", ex_dist)] [("old.score", [1; 1])] ["d.item"].

(** A by with 94,906,267 items: two neighbouring codes are the same float. *)
Definition huge : scored_task :=
  mk_scored ["u"] I32 [(23584505, 23584504, 94906264)] [(0, 1)]%nat [("u", (94906267, 0, 2))]
            [code 94906267 23584504 94906264; code 94906267 23584505 94906264].

Lemma huge_scores : score_bys Z.ltb rnd64 (fun _ => 10%nat) huge [5; 7] 0 ["u"] [0] = ([0], None).
Proof. vm_compute. reflexivity. Qed.

Lemma huge_not : ~ scores_of Z.ltb huge [5; 7] [0].
Proof.
  intros (_ & H). destruct (H 0%nat "u" 23584505 23584504 94906264) as (d1 & d2 & s & D1 & D2 & Hs & Hv).
  { exists 0%nat, 0%nat, 1%nat. split; [reflexivity|]. split; [reflexivity|]. split; [lia|reflexivity]. }
  cbn in Hs. injection Hs as <-.
  destruct D1 as (base & s & e & p & [[= <- <- <-]|[]] & P1 & P2 & P3).
  destruct D2 as (base & s & e & q & [[= <- <- <-]|[]] & Q1 & Q2 & Q3).
  assert (p = 1%nat).
  { destruct p as [|[|p]]; [|reflexivity|lia]. vm_compute in P2. discriminate. }
  assert (q = 0%nat).
  { destruct q as [|[|q]]; [reflexivity| |lia]. vm_compute in Q2. discriminate. }
  subst. cbn in P3, Q3. injection P3 as <-. injection Q3 as <-.
  destruct Hv as [(A & B)|[(A & B)|(A & A' & B)]]; vm_compute in *; discriminate.
Qed.

Lemma generate_refuses korder enum argsort R fuel T threshold bs st c (f : task_file) :
  let r := generate_to korder enum argsort R fuel T threshold bs st c (Some f) in
  fst r = Some f /\ (s_nb_triplets st <> 0 -> snd r = Err ValueError).
Proof.
  unfold generate_to. destruct (Z.eqb_spec (s_nb_triplets st) 0); cbn; split; auto.
  intros H. contradiction.
Qed.

Lemma distances_refuse (T F V : Type) (zero : V) argsort fuel (c : setting T F) (df : dist_file V) n_cpu d :
  d_data df = Some d ->
  exists df' e, compute_distances zero argsort fuel c df n_cpu = (df', Err e) /\ d_data df' = Some d.
Proof.
  intros H. unfold compute_distances, create_distance_jobs.
  destruct (by_sizes (c_pairs c)) as [sizes|e]; [|eauto].
  unfold create_output. rewrite H. destruct (pf_bys (c_pairs c)); eauto.
Qed.
