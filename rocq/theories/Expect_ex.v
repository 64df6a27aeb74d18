(** Examples about the expected values. *)
From Coq Require Import Ascii String.
From Verif Require Import Prelude Task Task_spec Task_ex Task_reg_spec Task_reg_ex.
Open Scope Z_scope.
Open Scope list_scope.

Lemma at_cases i r : item small_db i r -> exists n, (n < 6)%nat /\ i = Z.of_nat n /\ r = nth n small_db (fun _ => 0).
Proof.
  intros [Hi H]. exists (Z.to_nat i). assert (Hn : (Z.to_nat i < List.length small_db)%nat) by (apply nth_error_Some; congruence).
  split; [exact Hn|]. split; [lia|]. symmetry. apply nth_error_nth. exact H.
Qed.

Lemma at_item n : (n < 6)%nat -> item small_db (Z.of_nat n) (nth n small_db (fun _ => 0)).
Proof. intros H. split; [lia|]. rewrite Nat2Z.id. apply nth_error_nth'. exact H. Qed.

(** The two triplets with A = 2 and X = 5. *)
Lemma ex_group : is_wanted small_task small_db [7] (2, 0, 5) /\
  lists_that (fun s => is_wanted small_task small_db [7] s /\ same_group small_task (by_rows small_task small_db [7]) s (2, 0, 5)) [(2, 0, 5); (2, 3, 5)].
Proof.
  change (by_rows small_task small_db [7]) with small_db.
  assert (W : forall b, b = 0%nat \/ b = 3%nat -> is_wanted small_task small_db [7] (2, Z.of_nat b, 5)).
  { intros b Hb. cbn [is_wanted]. unfold wanted. change (by_rows small_task small_db [7]) with small_db.
    exists (nth 2 small_db (fun _ => 0)), (nth b small_db (fun _ => 0)), (nth 5 small_db (fun _ => 0)).
    split; [apply (at_item 2); lia|]. split; [apply (at_item b); lia|]. split; [apply (at_item 5); lia|].
    split; [|destruct Hb as [->| ->]; repeat split].
    destruct Hb as [->| ->]; (split; [reflexivity|]); (split; [discriminate|]); (split; intros c [<-|[]]; [reflexivity|discriminate]). }
  split; [apply (W 0%nat); left; reflexivity|]. split; [repeat constructor; cbn; intuition congruence|].
  intros [[a b] x]. split.
  - intros [E|[E|[]]]; injection E as <- <- <-; (split; [apply (W 0%nat) || apply (W 3%nat); auto|]); (split; [intros c _; reflexivity|]);
      intros ng Hng; repeat (destruct Hng as [<-|Hng]; [reflexivity|]); destruct Hng.
  - intros [(ra & rb & rx & Ia & Ib & Ix & (A1 & A2 & A3 & A4) & _) [Hg _]].
    change (by_rows small_task small_db [7]) with small_db in *.
    apply at_cases in Ia as (na & La & -> & ->). apply at_cases in Ib as (nb & Lb & -> & ->). apply at_cases in Ix as (nx & Lx & -> & ->).
    cbn [fst snd] in Hg. unfold same_block_of, row_at in Hg. cbn [t_across small_task fst] in Hg. rewrite Nat2Z.id in Hg.
    pose proof (Hg "phone"%string (or_introl eq_refl)) as G1. pose proof (Hg "talker"%string (or_intror (or_introl eq_refl))) as G2.
    specialize (A3 "talker"%string (or_introl eq_refl)). specialize (A4 "talker"%string (or_introl eq_refl)). clear Hg.
    assert (na = 2%nat) as -> by (do 6 (destruct na as [|na]; [solve [discriminate G1|discriminate G2|reflexivity]|]); exfalso; lia).
    assert (nx = 5%nat) as -> by (do 6 (destruct nx as [|nx]; [solve [discriminate A1|destruct A4; reflexivity|reflexivity]|]); exfalso; lia).
    assert (nb = 0%nat \/ nb = 3%nat) as [-> | ->]
      by (do 6 (destruct nb as [|nb]; [solve [discriminate A3|destruct A2; reflexivity|auto]|]); exfalso; lia); cbn; auto.
Qed.
