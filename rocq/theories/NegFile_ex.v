(** Examples: a task file emptied by a negative threshold. *)
From Coq Require Import Ascii String.
From Coq Require Import List ZArith Lia Permutation.
From Verif Require Import Prelude ListFacts TypeFitting Sampler Sampler_proofs Task Task_spec Task_main Task_reg_spec Task_ex Task_reg_ex Task_thr_ex
  Expect_ex Score Analyze H5io H5io_spec H5io_use H5io_ex Pipeline Pipeline_spec Pipeline_ex Task_neg_ex.
Import ListNotations.
Local Open Scope string_scope.
Local Open Scope list_scope.
Local Open Scope Z_scope.

Definition neg_indexes : list (string * list string) := [("phone_B", ["?"; "a"; "b"])].
Definition neg_places : list (Distances.item Z) := map (fun i => Distances.mk_item "f1" (Z.of_nat i) (Z.of_nat i + 1)) (seq 0 23).

Lemma neg_levels : levels_ok plain_text wrap_task stuck_db neg_indexes.
Proof.
  constructor.
  - discriminate.
  - repeat constructor; cbn; intuition discriminate.
  - repeat constructor; cbn; intuition discriminate.
  - intros s. cbn. tauto.
  - intros s levels [[= <- <-]|[]]; discriminate.
  - intros s levels k [[a b] x] Hs Hw. destruct (wanted_lines _ _ _ _ _ _ Hw) as (ra & rb & rx & _ & (_ & Eb & Ib) & _).
    assert (P : forall r, In r stuck_db -> 0 <= r "phone" < 3).
    { intros r Hr. cbn [stuck_db In seq map app] in Hr. repeat (destruct Hr as [<-|Hr]; [vm_compute; intuition discriminate|]). destruct Hr. }
    destruct (P rb Ib). destruct Hs as [[= <- <-]|[]].
    change (0 <= row_at (by_rows wrap_task stuck_db k) b "phone" < 3). rewrite Eb. lia.
  - vm_compute. discriminate.
  - apply plain_texts. reflexivity.
  - apply plain_labels. reflexivity.
Qed.

Lemma neg_storable : storable wrap_task stuck_db (capacity 448).
Proof.
  intros k a b x Hw. destruct Hw as (ra & rb & rx & [Ha Ea] & [Hb Eb] & [Hx Ex] & _).
  assert (Hl : (List.length (by_rows wrap_task stuck_db k) <= 23)%nat).
  { assert (G : forall p (l : list row), (List.length (filter p l) <= List.length l)%nat).
    { intros p l. induction l as [|r l IH]; [cbn; lia|]. cbn [filter]. destruct (p r); cbn [List.length]; lia. }
    apply (G _ stuck_db). }
  assert (B : forall i r, nth_error (by_rows wrap_task stuck_db k) (Z.to_nat i) = Some r -> i <= 23).
  { intros i r H. assert (Z.to_nat i < List.length (by_rows wrap_task stuck_db k))%nat by (apply nth_error_Some; congruence). lia. }
  pose proof (B _ _ Ea). pose proof (B _ _ Eb). pose proof (B _ _ Ex).
  assert (C : 23 <= capacity 448) by (vm_compute; discriminate). lia.
Qed.

Lemma neg_made : exists x, make_file string_dec plain_text pl_name (@rev (string * by_group string)) idk idz argsort_ins ex_rng 1 pl_len pl_len pl_len 1000 100
    wrap_task ex_cols stuck_db neg_places neg_indexes (Some (-1)) 0 = Ok (Some x) /\ x_triplets x = [] /\ List.length (x_groups x) = 1%nat.
Proof. eexists. split; [vm_compute; reflexivity|]. split; reflexivity. Qed.
