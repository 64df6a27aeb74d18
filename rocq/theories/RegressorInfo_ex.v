(** Regressors of tasks, for the examples and the refutation. *)
From Coq Require Import Ascii String Decimal DecimalString.
From Coq Require Import List ZArith Lia.
From Verif Require Import Prelude H5Names H5io H5io_spec H5ioFile H5ioFile_spec H5ioFile_ex Pipeline TaskGroups TaskGroups_ex RegressorInfo.
Import ListNotations.
Local Open Scope string_scope.
Local Open Scope list_scope.
Local Open Scope nat_scope.

(** The decimal digits of a number. *)
Definition digits (n : nat) : string := NilEmpty.string_of_uint (Nat.to_uint n).

Lemma digits_ascii k : ascii_only (digits k).
Proof.
  unfold digits, ascii_only. generalize (Nat.to_uint k) as u.
  induction u; cbn; intros c H; try (destruct H as [<-|H]; [cbv; lia|apply IHu; exact H]). destruct H.
Qed.

Lemma not_reg n : prefix "reg_" n = false -> forall k, n <> ("reg_" ++ digits k)%string.
Proof.
  intros H k E. subst n. cbn in H. destruct (digits k); discriminate.
Qed.

Definition talker_specs : specs string := column_specs "talker" ["t2"; "t1"].
Definition phone_specs : specs string := column_specs "phone" ["aa"; "ee"; "oo"].
