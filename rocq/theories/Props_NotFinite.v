(** C79: what the distances do with features that are not finite numbers. *)
From Coq Require Import Reals List Lra.
From Verif Require Import Prelude Metrics Metrics_spec Dtw DefaultDistance DefaultDistance_spec NotFinite_spec NotFinite_proofs.
Import ListNotations.
Local Open Scope R_scope.

Theorem C79_default_refuses : forall empty x y normalized, comparable x y ->
  (exists r s, In r (m_rows x) /\ In s (m_rows y) /\ clash r s) ->
  default_distance empty x y normalized = Err AssertionError.
Proof. exact default_clash. Qed.
Print Assumptions C79_default_refuses.

Example C79_default_refuses_ex : forall empty,
  default_distance empty (mk_mat Float64 2 [[Some 1; Some 2]; [None; Some 1]]) (mk_mat Float64 2 [[Some 0; Some 0]; [Some 3; Some 1]]) true
  = Err AssertionError.
Proof.
  intros empty. apply C79_default_refuses.
  - constructor; cbn; try reflexivity; try discriminate. left. reflexivity.
  - exists [None; Some 1], [Some 3; Some 1]. split; [right; left; reflexivity|]. split; [right; left; reflexivity|].
    left. split; [left; reflexivity|]. intros Z. inversion Z as [|? ? E _]. injection E. lra.
Qed.

Theorem C79_default_number : forall empty x y normalized, comparable x y ->
  ~ (exists r s, In r (m_rows x) /\ In s (m_rows y) /\ clash r s) ->
  exists v, default_distance empty x y normalized = Ok (Value (Some v)).
Proof. exact default_number. Qed.
Print Assumptions C79_default_number.

Example C79_default_number_ex : forall empty,
  exists v, default_distance empty (mk_mat Float32 2 [[None; Some 1]; [Some 4; Some 2]]) (mk_mat Float32 2 [[Some 0; Some 0]]) false
  = Ok (Value (Some v)).
Proof.
  intros empty. apply C79_default_number.
  - constructor; cbn; try reflexivity; try discriminate. right. reflexivity.
  - intros (r & s & _ & [<- | []] & [[_ H] | [[H | [H | []]] _]]); try discriminate.
    apply H. repeat constructor.
Qed.

Theorem C79_kl_nan : forall empty h i j x y normalized, nth_error h i = Some x -> nth_error h j = Some y -> comparable x y ->
  (exists r, In r (m_rows x ++ m_rows y) /\ r <> [] /\ (missing r \/ sums_to_zero r)) ->
  exists h', dtw_kl_distance empty h i j normalized = Ok (h', Value None).
Proof. exact kl_none. Qed.
Print Assumptions C79_kl_nan.

Example C79_kl_nan_ex : forall empty,
  exists h', dtw_kl_distance empty [mk_mat Float64 2 [[Some 1; Some 3]]; mk_mat Float64 2 [[Some 2; Some 2]; [Some 0; Some 0]]] 0 1 true
  = Ok (h', Value None).
Proof.
  intros empty. eapply C79_kl_nan; [reflexivity|reflexivity| |].
  - constructor; cbn; try reflexivity; try discriminate. left. reflexivity.
  - exists [Some 0; Some 0]. split; [right; right; left; reflexivity|]. split; [discriminate|]. right.
    exists [0; 0]. split; [reflexivity|]. cbn. lra.
Qed.
