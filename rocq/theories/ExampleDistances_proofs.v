(** What the distances given as examples return. *)
From Coq Require Import Reals List Bool Arith String Lia.
From Verif Require Import Prelude PyCall Metrics Metrics_spec Dtw Dtw_spec DefaultDistance DefaultDistance_spec DefaultDistance_proofs
  DefaultDistance_ex ExampleDistances.
Import ListNotations.
Local Open Scope R_scope.

Lemma frames_nil x : m_rows x = [] <-> frames x = 0%nat.
Proof. unfold frames. split; [intros ->; reflexivity|apply length_zero_iff_nil]. Qed.
Lemma frames_pos x : m_rows x <> [] -> (0 <? frames x)%nat = true.
Proof. intros N. apply Nat.ltb_lt. assert (frames x <> 0%nat) by (intros E; apply N, frames_nil, E). lia. Qed.

Lemma example_raises f empty x y : m_rows x <> [] -> m_rows y <> [] -> example_distance f empty x y = Err TypeError.
Proof. intros Nx Ny. unfold example_distance. rewrite (frames_pos _ Nx), (frames_pos _ Ny). reflexivity. Qed.

Lemma example_empty f empty x y :
  (m_rows x = [] -> m_rows y = [] -> example_distance f empty x y = Ok (Value (Some 0))) /\
  (m_rows x = [] -> m_rows y <> [] -> example_distance f empty x y = Ok Infinite) /\
  (m_rows x <> [] -> m_rows y = [] -> example_distance f empty x y = Ok Infinite).
Proof.
  assert (Z : forall z, m_rows z = [] -> (0 <? frames z)%nat = false) by (intros z E; apply frames_nil in E; rewrite E; reflexivity).
  unfold example_distance. split; [|split]; intros Ex Ey.
  - rewrite (Z _ Ex). apply frames_nil in Ex, Ey. rewrite Ex, Ey. reflexivity.
  - rewrite (Z _ Ex). pose proof (frames_pos _ Ey) as P. apply frames_nil in Ex. rewrite Ex in *. apply Nat.ltb_lt in P.
    destruct (frames y); [lia|reflexivity].
  - rewrite (Z _ Ey), andb_false_r. pose proof (frames_pos _ Ex) as P. apply frames_nil in Ey. rewrite Ey in *. apply Nat.ltb_lt in P.
    destruct (frames x); [lia|reflexivity].
Qed.

Lemma run_raises empty x y : run_distance empty x y = Err TypeError.
Proof. reflexivity. Qed.

Lemma called_two distance x y :
  call_two distance None x y = distance x y /\ forall b, call_two distance (Some b) x y = Err TypeError.
Proof. split; [reflexivity|intros b; reflexivity]. Qed.

Lemma complete_run_value empty x y b :
  (m_rows x <> [] -> m_rows y <> [] -> complete_run_distance empty x y b = default_distance empty x y b) /\
  (m_rows x = [] \/ m_rows y = [] -> complete_run_distance empty x y b = Err ValueError).
Proof.
  split.
  - intros Nx Ny. unfold default_distance. rewrite (frames_pos _ Nx), (frames_pos _ Ny). cbn [andb].
    unfold complete_run_distance, call_dtw, warped. cbn [bind_call dtw_params]. 
    change (bind_call dtw_params [Array x; Array y; Metric Cosine; Normalized b] []) with
      (Ok [Array x; Array y; Metric Cosine; Normalized b]). cbn [bind]. unfold dtw.
    assert (Lx : (List.length (m_rows x) =? 0)%nat = false) by (apply Nat.eqb_neq; rewrite length_zero_iff_nil; exact Nx).
    assert (Ly : (List.length (m_rows y) =? 0)%nat = false) by (apply Nat.eqb_neq; rewrite length_zero_iff_nil; exact Ny).
    rewrite Lx, Ly. cbn [orb bind distances_of]. destruct (cosine_distance x y); reflexivity.
  - intros E. unfold complete_run_distance, call_dtw.
    change (bind_call dtw_params [Array x; Array y; Metric Cosine; Normalized b] []) with
      (Ok [Array x; Array y; Metric Cosine; Normalized b]). cbn [bind]. unfold dtw.
    destruct E as [E|E]; rewrite E; cbn; [reflexivity|]. rewrite orb_true_r. reflexivity.
Qed.

Lemma called_complete_run empty x y :
  (forall b, call_complete_run empty (Some b) x y = complete_run_distance empty x y b) /\
  call_complete_run empty None x y = Err TypeError.
Proof. split; [intros b|]; reflexivity. Qed.

Lemma complete_run_calls empty x y :
  (forall b, m_rows x <> [] -> m_rows y <> [] -> call_complete_run empty (Some b) x y = default_distance empty x y b) /\
  (forall b, m_rows x = [] \/ m_rows y = [] -> call_complete_run empty (Some b) x y = Err ValueError) /\
  call_complete_run empty None x y = Err TypeError.
Proof.
  destruct (called_complete_run empty x y) as [C N]. split; [|split; [|exact N]]; intros b; rewrite C; apply complete_run_value.
Qed.

Lemma example_calls f empty x y :
  (m_rows x <> [] -> m_rows y <> [] -> call_two (example_distance f empty) None x y = Err TypeError) /\
  (forall b, call_two (example_distance f empty) (Some b) x y = Err TypeError) /\
  (m_rows x = [] -> m_rows y = [] -> call_two (example_distance f empty) None x y = Ok (Value (Some 0))) /\
  (m_rows x = [] -> m_rows y <> [] -> call_two (example_distance f empty) None x y = Ok Infinite) /\
  (m_rows x <> [] -> m_rows y = [] -> call_two (example_distance f empty) None x y = Ok Infinite).
Proof.
  destruct (called_two (example_distance f empty) x y) as [C N]. rewrite C.
  split; [apply example_raises|]. split; [exact N|]. apply example_empty.
Qed.

Lemma examples_refuted :
  (forall f normalized, call_two (example_distance f ex_memory) normalized (array Float64 2 ex_item1) (array Float64 2 ex_item2) = Err TypeError) /\
  (forall normalized, call_two (run_distance ex_memory) normalized (array Float64 2 ex_item1) (array Float64 2 ex_item2) = Err TypeError) /\
  default_distance ex_memory (array Float64 2 ex_item1) (array Float64 2 ex_item2) true = Ok (Value (Some (3 / 8))).
Proof.
  split; [intros f [b|]; reflexivity|]. split; [intros [b|]; reflexivity|]. exact (proj2 default_example).
Qed.
