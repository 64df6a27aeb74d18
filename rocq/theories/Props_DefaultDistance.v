(** Properties of the distances of items of the distance command (C58, C59). *)
From Coq Require Import Reals List Arith Lia Lra.
From Verif Require Import Prelude Metrics Metrics_spec Dtw Dtw_spec DefaultDistance DefaultDistance_spec DefaultDistance_proofs
  DefaultDistance_ex.
Import ListNotations.
Local Open Scope R_scope.

(** C58: the sum of the angles of the frames along an alignment that makes it least, or with
    normalisation this sum divided by the length of such an alignment; whatever is in the
    memory that is allocated. *)
Theorem C58_value : exists f, cosine_between f /\
  forall t w xs ys empty, is_float t -> xs <> [] -> ys <> [] ->
  exists p, least f xs ys p /\ (Nat.max (length xs) (length ys) <= length p <= length xs + length ys - 1)%nat /\
  default_distance empty (array t w xs) (array t w ys) false = Ok (Value (Some (along f xs ys p))) /\
  default_distance empty (array t w xs) (array t w ys) true = Ok (Value (Some (along f xs ys p / INR (length p)))).
Proof. exact default_value. Qed.
Example C58_value_ex :
  default_distance ex_memory (array Float64 2 ex_item1) (array Float64 2 ex_item2) false = Ok (Value (Some (3 / 2))) /\
  default_distance ex_memory (array Float64 2 ex_item1) (array Float64 2 ex_item2) true = Ok (Value (Some (3 / 8))).
Proof. exact default_example. Qed.
Print Assumptions C58_value.

(** C58: 0 between two items without frames, infinite when only one has frames. *)
Theorem C58_empty : forall empty x y normalized, m_rows x = [] \/ m_rows y = [] ->
  (m_rows x = [] -> m_rows y = [] -> default_distance empty x y normalized = Ok (Value (Some 0))) /\
  (m_rows x <> [] \/ m_rows y <> [] -> default_distance empty x y normalized = Ok Infinite).
Proof. exact default_empty. Qed.
Example C58_empty_ex :
  default_distance ex_memory (array Float64 2 []) (array Float64 2 []) true = Ok (Value (Some 0)) /\
  default_distance ex_memory (array Float64 2 ex_item1) (array Float64 2 []) true = Ok Infinite /\
  default_distance ex_memory (array Float64 2 []) (array Float32 2 ex_item1) false = Ok Infinite.
Proof. split; [reflexivity|]. split; reflexivity. Qed.
Print Assumptions C58_empty.

(** C58: it is not negative, at most 1 with normalisation, and 0 exactly when the frames can be
    aligned with frames of the same direction. *)
Theorem C58_laws : forall t w xs ys empty normalized, is_float t -> frames_of w xs -> frames_of w ys -> xs <> [] -> ys <> [] ->
  exists v, default_distance empty (array t w xs) (array t w ys) normalized = Ok (Value (Some v)) /\
    0 <= v /\ (normalized = true -> v <= 1) /\
    (v = 0 <-> exists p, whole xs ys p /\ matches same_direction xs ys p).
Proof. exact default_laws. Qed.
Example C58_laws_ex :
  default_distance ex_memory (array Float32 2 ex_item3) (array Float32 2 ex_item4) true = Ok (Value (Some 0)) /\
  frames_of 2 ex_item3 /\ frames_of 2 ex_item4.
Proof.
  assert (W3 : frames_of 2 ex_item3) by (repeat constructor). assert (W4 : frames_of 2 ex_item4) by (repeat constructor).
  split; [|split; assumption].
  destruct (C58_laws Float32 2 ex_item3 ex_item4 ex_memory true (or_intror eq_refl) W3 W4) as (v & E & _ & _ & Z);
    try discriminate. rewrite E. do 3 f_equal. apply Z. eexists. exact same_direction_example.
Qed.
Print Assumptions C58_laws.

(** C58: without normalisation it does not depend on the order of the items. *)
Theorem C58_symmetric : forall t w xs ys empty empty', is_float t ->
  default_distance empty (array t w xs) (array t w ys) false = default_distance empty' (array t w ys) (array t w xs) false.
Proof. exact default_symmetric. Qed.
Example C58_symmetric_ex :
  default_distance (fun _ _ => None) (array Float64 2 ex_item2) (array Float64 2 ex_item1) false = Ok (Value (Some (3 / 2))).
Proof.
  rewrite (C58_symmetric Float64 2 ex_item2 ex_item1 _ ex_memory (or_introl eq_refl)). exact (proj1 default_example).
Qed.
Print Assumptions C58_symmetric.

(** C58: an item is at distance 0 from itself. *)
Theorem C58_self : forall t w xs empty normalized, is_float t ->
  default_distance empty (array t w xs) (array t w xs) normalized = Ok (Value (Some 0)).
Proof. exact default_self. Qed.
Example C58_self_ex : default_distance ex_memory (array Float64 2 ex_item2) (array Float64 2 ex_item2) true = Ok (Value (Some 0)).
Proof. apply C58_self. left. reflexivity. Qed.
Print Assumptions C58_self.

(** C58: arrays of other types or of different widths are refused. *)
Theorem C58_types : forall empty x y normalized, m_rows x <> [] -> m_rows y <> [] ->
  (~ (is_float (m_type x) /\ m_type y = m_type x) -> default_distance empty x y normalized = Err AssertionError) /\
  (is_float (m_type x) -> m_type y = m_type x -> m_cols x <> m_cols y ->
     default_distance empty x y normalized = Err ValueError).
Proof. exact default_types. Qed.
Example C58_types_ex :
  default_distance ex_memory (array Float32 2 ex_item1) (array Float64 2 ex_item2) true = Err AssertionError /\
  default_distance ex_memory (array Integer 2 ex_item1) (array Integer 2 ex_item2) true = Err AssertionError /\
  default_distance ex_memory (array Float32 2 ex_item1) (array Float32 1 [[1]]) true = Err ValueError.
Proof. split; [reflexivity|]. split; reflexivity. Qed.
Print Assumptions C58_types.

(** C59: the same with the symmetric divergences of the distributions of the frames, the
    precision of the type being added everywhere; the arrays of the two items become
    distributions, the other ones do not change. *)
Theorem C59_value : forall t w e xs ys h i j empty, precision t e -> (0 < w)%nat -> frames_of w xs -> frames_of w ys ->
  Forall (usable true) xs -> Forall (usable true) ys ->
  nth_error h i = Some (array t w xs) -> nth_error h j = Some (array t w ys) -> xs <> [] -> ys <> [] ->
  exists p h', least (kl_between e) xs ys p /\ (Nat.max (length xs) (length ys) <= length p <= length xs + length ys - 1)%nat /\
  dtw_kl_distance empty h i j false = Ok (h', Value (Some (along (kl_between e) xs ys p))) /\
  dtw_kl_distance empty h i j true = Ok (h', Value (Some (along (kl_between e) xs ys p / INR (length p)))) /\
  nth_error h' i = Some (array t w (map prob xs)) /\ nth_error h' j = Some (array t w (map prob ys)) /\
  forall k, k <> i -> k <> j -> nth_error h' k = nth_error h k.
Proof. exact kl_value_item. Qed.
Example C59_value_ex :
  precision Float32 (/ 2 ^ 23) /\ frames_of 2 [[1; 3]; [1; 0]] /\ frames_of 2 [[2; 6]; [0; 5]; [0; 7]] /\
  Forall (usable true) [[1; 3]; [1; 0]] /\ Forall (usable true) [[2; 6]; [0; 5]; [0; 7]].
Proof. exact ex_kl_usable. Qed.
Print Assumptions C59_value.

(** C59: 0 between two items without frames, infinite when only one has frames. *)
Theorem C59_empty : forall empty h i j x y normalized,
  nth_error h i = Some x -> nth_error h j = Some y -> m_rows x = [] \/ m_rows y = [] ->
  (m_rows x = [] -> m_rows y = [] -> dtw_kl_distance empty h i j normalized = Ok (h, Value (Some 0))) /\
  (m_rows x <> [] \/ m_rows y <> [] -> dtw_kl_distance empty h i j normalized = Ok (h, Infinite)).
Proof. exact kl_empty. Qed.
Example C59_empty_ex :
  dtw_kl_distance ex_memory ex_kl_heap 1 1 true = Ok (ex_kl_heap, Value (Some 0)) /\
  dtw_kl_distance ex_memory ex_kl_heap 0 1 true = Ok (ex_kl_heap, Infinite).
Proof. split; reflexivity. Qed.
Print Assumptions C59_empty.

(** C59: it is not negative, and 0 exactly when the frames can be aligned with frames of the
    same distribution. *)
Theorem C59_laws : forall t w e xs ys h i j empty normalized, precision t e -> (0 < w)%nat -> frames_of w xs -> frames_of w ys ->
  Forall (usable true) xs -> Forall (usable true) ys ->
  nth_error h i = Some (array t w xs) -> nth_error h j = Some (array t w ys) -> xs <> [] -> ys <> [] ->
  exists h' v, dtw_kl_distance empty h i j normalized = Ok (h', Value (Some v)) /\ 0 <= v /\
    (v = 0 <-> exists p, whole xs ys p /\ matches (fun x y => prob x = prob y) xs ys p).
Proof. exact kl_laws_item. Qed.
Example C59_laws_ex :
  whole [[1; 3]; [1; 0]] [[2; 6]; [0; 5]; [0; 7]] [(1, 2); (1, 1); (0, 0)]%nat /\
  prob [1; 3] = prob [2; 6] /\
  exists h' v, dtw_kl_distance ex_memory ex_kl_heap 0 2 false = Ok (h', Value (Some v)) /\ 0 <= v.
Proof.
  split; [eapply al_move; [eapply al_move; [constructor|constructor]|constructor]|].
  split; [unfold prob; cbn; f_equal; [|f_equal]; lra|].
  destruct ex_kl_usable as (P & W1 & W2 & U1 & U2).
  destruct (C59_laws Float32 2 _ _ _ ex_kl_heap 0%nat 2%nat ex_memory false P ltac:(lia) W1 W2 U1 U2 eq_refl eq_refl)
    as (h' & v & E & N & _); try discriminate. exists h', v. split; assumption.
Qed.
Print Assumptions C59_laws.

(** C59: without normalisation it does not depend on the order of the items. *)
Theorem C59_symmetric : forall t w e xs ys h i j empty empty' v v', precision t e -> (0 < w)%nat ->
  frames_of w xs -> frames_of w ys -> Forall (usable true) xs -> Forall (usable true) ys ->
  nth_error h i = Some (array t w xs) -> nth_error h j = Some (array t w ys) ->
  dtw_kl_distance empty h i j false = Ok v -> dtw_kl_distance empty' h j i false = Ok v' -> snd v = snd v'.
Proof. exact kl_symmetric_item. Qed.
Example C59_symmetric_ex : exists v v',
  dtw_kl_distance ex_memory ex_kl_heap 0 2 false = Ok v /\ dtw_kl_distance ex_memory ex_kl_heap 2 0 false = Ok v'.
Proof.
  destruct ex_kl_usable as (P & W1 & W2 & U1 & U2).
  destruct (C59_laws Float32 2 _ _ _ ex_kl_heap 0%nat 2%nat ex_memory false P ltac:(lia) W1 W2 U1 U2 eq_refl eq_refl)
    as (h' & v & E & _); try discriminate.
  destruct (C59_laws Float32 2 _ _ _ ex_kl_heap 2%nat 0%nat ex_memory false P ltac:(lia) W2 W1 U2 U1 eq_refl eq_refl)
    as (h'' & v' & E' & _); try discriminate. exists (h', Value (Some v)), (h'', Value (Some v')). split; assumption.
Qed.
Print Assumptions C59_symmetric.
