(** Property theorems: the pairs of a task (C15, C16). *)
From Verif Require Import Prelude TypeFitting Pairs Pairs_spec Pairs_proofs.
Open Scope Z_scope.

(** C15: in the integer type chosen for a by whose largest item is [m], the stored code
    of (item, X) does not overflow... *)
Theorem C15_codes_do_not_overflow :
  forall (m : Z) (t : itype) (a x : Z),
    fit_integer_type ((m + 1) ^ 2 - 1) false = Ok t -> 0 <= a <= m -> 0 <= x <= m ->
    pair_code t (m + 1) (cast t a) (cast t x) = code (m + 1) a x.
Proof. exact pair_code_exact. Qed.
Print Assumptions C15_codes_do_not_overflow.

Example C15_codes_do_not_overflow_ex :
  fit_integer_type ((255 + 1) ^ 2 - 1) false = Ok U16 /\
  pair_code U16 256 (cast U16 255) (cast U16 255) = 65535.
Proof. vm_compute. split; reflexivity. Qed.

(** ... and the workers decode it to the same two items. *)
Theorem C15_codes_decode :
  forall (m : Z) (t : itype) (a x : Z),
    fit_integer_type ((m + 1) ^ 2 - 1) false = Ok t -> 0 <= a <= m -> 0 <= x <= m ->
    decode_pair (m + 1) (pair_code t (m + 1) (cast t a) (cast t x)) = (a, x).
Proof. exact generated_code_decodes. Qed.
Print Assumptions C15_codes_decode.

Example C15_codes_decode_ex :
  fit_integer_type ((16 + 1) ^ 2 - 1) false = Ok U16 /\
  decode_pair 17 (pair_code U16 17 (cast U16 16) (cast U16 3)) = (16, 3).
Proof. vm_compute. split; reflexivity. Qed.

(** C15: distinct pairs have distinct codes. *)
Theorem C15_codes_injective :
  forall base a x a' x' : Z,
    0 <= a < base -> 0 <= x -> 0 <= a' < base -> 0 <= x' ->
    code base a x = code base a' x' -> a = a' /\ x = x'.
Proof. exact code_injective. Qed.
Print Assumptions C15_codes_injective.

Example C15_codes_injective_ex : code 10 3 4 = 43 /\ code 10 4 3 = 34.
Proof. split; reflexivity. Qed.

(** C15: a block of triplets gives, in order, the codes of (A, X) and (B, X). *)
Theorem C15_block_codes :
  forall (m : Z) (t : itype) (rows : list triplet),
    fit_integer_type ((m + 1) ^ 2 - 1) false = Ok t ->
    (forall a b x, In (a, b, x) rows -> 0 <= a <= m /\ 0 <= b <= m /\ 0 <= x <= m) ->
    pair_codes t (m + 1) rows =
    concat (map (fun r => let '(a, b, x) := r in [code (m + 1) a x; code (m + 1) b x]) rows).
Proof. exact block_codes_top. Qed.
Print Assumptions C15_block_codes.

Example C15_block_codes_ex :
  pair_codes U8 8 [(1, 2, 3); (7, 0, 7)] = [25; 26; 63; 56].
Proof. vm_compute. reflexivity. Qed.

(** C16: pair generation succeeds and attaches to every by its base (one more than its
    largest item) and a range of the pair dataset that holds exactly the (A, X) and (B, X)
    pairs of its triplets, each once, in increasing order; the ranges follow each other
    and cover the dataset. For any buffer lengths ([rlen], [wlen], [clen], in rows, as
    functions of the row size), any [argsort], and either a [memory] (in bytes) that holds
    the codes or the default 10^9 bytes (or more) and at most 10^14 triplets. *)
Theorem C16_pairs_of_every_by :
  forall (argsort : list Z -> list nat) (rlen wlen clen : Z -> nat),
    argsort_spec argsort ->
    (forall z, 0 < rlen z)%nat -> (forall z, 0 < wlen z)%nat -> (forall z, 0 < clen z)%nat ->
  forall (tt : itype) (triplets : list triplet) (memory o_buffer : Z),
    8 <= o_buffer ->
    64 * Z.of_nat (length triplets) <= 3 * memory \/
    (10 ^ 9 <= memory /\ Z.of_nat (length triplets) <= 10 ^ 14) ->
  forall bys : list (list Z * (nat * nat)),
    Forall (by_ready triplets) bys ->
    exists data attrs,
      generate_pairs argsort rlen wlen clen memory o_buffer tt triplets bys = Ok (data, attrs) /\
      Forall2 (by_result triplets data) bys attrs /\
      consecutive 0 (map (fun a => (snd (fst a), snd a)) attrs) (length data).
Proof. exact generate_pairs_spec. Qed.
Print Assumptions C16_pairs_of_every_by.

Example C16_pairs_of_every_by_ex :
  let triplets := [(0, 1, 2); (1, 0, 2); (2, 1, 2); (0, 1, 1); (0, 3, 3)] in
  Forall (by_ready triplets) [([0; 1; 2], (0, 3)%nat); ([0; 1; 3], (3, 5)%nat)] /\
  generate_pairs argsort_ins (fun _ => 2%nat) (fun _ => 3%nat) (fun _ => 1%nat) 120 16 I8 triplets
    [([0; 1; 2], (0, 3)%nat); ([0; 1; 3], (3, 5)%nat)]
  = Ok ([6; 7; 8; 4; 5; 12; 15], [(3, 0%nat, 3%nat); (4, 3%nat, 7%nat)]).
Proof.
  split; [|vm_compute; reflexivity].
  constructor; [|constructor; [|constructor]]; unfold by_ready;
    (split; [cbn; lia|split; [discriminate|split]]).
  1, 3: intros l [<-|[<-|[<-|[]]]]; lia.
  - intros a b x [E|[E|[E|[]]]]; inversion E; subst; cbn; tauto.
  - intros a b x [E|[E|[]]]; inversion E; subst; cbn; tauto.
Qed.

(** C16, read through the workers' decoding: the decoded pairs of a by are exactly the
    (A, X) and (B, X) pairs of its triplets. *)
Theorem C16_decoded_pairs :
  forall (triplets : list triplet) (data : list Z) (labels : list Z) (i j : nat)
         (base : Z) (s e : nat),
    by_ready triplets (labels, (i, j)) -> by_result triplets data (labels, (i, j)) (base, s, e) ->
    forall item x,
      In (item, x) (map (decode_pair base) (rows_between s e data)) <->
      exists a b, In (a, b, x) (rows_between i j triplets) /\ (item = a \/ item = b).
Proof. exact by_result_decodes. Qed.
Print Assumptions C16_decoded_pairs.

Example C16_decoded_pairs_ex :
  map (decode_pair 3) (rows_between 0 3 [6; 7; 8; 4; 5; 12; 15]) = [(0, 2); (1, 2); (2, 2)].
Proof. vm_compute. reflexivity. Qed.
