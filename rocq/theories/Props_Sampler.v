(** Property theorems: random sampling (C11, C12, C13, C55). *)
From Verif Require Import Prelude Sampler Sampler_spec Sampler_proofs Sampler_uniform.
Open Scope Z_scope.

(** C11: whatever the random source, what [sample_without_replacement(n, N)] returns is a
    sample of [n] distinct integers below [N], in increasing order... *)
Theorem C11_distinct_sorted_in_range :
  forall (R : rng) (fuel c : nat) (n N : Z) (dtype : itype) (l : list Z) (c' : nat),
    rng_ok R -> 0 <= n <= N -> N - 1 <= tmax dtype ->
    sample_without_replacement R fuel c n N dtype = Ok (l, c') -> is_sample n N l.
Proof. exact (fun R fuel c n N dtype l c' HR => @swr_spec R HR fuel c n N dtype l c'). Qed.
Print Assumptions C11_distinct_sorted_in_range.

Example C11_distinct_sorted_in_range_ex :
  rng_ok ex_rng /\
  sample_without_replacement ex_rng 9 0 4 7 I64 = Ok ([0; 2; 5; 6], 7%nat) /\
  sample_without_replacement ex_rng 9 1000 3 101 I64 = Ok ([91; 92; 93], 1003%nat).
Proof. split; [exact ex_rng_ok|]. vm_compute. split; reflexivity. Qed.

(** ... it never raises (the only way not to return is to keep drawing)... *)
Theorem C11_never_raises :
  forall (R : rng) (fuel c : nat) (n N : Z) (dtype : itype),
    rng_ok R -> 0 <= n <= N -> N - 1 <= tmax dtype ->
    match sample_without_replacement R fuel c n N dtype with
    | Ok (l, _) => is_sample n N l
    | Err e => e = OutOfFuel
    end.
Proof. exact (fun R fuel c n N dtype HR => @swr_outcome R HR fuel c n N dtype). Qed.
Print Assumptions C11_never_raises.

Example C11_never_raises_ex :
  rng_ok ex_rng /\ sample_without_replacement ex_rng 1 0 3 101 I8 = Err OutOfFuel /\
  sample_without_replacement ex_rng 2 0 3 101 I8 = Ok ([0; 1; 2], 3%nat).
Proof. split; [exact ex_rng_ok|]. vm_compute. split; reflexivity. Qed.

(** ... and it returns when every integer keeps coming up in the draws. *)
Theorem C11_returns :
  forall (R : rng) (c : nat) (n N : Z) (dtype : itype),
    rng_ok R -> 0 <= n <= N -> N - 1 <= tmax dtype -> fair R N ->
    exists fuel0, forall fuel, (fuel0 <= fuel)%nat ->
      exists l c', sample_without_replacement R fuel c n N dtype = Ok (l, c') /\ is_sample n N l.
Proof. exact (fun R c n N dtype HR => @swr_returns R HR c n N dtype). Qed.
Print Assumptions C11_returns.

Example C11_returns_ex : rng_ok ex_rng /\ fair ex_rng 1000 /\ 1000 - 1 <= tmax I16.
Proof. split; [exact ex_rng_ok|]. split; [exact (ex_rng_fair 1000)|]. vm_compute. discriminate. Qed.

(** C12: the number of items drawn from a piece is feasible. *)
Theorem C12_feasible :
  forall (R : rng) (fuel c : nat) (spread N K n k : Z) (c' : nat),
    0 <= K <= N -> 0 <= n <= N -> ~ (N = 1 /\ K = 1 /\ n = 0) ->
    hypergeometric_sample R fuel c spread N K n = Ok (k, c') -> feasible N K n k.
Proof. exact hyper_spec. Qed.
Print Assumptions C12_feasible.

Example C12_feasible_ex :
  hypergeometric_sample ex_rng 9 0 20 10 7 6 = Ok (3, 2%nat) /\ feasible 10 7 6 3.
Proof. vm_compute. repeat split; try reflexivity; discriminate. Qed.

(** C12: no domain error; each proposal is either refused or returned. *)
Theorem C12_never_raises :
  forall (R : rng) (fuel c : nat) (spread N K n : Z),
    0 <= K <= N -> 0 <= n <= N -> ~ (N = 1 /\ K = 1 /\ n = 0) ->
    match hypergeometric_sample R fuel c spread N K n with
    | Ok (k, _) => feasible N K n k
    | Err e => e = OutOfFuel
    end.
Proof. exact hyper_outcome. Qed.
Print Assumptions C12_never_raises.

Example C12_never_raises_ex :
  hypergeometric_sample ex_rng 1 0 20 10 7 6 = Err OutOfFuel /\
  hypergeometric_sample ex_rng 2 0 20 10 7 6 = Ok (3, 2%nat).
Proof. vm_compute. repeat split; reflexivity. Qed.

(** C12: the draw ends with the first acceptable proposal at the latest. *)
Theorem C12_returns :
  forall (R : rng) (c c' : nat) (spread N K n : Z),
    0 <= K <= N -> 0 <= n <= N -> (c <= c')%nat ->
    0 <= fst (rnd_prop R c') < spread ->
    fst (rnd_prop R c') <= Z.min (Z.min n (N - n)) (Z.min K (N - K)) ->
    snd (rnd_prop R c') = true ->
    exists r, forall fuel, (c' - c < fuel)%nat ->
      hypergeometric_sample R fuel c spread N K n = Ok r.
Proof. exact hyper_returns. Qed.
Print Assumptions C12_returns.

Example C12_returns_ex :
  rnd_prop ex_rng 7 = (2, true) /\
  hypergeometric_sample ex_rng 4 6 20 10 7 6 = Ok (5, 8%nat).
Proof. vm_compute. split; reflexivity. Qed.

(** C12: the symmetries lose nothing, every feasible count can be drawn. *)
Theorem C12_every_feasible_count_possible :
  forall N K n k spread : Z,
    2 <= N -> 0 <= K <= N -> 0 <= n <= N -> feasible N K n k -> N < spread ->
    exists k0, hypergeometric_sample (constant_rng k0) 1 0 spread N K n = Ok (k, 1%nat).
Proof. exact hyper_reachable. Qed.
Print Assumptions C12_every_feasible_count_possible.

Example C12_every_feasible_count_possible_ex :
  feasible 10 7 6 5 /\ hypergeometric_sample (constant_rng 2) 1 0 20 10 7 6 = Ok (5, 1%nat).
Proof. vm_compute. repeat split; try reflexivity; discriminate. Qed.

(** C12 fails in one case: no item asked of a remaining population of one. *)
Theorem C12_empty_piece_refuted :
  forall (R : rng) (fuel c : nat) (spread : Z),
    hypergeometric_sample R fuel c spread 1 1 0 = Ok (1, c) /\ ~ feasible 1 1 0 1.
Proof. exact hyper_edge_infeasible. Qed.
Print Assumptions C12_empty_piece_refuted.

(** C13: when the requests cover the population, exactly [K] items come out, all distinct,
    increasing and in range. *)
Theorem C13_exactly_K :
  forall (R : rng) (fuel c : nat) (spread : Z -> Z -> Z -> Z) (N K : Z) (step : option Z)
         (rel : bool) (s : sampler) (reqs : list Z) (pieces : list (Z * list Z)) (s' : sampler),
    rng_ok R -> 0 <= K -> N <= 2 ^ 63 -> Forall (fun n => 0 <= n) reqs -> N <= total reqs ->
    sampler_new N K step rel = Ok s ->
    sample_all R fuel c spread s reqs = Ok (pieces, s') ->
    is_sample K N (items rel pieces).
Proof. exact sampling_total. Qed.
Print Assumptions C13_exactly_K.

Example C13_exactly_K_ex :
  rng_ok ex_rng /\
  sampler_new 10 6 None true = Ok (mk_sampler 10 6 10 true 16666 false) /\
  sample_all ex_rng 20 0 (fun _ _ _ => 20) (mk_sampler 10 6 10 true 16666 false) [3; 0; 5; 4] =
  Ok ([(0, [0; 1; 2]); (3, []); (3, [1]); (8, [0; 1])], mk_sampler 0 0 10 true 16666 true) /\
  items true [(0, [0; 1; 2]); (3, []); (3, [1]); (8, [0; 1])] = [0; 1; 2; 4; 8; 9].
Proof. split; [exact ex_rng_ok|]. vm_compute. repeat split; reflexivity. Qed.

(** C13: at any time the pieces handed out lie in their place and hold a feasible number
    of items. *)
Theorem C13_pieces_in_place :
  forall (R : rng) (fuel c : nat) (spread : Z -> Z -> Z -> Z) (N K : Z) (step : option Z)
         (rel : bool) (s : sampler) (reqs : list Z) (pieces : list (Z * list Z)) (s' : sampler),
    rng_ok R -> 0 <= K -> N <= 2 ^ 63 -> Forall (fun n => 0 < n) reqs ->
    sampler_new N K step rel = Ok s ->
    sample_all R fuel c spread s reqs = Ok (pieces, s') ->
    pieces_in_place rel N 0 reqs pieces /\
    exists k, is_sample k (Z.min N (total reqs)) (items rel pieces) /\
      feasible N K (Z.min N (total reqs)) k.
Proof. exact sampling_prefix. Qed.
Print Assumptions C13_pieces_in_place.

Example C13_pieces_in_place_ex :
  rng_ok ex_rng /\
  sampler_new 10 6 (Some 5) false = Ok (mk_sampler 10 6 10 false 5 false) /\
  sample_all ex_rng 20 0 (fun _ _ _ => 20) (mk_sampler 10 6 10 false 5 false) [3; 5] =
  Ok ([(0, [0; 1; 2]); (3, [4; 6; 7])], mk_sampler 2 0 10 false 5 true).
Proof. split; [exact ex_rng_ok|]. vm_compute. repeat split; reflexivity. Qed.

(** C13: sampling never raises while the requests stay within the population. *)
Theorem C13_never_raises :
  forall (R : rng) (fuel c : nat) (spread : Z -> Z -> Z -> Z) (N K : Z) (step : option Z)
         (rel : bool) (s : sampler) (reqs : list Z),
    rng_ok R -> 0 <= K -> N <= 2 ^ 63 -> Forall (fun n => 0 < n) reqs -> total reqs <= N ->
    sampler_new N K step rel = Ok s ->
    (exists r, sample_all R fuel c spread s reqs = Ok r) \/
    sample_all R fuel c spread s reqs = Err OutOfFuel.
Proof. exact sampling_never_raises. Qed.
Print Assumptions C13_never_raises.

Example C13_never_raises_ex :
  rng_ok ex_rng /\ sampler_new 3 2 (Some 5) false = Ok (mk_sampler 3 2 3 false 5 false) /\
  sample_all ex_rng 20 0 (fun _ _ _ => 20) (mk_sampler 3 2 3 false 5 false) [1; 2] =
  Ok ([(0, [0]); (1, [2])], mk_sampler 0 0 3 false 5 true).
Proof. split; [exact ex_rng_ok|]. vm_compute. repeat split; reflexivity. Qed.

(** C13: calling [next] until it stops gives exactly [K] items too. *)
Theorem C13_next :
  forall (R : rng) (rounds fuel c : nat) (spread : Z -> Z -> Z -> Z) (N K : Z)
         (step : option Z) (rel : bool) (s : sampler) (pieces : list (Z * list Z)) (s' : sampler),
    rng_ok R -> 0 <= K -> N <= 2 ^ 63 ->
    match step with Some st => 0 <= st | None => True end ->
    sampler_new N K step rel = Ok s ->
    next_all R rounds fuel c spread s = Ok (pieces, s') ->
    is_sample K N (items rel pieces).
Proof. exact sampling_next. Qed.
Print Assumptions C13_next.

Example C13_next_ex :
  rng_ok ex_rng /\
  sampler_new 10 6 (Some 4) true = Ok (mk_sampler 10 6 10 true 4 false) /\
  next_all ex_rng 4 20 0 (fun _ _ _ => 20) (mk_sampler 10 6 10 true 4 false) =
  Ok ([(0, [0; 1; 2; 3]); (4, []); (8, [0; 1])], mk_sampler 0 0 10 true 4 true).
Proof. split; [exact ex_rng_ok|]. vm_compute. repeat split; reflexivity. Qed.

(** C13: a sampler is refused exactly when more items are asked for than there are, or
    when no item is asked for and no step given. *)
Theorem C13_constructor :
  forall (N K : Z) (step : option Z) (rel : bool),
    sampler_new N K step rel =
    if N <? K then Err AssertionError
    else match step with
         | None => if K =? 0 then Err ZeroDivisionError
                   else Ok (mk_sampler N K N rel (10 ^ 4 * N / K) false)
         | Some st => Ok (mk_sampler N K N rel st false)
         end.
Proof. exact sampler_new_outcome. Qed.
Print Assumptions C13_constructor.

Example C13_constructor_ex :
  sampler_new 3 4 None true = Err AssertionError /\
  sampler_new 3 0 None true = Err ZeroDivisionError.
Proof. split; reflexivity. Qed.

(** C55: in the sequential algorithm every subset is obtained from the same number of
    vectors of draws, [D^N / binom N n] ([D] a common multiple of 1, ..., N, so that the
    probabilities involved are multiples of 1/D). *)
Theorem C55_sequential_uniform :
  forall (D n N : Z) (dtype : itype) (l : list Z),
    0 < D -> 0 <= N -> (forall r, 0 < r <= N -> (r | D)) -> N - 1 <= tmax dtype ->
    is_sample n N l ->
    ways D n N dtype l * binom (Z.to_nat N) (Z.to_nat n) = D ^ N.
Proof. exact knuth_uniform. Qed.
Print Assumptions C55_sequential_uniform.

Example C55_sequential_uniform_ex :
  ways 6 2 3 I64 [0; 1] = 72 /\ ways 6 2 3 I64 [0; 2] = 72 /\ ways 6 2 3 I64 [1; 2] = 72 /\
  binom 3 2 = 3 /\ 6 ^ 3 = 216.
Proof. vm_compute. repeat split; reflexivity. Qed.

(** C55: in the rejection algorithm, relabelling the draws by a permutation of the
    population relabels the sample in the same way, so no subset is favoured when all
    integers are equally likely. *)
Theorem C55_rejection_equivariant :
  forall (pi : Z -> Z) (R : rng) (N : Z) (dtype : itype) (n : Z) (fuel c : nat),
    permutes pi N -> rng_ok R -> 0 < N -> N - 1 <= tmax dtype ->
    rejection_sampling (relabel pi R) fuel c n N dtype =
    match rejection_sampling R fuel c n N dtype with
    | Ok (l, c') => Ok (np_unique (map pi l), c')
    | Err e => Err e
    end.
Proof. exact rejection_relabel_top. Qed.
Print Assumptions C55_rejection_equivariant.

Example C55_rejection_equivariant_ex :
  rng_ok ex_rng /\
  rejection_sampling ex_rng 5 3 3 7 I64 = Ok ([3; 4; 5], 6%nat) /\
  rejection_sampling (relabel (fun x => (3 * x) mod 7) ex_rng) 5 3 3 7 I64 = Ok ([1; 2; 5], 6%nat).
Proof. split; [exact ex_rng_ok|]. vm_compute. split; reflexivity. Qed.
