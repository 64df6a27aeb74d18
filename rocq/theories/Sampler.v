(** Model of ABXpy/sampling/sampler.py: sampling without replacement. *)
From Verif Require Import Prelude.
Set Implicit Arguments.
Open Scope Z_scope.

(** The random source, indexed by the number of draws made so far:
    - [np.random.rand()] is [rnd_unit c / rnd_den];
    - [np.random.randint(0, N)] is [rnd_int c N];
    - one iteration of the loop of [hypergeometric_sample] proposes the integer
      [fst (rnd_prop c)] and [snd (rnd_prop c)] is the outcome of its three tests
      ([U * (4 - U) - 3 <= d] etc., lines 179-184) on the floats. *)
Record rng : Type := mk_rng {
  rnd_den : Z;
  rnd_unit : nat -> Z;
  rnd_int : nat -> Z -> Z;
  rnd_prop : nat -> Z * bool
}.

Section Sampler.
Variable R : rng.

(** sampler.py lines 228-233: the loop of [Knuth_sampling]. [t] records have been dealt
    with, [m] items selected; the result lists the values stored in [sample]. The float
    comparison [(N - t) * u < n - m] is made on exact rationals: rounding a product by
    [u < 1] to the nearest float never makes it reach the integer [N - t]. *)
Fixpoint knuth_loop (fuel : nat) (c : nat) (dtype : itype) (n N t m : Z) : res (list Z * nat) :=
  match fuel with
  | O => Err OutOfFuel
  | S fuel' =>
    if m <? n then
      let u := rnd_unit R c in
      if (N - t) * u <? (n - m) * rnd_den R then
        r <- knuth_loop fuel' (S c) dtype n N (t + 1) (m + 1) ;;
        Ok (cast dtype t :: fst r, snd r)
      else knuth_loop fuel' (S c) dtype n N (t + 1) m
    else Ok ([], c)
  end.

(** sampler.py lines 221-234: [Knuth_sampling]. [np.zeros(shape=n)] refuses a negative
    [n]. *)
Definition knuth_sampling (c : nat) (n N : Z) (dtype : itype) : res (list Z * nat) :=
  if n <? 0 then Err ValueError
  else knuth_loop (S (Z.to_nat N) + Z.to_nat n) c dtype n N 0 0.

(** [np.random.randint(0, N, k)]. *)
Definition randints (c : nat) (N k : Z) : list Z :=
  map (fun i => rnd_int R i N) (seq c (Z.to_nat k)).

(** sampler.py lines 241-248: the loop of [rejection_sampling]; [fuel] is the number of
    rounds allowed. *)
Fixpoint rejection_loop (fuel : nat) (c : nat) (dtype : itype) (n N : Z) (sample : list Z)
         (remaining : Z) : res (list Z * nat) :=
  match fuel with
  | O => Err OutOfFuel
  | S fuel' =>
    if 0 <? remaining then
      let new_sample := map (cast dtype) (randints c N remaining) in
      let sample' := np_unique (sample ++ np_unique new_sample) in
      rejection_loop fuel' (c + Z.to_nat remaining)%nat dtype n N sample'
                     (n - Z.of_nat (length sample'))
    else Ok (sample, c)
  end.

(** sampler.py lines 239-248: [rejection_sampling]. *)
Definition rejection_sampling (fuel c : nat) (n N : Z) (dtype : itype) : res (list Z * nat) :=
  rejection_loop fuel c dtype n N [] n.

(** sampler.py lines 198-213: [sample_without_replacement] ([n / N < 0.6] written with
    integers). *)
Definition sample_without_replacement (fuel c : nat) (n N : Z) (dtype : itype)
  : res (list Z * nat) :=
  if (100 <? N) && (5 * n <? 3 * N)
  then rejection_sampling fuel c n N dtype
  else knuth_sampling c n N dtype.

(** [math.lgamma] on integers: poles at the non-positive integers. *)
Definition lgamma_ok (x : Z) : bool := 0 <? x.

(** sampler.py lines 168-184: the acceptance loop of [hypergeometric_sample]. *)
Fixpoint hyper_loop (fuel c : nat) (N K_eff n_eff upper_bound : Z) : res (Z * nat) :=
  match fuel with
  | O => Err OutOfFuel
  | S fuel' =>
    let (k, accepted) := rnd_prop R c in
    if (k <? 0) || (upper_bound <=? k) then hyper_loop fuel' (S c) N K_eff n_eff upper_bound
    else if forallb lgamma_ok [k + 1; K_eff - k + 1; n_eff - k + 1; N - K_eff - n_eff + k + 1]
    then if accepted then Ok (k, S c)
         else hyper_loop fuel' (S c) N K_eff n_eff upper_bound
    else Err ValueError
  end.

(** sampler.py lines 136-192: [hypergeometric_sample]. [spread] stands for the float
    [np.floor(a + 16 * np.sqrt(variance + 0.5))] of line 166. *)
Definition hypergeometric_sample (fuel c : nat) (spread N K n : Z) : res (Z * nat) :=
  if (N =? 0) || (N =? 1) then Ok (K, c)
  else
    let K_eff := Z.min K (N - K) in
    let n_eff := Z.min n (N - n) in
    let mode := ((n_eff + 1) * (K_eff + 1)) / (N + 2) in
    if forallb lgamma_ok [mode + 1; K_eff - mode + 1; n_eff - mode + 1;
                          N - K_eff - n_eff + mode + 1]
    then
      let upper_bound := Z.min (Z.min n_eff K_eff + 1) spread in
      r <- hyper_loop fuel c N K_eff n_eff upper_bound ;;
      let k := fst r in
      let k := if K_eff <? K then n_eff - k else k in
      let k := if n_eff <? n then K - k else k in
      Ok (k, snd r)
    else Err ValueError.

(** sampler.py lines 32-47: state of an IncrementalSampler. [s_np] tells whether [K] is a
    numpy integer (it is after a draw) or still the Python integer of the caller. *)
Record sampler : Type := mk_sampler {
  s_N : Z; s_K : Z; s_N0 : Z; s_relative : bool; s_step : Z; s_np : bool
}.

(** sampler.py lines 34-47: [__init__] (the element type given here is never used:
    [sample] overwrites it, line 80). *)
Definition sampler_new (N K : Z) (step : option Z) (relative : bool) : res sampler :=
  assert! (K <=? N) else AssertionError ;;
  st <- match step with
        | Some st => Ok st
        | None => if K =? 0 then Err ZeroDivisionError else Ok (10 ^ 4 * N / K)
        end ;;
  Ok {| s_N := N; s_K := K; s_N0 := N; s_relative := relative; s_step := st; s_np := false |}.

(** sampler.py lines 105-122: [simple_sample], with [self.type] = int64 (line 80). The
    [spread] of each call is a function of the parameters. *)
Definition simple_sample (fuel c : nat) (spread : Z -> Z -> Z -> Z) (s : sampler) (n : Z)
  : res (list Z * sampler * nat) :=
  h <- hypergeometric_sample fuel c (spread (s_N s) (s_K s) n) (s_N s) (s_K s) n ;;
  let k := fst h in
  l <- sample_without_replacement fuel (snd h) k n I64 ;;
  Ok (fst l, {| s_N := s_N s - n; s_K := s_K s - k; s_N0 := s_N0 s; s_relative := s_relative s; s_step := s_step s;
                s_np := s_np s || negb ((s_N s =? 0) || (s_N s =? 1)) |}, snd l).

(** sampler.py lines 90-96: the chunked draw. *)
Fixpoint chunk_samples (loop_fuel fuel c : nat) (spread : Z -> Z -> Z -> Z) (s : sampler)
         (chunk_size n i : Z) : res (list Z * sampler * nat) :=
  match loop_fuel with
  | O => Err OutOfFuel
  | S loop_fuel' =>
    if 0 <? n then
      let amount := Z.min chunk_size n in
      r <- simple_sample fuel c spread s amount ;;
      let '(l, s', c') := r in
      r2 <- chunk_samples loop_fuel' fuel c' spread s' chunk_size (n - amount) (i + 1) ;;
      let '(l2, s2, c2) := r2 in
      Ok (map (fun x => x + i * chunk_size) l ++ l2, s2, c2)
    else Ok ([], s, c)
  end.

(** sampler.py lines 59-103: [sample]. With a Python integer [K] and no remaining item
    the division raises; with a numpy integer it gives a nan, which is not > 10^5. The
    float comparison and floor of lines 86-89 are made on exact rationals. *)
Definition sampler_sample (fuel c : nat) (spread : Z -> Z -> Z -> Z) (s : sampler) (n : Z)
  : res (list Z * sampler * nat) :=
  let position := s_N0 s - s_N s in
  let n := if s_N s <? n then s_N s else n in
  if (s_N s =? 0) && negb (s_np s) then Err ZeroDivisionError
  else
    r <- (if 10 ^ 5 * s_N s <? n * s_K s
          then chunk_samples (S (Z.to_nat n)) fuel c spread s (10 ^ 5 * s_N s / s_K s) n 0
          else simple_sample fuel c spread s n) ;;
    let '(l, s', c') := r in
    Ok (if s_relative s then l else map (fun x => x + position) l, s', c').

(** sampler.py lines 54-57: [next] (the Python 2 iterator method, called explicitly). *)
Definition sampler_next (fuel c : nat) (spread : Z -> Z -> Z -> Z) (s : sampler)
  : res (list Z * sampler * nat) :=
  if s_N s =? 0 then Err StopIteration else sampler_sample fuel c spread s (s_step s).

(** A client asking for several pieces; the positions at which each piece starts are
    returned along. *)
Fixpoint sample_all (fuel c : nat) (spread : Z -> Z -> Z -> Z) (s : sampler) (reqs : list Z)
  : res (list (Z * list Z) * sampler) :=
  match reqs with
  | [] => Ok ([], s)
  | n :: reqs' =>
    r <- sampler_sample fuel c spread s n ;;
    let '(l, s', c') := r in
    r2 <- sample_all fuel c' spread s' reqs' ;;
    Ok ((s_N0 s - s_N s, l) :: fst r2, snd r2)
  end.

(** A client calling [next] until it raises StopIteration (the use shown in the class
    documentation, lines 18-29), at most [rounds] times. *)
Fixpoint next_all (rounds fuel c : nat) (spread : Z -> Z -> Z -> Z) (s : sampler)
  : res (list (Z * list Z) * sampler) :=
  match rounds with
  | O => Err OutOfFuel
  | S rounds' =>
    match sampler_next fuel c spread s with
    | Err StopIteration => Ok ([], s)
    | Err e => Err e
    | Ok (l, s', c') =>
      r2 <- next_all rounds' fuel c' spread s' ;;
      Ok ((s_N0 s - s_N s, l) :: fst r2, snd r2)
    end
  end.

End Sampler.
