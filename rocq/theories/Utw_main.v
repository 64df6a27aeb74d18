(** Uniform time warping: the value, its symmetry, the ideal matching. *)
From Coq Require Import List Arith ZArith QArith Qround Qabs Qfield Lia Lqa Sorting Bool.
From Verif Require Import Prelude ListFacts Rounding Utw Utw_spec Utw_proofs.
Import ListNotations.
Local Open Scope nat_scope.

Lemma utw_value rnd {F : Type} (delta : F -> F -> Q) div (x y short long : list F) : precise rnd -> framewise delta div ->
  (short, long) = (if (length y <? length x)%nat then (y, x) else (x, y)) -> short <> [] -> (Z.of_nat (length long) <= 2 ^ 50)%Z ->
  exists v m, utw rnd x y div = Ok v /\ matching (length short) (length long) m /\
    (v == sum (map (fun p => mean_distance delta short (fst p) (snd p)) (combine m long)))%Q.
Proof.
  intros Hr Hd E Hs Hl.
  assert (Hlen : length short <= length long) by (destruct (Nat.ltb_spec (length y) (length x)); injection E as -> ->; lia).
  assert (Hpos : 0 < length short) by (destruct short; [congruence|cbn; lia]).
  destruct (utw_short rnd Hr (length short) (length long) Hpos Hlen Hl F short long eq_refl eq_refl delta div Hd) as (v & Ev & Hv).
  exists v, (map (matched rnd (length short) (length long)) (seq 0 (length long))). split; [|split; [|exact Hv]].
  - rewrite <- Ev. unfold utw. destruct (Nat.ltb_spec (length long) (length short)); [lia|].
    destruct (Nat.ltb_spec (length y) (length x)); injection E as -> ->; reflexivity.
  - apply (matching_ok rnd Hr (length short) (length long) Hpos Hlen Hl).
Qed.

Lemma utw_exchange rnd {F : Type} div (x y : list F) : length x <> length y -> utw rnd x y div = utw rnd y x div.
Proof.
  intros Hne. unfold utw. destruct (Nat.ltb_spec (length y) (length x)), (Nat.ltb_spec (length x) (length y)); try lia; reflexivity.
Qed.

(** Sequences of the same length are matched frame by frame. *)
Lemma matched_same rnd n k : precise rnd -> 0 < n -> (Z.of_nat n <= 2 ^ 50)%Z -> k < n -> matched rnd n n k = [k].
Proof.
  intros Hr Hn Hb Hk.
  assert (Hq : (inject_Z (Z.of_nat n) / inject_Z (Z.of_nat n) == 1)%Q).
  { field. intros C. assert (0 < inject_Z (Z.of_nat n))%Q by (change 0%Q with (inject_Z 0); rewrite <- Zlt_Qlt; lia). lra. }
  assert (Hp : (0 < inject_Z (Z.of_nat n) / inject_Z (Z.of_nat n))%Q) by (rewrite Hq; reflexivity).
  pose proof (precise_bounds rnd Hr _ Hp) as [B1 B2]. change (1 # 2 ^ 53) with (1 # 9007199254740992) in B1, B2. set (q := (inject_Z (Z.of_nat n) / inject_Z (Z.of_nat n))%Q) in *.
  assert (Pr : (0 < rnd q)%Q) by lra.
  assert (Ph : (0 < rnd q * half k)%Q) by (apply Qmult_lt_0_compat; [exact Pr|apply half_pos]).
  pose proof (precise_bounds rnd Hr _ Ph) as [C1 C2].
  assert (Hc : (inject_Z (Z.of_nat k) < coordinate rnd n n k)%Q /\ (coordinate rnd n n k < inject_Z (Z.of_nat k) + 1)%Q).
  { unfold coordinate. fold q. fold (half k). set (c := rnd (rnd q * half k)%Q) in *.
    assert (Hh : (half k == inject_Z (Z.of_nat k) + (1 # 2))%Q) by reflexivity.
    assert (D1 : (half k * (1 - (1 # 9007199254740992)) <= rnd q * half k)%Q).
    { rewrite (Qmult_comm (half k)). apply Qmult_le_compat_r; [lra|]. apply Qlt_le_weak, half_pos. }
    assert (D2 : (rnd q * half k <= half k * (1 + (1 # 9007199254740992)))%Q).
    { rewrite (Qmult_comm (half k)). apply Qmult_le_compat_r; [lra|]. apply Qlt_le_weak, half_pos. }
    assert (Hkb : (0 <= inject_Z (Z.of_nat k) <= inject_Z (2 ^ 50))%Q) by (change 0%Q with (inject_Z 0); rewrite <- !Zle_Qle; lia).
    change (inject_Z (2 ^ 50)) with (1125899906842624 # 1) in Hkb. change (1 # 2 ^ 53) with (1 # 9007199254740992) in *.
    set (K := inject_Z (Z.of_nat k)) in *. set (h := half k) in *. set (r := (rnd q * h)%Q) in *. clearbody K h r c. lra. }
  destruct Hc as [Hc1 Hc2]. unfold matched, floor, whole. set (c := coordinate rnd n n k) in *.
  assert (Hf : Qfloor c = Z.of_nat k).
  { pose proof (Qfloor_le c) as F1. pose proof (Qlt_floor c) as F2. rewrite inject_Z_plus in F2. change (inject_Z 1) with 1%Q in F2.
    assert (A : (Z.of_nat k < Qfloor c + 1)%Z) by (rewrite Zlt_Qlt, inject_Z_plus; change (inject_Z 1) with 1%Q; lra).
    assert (B : (Qfloor c < Z.of_nat k + 1)%Z) by (rewrite Zlt_Qlt, inject_Z_plus; change (inject_Z 1) with 1%Q; lra). lia. }
  rewrite Hf, Nat2Z.id. destruct (Qeq_bool c (inject_Z (Z.of_nat k))) eqn:E; [|reflexivity].
  apply Qeq_bool_iff in E. lra.
Qed.

Lemma utw_same_length rnd {F : Type} (delta : F -> F -> Q) div (x y : list F) : precise rnd -> framewise delta div ->
  length x = length y -> x <> [] -> (Z.of_nat (length x) <= 2 ^ 50)%Z ->
  exists v, utw rnd x y div = Ok v /\ (v == sum (map (fun p => delta (fst p) (snd p)) (combine x y)))%Q.
Proof.
  intros Hr Hd Hl Hx Hb. assert (Hpos : 0 < length x) by (destruct x; [congruence|cbn; lia]).
  destruct (utw_short rnd Hr (length x) (length y) Hpos ltac:(lia) ltac:(lia) F x y eq_refl eq_refl delta div Hd) as (v & Ev & Hv).
  exists v. split; [exact Ev|]. rewrite Hv. rewrite Hl.
  rewrite (map_ext_in _ (fun k => [k])) by (intros k Hk; apply in_seq in Hk; apply matched_same; [exact Hr|lia|lia|lia]).
  assert (G : forall pre x1 y1, x = pre ++ x1 -> length x1 = length y1 ->
    (sum (map (fun p => mean_distance delta x (fst p) (snd p)) (combine (map (fun k => [k]) (seq (length pre) (length y1))) y1)) ==
     sum (map (fun p => delta (fst p) (snd p)) (combine x1 y1)))%Q).
  { intros pre x1. revert pre. induction x1 as [|a x1 IH]; intros pre [|b y1] Ex L; try discriminate; [reflexivity|].
    cbn [length seq map combine fst snd]. rewrite !sum_cons. specialize (IH (pre ++ [a]) y1).
    rewrite app_length in IH. cbn [length] in IH. rewrite Nat.add_1_r in IH. rewrite IH; [|rewrite <- app_assoc; exact Ex|injection L; auto].
    apply Qplus_comp; [|reflexivity]. unfold mean_distance. cbn [flat_map length].
    assert (E : nth_error x (length pre) = Some a) by (rewrite Ex, nth_error_app2, Nat.sub_diag by lia; reflexivity).
    rewrite E. cbn [app sum fold_right]. change (inject_Z (Z.of_nat 1)) with 1%Q. field. }
  apply (G [] x y eq_refl Hl).
Qed.

Lemma utw_symmetric rnd {F : Type} (delta : F -> F -> Q) div (x y : list F) : precise rnd -> framewise delta div ->
  (forall a b, (delta a b == delta b a)%Q) -> x <> [] -> y <> [] ->
  (Z.of_nat (length x) <= 2 ^ 50)%Z -> (Z.of_nat (length y) <= 2 ^ 50)%Z ->
  exists v v', utw rnd x y div = Ok v /\ utw rnd y x div = Ok v' /\ (v == v')%Q.
Proof.
  intros Hr Hd Hsym Hx Hy Bx By. destruct (Nat.eq_dec (length x) (length y)) as [E|N].
  - destruct (utw_same_length rnd delta div x y Hr Hd E Hx Bx) as (v & Ev & Hv).
    destruct (utw_same_length rnd delta div y x Hr Hd (eq_sym E) Hy By) as (v' & Ev' & Hv').
    exists v, v'. split; [exact Ev|]. split; [exact Ev'|]. rewrite Hv, Hv'. clear -Hsym.
    revert y. induction x as [|a x IH]; intros [|b y]; try reflexivity. cbn [combine map fst snd]. rewrite !sum_cons, (Hsym a b), IH. reflexivity.
  - destruct (if length y <? length x then (y, x) else (x, y)) as [short long] eqn:E.
    destruct (utw_value rnd delta div x y short long Hr Hd (eq_sym E)) as (v & m & Ev & _).
    + destruct (length y <? length x); injection E as <- <-; assumption.
    + destruct (length y <? length x); injection E as <- <-; assumption.
    + exists v, v. split; [exact Ev|]. split; [rewrite <- (utw_exchange rnd div x y N); exact Ev|reflexivity].
Qed.

(** Empty sequences. *)
Lemma utw_empty rnd {F : Type} div (x y : list F) : (forall q, (q == 0)%Q -> (rnd q == 0)%Q) -> x = [] \/ y = [] ->
  utw rnd x y div = Err (if (length x + length y =? 0)%nat then ZeroDivisionError else IndexError).
Proof.
  intros H0 He. set (l := if length y <? length x then x else y).
  assert (E : (if length y <? length x then (y, x) else (x, y)) = ([], l)).
  { unfold l. destruct He as [->| ->]; cbn [length]; [reflexivity|]. destruct x; reflexivity. }
  assert (El : length x + length y = length l).
  { unfold l. destruct He as [->| ->]; cbn [length]; [reflexivity|]. destruct x; cbn; lia. }
  unfold utw. rewrite E, El. clearbody l. clear E El He. cbn [length]. destruct (Nat.eqb_spec (length l) 0) as [Z|N].
  - unfold distance_coordinates. rewrite Z. reflexivity.
  - rewrite (coordinates_eq rnd 0 (length l)) by lia. cbv zeta. cbn [bind].
    assert (Hc : forall k, (coordinate rnd 0 (length l) k == 0)%Q).
    { intros k. unfold coordinate. apply H0. rewrite (H0 (inject_Z (Z.of_nat 0) / inject_Z (Z.of_nat (length l)))%Q); [apply Qmult_0_l|].
      unfold Qdiv. apply Qmult_0_l. }
    assert (Hf : forall k, floor rnd 0 (length l) k = 0%Z).
    { intros k. unfold floor. rewrite (Hc k). reflexivity. }
    assert (Hw : forall k, whole rnd 0 (length l) k = true).
    { intros k. unfold whole. fold (floor rnd 0 (length l) k). rewrite Hf. apply Qeq_bool_iff. rewrite Hc. reflexivity. }
    rewrite filter_all by (intros k _; apply Hw). destruct (length l) as [|n]; [congruence|]. cbn [seq map app length].
    cbn [Nat.ltb Nat.leb]. rewrite Hf. cbn [mapM]. reflexivity.
Qed.

(** Without rounding, each frame is matched with the frames under its middle. *)
Lemma matched_middle rnd n1 n2 k : (forall q, (rnd q == q)%Q) -> 0 < n1 -> n1 <= n2 -> k < n2 -> middle n1 n2 k (matched rnd n1 n2 k).
Proof.
  intros He H1 H2 Hk. unfold middle. set (p := (Z.of_nat n1 * (2 * Z.of_nat k + 1))%Z). set (q := (2 * Z.of_nat n2)%Z).
  assert (Hq : (0 < q)%Z) by lia.
  assert (Hc : (coordinate rnd n1 n2 k * inject_Z q == inject_Z p)%Q).
  { unfold coordinate. rewrite !He. unfold p, q. rewrite !inject_Z_mult, inject_Z_plus, inject_Z_mult.
    change (inject_Z 2) with 2%Q. change (inject_Z 1) with 1%Q. field.
    intros C. assert (0 < inject_Z (Z.of_nat n2))%Q by (change 0%Q with (inject_Z 0); rewrite <- Zlt_Qlt; lia). lra. }
  unfold matched, whole, floor. set (c := coordinate rnd n1 n2 k) in *.
  assert (Pq : (0 < inject_Z q)%Q) by (change 0%Q with (inject_Z 0); rewrite <- Zlt_Qlt; exact Hq).
  pose proof (Qfloor_le c) as F1. pose proof (Qlt_floor c) as F2. set (f := Qfloor c) in *.
  assert (A1 : (f * q <= p)%Z).
  { rewrite Zle_Qle, inject_Z_mult, <- Hc. apply Qmult_le_compat_r; [exact F1|lra]. }
  assert (A2 : (p < (f + 1) * q)%Z).
  { rewrite Zlt_Qlt, inject_Z_mult, <- Hc. apply Qmult_lt_r; [exact Pq|exact F2]. }
  assert (Pp : (0 < p)%Z) by (unfold p; nia). assert (Hf : (0 <= f)%Z) by nia.
  destruct (Qeq_bool c (inject_Z f)) eqn:E.
  - right. apply Qeq_bool_iff in E. exists (Z.to_nat f - 1).
    assert (Ep : p = (f * q)%Z).
    { assert (Eq : (inject_Z p == inject_Z (f * q))%Q) by (rewrite inject_Z_mult, <- Hc, E; reflexivity).
      apply (proj1 (inject_Z_injective _ _)) in Eq. exact Eq. }
    assert (1 <= f)%Z by nia. split; [do 2 f_equal; lia|]. rewrite Ep. f_equal. lia.
  - left. exists (Z.to_nat f). split; [reflexivity|]. rewrite Z2Nat.id by exact Hf. split; [|exact A2].
    assert (f * q <> p)%Z; [|lia]. intros C. assert (Ec : (c == inject_Z f)%Q).
    { rewrite <- C, inject_Z_mult in Hc. apply Qmult_inj_r in Hc; [exact Hc|lra]. }
    apply Qeq_bool_iff in Ec. congruence.
Qed.

Lemma utw_ideal rnd {F : Type} (delta : F -> F -> Q) div (x y short long : list F) : (forall q, (rnd q == q)%Q) -> framewise delta div ->
  (short, long) = (if (length y <? length x)%nat then (y, x) else (x, y)) -> short <> [] -> (Z.of_nat (length long) <= 2 ^ 50)%Z ->
  exists v m, utw rnd x y div = Ok v /\ Forall2 (middle (length short) (length long)) (seq 0 (length long)) m /\
    (v == sum (map (fun p => mean_distance delta short (fst p) (snd p)) (combine m long)))%Q.
Proof.
  intros He Hd E Hs Hl.
  assert (Hr : precise rnd).
  { intros q Hq. rewrite (He q). setoid_replace (q - q)%Q with 0%Q by ring. cbn [Qabs]. change (Qabs 0) with 0%Q.
    apply Qlt_le_weak. apply Qmult_lt_0_compat; [exact Hq|reflexivity]. }
  assert (Hlen : length short <= length long) by (destruct (Nat.ltb_spec (length y) (length x)); injection E as -> ->; lia).
  assert (Hpos : 0 < length short) by (destruct short; [congruence|cbn; lia]).
  destruct (utw_short rnd Hr (length short) (length long) Hpos Hlen Hl F short long eq_refl eq_refl delta div Hd) as (v & Ev & Hv).
  exists v, (map (matched rnd (length short) (length long)) (seq 0 (length long))). split; [|split; [|exact Hv]].
  - rewrite <- Ev. unfold utw. destruct (Nat.ltb_spec (length long) (length short)); [lia|].
    destruct (Nat.ltb_spec (length y) (length x)); injection E as -> ->; reflexivity.
  - assert (G : forall l, (forall k, In k l -> k < length long) -> Forall2 (middle (length short) (length long)) l (map (matched rnd (length short) (length long)) l)).
    { induction l as [|k l IH]; intros Hk; constructor; [|apply IH; intros; apply Hk; right; assumption].
      apply matched_middle; auto. apply Hk. left. reflexivity. }
    apply G. intros k Hk. apply in_seq in Hk. lia.
Qed.

(** float64 is precise. *)
Lemma round53_precise a d : (0 < a)%Z -> (0 < d)%Z -> (Qabs (round53 a d - (a # Z.to_pos d)) <= (a # Z.to_pos d) * (1 # 2 ^ 53))%Q.
Proof.
  intros Ha Hd. unfold round53. set (e0 := (Z.log2 a - Z.log2 d - 53)%Z). set (s0 := scaled a d e0).
  set (e := (if 2 ^ 53 * snd s0 <=? fst s0 then e0 + 1 else e0)%Z).
  set (s := scaled a d e).
  set (up := (2 ^ Z.max e 0)%Z). set (dn := (2 ^ Z.max (- e) 0)%Z).
  assert (Pu : (0 < up)%Z) by (apply Z.pow_pos_nonneg; lia). assert (Pd : (0 < dn)%Z) by (apply Z.pow_pos_nonneg; lia).
  assert (Es : s = (a * dn, d * up)%Z) by reflexivity.
  assert (Hm : (2 ^ 52 * (d * up) <= a * dn)%Z).
  { assert (M0 : (2 ^ 52 * snd s0 <= fst s0)%Z).
    { unfold s0, scaled. cbn [fst snd]. pose proof (Z.log2_spec a Ha) as [La _]. pose proof (Z.log2_spec d Hd) as [_ Ld].
      pose proof (Z.log2_nonneg a). pose proof (Z.log2_nonneg d).
      transitivity (2 ^ 52 * (2 ^ Z.succ (Z.log2 d) * 2 ^ Z.max e0 0))%Z; [apply Z.mul_le_mono_nonneg_l; [lia|]; apply Z.mul_le_mono_nonneg_r; [apply Z.pow_nonneg|]; lia|].
      transitivity (2 ^ Z.log2 a * 2 ^ Z.max (- e0) 0)%Z; [|apply Z.mul_le_mono_nonneg_r; [apply Z.pow_nonneg|]; lia].
      rewrite <- !Z.pow_add_r by lia. apply Z.pow_le_mono_r; [lia|]. unfold e0. lia. }
    unfold up, dn, e. destruct (Z.leb_spec (2 ^ 53 * snd s0) (fst s0)) as [C|C]; [|exact M0].
    unfold s0, scaled in C. cbn [fst snd] in C.
    destruct (Z.le_gt_cases 0 e0) as [P|P].
    - rewrite (Z.max_l (e0 + 1)) by lia. rewrite (Z.max_r (- (e0 + 1))) by lia. rewrite (Z.max_l e0) in C by lia. rewrite (Z.max_r (- e0)) in C by lia.
      rewrite Z.pow_add_r by lia. change (2 ^ 1)%Z with 2%Z. change (2 ^ 53)%Z with (2 ^ 52 * 2)%Z in C. lia.
    - rewrite (Z.max_r (e0 + 1)) by lia. rewrite (Z.max_l (- (e0 + 1))) by lia. rewrite (Z.max_r e0) in C by lia. rewrite (Z.max_l (- e0)) in C by lia.
      replace (- e0)%Z with (- (e0 + 1) + 1)%Z in C by lia. rewrite Z.pow_add_r in C by lia. change (2 ^ 1)%Z with 2%Z in C. change (2 ^ 53)%Z with (2 ^ 52 * 2)%Z in C. lia. }
  rewrite Es. cbn [fst snd]. assert (Pb : (0 < d * up)%Z) by nia. pose proof (@round_div_bounds (a * dn)%Z (d * up)%Z Pb) as B. set (m := round_div (a * dn)%Z (d * up)%Z) in *.
  clearbody m up dn. clear Es. clear s. clear e. clear s0. clear e0.
  apply Qabs_Qle_condition.
  set (t := (a # Z.to_pos d)%Q). assert (Et : (t * inject_Z d == inject_Z a)%Q).
  { unfold t, Qeq, inject_Z, Qmult. cbn [Qnum Qden]. rewrite Pos.mul_1_r, Z2Pos.id by exact Hd. ring. }
  assert (Ev : ((m * up # Z.to_pos dn) * inject_Z dn == inject_Z (m * up))%Q).
  { unfold Qeq, inject_Z, Qmult. cbn [Qnum Qden]. rewrite Pos.mul_1_r, Z2Pos.id by exact Pd. ring. }
  set (v := (m * up # Z.to_pos dn)%Q) in *. clearbody v t.
  (* multiply by d * dn *)
  assert (P : (0 < inject_Z (d * dn))%Q) by (change 0%Q with (inject_Z 0); rewrite <- Zlt_Qlt; nia).
  assert (E1 : ((v - t) * inject_Z (d * dn) == inject_Z (m * up * d - a * dn))%Q).
  { rewrite inject_Z_mult. setoid_replace ((v - t) * (inject_Z d * inject_Z dn))%Q with ((v * inject_Z dn) * inject_Z d - (t * inject_Z d) * inject_Z dn)%Q by ring.
    rewrite Ev, Et. unfold Z.sub. rewrite inject_Z_plus, inject_Z_opp, !inject_Z_mult. ring. }
  assert (E2 : ((t * (1 # 2 ^ 53)) * inject_Z (d * dn) == inject_Z (a * dn) * (1 # 2 ^ 53))%Q).
  { rewrite !inject_Z_mult. setoid_replace (t * (1 # 2 ^ 53) * (inject_Z d * inject_Z dn))%Q with ((t * inject_Z d) * inject_Z dn * (1 # 2 ^ 53))%Q by ring.
    rewrite Et. reflexivity. }
  assert (Hz : (- (a * dn) <= (m * up * d - a * dn) * 2 ^ 53 <= a * dn)%Z).
  { assert ((- (d * up) <= 2 * (m * up * d - a * dn) <= d * up)%Z) by lia.
    assert (2 ^ 52 * - (d * up) <= 2 ^ 52 * (2 * (m * up * d - a * dn)) <= 2 ^ 52 * (d * up))%Z by lia.
    change (2 ^ 53)%Z with (2 ^ 52 * 2)%Z. lia. }
  assert (Hq : (- inject_Z (a * dn) * (1 # 2 ^ 53) <= inject_Z (m * up * d - a * dn) <= inject_Z (a * dn) * (1 # 2 ^ 53))%Q).
  { set (A := (a * dn)%Z) in *. set (D := (m * up * d - A)%Z) in *. clearbody A D. unfold Qle, inject_Z, Qopp, Qmult. cbn [Qnum Qden].
    change (1 * 2 ^ 53)%positive with (2 ^ 53)%positive. change (Z.pos (2 ^ 53)) with (2 ^ 53)%Z. lia. }
  split.
  - apply (Qmult_le_r _ _ _ P). setoid_replace (- (t * (1 # 2 ^ 53)) * inject_Z (d * dn))%Q with (- ((t * (1 # 2 ^ 53)) * inject_Z (d * dn)))%Q by ring.
    rewrite E1, E2. setoid_replace (- (inject_Z (a * dn) * (1 # 2 ^ 53)))%Q with (- inject_Z (a * dn) * (1 # 2 ^ 53))%Q by ring. apply Hq.
  - apply (Qmult_le_r _ _ _ P). rewrite E1, E2. apply Hq.
Qed.

Lemma rnd64_precise : precise rnd64.
Proof.
  intros [n d] Hq. unfold Qlt in Hq. cbn in Hq. unfold rnd64. cbn [Qnum Qden]. destruct n as [|n|n]; [lia| |lia].
  apply (round53_precise (Z.pos n) (Z.pos d)); lia.
Qed.
