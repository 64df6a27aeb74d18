(** Rounding of numbers to the floats of numpy (binary64), as far as the models need it:
    the exponent is not bounded (all numbers in the models are zero or between 2^-64 and
    2^64). *)
From Coq Require Import ZArith QArith Qround Lia.
From Verif Require Import Prelude.
Local Open Scope Z_scope.

(** [a / (d * 2^e)] as a fraction. *)
Definition scaled (a d e : Z) : Z * Z := (a * 2 ^ Z.max (- e) 0, d * 2 ^ Z.max e 0).

(** The nearest number with 53 significant bits, ties to even. *)
Definition round53 (a d : Z) : Q :=
  let e0 := Z.log2 a - Z.log2 d - 53 in
  let s0 := scaled a d e0 in
  let e := if 2 ^ 53 * snd s0 <=? fst s0 then e0 + 1 else e0 in
  let s := scaled a d e in
  let m := round_div (fst s) (snd s) in
  (m * 2 ^ Z.max e 0) # Z.to_pos (2 ^ Z.max (- e) 0).

Definition rnd64 (q : Q) : Q :=
  match Qnum q with
  | Z0 => 0
  | Zpos a => round53 (Zpos a) (Zpos (Qden q))
  | Zneg a => - round53 (Zpos a) (Zpos (Qden q))
  end%Q.

(** What the theorems need of a rounding: small integers are floats. *)
Definition exact53 (rnd : Q -> Q) : Prop :=
  forall q z, q == inject_Z z -> - 2 ^ 53 <= z <= 2 ^ 53 -> rnd q == inject_Z z.

(** Conversion of an integer to float, when the float is then used as an integer. *)
Definition to_float (rnd : Q -> Q) (z : Z) : Z := Qfloor (rnd (inject_Z z)).

Lemma to_float_id rnd z : exact53 rnd -> - 2 ^ 53 <= z <= 2 ^ 53 -> to_float rnd z = z.
Proof.
  intros H Hz. unfold to_float. rewrite (H (inject_Z z) z (Qeq_refl _) Hz). apply Qfloor_Z.
Qed.

Lemma log2_mul_le a d : 0 < a -> 0 < d -> Z.log2 (a * d) <= Z.log2 a + Z.log2 d + 1.
Proof. intros. apply Z.log2_mul_above; lia. Qed.

Lemma round53_int z d : 0 < z <= 2 ^ 53 -> 0 < d -> round53 (z * d) d == inject_Z z.
Proof.
  intros Hz Hd. unfold round53.
  set (e0 := Z.log2 (z * d) - Z.log2 d - 53). set (s0 := scaled (z * d) d e0).
  set (e := if 2 ^ 53 * snd s0 <=? fst s0 then e0 + 1 else e0).
  assert (He : e <= 0 \/ (e = 1 /\ z = 2 ^ 53)).
  { destruct (Z.eq_dec z (2 ^ 53)) as [Ez|Nz].
    - right. split; [|exact Ez]. subst z.
      assert (L : e0 = 0) by (unfold e0; rewrite Z.mul_comm, Z.log2_mul_pow2 by lia; lia).
      unfold e, s0. rewrite L. unfold scaled. cbn [fst snd]. rewrite (Z.max_l (- 0) 0) by lia.
      change (2 ^ (- 0)) with 1. rewrite (Z.max_r 0 0) by lia. change (2 ^ 0) with 1.
      rewrite !Z.mul_1_r. destruct (Z.leb_spec (2 ^ 53 * d) (2 ^ 53 * d)); lia.
    - left. assert (L : Z.log2 z <= 52).
      { assert (Z.log2 z < 53) by (apply Z.log2_lt_pow2; lia). lia. }
      pose proof (log2_mul_le z d ltac:(lia) Hd) as L2.
      assert (L0 : e0 <= 0) by (unfold e0; lia).
      unfold e. destruct (Z.leb_spec (2 ^ 53 * snd s0) (fst s0)) as [C|C]; [|lia].
      destruct (Z.eq_dec e0 0) as [E|]; [|lia]. exfalso.
      unfold s0 in C. rewrite E in C. unfold scaled in C. cbn [fst snd] in C.
      change (2 ^ Z.max (- 0) 0) with 1 in C. change (2 ^ Z.max 0 0) with 1 in C. nia. }
  clearbody e. clear e0 s0.
  assert (P : 0 < 2 ^ Z.max (- e) 0) by (apply Z.pow_pos_nonneg; lia).
  assert (D : round_div (fst (scaled (z * d) d e)) (snd (scaled (z * d) d e)) * 2 ^ Z.max e 0
              = z * 2 ^ Z.max (- e) 0).
  { unfold scaled. cbn [fst snd]. destruct He as [He|[-> ->]].
    - rewrite (Z.max_r e 0) by lia. change (2 ^ 0) with 1. rewrite !Z.mul_1_r.
      assert (G : z * d * 2 ^ Z.max (- e) 0 = (z * 2 ^ Z.max (- e) 0) * d) by lia.
      rewrite G. rewrite round_div_exact; [|lia|apply Z.mod_mul; lia]. apply Z.div_mul. lia.
    - change (2 ^ Z.max (- (1)) 0) with 1. change (2 ^ Z.max 1 0) with 2. rewrite Z.mul_1_r.
      assert (G : 2 ^ 53 * d = 2 ^ 52 * (d * 2)) by (change (2 ^ 53) with (2 ^ 52 * 2); ring).
      rewrite G. rewrite round_div_exact; [|lia|apply Z.mod_mul; lia].
      rewrite Z.div_mul by lia. reflexivity. }
  rewrite D. unfold Qeq, inject_Z. cbn [Qnum Qden]. rewrite Z2Pos.id by exact P. lia.
Qed.

Theorem rnd64_exact : exact53 rnd64.
Proof.
  intros q z Hq Hz. destruct q as [n d]. unfold Qeq, inject_Z in Hq. cbn in Hq.
  rewrite Z.mul_1_r in Hq. unfold rnd64. cbn [Qnum Qden].
  destruct n as [|n|n].
  - assert (z = 0) by nia. subst. reflexivity.
  - rewrite Hq. apply round53_int; nia.
  - assert (E : Z.pos n = (- z) * Z.pos d) by lia. rewrite E.
    rewrite round53_int by nia. unfold Qeq, inject_Z. cbn. lia.
Qed.
