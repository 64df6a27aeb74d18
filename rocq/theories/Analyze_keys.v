(** The keys of the combinations: computation, order and decoding. *)
From Coq Require Import String.
From Coq Require Import List ZArith QArith Qround Lia Sorted Permutation.
From Verif Require Import Prelude ListFacts TypeFitting TypeFitting_proofs Rounding Analyze Analyze_spec.
Import ListNotations.
Local Open Scope Z_scope.
Local Open Scope list_scope.

Definition encf (a : Z) (ps : list (Z * Z)) : Z := fold_left (fun a p => snd p + fst p * a) ps a.

Definition below (n d : Z) : Prop := 0 <= d < n.

Lemma prodZ_pos ns : Forall (fun n => 1 <= n) ns -> 1 <= prodZ ns.
Proof. induction 1 as [|n ns Hn H IH]; cbn; [lia|]. change (fold_right Z.mul 1 ns) with (prodZ ns). nia. Qed.

Lemma below_pos ns ds : Forall2 below ns ds -> Forall (fun n => 1 <= n) ns.
Proof. induction 1 as [|n d ns ds H]; constructor; auto. unfold below in H. lia. Qed.

Lemma encf_bound ns ds : Forall2 below ns ds -> forall a, 0 <= a ->
  0 <= encf a (combine ns ds) /\ encf a (combine ns ds) + 1 <= (a + 1) * prodZ ns.
Proof.
  induction 1 as [|n d ns ds H F IH]; intros a Ha; cbn [combine]; unfold encf; cbn [fold_left fst snd].
  - cbn. lia.
  - unfold below in H. change (fold_left (fun a p => snd p + fst p * a) (combine ns ds) (d + n * a)) with (encf (d + n * a) (combine ns ds)).
    assert (Hd : 0 <= d + n * a) by nia. destruct (IH _ Hd) as [I1 I2]. split; [exact I1|].
    change (prodZ (n :: ns)) with (n * prodZ ns). pose proof (prodZ_pos ns (below_pos ns ds F)). nia.
Qed.

Lemma encf_mono ns ds ds' : Forall2 below ns ds -> Forall2 below ns ds' -> forall a a', a < a' ->
  encf a (combine ns ds) < encf a' (combine ns ds').
Proof.
  intros F. revert ds'. induction F as [|n d ns ds H F IH]; intros ds' F' a a' Ha; inversion F'; subst; cbn.
  - exact Ha.
  - unfold below in *. apply IH; [assumption|]. nia.
Qed.

Lemma encf_lex ns ds ds' : Forall2 below ns ds -> Forall2 below ns ds' -> lex ds ds' -> forall a,
  encf a (combine ns ds) < encf a (combine ns ds').
Proof.
  intros F. revert ds'. induction F as [|n d ns ds H F IH]; intros ds' F' L a; inversion F' as [|? d' ? ds'' ? F'']; subst; [destruct L|].
  cbn [combine]. unfold encf. cbn [fold_left fst snd]. destruct L as [L|[<- L]].
  - apply encf_mono; auto. lia.
  - apply IH; auto.
Qed.

Lemma lex_total r r' : length r = length r' -> r = r' \/ lex r r' \/ lex r' r.
Proof.
  revert r'. induction r as [|x r IH]; intros [|y r'] H; try discriminate; [left; reflexivity|].
  injection H as H. cbn. destruct (Z.lt_trichotomy x y) as [L|[->|L]]; auto.
  destruct (IH _ H) as [->|[L|L]]; auto.
Qed.

(** The key of a whole row. *)
Definition key_of (ns r : list Z) : Z :=
  match r with [] => 0 | d :: ds => encf d (combine (tl ns) ds) end.

Lemma key_of_enc0 ns r : Forall2 below ns r -> key_of ns r = encf 0 (combine ns r).
Proof.
  intros F. inversion F; subst; cbn; [reflexivity|]. unfold encf. f_equal. lia.
Qed.

Lemma key_of_lex ns r r' : Forall2 below ns r -> Forall2 below ns r' -> lex r r' -> key_of ns r < key_of ns r'.
Proof. intros. rewrite !key_of_enc0 by assumption. apply encf_lex; assumption. Qed.

Lemma Forall2_len A B (P : A -> B -> Prop) l m : Forall2 P l m -> length l = length m.
Proof. induction 1; cbn; congruence. Qed.

Lemma key_of_inj ns r r' : Forall2 below ns r -> Forall2 below ns r' -> key_of ns r = key_of ns r' -> r = r'.
Proof.
  intros F F' E. destruct (lex_total r r') as [->|[L|L]]; [| reflexivity | |].
  - rewrite <- (Forall2_len _ _ _ _ _ F). apply (Forall2_len _ _ _ _ _ F').
  - pose proof (key_of_lex ns r r' F F' L). lia.
  - pose proof (key_of_lex ns r' r F' F L). lia.
Qed.

Lemma key_of_order ns r r' : Forall2 below ns r -> Forall2 below ns r' -> key_of ns r < key_of ns r' -> lex r r'.
Proof.
  intros F F' E. destruct (lex_total r r') as [->|[L|L]]; [|lia|exact L|].
  - rewrite <- (Forall2_len _ _ _ _ _ F). apply (Forall2_len _ _ _ _ _ F').
  - pose proof (key_of_lex ns r' r F' F L). lia.
Qed.

Lemma key_of_bound ns r : Forall2 below ns r -> 0 <= key_of ns r /\ key_of ns r + 1 <= prodZ ns.
Proof.
  intros F. rewrite key_of_enc0 by assumption. destruct (encf_bound ns r F 0) as [A B]; lia.
Qed.

(** Decoding. *)
Section Decode.
Variable rnd : Q -> Q.
Hypothesis Hrnd : exact53 rnd.

Definition stands (x : number) (e : Z) : Prop :=
  match x with NInt z => z = e | NFlt q => (q == inject_Z e)%Q end.

Lemma float_stands x e : stands x e -> 0 <= e <= 2 ^ 53 -> (float_of rnd x == inject_Z e)%Q.
Proof.
  destruct x as [z|q]; cbn; intros H He.
  - subst. apply Hrnd; [reflexivity|lia].
  - exact H.
Qed.

Lemma modulo_stands x e n d e' : stands x e -> e = d + n * e' -> 0 <= d < n -> 0 <= e <= 2 ^ 53 ->
  0 <= e' -> (modulo rnd x n == inject_Z d)%Q.
Proof.
  intros Hx He Hd Hb He'. destruct x as [z|q]; cbn [stands modulo] in *.
  - subst z. assert (M : e mod n = d).
    { symmetry. apply (Z.mod_unique e n e' d); lia. }
    rewrite M. apply Hrnd; [reflexivity|]. nia.
  - assert (F : Qfloor (q / inject_Z n) = e').
    { rewrite Hx. rewrite <- Zdiv_Qdiv. symmetry. apply (Z.div_unique e n e' d); lia. }
    rewrite F, Hx, He. rewrite inject_Z_plus. ring.
Qed.

Lemma rest_stands x e n d e' r : stands x e -> e = d + n * e' -> 0 <= d < n -> 0 <= e <= 2 ^ 53 ->
  0 <= e' -> (r == inject_Z d)%Q ->
  (rnd (rnd (float_of rnd x - r) / inject_Z n) == inject_Z e')%Q.
Proof.
  intros Hx He Hd Hb He' Hr. apply Hrnd; [|nia].
  assert (E : (rnd (float_of rnd x - r) == inject_Z (n * e'))%Q).
  { apply Hrnd; [|nia]. rewrite (float_stands x e Hx Hb), Hr, He. rewrite inject_Z_plus. ring. }
  rewrite E, inject_Z_mult. field. intros C. change 0%Q with (inject_Z 0) in C.
  apply -> inject_Z_injective in C. lia.
Qed.

Lemma decode_ok ns : forall ds, Forall2 below ns ds -> forall x d acc, 0 <= d ->
  stands x (encf d (combine ns ds)) -> encf d (combine ns ds) <= 2 ^ 53 ->
  exists l, decode_loop rnd x (rev ns) acc = l ++ acc /\
            Forall2 (fun q z => Qfloor q = z) l (d :: ds).
Proof.
  induction ns as [|n ns IH] using rev_ind; intros ds F x d acc Hd Hx Hb.
  - inversion F; subst. cbn in *. exists [float_of rnd x]. split; [reflexivity|]. constructor; [|constructor].
    rewrite (float_stands x d Hx) by lia. apply Qfloor_Z.
  - apply Forall2_app_inv_l in F. destruct F as (ds1 & ds2 & F1 & F2 & ->).
    inversion F2 as [|? dl ? ? Hl F3]; subst. inversion F3; subst. clear F2 F3.
    assert (L : length ns = length ds1) by (eapply Forall2_len; exact F1).
    assert (C : combine (ns ++ [n]) (ds1 ++ [dl]) = combine ns ds1 ++ [(n, dl)]).
    { clear -L. revert ds1 L. induction ns as [|m ns IH]; intros [|e ds1] L; try discriminate; [reflexivity|].
      cbn. f_equal. apply IH. injection L; auto. }
    rewrite C in Hx, Hb. unfold encf in Hx, Hb. rewrite fold_left_app in Hx, Hb. cbn [fold_left fst snd] in Hx, Hb.
    fold (encf d (combine ns ds1)) in Hx, Hb. set (e' := encf d (combine ns ds1)) in *.
    destruct (encf_bound ns ds1 F1 d Hd) as [P _]. fold e' in P. unfold below in Hl.
    rewrite rev_app_distr. cbn [rev app decode_loop].
    assert (B : 0 <= dl + n * e' <= 2 ^ 53) by nia.
    pose proof (modulo_stands x _ n dl e' Hx eq_refl Hl B P) as Hr.
    pose proof (rest_stands x _ n dl e' _ Hx eq_refl Hl B P Hr) as Hq.
    destruct (IH ds1 F1 (NFlt (rnd (rnd (float_of rnd x - modulo rnd x n) / inject_Z n))) d
                (modulo rnd x n :: acc) Hd Hq ltac:(fold e'; nia)) as (l & E & Fl).
    exists (l ++ [modulo rnd x n]). rewrite E, <- app_assoc. split; [reflexivity|].
    change (d :: ds1 ++ [dl]) with ((d :: ds1) ++ [dl]). apply Forall2_app; [exact Fl|].
    constructor; [|constructor]. rewrite Hr. apply Qfloor_Z.
Qed.

End Decode.

(** Computation of the keys. *)
Lemma promote_max t t' : signed t = false -> signed t' = false ->
  signed (promote t t') = false /\ tmax t <= tmax (promote t t') /\ tmax t' <= tmax (promote t t').
Proof. intros H H'. destruct t; try discriminate; destruct t'; try discriminate; vm_compute; repeat split; congruence. Qed.

Lemma cast_unsigned t v : signed t = false -> 0 <= v <= tmax t -> cast t v = v.
Proof. intros H Hv. apply cast_id. unfold tmin. rewrite H. exact Hv. Qed.

Lemma fit_unsigned_total n : 0 <= n <= 2 ^ 53 ->
  exists t, fit_integer_type n false = Ok t /\ signed t = false /\ n <= tmax t.
Proof.
  intros H. destruct (fit_ok_unsigned n) as (t & E); [lia|]. exists t. split; [exact E|].
  apply fit_narrowest in E as (S & M & _). rewrite largest_tmax in M. split; [|exact M].
  destruct t; cbn in S |- *; congruence.
Qed.

Lemma fold_keys_ok d cols k : forall rows ns c t (f : list Z -> Z) B,
  cols = combine ns (map (fun c => column c rows) (seq c k)) -> length ns = k ->
  signed d = false -> signed t = false -> B <= tmax t -> B <= 2 ^ 53 ->
  (forall r, In r rows -> 0 <= f r /\ (f r + 1) * prodZ ns <= B /\
             Forall2 below ns (map (fun c => nth c r 0) (seq c k))) ->
  rows <> [] ->
  fold_keys d t cols (map f rows) =
  Ok (map (fun r => encf (f r) (combine ns (map (fun c => nth c r 0) (seq c k)))) rows).
Proof.
  revert cols. induction k as [|k IH]; intros cols rows ns c t f B Hc Hn Hd Ht HB HB' Hr Hrows; subst cols.
  - destruct ns; [|discriminate]. reflexivity.
  - destruct ns as [|n ns]; [discriminate|]. injection Hn as Hn. cbn [seq map combine fold_keys].
    destruct rows as [|r0 rows']; [congruence|]. set (rows := r0 :: rows') in *.
    assert (Hpos : forall r, In r rows -> 0 <= f r /\ 1 <= prodZ ns /\ 1 <= n /\ 0 <= nth c r 0 < n /\ (f r + 1) * (n * prodZ ns) <= B).
    { intros r Hin. destruct (Hr r Hin) as (A1 & A2 & A3). cbn [seq map] in A3. inversion A3 as [|? ? ? ? A4 A5]; subst.
      unfold below in A4. change (prodZ (n :: ns)) with (n * prodZ ns) in A2.
      pose proof (prodZ_pos _ (below_pos _ _ A5)). lia. }
    assert (Hn53 : 0 <= n <= 2 ^ 53).
    { destruct (Hpos r0 (or_introl eq_refl)) as (A1 & A2 & A3 & A4 & A5). nia. }
    destruct (fit_unsigned_total n Hn53) as (tn & -> & Htn & Hnt). cbn [bind].
    destruct (promote_max t tn Ht Htn) as (P1 & P2 & P3).
    destruct (promote_max (promote t tn) d P1 Hd) as (Q1 & Q2 & Q3).
    set (t1 := promote t tn) in *. set (t2 := promote t1 d) in *.
    set (f' := fun r => nth c r 0 + n * f r).
    assert (E : map (fun p => cast t2 (fst p + cast t1 (n * snd p))) (combine (column c rows) (map f rows)) = map f' rows).
    { unfold column. clearbody rows. clear Hr Hrows. revert Hpos. induction rows as [|r rows IH']; intros Hpos; [reflexivity|].
      cbn [map combine fst snd]. f_equal; [|apply IH'; intros r' Hin; apply Hpos; right; exact Hin].
      destruct (Hpos r (or_introl eq_refl)) as (A1 & A2 & A3 & A4 & A5). unfold f'.
      assert (M : nth c r 0 + n * f r <= B) by nia.
      rewrite (cast_unsigned t1) by (try exact P1; nia). apply cast_unsigned; [exact Q1|nia]. }
    rewrite E. erewrite (IH _ rows ns (S c) t2 f' B eq_refl Hn Hd Q1).
    + reflexivity.
    + lia.
    + exact HB'.
    + intros r Hin. destruct (Hpos r Hin) as (A1 & A2 & A3 & A4 & A5). destruct (Hr r Hin) as (_ & _ & A6).
      cbn [seq map] in A6. inversion A6; subst. unfold f'. repeat split; [nia|nia|assumption].
    + exact Hrows.
Qed.
