From Verif Require Import Prelude ListFacts TypeFitting TypeFitting_spec TypeFitting_proofs
  H52np H52np_spec H52np_proofs Np2h5 Np2h5_spec Np2h5_proofs
  ExtSort ExtSort_spec ExtSort_proofs Pairs Pairs_spec.
Open Scope Z_scope.

Lemma fold_max_spec l x :
  (forall y, In y (x :: l) -> y <= fold_left Z.max l x) /\ In (fold_left Z.max l x) (x :: l).
Proof.
  revert x. induction l as [|z l IH]; intros x; cbn [fold_left].
  - split; [intros y [->|[]]; lia|now left].
  - destruct (IH (Z.max x z)) as [H1 H2]. split.
    + intros y Hy. pose proof (H1 _ (or_introl eq_refl)) as H3.
      destruct Hy as [->|[->|Hy]]; [lia|lia|]. apply H1. now right.
    + destruct H2 as [H2|H2]; [|right; now right].
      rewrite <- H2. destruct (Z.max_spec x z) as [[_ ->]|[_ ->]]; [right; now left|now left].
Qed.

Lemma np_max_spec l : l <> [] -> exists m, np_max l = Ok m /\ In m l /\ forall y, In y l -> y <= m.
Proof.
  destruct l as [|x l]; [congruence|]. intros _. destruct (fold_max_spec l x) as [H1 H2].
  eexists. split; [reflexivity|]. split; assumption.
Qed.

(** *** Codes *)

Lemma fit_base_codes m t : 0 <= m -> fit_integer_type ((m + 1) ^ 2 - 1) false = Ok t ->
  forall v, 0 <= v < (m + 1) ^ 2 -> cast t v = v.
Proof. intros Hm Ht v Hv. eapply fit_cast; [exact Ht|lia]. Qed.

Lemma code_range base a x : 0 <= a < base -> 0 <= x < base -> 0 <= code base a x < base ^ 2.
Proof. unfold code. intros. nia. Qed.

Lemma pair_code_exact m t a x :
  fit_integer_type ((m + 1) ^ 2 - 1) false = Ok t -> 0 <= a <= m -> 0 <= x <= m ->
  pair_code t (m + 1) (cast t a) (cast t x) = code (m + 1) a x.
Proof.
  intros Ht Ha Hx. pose proof (fit_base_codes m t ltac:(lia) Ht) as C.
  unfold pair_code, code. rewrite !C; try reflexivity; try nia.
  rewrite C by nia. rewrite C by nia. rewrite C by nia. nia.
Qed.

Lemma decode_code base a x :
  0 <= a < base -> 0 <= x -> decode_pair base (code base a x) = (a, x).
Proof.
  intros Ha Hx. unfold decode_pair, code. rewrite (Z.mul_comm base x).
  rewrite Z.mod_add, Z.div_add by lia. rewrite Z.mod_small, Z.div_small by lia. f_equal.
Qed.

Lemma pair_codes_exact m t rows :
  fit_integer_type ((m + 1) ^ 2 - 1) false = Ok t ->
  (forall a b x, In (a, b, x) rows -> 0 <= a <= m /\ 0 <= b <= m /\ 0 <= x <= m) ->
  pair_codes t (m + 1) rows =
  flat_map (fun r => let '(a, b, x) := r in [code (m + 1) a x; code (m + 1) b x]) rows.
Proof.
  intros Ht H. unfold pair_codes. induction rows as [|[[a b] x] rows IH]; [reflexivity|].
  cbn [flat_map]. destruct (H a b x) as (Ha & Hb & Hx); [now left|].
  rewrite !pair_code_exact by assumption. f_equal. apply IH. intros. apply H. now right.
Qed.

(** *** Buffers *)

Lemma written_map t blocks :
  written (map (fun b => WWrite (map (cast t) b)) blocks) = map (cast t) (concat blocks).
Proof. induction blocks as [|b l IH]; [reflexivity|]. cbn. now rewrite map_app, IH. Qed.

Lemma plain_map {A : Type} (f : list Z -> list A) blocks : forallb plain (map (fun b => WWrite (f b)) blocks) = true.
Proof. induction blocks; [reflexivity|assumption]. Qed.

Lemma rd_small a b : 0 < b -> 0 <= a -> a mod b = 0 -> round_div a b = a / b.
Proof. intros. unfold round_div. rewrite H1. destruct (Z.ltb_spec (2 * 0) b); [reflexivity|lia]. Qed.

Section P.
Variable argsort : list Z -> list nat.
Variables rlen wlen clen : Z -> nat.
Hypothesis Ha : argsort_spec argsort.
Hypothesis Hr : forall z, (0 < rlen z)%nat.
Hypothesis Hw : forall z, (0 < wlen z)%nat.
Hypothesis Hc : forall z, (0 < clen z)%nat.

Lemma write_all_spec t n blocks :
  (n <= length (concat blocks))%nat ->
  write_all wlen clen t n blocks = Ok (map (cast t) (concat blocks)).
Proof.
  clear - Hw Hc. intros Hn. unfold write_all. rewrite session_growable; [|apply Hw|apply Hc|apply plain_map].
  rewrite written_map, map_length. replace (n - length (concat blocks))%nat with 0%nat by lia.
  cbn. now rewrite app_nil_r.
Qed.

Lemma read_all_spec {A : Type} (zero : A) t cols range d :
  (forall i0 i1, range = Some (i0, i1) -> i0 <= i1 <= length d)%nat ->
  exists ls, read_all rlen zero t cols range d = Ok ls /\ concat ls = rows_of range d /\
             Forall (fun l => l <> []) ls.
Proof.
  clear - Hr. intros H. unfold read_all.
  destruct (read_blocks_spec A zero 1 4 ltac:(lia) ltac:(lia) (rlen (cols * width t)) range d) as (ls & E & C & F);
    [apply Hr|assumption|].
  exists ls. split; [exact E|]. split; [exact C|].
  eapply Forall_impl; [|exact F]. cbn. tauto.
Qed.


Lemma sort_pairs_spec memory o_buffer t codes :
  codes <> [] -> 8 <= o_buffer ->
  (32 * Z.of_nat (length codes) <= 3 * memory \/
   (10 ^ 9 <= memory /\ Z.of_nat (length codes) <= 10 ^ 15)) ->
  exists sorted, sort_pairs argsort memory o_buffer t codes = Ok sorted /\
                 StronglySorted Z.le sorted /\ Permutation sorted codes.
Proof.
  clear - Ha. intros Hne Ho Hle. unfold sort_pairs.
  set (n := length codes) in *. set (w := width t).
  assert (Hw8 : w = 1 \/ w = 2 \/ w = 4 \/ w = 8) by (destruct t; cbn; tauto).
  clearbody w.
  assert (Hn : (0 < n)%nat) by (subst n; destruct codes; [congruence|cbn; lia]).
  set (bs := if _ <=? _ then _ else _).
  assert (Hbs : 120 * w < 2 * bs /\ 0 <= bs /\
                let br := Z.to_nat (round_div bs (120 * w)) in
                let nc := ((n + br - 1) / br)%nat in (nc < 2 * br)%nat).
  { assert (P : forall k, (0 < k)%nat -> Z.of_nat n <= 2 * Z.of_nat k * (Z.of_nat k - 1) + 1 \/ (n <= k)%nat ->
                          ((n + k - 1) / k < 2 * k)%nat).
    { intros k Hk Hor. apply Nat.div_lt_upper_bound; [lia|].
      destruct Hor; [nia|nia]. }
    assert (RD : forall a c, 0 < c -> 0 <= a -> 2 * a - c <= 2 * c * round_div a c <= 2 * a + c).
    { intros a c Hc' Ha'. unfold round_div.
      pose proof (Z.div_mod a c ltac:(lia)) as D. pose proof (Z.mod_pos_bound a c ltac:(lia)) as M.
      set (q := a / c) in *. set (r := a mod c) in *.
      destruct (Z.ltb_spec (2 * r) c); [lia|]. destruct (Z.ltb_spec c (2 * r)); [lia|].
      destruct (Z.even q); lia. }
    change (10 ^ 9) with 1000000000 in Hle. change (10 ^ 15) with 1000000000000000 in Hle.
    subst bs. destruct (Z.leb_spec (120 * (Z.of_nat n * w)) (90 * memory)) as [H1|H1].
    - split; [nia|]. split; [nia|]. cbn zeta. rewrite rd_small; [|lia|nia|].
      2:{ replace (120 * (Z.of_nat n * w)) with (Z.of_nat n * (120 * w)) by ring. apply Z.mod_mul. lia. }
      replace (120 * (Z.of_nat n * w)) with (Z.of_nat n * (120 * w)) by ring.
      rewrite Z.div_mul by lia. rewrite Nat2Z.id. apply P; [lia|]. right. lia.
    - assert (Hbig : 1000000000 <= memory /\ Z.of_nat n <= 1000000000000000).
      { destruct Hle as [Hle|Hle]; [|exact Hle]. exfalso. nia. }
      clear Hle. destruct Hbig as [Hmem Hle].
      destruct (Z.leb_spec (120 * (Z.of_nat n * w)) (30 * (90 * memory))) as [H2|H2].
      + replace (120 * (Z.of_nat n * w) / 30) with (4 * Z.of_nat n * w).
        2:{ replace (120 * (Z.of_nat n * w)) with (4 * Z.of_nat n * w * 30) by ring.
            rewrite Z.div_mul by lia. reflexivity. }
        split; [nia|]. split; [nia|]. cbn zeta.
        pose proof (RD (4 * Z.of_nat n * w) (120 * w) ltac:(lia) ltac:(nia)) as Hk.
        set (k := round_div (4 * Z.of_nat n * w) (120 * w)) in *.
        assert (Hk2 : 8 * Z.of_nat n - 120 <= 240 * k <= 8 * Z.of_nat n + 120) by nia.
        assert (Hkbig : 1000 < k) by nia.
        apply P; [lia|]. left. rewrite Z2Nat.id by lia. nia.
      + split; [nia|]. split; [nia|]. cbn zeta.
        pose proof (RD (90 * memory) (120 * w) ltac:(lia) ltac:(nia)) as Hk.
        set (k := round_div (90 * memory) (120 * w)) in *.
        assert (Hkbig : 90000000 < k) by nia.
        apply P; [lia|]. left. rewrite Z2Nat.id by lia. nia. }
  destruct Hbs as (B1 & B2 & B3). cbn zeta in B3.
  pose proof (h5sort_top argsort Z 0 bs (120 * o_buffer) (120 * w) codes [] Ha ltac:(lia) B2 ltac:(lia)
                ltac:(constructor) B1) as T.
  cbn zeta in T. fold n in T.
  destruct (Nat.eqb_spec n 0); [lia|].
  destruct (Nat.leb_spec (2 * Z.to_nat (round_div bs (120 * w))) ((n + Z.to_nat (round_div bs (120 * w)) - 1) / Z.to_nat (round_div bs (120 * w)))); [lia|].
  destruct (Z.leb_spec (2 * (120 * o_buffer)) (120 * w)); [lia|]. cbn [orb] in T.
  destruct T as (ks & vs & E & S). rewrite E. cbn.
  exists ks. split; [reflexivity|]. destruct (sorted_together_perm _ _ _ _ _ S). tauto.
Qed.
End P.

(** *** Distinct codes, block by block *)

Lemma dedup_cons x y l : dedup (x :: y :: l) = if x =? y then dedup (y :: l) else x :: dedup (y :: l).
Proof. reflexivity. Qed.

Lemma dedup_hd x l : exists l', dedup (x :: l) = x :: l'.
Proof.
  revert x. induction l as [|y l IH]; intros x; [eexists; reflexivity|].
  rewrite dedup_cons. destruct (Z.eqb_spec x y) as [->|]; [apply IH|eauto].
Qed.

Definition drop_eq (v : Z) (u : list Z) : list Z :=
  match u with [] => [] | x :: u' => if x =? v then u' else u end.

Lemma dedup_drop x l : dedup (x :: l) = x :: drop_eq x (dedup l).
Proof.
  destruct l as [|y l]; [reflexivity|]. rewrite dedup_cons.
  destruct (dedup_hd y l) as [l' E]. rewrite E. cbn [drop_eq]. rewrite Z.eqb_sym.
  destruct (Z.eqb_spec y x) as [->|]; reflexivity.
Qed.

Lemma dedup_app v b rest : b <> [] ->
  dedup (v :: b ++ rest) = v :: drop_eq v (dedup b) ++ tl (dedup (last b v :: rest)).
Proof.
  revert v. induction b as [|y b IH]; intros v Hb; [congruence|].
  destruct b as [|z b].
  - destruct (dedup_hd y rest) as [l' E]. cbn [app last]. rewrite dedup_cons.
    change (dedup [y]) with [y]. cbn [drop_eq]. rewrite E. rewrite Z.eqb_sym. destruct (Z.eqb_spec y v) as [->|]; reflexivity.
  - rewrite dedup_drop. f_equal. change ((y :: z :: b) ++ rest) with (y :: (z :: b) ++ rest).
    rewrite IH by congruence. rewrite (dedup_drop y (z :: b)).
    replace (last (y :: z :: b) v) with (last (z :: b) y).
    2:{ change (last (y :: z :: b) v) with (last (z :: b) v). clear. revert z.
        induction b as [|w b IH]; intros z; [reflexivity|]. exact (IH w). }
    cbn [drop_eq app]. destruct (y =? v); reflexivity.
Qed.

Lemma sorted_sortZ l : StronglySorted Z.le l -> sortZ l = l.
Proof. intros H. apply sorted_perm_eq; [apply sortZ_sorted|assumption|apply sortZ_perm]. Qed.

Lemma np_unique_sorted_dedup l : StronglySorted Z.le l -> np_unique l = dedup l.
Proof. intros H. unfold np_unique. now rewrite sorted_sortZ. Qed.

Lemma dedup_last v l : l <> [] -> last (dedup l) v = last l v.
Proof.
  induction l as [|x l IH]; [congruence|]. intros _. destruct l as [|y l]; [reflexivity|].
  rewrite dedup_cons. destruct (dedup_hd y l) as [l' E].
  destruct (x =? y); [rewrite IH by congruence; reflexivity|].
  transitivity (last (dedup (y :: l)) v); [rewrite E; reflexivity|]. now apply IH.
Qed.

Lemma sorted_blocks (b : list Z) ls : StronglySorted Z.le (b ++ concat ls) -> StronglySorted Z.le b /\ StronglySorted Z.le (concat ls).
Proof. intros H. apply ssorted_app_inv in H. tauto. Qed.

Lemma unique_loop_spec ls acc v :
  StronglySorted Z.le (concat ls) -> Forall (fun l => l <> []) ls ->
  exists out v', foldM unique_step ls (acc, v) = Ok (acc ++ out, v') /\
                 concat out = tl (dedup (v :: concat ls)).
Proof.
  revert acc v. induction ls as [|b ls IH]; intros acc v Hs Hf.
  - exists [], v. cbn. rewrite app_nil_r. split; reflexivity.
  - cbn [concat] in *. inversion Hf as [|? ? Hb Hf']; subst.
    apply sorted_blocks in Hs as [Hs1 Hs2]. cbn [foldM]. unfold unique_step at 1. cbn [fst snd].
    rewrite np_unique_sorted_dedup by assumption.
    assert (exists x u, dedup b = x :: u) as (x & u & Eu).
    { destruct b as [|x b]; [congruence|]. destruct (dedup_hd x b) as [u E]. eauto. }
    pose proof (dedup_last v b Hb) as L.
    pose proof (dedup_app v b (concat ls) Hb) as D. rewrite D. cbn [tl].
    rewrite Eu in *. cbn [nth_res nth_error bind drop_eq skipn].
    destruct (Z.eqb_spec x v) as [->|Hx].
    + destruct u as [|y u]; cbn [length Nat.ltb Nat.leb bind].
      * cbn in L. destruct (IH acc v Hs2 Hf') as (out & v' & E & C).
        exists out, v'. split; [exact E|]. rewrite C, <- L. reflexivity.
      * destruct (IH (acc ++ [y :: u]) (last (y :: u) v) Hs2 Hf') as (out & v' & E & C).
        exists ((y :: u) :: out), v'. rewrite E. split; [now rewrite <- app_assoc|].
        cbn [concat]. rewrite C. f_equal. f_equal. f_equal. f_equal. rewrite <- L. reflexivity.
    + cbn [length Nat.ltb Nat.leb bind].
      destruct (IH (acc ++ [x :: u]) (last (x :: u) v) Hs2 Hf') as (out & v' & E & C).
      exists ((x :: u) :: out), v'. rewrite E. split; [now rewrite <- app_assoc|].
      cbn [concat]. rewrite C, L. reflexivity.
Qed.

Lemma count_loop_spec ls n v :
  StronglySorted Z.le (concat ls) -> Forall (fun l => l <> []) ls ->
  exists v', foldM count_step ls (n, v) = Ok ((n + length (tl (dedup (v :: concat ls))))%nat, v').
Proof.
  revert n v. induction ls as [|b ls IH]; intros n v Hs Hf.
  - exists v. cbn. now rewrite Nat.add_0_r.
  - cbn [concat] in *. inversion Hf as [|? ? Hb Hf']; subst.
    apply sorted_blocks in Hs as [Hs1 Hs2]. cbn [foldM]. unfold count_step at 1. cbn [fst snd].
    rewrite np_unique_sorted_dedup by assumption.
    pose proof (dedup_app v b (concat ls) Hb) as D. rewrite D. cbn [tl]. rewrite app_length.
    destruct b as [|x b]; [congruence|]. destruct (dedup_hd x b) as [u Eu]. rewrite Eu.
    cbn [nth_res nth_error bind drop_eq length Nat.ltb Nat.leb].
    destruct (Z.eqb_spec x v) as [->|Hx].
    + destruct (IH (n + S (length u) - 1)%nat (last (v :: b) v) Hs2 Hf') as (v' & E). exists v'. cbn [bind]. rewrite E.
      f_equal. f_equal. lia.
    + destruct (IH (n + S (length u))%nat (last (x :: b) v) Hs2 Hf') as (v' & E). exists v'. cbn [bind]. rewrite E.
      f_equal. f_equal. cbn [length]. lia.
Qed.

Lemma tl_dedup_fresh v l : ~ In v l -> tl (dedup (v :: l)) = dedup l.
Proof.
  intros H. rewrite dedup_drop. cbn [tl]. destruct l as [|x l]; [reflexivity|].
  destruct (dedup_hd x l) as [l' E]. rewrite E. cbn [drop_eq].
  destruct (Z.eqb_spec x v) as [->|]; [exfalso; apply H; now left|reflexivity].
Qed.

Section Q.
Variable argsort : list Z -> list nat.
Variables rlen wlen clen : Z -> nat.
Hypothesis Ha : argsort_spec argsort.
Hypothesis Hr : forall z, (0 < rlen z)%nat.
Hypothesis Hw : forall z, (0 < wlen z)%nat.
Hypothesis Hc : forall z, (0 < clen z)%nat.
Variable tt : itype.
Variable triplets : list (Z * Z * Z).
Variables memory o_buffer : Z.
Hypothesis Ho : 8 <= o_buffer.
Hypothesis Hsize : 64 * Z.of_nat (length triplets) <= 3 * memory \/
                   (10 ^ 9 <= memory /\ Z.of_nat (length triplets) <= 10 ^ 14).

Lemma pairs_of_by_spec by_ : by_ready triplets by_ ->
  exists p, pairs_of_by argsort rlen wlen clen memory o_buffer tt triplets by_ = Ok p /\
    In (bp_max p) (fst by_) /\ (forall l, In l (fst by_) -> l <= bp_max p) /\
    bp_n p = length (bp_unique p) /\
    (forall c, In c (bp_unique p) -> 0 <= c < 2 ^ 62) /\
    pairs_exactly (bp_max p + 1) (rows_between (fst (snd by_)) (snd (snd by_)) triplets) (bp_unique p).
Proof.
  destruct by_ as [labels [i j]]. intros (Hij & Hne & Hlab & Hin). cbn [fst snd].
  unfold pairs_of_by. cbn [fst snd].
  destruct (np_max_spec labels Hne) as (m & Em & Hm & Hmax). rewrite Em. cbn [bind].
  pose proof (Hlab m Hm) as Hmr.
  assert (Hsq : (m + 1) ^ 2 <= 2 ^ 62) by (replace (2 ^ 62) with (2 ^ 31 * 2 ^ 31) by reflexivity; nia).
  destruct (fit_ok_unsigned ((m + 1) ^ 2 - 1)) as [t Ht]; [lia|]. rewrite Ht. cbn [bind].
  destruct (read_all_spec rlen Hr (0, 0, 0) tt 3 (Some (i, j)) triplets) as (blocks & Eb & Cb & Fb).
  { intros i0 i1 E. inversion E; subst. unfold triplet in *. lia. }
  rewrite Eb. cbn [bind].
  rewrite (write_all_spec wlen clen Hw Hc) by lia. cbn [bind].
  set (rows := rows_between i j triplets) in *.
  assert (Hrows : forall a b x, In (a, b, x) rows -> 0 <= a <= m /\ 0 <= b <= m /\ 0 <= x <= m).
  { intros a b x H. destruct (Hin _ _ _ H) as (H1 & H2 & H3).
    pose proof (Hmax _ H1). pose proof (Hmax _ H2). pose proof (Hmax _ H3).
    pose proof (Hlab _ H1). pose proof (Hlab _ H2). pose proof (Hlab _ H3). lia. }
  assert (Ec : concat (map (pair_codes t (m + 1)) blocks) =
               flat_map (fun r => let '(a, b, x) := r in [code (m + 1) a x; code (m + 1) b x]) rows).
  { transitivity (pair_codes t (m + 1) rows); [|now apply pair_codes_exact].
    rewrite <- flat_map_concat_map. assert (Cb' : concat blocks = rows) by exact Cb. rewrite <- Cb'.
    unfold pair_codes. clear. induction blocks as [|b blocks IH]; [reflexivity|].
    cbn [flat_map concat]. rewrite flat_map_app. now rewrite IH. }
  rewrite Ec.
  match type of Ec with _ = ?c => set (codes := c) in * end.
  assert (Hcodes : forall c, In c codes <-> is_pair_of (m + 1) rows c).
  { intros c. subst codes. rewrite in_flat_map. unfold is_pair_of. split.
    - intros ([[a b] x] & H1 & H2). exists a, b, x. split; [assumption|].
      destruct H2 as [<-|[<-|[]]]; tauto.
    - intros (a & b & x & H1 & H2). exists (a, b, x). split; [assumption|].
      destruct H2 as [->| ->]; cbn; tauto. }
  assert (Hcr : forall c, In c codes -> 0 <= c < (m + 1) ^ 2).
  { intros c H. apply Hcodes in H as (a & b & x & H1 & H2). destruct (Hrows _ _ _ H1) as (? & ? & ?).
    destruct H2 as [->| ->]; apply code_range; lia. }
  assert (Hcast : map (cast t) codes = codes).
  { rewrite <- (map_id codes) at 2. apply map_ext_in. intros c H. apply (fit_base_codes m t); [lia|assumption|auto]. }
  rewrite Hcast.
  assert (Hlen : length rows = (j - i)%nat).
  { subst rows. unfold rows_between. rewrite firstn_length, skipn_length. unfold triplet in *. lia. }
  assert (Hcl : length codes = (2 * length rows)%nat).
  { subst codes. clear. induction rows as [|[[a b] x] rows IH]; [reflexivity|]. cbn in *. rewrite IH. lia. }
  destruct (sort_pairs_spec argsort Ha memory o_buffer t codes) as (sorted & Es & Ss & Ps).
  { intros E. rewrite E in Hcl. cbn in Hcl. lia. }
  { exact Ho. }
  { change (10 ^ 15) with 1000000000000000. change (10 ^ 14) with 100000000000000 in Hsize. lia. }
  rewrite Es. cbn [bind].
  destruct (read_all_spec rlen Hr 0 t 1 None sorted) as (b1 & Eb1 & Cb1 & Fb1); [intros; discriminate|].
  cbn [rows_of] in Cb1. rewrite Eb1. cbn [bind].
  assert (Hfresh : ~ In (-1) sorted).
  { intros H. apply (Permutation_in _ Ps) in H. apply Hcr in H. lia. }
  unfold count_unique, unique_blocks.
  destruct (count_loop_spec b1 0 (-1)) as (v1 & E1); [now rewrite Cb1|assumption|].
  rewrite E1. cbn [bind fst].
  destruct (unique_loop_spec b1 [] (-1)) as (out & v2 & E2 & C2); [now rewrite Cb1|assumption|].
  rewrite E2. cbn [bind fst app]. rewrite Cb1 in *. rewrite tl_dedup_fresh in * by assumption.
  cbn [Nat.add].
  rewrite (write_all_spec wlen clen Hw Hc) by (rewrite C2; lia). cbn [bind].
  eexists. split; [reflexivity|]. cbn [bp_max bp_n bp_unique fst].
  assert (Hcu : map (cast t) (concat out) = dedup sorted).
  { rewrite C2. rewrite <- (map_id (dedup sorted)) at 2. apply map_ext_in. intros c H. apply (fit_base_codes m t); [lia|assumption|].
    apply Hcr. apply (Permutation_in _ Ps). now apply dedup_In. }
  rewrite Hcu. split; [assumption|]. split; [assumption|]. split; [reflexivity|].
  split; [|split].
  - intros c H. apply (proj1 (dedup_In _ _)) in H. apply (Permutation_in _ Ps) in H. apply Hcr in H. lia.
  - now apply dedup_sorted.
  - intros c. rewrite dedup_In, <- Hcodes. split; apply Permutation_in; [assumption|now apply Permutation_sym].
Qed.

Lemma rows_between_app {A : Type} (pre l post : list A) :
  rows_between (length pre) (length pre + length l) (pre ++ l ++ post) = l.
Proof.
  unfold rows_between. rewrite skipn_app, skipn_all, Nat.sub_diag. cbn.
  replace (length pre + length l - length pre)%nat with (length l) by lia.
  rewrite firstn_app, firstn_all, Nat.sub_diag. cbn. apply app_nil_r.
Qed.

Lemma merge_pairs_spec bys per :
  Forall (by_ready triplets) bys ->
  Forall2 (fun by_ p => In (bp_max p) (fst by_) /\ (forall l, In l (fst by_) -> l <= bp_max p) /\
    bp_n p = length (bp_unique p) /\ (forall c, In c (bp_unique p) -> 0 <= c < 2 ^ 62) /\
    pairs_exactly (bp_max p + 1) (rows_between (fst (snd by_)) (snd (snd by_)) triplets) (bp_unique p)) bys per ->
  forall pre, exists blocks attrs,
    merge_pairs rlen bys per (length pre) = Ok (blocks, attrs) /\
    concat blocks = concat (map bp_unique per) /\
    (forall c, In c (concat blocks) -> 0 <= c < 2 ^ 62) /\
    length (concat blocks) = sumn (map bp_n per) /\
    Forall2 (by_result triplets (pre ++ concat blocks)) bys attrs /\
    consecutive (length pre) (map (fun a => (snd (fst a), snd a)) attrs) (length pre + length (concat blocks))%nat.
Proof.
  intros G F. induction F as [|by_ p bys per (M1 & M2 & N & R & X) F IH]; intros pre.
  - exists [], []. cbn. repeat split; try tauto; try lia. constructor.
  - inversion G as [|? ? G1 G2]; subst. specialize (IH G2). cbn [merge_pairs].
    assert (Hne : (fst (snd by_) <> snd (snd by_))%nat).
    { destruct by_ as [ll [i j]]. cbn in *. lia. }
    destruct (Nat.eqb_spec (fst (snd by_)) (snd (snd by_))); [contradiction|].
    destruct (read_all_spec rlen Hr 0 (bp_type p) 1 None (bp_unique p)) as (b & Eb & Cb & _); [intros; discriminate|].
    cbn [rows_of] in Cb. rewrite Eb. cbn [bind].
    destruct (IH (pre ++ bp_unique p)) as (blocks & attrs & E & C & C2 & L & F2 & K).
    rewrite app_length in E, K. rewrite N, E. cbn [bind fst snd].
    eexists _, _. split; [reflexivity|]. rewrite concat_app, Cb. cbn [map concat sumn fold_right].
    split; [now rewrite C|]. split; [intros c H; apply in_app_iff in H as [H|H]; auto|].
    split; [rewrite app_length, N, L; reflexivity|]. split.
    + constructor.
      * unfold by_result. cbn. split; [now rewrite Z.add_simpl_r|]. split; [intros l H; apply M2 in H; lia|].
        rewrite rows_between_app. exact X.
      * rewrite <- app_assoc in F2. exact F2.
    + cbn. split; [reflexivity|]. split; [lia|]. rewrite app_length, Nat.add_assoc. exact K.
Qed.

Lemma generate_pairs_spec bys : Forall (by_ready triplets) bys ->
  exists data attrs, generate_pairs argsort rlen wlen clen memory o_buffer tt triplets bys = Ok (data, attrs) /\
    Forall2 (by_result triplets data) bys attrs /\
    consecutive 0 (map (fun a => (snd (fst a), snd a)) attrs) (length data).
Proof.
  intros G. unfold generate_pairs.
  assert (exists per, mapM (pairs_of_by argsort rlen wlen clen memory o_buffer tt triplets) bys = Ok per /\
    Forall2 (fun by_ p => In (bp_max p) (fst by_) /\ (forall l, In l (fst by_) -> l <= bp_max p) /\
    bp_n p = length (bp_unique p) /\ (forall c, In c (bp_unique p) -> 0 <= c < 2 ^ 62) /\
    pairs_exactly (bp_max p + 1) (rows_between (fst (snd by_)) (snd (snd by_)) triplets) (bp_unique p)) bys per)
    as (per & E & F).
  { clear - G Ha Hr Hw Hc Ho Hsize. induction G as [|by_ bys G1 G IH]; [exists []; split; [reflexivity|constructor]|].
    destruct (pairs_of_by_spec by_ G1) as (p & E1 & P1). destruct IH as (per & E & F).
    exists (p :: per). cbn. rewrite E1. cbn. rewrite E. cbn. split; [reflexivity|]. constructor; assumption. }
  rewrite E. cbn [bind].
  destruct (merge_pairs_spec bys per G F []) as (blocks & attrs & Em & C & R & L & F2 & K).
  cbn [length] in Em. rewrite Em. cbn [bind fst snd].
  rewrite (write_all_spec wlen clen Hw Hc) by lia. cbn [bind].
  assert (Hid : map (cast I64) (concat blocks) = concat blocks).
  { rewrite <- (map_id (concat blocks)) at 2. apply map_ext_in. intros c H. apply cast_id. apply R in H.
    cbn. lia. }
  rewrite Hid. exists (concat blocks), attrs. split; [reflexivity|]. split; [exact F2|exact K].
Qed.
End Q.

Lemma generated_code_decodes m t a x :
  fit_integer_type ((m + 1) ^ 2 - 1) false = Ok t -> 0 <= a <= m -> 0 <= x <= m ->
  decode_pair (m + 1) (pair_code t (m + 1) (cast t a) (cast t x)) = (a, x).
Proof.
  intros Ht Ha Hx. rewrite pair_code_exact by assumption. apply decode_code; lia.
Qed.

Lemma code_injective base a x a' x' :
  0 <= a < base -> 0 <= x -> 0 <= a' < base -> 0 <= x' ->
  code base a x = code base a' x' -> a = a' /\ x = x'.
Proof.
  intros Ha Hx Ha' Hx' E. pose proof (decode_code base a x Ha Hx) as D1.
  pose proof (decode_code base a' x' Ha' Hx') as D2. rewrite E, D2 in D1. inversion D1. tauto.
Qed.

Lemma block_codes_top m t rows :
  fit_integer_type ((m + 1) ^ 2 - 1) false = Ok t ->
  (forall a b x, In (a, b, x) rows -> 0 <= a <= m /\ 0 <= b <= m /\ 0 <= x <= m) ->
  pair_codes t (m + 1) rows =
  concat (map (fun r => let '(a, b, x) := r in [code (m + 1) a x; code (m + 1) b x]) rows).
Proof. intros Ht H. rewrite pair_codes_exact by assumption. apply flat_map_concat_map. Qed.

Lemma by_result_decodes triplets data labels i j base s e :
  by_ready triplets (labels, (i, j)) -> by_result triplets data (labels, (i, j)) (base, s, e) ->
  forall item x,
    In (item, x) (map (decode_pair base) (rows_between s e data)) <->
    exists a b, In (a, b, x) (rows_between i j triplets) /\ (item = a \/ item = b).
Proof.
  cbn. intros (Hij & Hne & Hlab & Hin) (Hb & Hl & _ & HP) item x.
  assert (R : forall a b y, In (a, b, y) (rows_between i j triplets) ->
              0 <= a < base /\ 0 <= b < base /\ 0 <= y).
  { intros a b y H. destruct (Hin _ _ _ H) as (H1 & H2 & H3).
    pose proof (Hl _ H1). pose proof (Hl _ H2). pose proof (Hlab _ H1). pose proof (Hlab _ H2).
    pose proof (Hlab _ H3). lia. }
  rewrite in_map_iff. split.
  - intros (c & Ec & Hc). apply HP in Hc as (a & b & y & H & Hor). destruct (R _ _ _ H) as (Ra & Rb & Ry).
    destruct Hor as [->| ->]; rewrite decode_code in Ec by lia; inversion Ec; subst; eauto.
  - intros (a & b & H & Hor). destruct (R _ _ _ H) as (Ra & Rb & Ry).
    exists (code base item x). split; [apply decode_code; destruct Hor; subst; lia|].
    apply HP. exists a, b, x. split; [assumption|]. destruct Hor; subst; tauto.
Qed.
