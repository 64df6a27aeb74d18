(** Proofs about dynamic time warping. *)
From Coq Require Import List Arith Lia Bool.
From Verif Require Import Prelude ListFacts Dtw Dtw_spec.
Import ListNotations.

Lemma foldM_seq {St : Type} (f : St -> nat -> res St) (P : nat -> St -> Prop) n : forall a s, P a s ->
  (forall k s, a <= k < a + n -> P k s -> exists s', f s k = Ok s' /\ P (k + 1) s') ->
  exists s', foldM f (seq a n) s = Ok s' /\ P (a + n) s'.
Proof.
  induction n as [|n IH]; intros a s Ha Hf; cbn.
  - exists s. rewrite Nat.add_0_r. auto.
  - destruct (Hf a s) as (s1 & E1 & H1); [lia|exact Ha|]. rewrite E1. cbn [bind].
    rewrite Nat.add_1_r in H1. destruct (IH (S a) s1 H1) as (s' & E & H').
    + intros k t Hk. apply Hf. lia.
    + exists s'. rewrite Nat.add_succ_r. auto.
Qed.

(** Alignments. *)
Lemma alignment_length a p : alignment a p -> Nat.max (fst a) (snd a) + 1 <= length p <= fst a + snd a + 1.
Proof.
  induction 1 as [|a b p _ IH M]; [cbn; lia|]. destruct M; cbn [fst snd length] in *; lia.
Qed.

Section Dtw.
Variable C : Type.
Variable add : C -> C -> C.
Variable leb : C -> C -> bool.
Variable divn : C -> nat -> C.

Section Table.
Variable d : nat -> nat -> C.

Fixpoint table (i : nat) : nat -> C :=
  match i with
  | 0 => fix row j := match j with 0 => d 0 0 | S j' => add (d 0 j) (row j') end
  | S i' => fix row j := match j with
                         | 0 => add (d i 0) (table i' 0)
                         | S j' => add (d i j) (min3 leb (table i' j) (table i' j') (row j'))
                         end
  end.

Lemma table_00 : table 0 0 = d 0 0.
Proof. reflexivity. Qed.
Lemma table_0S j : table 0 (S j) = add (d 0 (S j)) (table 0 j).
Proof. reflexivity. Qed.
Lemma table_S0 i : table (S i) 0 = add (d (S i) 0) (table i 0).
Proof. reflexivity. Qed.
Lemma table_SS i j : table (S i) (S j) = add (d (S i) (S j)) (min3 leb (table i (S j)) (table i j) (table (S i) j)).
Proof. reflexivity. Qed.

End Table.

Lemma put_same cost i j (c : C) : put cost i j c i j = c.
Proof. unfold put. rewrite !Nat.eqb_refl. reflexivity. Qed.
Lemma put_other cost i j (c : C) i' j' : (i' <> i \/ j' <> j) -> put cost i j c i' j' = cost i' j'.
Proof.
  intros H. unfold put. destruct (Nat.eqb_spec i' i), (Nat.eqb_spec j' j); try reflexivity. exfalso. tauto.
Qed.

Lemma at_entry (z : C) N M dist i j : shape N M dist -> i < N -> j < M -> at_ dist i j = Ok (entry z dist i j).
Proof.
  intros [L W] Hi Hj. unfold at_, entry. rewrite (nth_res_lt _ []) by lia. cbn [bind].
  apply nth_res_lt. rewrite W; [exact Hj|]. apply nth_In. lia.
Qed.

Lemma fill_ok (z : C) N M dist empty : shape N M dist -> 0 < N -> 0 < M ->
  exists cost, fill add leb N M dist empty = Ok cost /\ forall i j, i < N -> j < M -> cost i j = table (entry z dist) i j.
Proof.
  intros Hs HN HM. set (d := entry z dist). set (T := table d). unfold fill.
  rewrite (at_entry z N M dist 0 0 Hs HN HM). cbn [bind]. fold d.
  destruct (foldM_seq (fun cost i => d <- at_ dist i 0 ;; Ok (put cost i 0 (add d (cost (i - 1) 0))))
     (fun k cost => forall i, i < k -> cost i 0 = T i 0) (N - 1) 1 (put empty 0 0 (d 0 0))) as (c1 & E1 & H1).
  { intros i Hi. replace i with 0 by lia. apply put_same. }
  { intros k cost Hk Hc. rewrite (at_entry z N M dist k 0 Hs) by lia. cbn [bind]. fold d. eexists. split; [reflexivity|].
    intros i Hi. destruct (Nat.eq_dec i k) as [->|Ne].
    - rewrite put_same, Hc by lia. destruct k as [|k]; [lia|]. unfold T. rewrite table_S0. cbn [Nat.sub]. rewrite Nat.sub_0_r. reflexivity.
    - rewrite put_other by auto. apply Hc. lia. }
  rewrite E1. cbn [bind]. replace (1 + (N - 1)) with N in H1 by lia.
  destruct (foldM_seq (fun cost j => d <- at_ dist 0 j ;; Ok (put cost 0 j (add d (cost 0 (j - 1)))))
     (fun k cost => (forall i, i < N -> cost i 0 = T i 0) /\ forall j, j < k -> cost 0 j = T 0 j) (M - 1) 1 c1) as (c2 & E2 & H2a & H2b).
  { split; [exact H1|]. intros j Hj. replace j with 0 by lia. apply H1. lia. }
  { intros k cost Hk (Ha & Hb). rewrite (at_entry z N M dist 0 k Hs) by lia. cbn [bind]. fold d. eexists. split; [reflexivity|]. split.
    - intros i Hi. rewrite put_other by lia. apply Ha. exact Hi.
    - intros j Hj. destruct (Nat.eq_dec j k) as [->|Ne].
      + rewrite put_same, Hb by lia. destruct k as [|k]; [lia|]. unfold T. rewrite table_0S. cbn [Nat.sub]. rewrite Nat.sub_0_r. reflexivity.
      + rewrite put_other by auto. apply Hb. lia. }
  rewrite E2. cbn [bind]. replace (1 + (M - 1)) with M in H2b by lia.
  destruct (foldM_seq (fun cost i =>
    foldM (fun cost j =>
      d <- at_ dist i j ;;
      Ok (put cost i j (add d (min3 leb (cost (i - 1) j) (cost (i - 1) (j - 1)) (cost i (j - 1))))))
      (seq 1 (M - 1)) cost)
     (fun k cost => (forall i, i < N -> cost i 0 = T i 0) /\ forall i j, i < k -> j < M -> cost i j = T i j) (N - 1) 1 c2) as (c3 & E3 & H3a & H3b).
  { split; [exact H2a|]. intros i j Hi Hj. replace i with 0 by lia. apply H2b. exact Hj. }
  { intros k cost Hk (Ha & Hb).
    destruct (foldM_seq (fun cost j =>
      d <- at_ dist k j ;;
      Ok (put cost k j (add d (min3 leb (cost (k - 1) j) (cost (k - 1) (j - 1)) (cost k (j - 1))))))
      (fun m cost => (forall i, i < N -> cost i 0 = T i 0) /\ (forall i j, i < k -> j < M -> cost i j = T i j) /\ forall j, j < m -> cost k j = T k j)
      (M - 1) 1 cost) as (c4 & E4 & H4a & H4b & H4c).
    { split; [exact Ha|]. split; [exact Hb|]. intros j Hj. replace j with 0 by lia. apply Ha. lia. }
    { intros m cost' Hm (Ia & Ib & Ic). rewrite (at_entry z N M dist k m Hs) by lia. cbn [bind]. fold d. eexists. split; [reflexivity|]. split; [|split].
      - intros i Hi. rewrite put_other by lia. apply Ia. exact Hi.
      - intros i j Hi Hj. rewrite put_other by lia. apply Ib; assumption.
      - intros j Hj. destruct (Nat.eq_dec j m) as [->|Ne].
        + rewrite put_same, Ic, !Ib by lia. destruct k as [|k]; [lia|]. destruct m as [|m]; [lia|]. unfold T. rewrite table_SS.
          cbn [Nat.sub]. rewrite !Nat.sub_0_r. reflexivity.
        + rewrite put_other by auto. apply Ic. lia. }
    exists c4. split; [exact E4|]. split; [exact H4a|]. intros i j Hi Hj. destruct (Nat.eq_dec i k) as [->|Ne].
    - apply H4c. lia.
    - apply H4b; lia. }
  exists c3. split; [exact E3|]. intros i j Hi Hj. apply H3b; [lia|exact Hj].
Qed.

Lemma cost_of_cons d i j p c : cost_of add d p = Some c -> cost_of add d ((i, j) :: p) = Some (add (d i j) c).
Proof. intros E. cbn. rewrite E. destruct p; [discriminate|reflexivity]. Qed.

Lemma alignment_cost d a p : alignment a p -> exists c, cost_of add d p = Some c.
Proof.
  induction 1 as [|a [i j] p _ (c & E) _]; [eexists; reflexivity|]. eexists. apply cost_of_cons. exact E.
Qed.

Hypothesis Ho : ordered add leb.

Lemma le_refl a : leb a a = true.
Proof. destruct (le_total Ho a a); assumption. Qed.

Lemma less_false a b : less leb a b = false -> leb b a = true.
Proof. unfold less. destruct (leb b a) eqn:E; [reflexivity|]. destruct (le_total Ho a b) as [H|H]; [rewrite H|congruence]. discriminate. Qed.

Lemma less_true a b : less leb a b = true -> leb a b = true.
Proof. unfold less. destruct (leb a b); [reflexivity|discriminate]. Qed.

Lemma min3_in a b c : min3 leb a b c = a \/ min3 leb a b c = b \/ min3 leb a b c = c.
Proof. unfold min3. destruct (less leb b a); destruct (less leb c _); auto. Qed.

Lemma min3_le a b c : leb (min3 leb a b c) a = true /\ leb (min3 leb a b c) b = true /\ leb (min3 leb a b c) c = true.
Proof.
  unfold min3. assert (H : leb (if less leb b a then b else a) a = true /\ leb (if less leb b a then b else a) b = true).
  { destruct (less leb b a) eqn:E; split; try apply le_refl; [apply less_true, E|apply less_false, E]. }
  set (m := if less leb b a then b else a) in *. destruct H as [H1 H2]. destruct (less leb c m) eqn:E.
  - apply less_true in E. repeat split; try apply le_refl; eapply (le_trans Ho); eassumption.
  - apply less_false in E. auto.
Qed.

Section Optimal.
Variable d : nat -> nat -> C.
Local Notation T := (table d).

Lemma table_reached : forall i j, exists p, alignment (i, j) p /\ cost_of add d p = Some (T i j).
Proof.
  induction i as [|i IHi]; induction j as [|j IHj].
  - exists [(0, 0)]. split; [constructor|reflexivity].
  - destruct IHj as (p & A & E). exists ((0, S j) :: p). split; [eapply al_move; [exact A|constructor]|].
    rewrite (cost_of_cons d 0 (S j) p _ E). reflexivity.
  - destruct (IHi 0) as (p & A & E). exists ((S i, 0) :: p). split; [eapply al_move; [exact A|constructor]|].
    rewrite (cost_of_cons d (S i) 0 p _ E). reflexivity.
  - rewrite table_SS. destruct (min3_in (T i (S j)) (T i j) (T (S i) j)) as [-> | [-> | ->]].
    + destruct (IHi (S j)) as (p & A & E). exists ((S i, S j) :: p). split; [eapply al_move; [exact A|constructor]|]. apply cost_of_cons. exact E.
    + destruct (IHi j) as (p & A & E). exists ((S i, S j) :: p). split; [eapply al_move; [exact A|constructor]|]. apply cost_of_cons. exact E.
    + destruct IHj as (p & A & E). exists ((S i, S j) :: p). split; [eapply al_move; [exact A|constructor]|]. apply cost_of_cons. exact E.
Qed.

Lemma table_move a b : move a b -> leb (T (fst b) (snd b)) (add (d (fst b) (snd b)) (T (fst a) (snd a))) = true.
Proof.
  intros [i j|i j|i j]; cbn [fst snd].
  - destruct j as [|j]; [rewrite table_S0; apply le_refl|]. rewrite table_SS. apply (add_mono Ho). apply min3_le.
  - destruct i as [|i]; [rewrite table_0S; apply le_refl|]. rewrite table_SS. apply (add_mono Ho). apply min3_le.
  - rewrite table_SS. apply (add_mono Ho). apply min3_le.
Qed.

Lemma table_least a p : alignment a p -> forall c, cost_of add d p = Some c -> leb (T (fst a) (snd a)) c = true.
Proof.
  induction 1 as [|a [i j] p A IH M]; intros c E.
  - cbn in E. injection E as <-. apply le_refl.
  - destruct (alignment_cost d a p A) as (c' & E'). rewrite (cost_of_cons d i j p c' E') in E. injection E as <-.
    eapply (le_trans Ho); [apply (table_move a (i, j) M)|]. apply (add_mono Ho). apply IH. exact E'.
Qed.

Lemma edge i j : i = 0 \/ j = 0 -> exists p, alignment (i, j) p /\ length p = i + j + 1 /\ cost_of add d p = Some (T i j).
Proof.
  intros [->| ->].
  - induction j as [|j (p & A & L & E)]; [exists [(0, 0)]; repeat split; constructor|].
    exists ((0, S j) :: p). split; [eapply al_move; [exact A|constructor]|]. split; [cbn [length]; lia|].
    rewrite (cost_of_cons d 0 (S j) p _ E). reflexivity.
  - induction i as [|i (p & A & L & E)]; [exists [(0, 0)]; repeat split; constructor|].
    exists ((S i, 0) :: p). split; [eapply al_move; [exact A|constructor]|]. split; [cbn [length]; lia|].
    rewrite (cost_of_cons d (S i) 0 p _ E). reflexivity.
Qed.

Lemma min3_least x a b c : leb x a = true -> leb x b = true -> leb x c = true -> leb x (min3 leb a b c) = true.
Proof. intros. destruct (min3_in a b c) as [-> | [-> | ->]]; assumption. Qed.

Lemma trace_back_ok N M cost : (forall i j, i < N -> j < M -> cost i j = T i j) ->
  forall fuel i j l, i < N -> j < M -> i + j <= fuel ->
  exists i' j' l' p, trace_back leb fuel cost i j l = Ok (i', j', l') /\ (i' = 0 \/ j' = 0) /\
    alignment (i, j) p /\ l' + i' + j' + 1 = length p + l /\
    exists c, cost_of add d p = Some c /\ leb c (T i j) = true.
Proof.
  intros Hc. induction fuel as [|fuel IH]; intros i j l Hi Hj Hf.
  - assert (i = 0) as -> by lia. assert (j = 0) as -> by lia. destruct (edge 0 0 (or_introl eq_refl)) as (p & A & L & E).
    exists 0, 0, l, p. split; [reflexivity|]. split; [auto|]. split; [exact A|]. split; [lia|]. eexists. split; [exact E|apply le_refl].
  - destruct i as [|i].
    { destruct (edge 0 j (or_introl eq_refl)) as (p & A & L & E). exists 0, j, l, p. split; [reflexivity|].
      split; [auto|]. split; [exact A|]. split; [lia|]. eexists. split; [exact E|apply le_refl]. }
    destruct j as [|j].
    { destruct (edge (S i) 0 (or_intror eq_refl)) as (p & A & L & E). exists (S i), 0, l, p. split; [reflexivity|].
      split; [auto|]. split; [exact A|]. split; [lia|]. eexists. split; [exact E|apply le_refl]. }
    cbn [trace_back]. rewrite (Hc i (S j)), (Hc (S i) j), (Hc i j) by lia.
    assert (K : forall a, move a (S i, S j) -> leb (T (fst a) (snd a)) (min3 leb (T i (S j)) (T i j) (T (S i) j)) = true ->
       forall p c, alignment a p -> cost_of add d p = Some c -> leb c (T (fst a) (snd a)) = true ->
       alignment (S i, S j) ((S i, S j) :: p) /\ exists c', cost_of add d ((S i, S j) :: p) = Some c' /\ leb c' (T (S i) (S j)) = true).
    { intros a Ma Hm p c A E L. split; [eapply al_move; eassumption|]. eexists. split; [apply cost_of_cons; exact E|].
      rewrite table_SS. apply (add_mono Ho). eapply (le_trans Ho); eassumption. }
    destruct (leb (T i j) (T (S i) j) && leb (T i j) (T i (S j))) eqn:B1.
    + apply andb_prop in B1. destruct B1 as [B1 B2].
      destruct (IH i j (l + 1)) as (i' & j' & l' & p & E & D & A & L & c & Ec & Lc); [lia|lia|lia|].
      destruct (K (i, j) (move_xy i j)) with (p := p) (c := c) as (A' & Ec'); auto.
      { apply min3_least; auto. apply le_refl. }
      exists i', j', l', ((S i, S j) :: p). split; [exact E|]. split; [exact D|]. split; [exact A'|]. split; [cbn [length]; lia|exact Ec'].
    + destruct (leb (T (S i) j) (T i (S j))) eqn:B2.
      * destruct (IH (S i) j (l + 1)) as (i' & j' & l' & p & E & D & A & L & c & Ec & Lc); [lia|lia|lia|].
        destruct (K (S i, j) (move_y (S i) j)) with (p := p) (c := c) as (A' & Ec'); auto.
        { cbn [fst snd]. apply min3_least; [exact B2| |apply le_refl].
          destruct (leb (T i j) (T (S i) j)) eqn:B3.
          - cbn in B1. destruct (le_total Ho (T i (S j)) (T i j)) as [Q|Q]; [|congruence]. eapply (le_trans Ho); eassumption.
          - destruct (le_total Ho (T (S i) j) (T i j)); [assumption|congruence]. }
        exists i', j', l', ((S i, S j) :: p). split; [exact E|]. split; [exact D|]. split; [exact A'|]. split; [cbn [length]; lia|exact Ec'].
      * destruct (IH i (S j) (l + 1)) as (i' & j' & l' & p & E & D & A & L & c & Ec & Lc); [lia|lia|lia|].
        assert (B4 : leb (T i (S j)) (T (S i) j) = true) by (destruct (le_total Ho (T i (S j)) (T (S i) j)); [assumption|congruence]).
        destruct (K (i, S j) (move_x i (S j))) with (p := p) (c := c) as (A' & Ec'); auto.
        { cbn [fst snd]. apply min3_least; [apply le_refl| |exact B4].
          destruct (leb (T i j) (T (S i) j)) eqn:B3.
          - cbn in B1. destruct (le_total Ho (T i (S j)) (T i j)) as [Q|Q]; [exact Q|congruence].
          - destruct (le_total Ho (T (S i) j) (T i j)) as [Q|Q]; [|congruence]. eapply (le_trans Ho); eassumption. }
        exists i', j', l', ((S i, S j) :: p). split; [exact E|]. split; [exact D|]. split; [exact A'|]. split; [cbn [length]; lia|exact Ec'].
Qed.

End Optimal.

Variable F : Type.
Variable metric : list F -> list F -> res (list (list C)).

(** Without normalisation: the least cost of an alignment. *)
Lemma dtw_optimal z x y dist empty : x <> [] -> y <> [] -> metric x y = Ok dist -> shape (length x) (length y) dist ->
  exists c p, dtw add leb divn x y metric false empty = Ok c /\
    optimal add leb (entry z dist) (length x - 1, length y - 1) p /\ cost_of add (entry z dist) p = Some c.
Proof.
  intros Hx Hy Em Hs. assert (HN : 0 < length x) by (destruct x; [congruence|cbn; lia]).
  assert (HM : 0 < length y) by (destruct y; [congruence|cbn; lia]).
  unfold dtw. destruct (Nat.eqb_spec (length x) 0); [lia|]. destruct (Nat.eqb_spec (length y) 0); [lia|]. cbn [orb].
  rewrite Em. cbn [bind]. unfold dtw_costs. destruct (fill_ok z _ _ dist empty Hs HN HM) as (cost & E & Hc). rewrite E. cbn [bind].
  destruct (table_reached (entry z dist) (length x - 1) (length y - 1)) as (p & A & Ep).
  eexists _, p. split; [reflexivity|]. rewrite Hc by lia. split; [|exact Ep]. split; [exact A|].
  intros q c c' Aq E1 E2. rewrite Ep in E1. injection E1 as <-. apply (table_least _ _ _ Aq _ E2).
Qed.

(** With normalisation: divided by the length of an alignment of least cost. *)
Lemma dtw_normalised z x y dist empty : x <> [] -> y <> [] -> metric x y = Ok dist -> shape (length x) (length y) dist ->
  exists c p, dtw add leb divn x y metric false empty = Ok c /\ dtw add leb divn x y metric true empty = Ok (divn c (length p)) /\
    optimal add leb (entry z dist) (length x - 1, length y - 1) p /\
    Nat.max (length x) (length y) <= length p <= length x + length y - 1.
Proof.
  intros Hx Hy Em Hs. assert (HN : 0 < length x) by (destruct x; [congruence|cbn; lia]).
  assert (HM : 0 < length y) by (destruct y; [congruence|cbn; lia]).
  unfold dtw. destruct (Nat.eqb_spec (length x) 0); [lia|]. destruct (Nat.eqb_spec (length y) 0); [lia|]. cbn [orb].
  rewrite Em. cbn [bind]. unfold dtw_costs. destruct (fill_ok z _ _ dist empty Hs HN HM) as (cost & E & Hc). rewrite E. cbn [bind].
  destruct (trace_back_ok (entry z dist) (length x) (length y) cost Hc (length x + length y) (length x - 1) (length y - 1) 1)
    as (i' & j' & l' & p & Et & D & A & L & c & Ec & Lc); [lia|lia|lia|].
  exists (cost (length x - 1) (length y - 1)), p. split; [reflexivity|]. rewrite Et. cbn [bind]. split; [|split].
  - do 2 f_equal. destruct (Nat.eqb_spec i' 0), (Nat.eqb_spec j' 0); lia.
  - split; [exact A|]. intros q c1 c2 Aq E1 E2. rewrite Ec in E1. injection E1 as <-.
    eapply (le_trans Ho); [exact Lc|]. apply (table_least _ _ _ Aq _ E2).
  - apply alignment_length in A. cbn [fst snd] in A. lia.
Qed.

(** Empty sequences. *)
Lemma dtw_empty x y normalized empty : x = [] \/ y = [] -> dtw add leb divn x y metric normalized empty = Err ValueError.
Proof. intros [->| ->]; unfold dtw; [reflexivity|]. rewrite Bool.orb_true_r. reflexivity. Qed.

(** Symmetry. *)
Definition flip (p : list (nat * nat)) : list (nat * nat) := map (fun a => (snd a, fst a)) p.

Lemma flip_alignment a p : alignment a p -> alignment (snd a, fst a) (flip p).
Proof.
  induction 1 as [|a b p A IH M]; [constructor|]. cbn [flip map]. apply al_move with (a := (snd a, fst a)); [exact IH|].
  destruct M; constructor.
Qed.

Lemma flip_cost d p : cost_of add (fun i j => d j i) (flip p) = cost_of add d p.
Proof.
  induction p as [|[i j] p IH]; [reflexivity|]. destruct p as [|a p]; [reflexivity|].
  cbn [flip map] in IH |- *. cbn [cost_of fst snd] in IH |- *. rewrite IH. reflexivity.
Qed.

Lemma cost_of_ext d d' p : (forall i j, d i j = d' i j) -> cost_of add d p = cost_of add d' p.
Proof.
  intros E. induction p as [|[i j] p IH]; [reflexivity|]. destruct p as [|a p]; [cbn; rewrite E; reflexivity|].
  cbn [cost_of] in IH |- *. rewrite IH, E. reflexivity.
Qed.

Lemma flip_optimal z dist dist' a p : transposed z dist dist' -> optimal add leb (entry z dist) a p ->
  optimal add leb (entry z dist') (snd a, fst a) (flip p) /\ cost_of add (entry z dist') (flip p) = cost_of add (entry z dist) p.
Proof.
  intros Ht [A Hm].
  assert (K : forall q, cost_of add (entry z dist') (flip q) = cost_of add (entry z dist) q).
  { intros q. rewrite <- (flip_cost (entry z dist) q). apply cost_of_ext. exact Ht. }
  split; [|apply K]. split; [apply flip_alignment; exact A|]. intros q c c' Aq E1 E2. rewrite K in E1.
  apply (Hm (flip q) c c').
  - apply flip_alignment in Aq. destruct a. exact Aq.
  - exact E1.
  - rewrite <- K. unfold flip. rewrite map_map. cbn [fst snd]. rewrite (map_ext _ (fun a => a)) by (intros [? ?]; reflexivity). rewrite map_id. exact E2.
Qed.

Hypothesis antisym : forall a b, leb a b = true -> leb b a = true -> a = b.

Lemma optimal_cost d a p q : optimal add leb d a p -> optimal add leb d a q -> cost_of add d p = cost_of add d q.
Proof.
  intros [A1 H1] [A2 H2]. destruct (alignment_cost d a p A1) as (c & E). destruct (alignment_cost d a q A2) as (c' & E').
  rewrite E, E'. f_equal. apply antisym; [apply (H1 q c c' A2 E E')|apply (H2 p c' c A1 E' E)].
Qed.

Lemma dtw_symmetric z x y dist dist' empty empty' : metric x y = Ok dist -> metric y x = Ok dist' ->
  shape (length x) (length y) dist -> shape (length y) (length x) dist' -> transposed z dist dist' ->
  dtw add leb divn x y metric false empty = dtw add leb divn y x metric false empty'.
Proof.
  intros E E' Hs Hs' Ht. destruct x as [|f x]; [rewrite !dtw_empty; auto|]. destruct y as [|g y]; [rewrite !dtw_empty; auto|].
  destruct (dtw_optimal z (f :: x) (g :: y) dist empty ltac:(discriminate) ltac:(discriminate) E Hs) as (c & p & -> & O & Ec).
  destruct (dtw_optimal z (g :: y) (f :: x) dist' empty' ltac:(discriminate) ltac:(discriminate) E' Hs') as (c' & p' & -> & O' & Ec').
  destruct (flip_optimal z dist dist' _ _ Ht O) as [O2 E2]. f_equal.
  pose proof (optimal_cost _ _ _ _ O2 O') as E3. rewrite E2, Ec, Ec' in E3. congruence.
Qed.

Lemma dtw_normalised_symmetric z x y dist dist' empty empty' : metric x y = Ok dist -> metric y x = Ok dist' ->
  shape (length x) (length y) dist -> shape (length y) (length x) dist' -> transposed z dist dist' ->
  (forall p q, optimal add leb (entry z dist) (length x - 1, length y - 1) p ->
     optimal add leb (entry z dist) (length x - 1, length y - 1) q -> length p = length q) ->
  dtw add leb divn x y metric true empty = dtw add leb divn y x metric true empty'.
Proof.
  intros E E' Hs Hs' Ht Hl. pose proof (dtw_symmetric z x y dist dist' empty empty' E E' Hs Hs' Ht) as S0.
  destruct x as [|f x]; [rewrite !dtw_empty; auto|]. destruct y as [|g y]; [rewrite !dtw_empty; auto|].
  destruct (dtw_normalised z (f :: x) (g :: y) dist empty ltac:(discriminate) ltac:(discriminate) E Hs) as (c & p & E0 & -> & O & _).
  destruct (dtw_normalised z (g :: y) (f :: x) dist' empty' ltac:(discriminate) ltac:(discriminate) E' Hs') as (c' & p' & E0' & -> & O' & _).
  assert (c' = c) as -> by congruence. do 2 f_equal.
  assert (Ht' : transposed z dist' dist) by (intros i j; symmetry; apply Ht).
  destruct (flip_optimal z dist' dist _ _ Ht' O') as [O2 _]. rewrite (Hl p (flip p') O O2). apply map_length.
Qed.

End Dtw.
