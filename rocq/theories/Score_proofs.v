From Coq Require Import String.
From Coq Require Import List ZArith QArith Lia Sorted Permutation.
From Verif Require Import Prelude ListFacts TypeFitting TypeFitting_proofs H52np H52np_spec H52np_proofs Pairs Pairs_spec
     Pairs_proofs Rounding Distances Distances_proofs Score Score_spec.
Import ListNotations.
Local Open Scope Z_scope.
Local Open Scope list_scope.

Lemma slice_rows A i j (l : list A) : slice i j l = rows_between i j l.
Proof. reflexivity. Qed.

Lemma rows_between_nth A (l : list A) i j p : (i <= p < j)%nat ->
  nth_error (rows_between i j l) (p - i) = nth_error l p.
Proof.
  intros H. rewrite <- slice_rows, nth_error_slice.
  destruct (Nat.ltb_spec (p - i) (j - i)); [f_equal; lia|lia].
Qed.

Lemma rows_between_len A (l : list A) i j : (i <= j <= length l)%nat ->
  length (rows_between i j l) = (j - i)%nat.
Proof. intros H. unfold rows_between. rewrite firstn_length, skipn_length. lia. Qed.

Lemma consecutive_le i l n : consecutive i l n -> (i <= n)%nat.
Proof.
  revert i. induction l as [|(s, e) l IH]; cbn; intros i; [lia|].
  intros (-> & H & C). apply IH in C. lia.
Qed.

Lemma code_bound base a x : 0 <= a < base -> 0 <= x < base -> 0 <= code base a x <= base ^ 2 - 1.
Proof. intros. unfold code. nia. Qed.

Section Scores.
Variable V : Type.
Variable vlt : V -> V -> bool.
Variable rnd : Q -> Q.
Hypothesis Hrnd : exact53 rnd.
Variable rlen : Z -> nat.
Hypothesis Hrlen : forall z, (0 < rlen z)%nat.
Hypothesis vlt_asym : forall d d', vlt d d' = true -> vlt d' d = false.

Lemma int8_verdict d d' : verdict vlt d d' (int8 (vlt d d') - int8 (vlt d' d)).
Proof.
  unfold verdict. destruct (vlt d d') eqn:E.
  - left. rewrite (vlt_asym _ _ E). split; reflexivity.
  - right. destruct (vlt d' d) eqn:E'; [left|right]; repeat split; reflexivity.
Qed.

(** The pairs of a by are found. *)
Lemma find_pairs_exact t pairs codes hi :
  (forall c, In c pairs -> 0 <= c <= hi) -> (forall c, In c codes -> 0 <= c <= hi) ->
  hi <= 2 ^ 53 -> find_pairs rnd t pairs codes = map (searchsorted pairs) codes.
Proof.
  intros Hp Hc Hhi.
  assert (G : forall l, (forall c, In c l -> 0 <= c <= hi) -> map (to_float rnd) l = l).
  { intros l H. rewrite <- (map_id l) at 2. apply map_ext_in. intros c I. apply H in I.
    apply to_float_id; [exact Hrnd|lia]. }
  destruct t; try reflexivity. unfold find_pairs. rewrite !G by assumption. reflexivity.
Qed.

Lemma gather_found (dis : list V) (pairs codes : list Z) :
  StronglySorted Z.lt pairs -> length dis = length pairs -> (forall c, In c codes -> In c pairs) ->
  exists ds, gather dis (map (searchsorted pairs) codes) = Ok ds /\
    Forall2 (fun c d => exists p, nth_error pairs p = Some c /\ nth_error dis p = Some d) codes ds.
Proof.
  intros S L. induction codes as [|c codes IH]; intros H; cbn.
  - exists []. split; [reflexivity|constructor].
  - destruct IH as (ds & E & F); [intros; apply H; now right|].
    destruct (@searchsorted_found pairs c S (H c (or_introl eq_refl))) as (B & N).
    destruct (nth_error dis (searchsorted pairs c)) as [d|] eqn:D.
    + exists (d :: ds). unfold gather in *. unfold nth_res at 1. rewrite D. cbn [bind].
      rewrite E. cbn [bind]. split; [reflexivity|]. constructor; [|exact F]. eauto.
    + apply nth_error_None in D. lia.
Qed.

Definition good_row (T : scored_task) (dis : list V) (by_ : string) (r : triplet) (s : Z) : Prop :=
  let '(a, b, x) := r in
  exists dax dbx, distance_of T dis by_ a x dax /\ distance_of T dis by_ b x dbx /\
                  verdict vlt dax dbx s.

Section OneBy.
Variable T : scored_task.
Variable dis : list V.
Variable by_ : string.
Variables (i j : nat) (base s e : Z) (t : itype).
Hypothesis Hdis : length dis = length (sc_pairs T).
Hypothesis Hattr : In (by_, (base, s, e)) (sc_attrs T).
Hypothesis Hse : 0 <= s <= e.
Hypothesis He : e <= Z.of_nat (length (sc_pairs T)).
Hypothesis Hbase : 1 <= base.
Hypothesis Hfew : few_items base.
Hypothesis Ht : fit_integer_type (base ^ 2 - 1) false = Ok t.
Let pairs := rows_between (Z.to_nat s) (Z.to_nat e) (sc_pairs T).
Let d := rows_between (Z.to_nat s) (Z.to_nat e) dis.
Hypothesis Hpairs : pairs_exactly base (rows_between i j (sc_triplets T)) pairs.
Hypothesis Hitems : forall a b x, In (a, b, x) (rows_between i j (sc_triplets T)) ->
                     0 <= a < base /\ 0 <= b < base /\ 0 <= x < base.

Lemma code_exact a x : 0 <= a < base -> 0 <= x < base ->
  pair_code t base (cast t a) (cast t x) = code base a x.
Proof.
  intros Ha Hx. replace base with ((base - 1) + 1) by lia. apply pair_code_exact; try lia.
  replace (base - 1 + 1) with base by lia. exact Ht.
Qed.

Lemma of_row c dd p : nth_error pairs p = Some c -> nth_error d p = Some dd ->
  exists q, s <= Z.of_nat q < e /\ nth_error (sc_pairs T) q = Some c /\ nth_error dis q = Some dd.
Proof.
  intros Hp Hd. unfold pairs, d in *. rewrite <- !slice_rows, !nth_error_slice in *.
  destruct (Nat.ltb_spec p (Z.to_nat e - Z.to_nat s)) as [L|L]; [|discriminate].
  exists (Z.to_nat s + p)%nat. split; [lia|]. split; assumption.
Qed.

Lemma score_rows_ok rows :
  (forall r, In r rows -> In r (rows_between i j (sc_triplets T))) ->
  exists sc, score_rows vlt rnd t base pairs d rows = Ok sc /\
             Forall2 (good_row T dis by_) rows sc.
Proof.
  intros Hin. destruct Hpairs as (Sp & Ip).
  assert (Hd : length d = length pairs).
  { unfold d, pairs. rewrite !rows_between_len by lia. reflexivity. }
  assert (Bp : forall c, In c pairs -> 0 <= c <= base ^ 2 - 1).
  { intros c I. apply Ip in I. destruct I as (a & b & x & I & Hc). apply Hitems in I.
    destruct Hc as [-> | ->]; apply code_bound; lia. }
  assert (H53 : base ^ 2 - 1 <= 2 ^ 53).
  { unfold few_items in Hfew. assert (base ^ 2 <= 94906265 ^ 2) by (apply Z.pow_le_mono_l; lia).
    assert (94906265 ^ 2 <= 2 ^ 53) by (vm_compute; discriminate). lia. }
  set (cA := map (fun r : triplet => let '(a, b, x) := r in code base a x) rows).
  set (cB := map (fun r : triplet => let '(a, b, x) := r in code base b x) rows).
  assert (EA : map (fun r : triplet => let '(a, b, x) := r in pair_code t base (cast t a) (cast t x)) rows = cA).
  { apply map_ext_in. intros ((a, b), x) I. apply Hin, Hitems in I. apply code_exact; lia. }
  assert (EB : map (fun r : triplet => let '(a, b, x) := r in pair_code t base (cast t b) (cast t x)) rows = cB).
  { apply map_ext_in. intros ((a, b), x) I. apply Hin, Hitems in I. apply code_exact; lia. }
  assert (IA : forall c, In c cA -> In c pairs).
  { intros c I. apply in_map_iff in I. destruct I as (((a, b), x) & <- & I). apply Ip.
    exists a, b, x. split; [apply Hin, I|now left]. }
  assert (IB : forall c, In c cB -> In c pairs).
  { intros c I. apply in_map_iff in I. destruct I as (((a, b), x) & <- & I). apply Ip.
    exists a, b, x. split; [apply Hin, I|now right]. }
  destruct (gather_found d pairs cA Sp Hd IA) as (dA & GA & FA).
  destruct (gather_found d pairs cB Sp Hd IB) as (dB & GB & FB).
  exists (map (fun x => int8 (vlt (fst x) (snd x)) - int8 (vlt (snd x) (fst x))) (combine dA dB)).
  split.
  - unfold score_rows. rewrite EA, EB.
    rewrite (find_pairs_exact t pairs cA (base ^ 2 - 1)) by auto.
    rewrite (find_pairs_exact t pairs cB (base ^ 2 - 1)) by auto.
    rewrite GA. cbn [bind]. rewrite GB. reflexivity.
  - clear GA GB EA EB IA IB Hin. revert dA dB FA FB. unfold cA, cB. clear cA cB.
    induction rows as [|((a, b), x) rows IH]; cbn; intros dA dB FA FB; inversion FA; inversion FB; subst; cbn.
    + constructor.
    + constructor; [|apply IH; assumption].
      destruct H1 as (p & P1 & P2). destruct H6 as (q & Q1 & Q2).
      destruct (of_row _ _ _ P1 P2) as (p' & R1 & R2 & R3).
      destruct (of_row _ _ _ Q1 Q2) as (q' & R4 & R5 & R6).
      cbn. do 2 eexists. split; [exists base, s, e, p'; eauto|].
      split; [exists base, s, e, q'; eauto|]. apply int8_verdict.
Qed.

Lemma score_blocks_ok blocks : forall start scores,
  (forall r, In r (concat blocks) -> In r (rows_between i j (sc_triplets T))) ->
  (start + length (concat blocks) <= length scores)%nat ->
  exists sc, score_blocks vlt rnd t base pairs d start blocks scores = (splice start sc scores, None) /\
             Forall2 (good_row T dis by_) (concat blocks) sc.
Proof.
  induction blocks as [|rows blocks IH]; cbn [concat score_blocks]; intros start scores Hin L.
  - exists []. split; [|constructor]. f_equal. unfold splice. cbn. rewrite Nat.add_0_r.
    symmetry. apply firstn_skipn.
  - destruct (score_rows_ok rows) as (sc & E & F); [intros; apply Hin, in_or_app; now left|].
    rewrite E. rewrite app_length in L. destruct (Nat.leb_spec (start + length rows) (length scores)); [|lia].
    assert (Ls : length sc = length rows).
    { clear -F. induction F; cbn; congruence. }
    destruct (IH (start + length rows)%nat (splice start sc scores)) as (sc' & E' & F').
    + intros; apply Hin, in_or_app; now right.
    + rewrite splice_length; lia.
    + exists (sc ++ sc'). split; [|apply Forall2_app; assumption].
      assert (Ls' : length sc' = length (concat blocks)).
      { clear -F'. induction F'; cbn; congruence. }
      rewrite E'. rewrite <- Ls. rewrite splice_app by lia. reflexivity.
Qed.

End OneBy.

Lemma score_by_ok T dis n by_ i j scores :
  scorable T dis -> nth_error (sc_bys T) n = Some by_ -> nth_error (sc_by_index T) n = Some (i, j) ->
  (i <= j <= length (sc_triplets T))%nat -> length scores = length (sc_triplets T) ->
  exists sc, score_by vlt rnd rlen T dis n by_ scores = (splice i sc scores, None) /\
             Forall2 (good_row T dis by_) (rows_between i j (sc_triplets T)) sc.
Proof.
  intros [S1 S2 S3 S4 S5 S6] Hb Hi Hij L.
  destruct (S5 n by_ i j Hb Hi) as (base & s & e & Ha & Hse & He & Hbase & Hfew & Hpairs & Hitems).
  unfold score_by, by_data. unfold nth_res. rewrite Hi. cbn [bind].
  rewrite (lookup_NoDup _ _ _ _ S2 Ha). cbn [bind].
  assert (H53 : base ^ 2 <= 94906265 ^ 2) by (apply Z.pow_le_mono_l; unfold few_items in Hfew; lia).
  assert (Ht : exists t, fit_integer_type (base ^ 2 - 1) false = Ok t).
  { apply fit_ok_unsigned. change (94906265 ^ 2) with 9007199136250225 in H53. lia. }
  destruct Ht as (t & Ht). rewrite Ht. cbn [bind].
  destruct (@read_blocks_spec (Z * Z * Z) (0, 0, 0) 1 4 ltac:(lia) ltac:(lia) (rlen (3 * width (sc_type T)))
             (Some (i, j)) (sc_triplets T) (Hrlen _)) as (blocks & Eb & Cb & _).
  { intros i0 i1 [= <- <-]. exact Hij. }
  unfold read_all. rewrite Eb. cbn [bind fst]. rewrite !slice_rows.
  cbn [H52np_spec.rows_of] in Cb. change (firstn (j - i) (skipn i (sc_triplets T))) with (rows_between i j (sc_triplets T)) in Cb.
  destruct (score_blocks_ok T dis by_ i j base s e t S6 Ha Hse He Hbase Hfew Ht
              Hpairs Hitems blocks i scores) as (sc & E & F).
  - unfold triplet. rewrite Cb. auto.
  - unfold triplet. rewrite Cb, rows_between_len by lia. lia.
  - exists sc. rewrite <- Cb. split; assumption.
Qed.

Lemma score_bys_ok T dis : scorable T dis ->
  forall bys ranges n i scores,
    (forall m, nth_error bys m = nth_error (sc_bys T) (n + m)) ->
    (forall m, nth_error ranges m = nth_error (sc_by_index T) (n + m)) ->
    length ranges = length bys -> consecutive i ranges (length (sc_triplets T)) ->
    length scores = length (sc_triplets T) ->
    exists scores', score_bys vlt rnd rlen T dis n bys scores = (scores', None) /\
      length scores' = length (sc_triplets T) /\
      (forall p, (p < i)%nat -> nth_error scores' p = nth_error scores p) /\
      (forall m by_ i' j' p r, nth_error bys m = Some by_ -> nth_error ranges m = Some (i', j') ->
         (i' <= p < j')%nat -> nth_error (sc_triplets T) p = Some r ->
         exists s, nth_error scores' p = Some s /\ good_row T dis by_ r s).
Proof.
  intros HS bys. induction bys as [|by_ bys IH]; intros ranges n i scores Hb Hr L C Ls.
  - exists scores. cbn. split; [reflexivity|]. split; [exact Ls|]. split; [reflexivity|].
    intros [|m]; cbn; discriminate.
  - destruct ranges as [|(i0, j0) ranges]; [discriminate|]. cbn in C. destruct C as (-> & Hij & C).
    pose proof (consecutive_le _ _ _ C) as Cle.
    destruct (score_by_ok T dis n by_ i j0 scores HS) as (sc & E & F).
    + specialize (Hb 0%nat). rewrite Nat.add_0_r in Hb. symmetry. exact Hb.
    + specialize (Hr 0%nat). rewrite Nat.add_0_r in Hr. symmetry. exact Hr.
    + lia.
    + exact Ls.
    + assert (Lsc : length sc = (j0 - i)%nat).
      { rewrite <- (rows_between_len triplet (sc_triplets T) i j0) by lia.
        clear -F. induction F; cbn; congruence. }
      destruct (IH ranges (S n) j0 (splice i sc scores)) as (scores' & E' & L' & P1 & P2).
      * intros m. specialize (Hb (S m)). cbn in Hb. rewrite Hb. f_equal. lia.
      * intros m. specialize (Hr (S m)). cbn in Hr. rewrite Hr. f_equal. lia.
      * cbn in L. lia.
      * exact C.
      * rewrite splice_length; lia.
      * exists scores'. cbn [score_bys]. rewrite E. split; [exact E'|]. split; [exact L'|].
        split.
        { intros p Hp. rewrite P1 by lia. rewrite nth_error_splice by lia.
          destruct (Nat.leb_spec i p); [lia|reflexivity]. }
        intros [|m] by' i' j' p r Hb' Hr' Hp Ht; cbn in Hb', Hr'.
        { injection Hb' as <-. injection Hr' as <- <-.
          assert (G : nth_error (rows_between i j0 (sc_triplets T)) (p - i) = Some r)
            by (rewrite rows_between_nth by lia; exact Ht).
          destruct (nth_error sc (p - i)) as [s|] eqn:Es.
          - exists s. split.
            + rewrite P1 by lia. rewrite nth_error_splice by lia.
              destruct (Nat.leb_spec i p); [|lia]. destruct (Nat.ltb_spec p (i + length sc)); [|lia].
              exact Es.
            + clear -F G Es. revert Es G. generalize (p - i)%nat. induction F; intros [|q]; cbn; try discriminate.
              * intros [= ->] [= ->]. assumption.
              * intros A B. eapply IHF; eassumption.
          - apply nth_error_None in Es. lia. }
        { eapply P2; eassumption. }
Qed.

Theorem scores_ok T dis : scorable T dis ->
  exists scores, score_bys vlt rnd rlen T dis 0 (sc_bys T) (repeat 0 (length (sc_triplets T))) = (scores, None) /\
                 scores_of vlt T dis scores.
Proof.
  intros HS. destruct (score_bys_ok T dis HS (sc_bys T) (sc_by_index T) 0 0 (repeat 0 (length (sc_triplets T))))
    as (scores & E & L & _ & P); try reflexivity.
  - apply so_index with (dis := dis); exact HS.
  - apply so_ranges with (dis := dis); exact HS.
  - apply repeat_length.
  - exists scores. split; [exact E|]. split; [exact L|].
    intros p by_ a b x (n & i & j & H1 & H2 & H3 & H4).
    destruct (P n by_ i j p (a, b, x) H1 H2 H3 H4) as (s & Hs & (dax & dbx & D1 & D2 & D3)).
    exists dax, dbx, s. auto.
Qed.

Lemma exists_file_spec (k : disk V) f : exists_file k f = true <-> there k f.
Proof.
  assert (G : forall l, existsb (String.eqb f) l = true <-> In f l).
  { intros l. rewrite existsb_exists. split.
    - intros (x & I & E). apply String.eqb_eq in E. subst. exact I.
    - intros I. exists f. split; [exact I|apply String.eqb_refl]. }
  unfold exists_file, there. rewrite !Bool.orb_true_iff, !G. tauto.
Qed.

Variable stem : string -> string.

(** The score file exists or another file is missing. *)
Theorem score_refuses k task_file distance_file score_file :
  ~ there k task_file \/ ~ there k distance_file \/
  there k (score_name stem task_file distance_file score_file) ->
  score vlt rnd rlen stem k task_file distance_file score_file = (k, Err AssertionError).
Proof.
  intros H. unfold score.
  destruct (exists_file k task_file) eqn:E1; cbn [negb]; [|reflexivity].
  destruct (exists_file k distance_file) eqn:E2; cbn [negb]; [|reflexivity].
  destruct (exists_file k (score_name stem task_file distance_file score_file)) eqn:E3; [reflexivity|].
  apply exists_file_spec in E1, E2. exfalso. destruct H as [H|[H|H]]; try contradiction.
  apply exists_file_spec in H. congruence.
Qed.

(** Whatever happens, no other file changes. *)
Theorem score_keeps k task_file distance_file score_file k' r f :
  score vlt rnd rlen stem k task_file distance_file score_file = (k', r) ->
  there k f -> holds k k' f.
Proof.
  intros E Hf. assert (R : holds k k f) by (unfold holds; tauto).
  unfold score in E.
  destruct (exists_file k task_file) eqn:E1; cbn [negb] in E; [|injection E as <- _; exact R].
  destruct (exists_file k distance_file) eqn:E2; cbn [negb] in E; [|injection E as <- _; exact R].
  destruct (exists_file k (score_name stem task_file distance_file score_file)) eqn:E3;
    [injection E as <- _; exact R|].
  destruct (lookup (k_tasks k) task_file) as [T|]; [|injection E as <- _; exact R].
  injection E as <- _. unfold holds. cbn. split; [tauto|]. split; [tauto|]. split; [|tauto].
  intros s. split; [tauto|]. intros [[= <- _]|H]; [|exact H].
  apply exists_file_spec in Hf. congruence.
Qed.

(** The score file of a well formed task and its distances. *)
Theorem score_writes k task_file distance_file score_file T dis :
  lookup (k_tasks k) task_file = Ok T -> lookup (k_distances k) distance_file = Ok dis ->
  scorable T dis -> ~ there k (score_name stem task_file distance_file score_file) ->
  exists k' scores,
    score vlt rnd rlen stem k task_file distance_file score_file = (k', Ok tt) /\
    lookup (k_scores k') (score_name stem task_file distance_file score_file) = Ok scores /\
    scores_of vlt T dis scores.
Proof.
  intros H1 H2 HS HN. unfold score.
  assert (E1 : exists_file k task_file = true).
  { apply exists_file_spec. left. apply lookup_In in H1. apply in_map_iff. exists (task_file, T). auto. }
  assert (E2 : exists_file k distance_file = true).
  { apply exists_file_spec. right; left. apply lookup_In in H2. apply in_map_iff. exists (distance_file, dis). auto. }
  assert (E3 : exists_file k (score_name stem task_file distance_file score_file) = false).
  { destruct (exists_file k (score_name stem task_file distance_file score_file)) eqn:E; [|reflexivity].
    apply exists_file_spec in E. contradiction. }
  rewrite E1, E2, E3. cbn [negb]. rewrite H1, H2.
  destruct (scores_ok T dis HS) as (scores & E & S).
  assert (G : match sc_bys T with
              | [] => (repeat 0 (length (sc_triplets T)), None)
              | _ :: _ => score_bys vlt rnd rlen T dis 0 (sc_bys T) (repeat 0 (length (sc_triplets T)))
              end = (scores, None)).
  { rewrite <- E. destruct (sc_bys T); reflexivity. }
  rewrite G. do 2 eexists. split; [reflexivity|]. cbn. rewrite String.eqb_refl. split; [reflexivity|exact S].
Qed.

End Scores.

(** A triplet and the one with A and B exchanged. *)
Lemma sorted_nth_inj (l : list Z) p q c : StronglySorted Z.lt l ->
  nth_error l p = Some c -> nth_error l q = Some c -> p = q.
Proof.
  intros S Hp Hq. apply StronglySorted_Zlt_NoDup in S. rewrite NoDup_nth_error in S.
  apply S; [apply nth_error_Some; congruence|congruence].
Qed.

Lemma distance_unique V (T : scored_task) (dis : list V) by_ n i j a x d d' :
  scorable T dis -> nth_error (sc_bys T) n = Some by_ -> nth_error (sc_by_index T) n = Some (i, j) ->
  distance_of T dis by_ a x d -> distance_of T dis by_ a x d' -> d = d'.
Proof.
  intros HS Hb Hi (base & s & e & p & A1 & A2 & A3 & A4) (base' & s' & e' & p' & B1 & B2 & B3 & B4).
  pose proof (lookup_NoDup _ _ _ _ (so_attrs HS) A1) as L1.
  pose proof (lookup_NoDup _ _ _ _ (so_attrs HS) B1) as L2.
  rewrite L1 in L2. injection L2 as <- <- <-.
  destruct (so_by HS n Hb Hi) as (base'' & s'' & e'' & C1 & C2 & C3 & C4 & C5 & (C6 & _) & _).
  pose proof (lookup_NoDup _ _ _ _ (so_attrs HS) C1) as L3. rewrite L1 in L3. injection L3 as <- <- <-.
  assert (E : (p - Z.to_nat s = p' - Z.to_nat s)%nat).
  { apply (sorted_nth_inj _ _ _ (code base a x) C6); rewrite rows_between_nth by lia; assumption. }
  assert (p = p') by lia. subst. congruence.
Qed.

Theorem exchanged_opposite V (vlt : V -> V -> bool) (T : scored_task) (dis : list V) scores :
  (forall d d', vlt d d' = true -> vlt d' d = false) ->
  scorable T dis -> scores_of vlt T dis scores ->
  forall by_ p q a b x, triplet_at T p by_ a b x -> triplet_at T q by_ b a x ->
  exists s, nth_error scores p = Some s /\ nth_error scores q = Some (- s).
Proof.
  intros As HS (_ & H) by_ p q a b x Hp Hq.
  destruct (H p by_ a b x Hp) as (d1 & d2 & s & D1 & D2 & N & Vd).
  destruct (H q by_ b a x Hq) as (d3 & d4 & s' & D3 & D4 & N' & Vd').
  destruct Hp as (n & i & j & P1 & P2 & _).
  pose proof (distance_unique V T dis by_ n i j a x _ _ HS P1 P2 D1 D4).
  pose proof (distance_unique V T dis by_ n i j b x _ _ HS P1 P2 D2 D3). subst.
  exists s. split; [exact N|]. rewrite N'. f_equal. unfold verdict in *.
  destruct Vd as [(A & ->)|[(A & ->)|(A & A' & ->)]];
  destruct Vd' as [(B & ->)|[(B & ->)|(B & B' & ->)]]; try reflexivity; exfalso;
    try (pose proof (As _ _ A)); congruence.
Qed.
