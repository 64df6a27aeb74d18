(** Proofs about the triplets as lines of the item file. *)
From Coq Require Import String.
From Coq Require Import List ZArith Lia Permutation.
From Verif Require Import Prelude ListFacts TypeFitting Sampler Task Task_spec Task_sort Task_proofs Task_file Task_main Task_total
  TaskLines_spec.
Import ListNotations.
Local Open Scope list_scope.
Local Open Scope Z_scope.

Lemma map_snd_filter {A B} (f : B -> bool) (l : list (A * B)) :
  map snd (filter (fun p => f (snd p)) l) = filter f (map snd l).
Proof. induction l as [|[a b] l IH]; cbn; [reflexivity|]. destruct (f b); cbn; rewrite IH; reflexivity. Qed.

Lemma map_snd_combine {A B} (l : list A) (m : list B) : length l = length m -> map snd (combine l m) = m.
Proof. revert m. induction l as [|a l IH]; intros [|b m]; cbn; try discriminate; [reflexivity|]. intros E. f_equal. apply IH. lia. Qed.

Lemma map_fst_combine {A B} (l : list A) (m : list B) : length l = length m -> map fst (combine l m) = l.
Proof. revert m. induction l as [|a l IH]; intros [|b m]; cbn; try discriminate; [reflexivity|]. intros E. f_equal. apply IH. lia. Qed.

Lemma numbered_In {A} (db : list A) n r : In (n, r) (combine (seq 0 (length db)) db) <-> nth_error db n = Some r.
Proof.
  assert (G : forall s, In (n, r) (combine (seq s (length db)) db) <-> (s <= n)%nat /\ nth_error db (n - s) = Some r).
  { induction db as [|x db IH]; intros s; cbn [length seq combine].
    - split; [intros []|]. intros [_ H]. destruct (n - s)%nat; discriminate.
    - cbn [In]. rewrite IH. split.
      + intros [E|[H1 H2]].
        * injection E as <- <-. split; [lia|]. rewrite Nat.sub_diag. reflexivity.
        * split; [lia|]. replace (n - s)%nat with (S (n - S s)) by lia. exact H2.
      + intros [H1 H2]. destruct (Nat.eq_dec s n) as [->|N].
        * left. rewrite Nat.sub_diag in H2. cbn in H2. injection H2 as <-. reflexivity.
        * right. split; [lia|]. replace (n - s)%nat with (S (n - S s)) in H2 by lia. exact H2. }
  rewrite G, Nat.sub_0_r. intuition lia.
Qed.

Definition in_group (T : task) (k : key) (r : row) : Prop :=
  match t_by T with [] => k = [0] | cols => map r cols = k end.

Lemma group_lines_In T db k n r : In (n, r) (group_lines T db k) <-> nth_error db n = Some r /\ in_group T k r.
Proof.
  unfold group_lines, in_group. rewrite filter_In, numbered_In. cbn [snd]. destruct (t_by T) as [|c l].
  - destruct (key_dec k [0]) as [E|N]; intuition congruence.
  - destruct (key_dec (map r (c :: l)) k) as [E|N]; intuition congruence.
Qed.

Lemma by_rows_lines T db k : by_rows T db k = map snd (group_lines T db k).
Proof.
  assert (E : map snd (combine (seq 0 (length db)) db) = db) by (apply map_snd_combine, seq_length).
  unfold by_rows, group_lines. destruct (t_by T) as [|c l].
  - transitivity (filter (fun _ : row => if key_dec k [0] then true else false) db).
    + destruct (key_dec k [0]); clear E; induction db; cbn; congruence.
    + rewrite <- E at 1. symmetry. apply (map_snd_filter (fun _ : row => if key_dec k [0] then true else false)).
  - rewrite <- E at 1. symmetry. apply (map_snd_filter (fun r : row => if key_dec (map r (c :: l)) k then true else false)).
Qed.

Lemma group_lines_NoDup T db k : NoDup (map fst (group_lines T db k)).
Proof.
  unfold group_lines. assert (N : NoDup (map fst (combine (seq 0 (length db)) db))).
  { rewrite map_fst_combine by apply seq_length. apply seq_NoDup. }
  revert N. generalize (combine (seq 0 (length db)) db). intros L. induction L as [|[n r] L IH]; cbn [map filter]; [intros; assumption|].
  intros N. apply NoDup_cons_iff in N as [N1 N2]. match goal with |- context [if ?b then _ else _] => destruct b end; [|apply IH, N2].
  cbn [map]. constructor; [|apply IH, N2]. intros H. apply N1. apply in_map_iff in H as (p & E & H).
  apply in_map_iff. exists p. split; [exact E|]. apply filter_In in H. apply H.
Qed.

Lemma on_line_iff T db k i n : on_line T db k i n <->
  exists r, item (by_rows T db k) i r /\ nth_error db n = Some r /\ in_group T k r /\ nth_error (map fst (group_lines T db k)) (Z.to_nat i) = Some n.
Proof.
  unfold on_line, item. rewrite by_rows_lines. split.
  - intros (H0 & r & H). exists r. rewrite !nth_error_map, H. cbn. apply nth_error_In, group_lines_In in H as [H1 H2]. tauto.
  - intros (r & (H0 & H1) & H2 & H3 & H4). split; [exact H0|]. rewrite nth_error_map in H1, H4.
    destruct (nth_error (group_lines T db k) (Z.to_nat i)) as [[n' r']|]; [|discriminate]. cbn in H1, H4.
    injection H1 as ->. injection H4 as ->. eauto.
Qed.

Lemma item_line T db k i r : item (by_rows T db k) i r -> exists n, on_line T db k i n /\ nth_error db n = Some r /\ in_group T k r.
Proof.
  unfold on_line, item. rewrite by_rows_lines. intros [H0 H]. rewrite nth_error_map in H.
  destruct (nth_error (group_lines T db k) (Z.to_nat i)) as [[n r']|] eqn:E; [|discriminate]. cbn in H. injection H as ->.
  exists n. split; [eauto|]. apply nth_error_In, group_lines_In in E. exact E.
Qed.

Lemma line_item T db k n r : nth_error db n = Some r -> in_group T k r -> exists i, on_line T db k i n /\ item (by_rows T db k) i r.
Proof.
  intros H1 H2. assert (H : In (n, r) (group_lines T db k)) by (apply group_lines_In; auto).
  apply In_nth_error in H as (i & H). exists (Z.of_nat i). unfold on_line, item. rewrite Nat2Z.id. split.
  - split; [lia|eauto].
  - split; [lia|]. rewrite by_rows_lines, nth_error_map, H. reflexivity.
Qed.

Lemma on_line_fun T db k i n n' : on_line T db k i n -> on_line T db k i n' -> n = n'.
Proof. intros (_ & r & H) (_ & r' & H'). congruence. Qed.

Lemma on_line_inj T db k i j n : on_line T db k i n -> on_line T db k j n -> i = j.
Proof.
  intros H1 H2. apply on_line_iff in H1 as (r & [P1 _] & _ & _ & H1). apply on_line_iff in H2 as (r' & [P2 _] & _ & _ & H2).
  pose proof (proj1 (NoDup_nth_error _) (group_lines_NoDup T db k)) as N.
  assert (L : (Z.to_nat i < length (map fst (group_lines T db k)))%nat) by (apply nth_error_Some; congruence).
  assert (E : Z.to_nat i = Z.to_nat j) by (apply N; [exact L|congruence]). lia.
Qed.

Lemma on_line_key T db k k' i j n : on_line T db k i n -> on_line T db k' j n -> k = k'.
Proof.
  intros H1 H2. apply on_line_iff in H1 as (r & _ & E1 & G1 & _). apply on_line_iff in H2 as (r' & _ & E2 & G2 & _).
  assert (r = r') by congruence. subst r'. unfold in_group in *. destruct (t_by T); congruence.
Qed.

(** The triplets wanted, on lines. *)
Lemma lines_wanted T db na nb nx :
  (exists k a b x, wanted T db k a b x /\ on_line T db k a na /\ on_line T db k b nb /\ on_line T db k x nx) <->
  abx_lines T db (na, nb, nx).
Proof.
  unfold abx_lines. split.
  - intros (k & a & b & x & (ra & rb & rx & Ia & Ib & Ix & (A1 & A2 & A3 & A4) & P) & La & Lb & Lx).
    pose proof La as La'. pose proof Lx as Lx'.
    apply on_line_iff in La as (ra' & Ia' & Ea & Ga & _). apply on_line_iff in Lb as (rb' & Ib' & Eb & Gb & _).
    apply on_line_iff in Lx as (rx' & Ix' & Ex & Gx & _).
    assert (U : forall i r r', item (by_rows T db k) i r -> item (by_rows T db k) i r' -> r = r')
      by (intros i r r' [_ H] [_ H']; congruence).
    rewrite (U _ _ _ Ia' Ia) in Ea, Ga. rewrite (U _ _ _ Ib' Ib) in Eb, Gb. rewrite (U _ _ _ Ix' Ix) in Ex, Gx.
    exists ra, rb, rx. split; [exact Ea|]. split; [exact Eb|]. split; [exact Ex|]. split; [|split; [exact A1|split; [exact A2|split; [|split]]]].
    + intros c Hc. unfold in_group in *. destruct (t_by T) as [|c0 l]; [destruct Hc|].
      assert (V : forall r : row, map r (c0 :: l) = k -> forall r' : row, map r' (c0 :: l) = k -> r c = r' c).
      { intros r E r' E'. rewrite <- E' in E. clear -Hc E. induction (c0 :: l) as [|d m IH]; [destruct Hc|].
        cbn in E. injection E as E1 E2. destruct Hc as [<-|Hc]; auto. }
      split; apply V; assumption.
    + intros c Hc. split; [apply A3, Hc|]. destruct (t_across T) as [|c0 l]; [destruct Hc|]. apply A4, Hc.
    + intros ->. assert (a = x) by (eapply on_line_inj; eauto). subst x.
      destruct (t_across T) as [|c0 l]; [apply A4; reflexivity|]. apply (A4 c0 (or_introl eq_refl)). congruence.
    + exact P.
  - intros (ra & rb & rx & Ea & Eb & Ex & B & A1 & A2 & A3 & N & P).
    set (k := match t_by T with [] => [0] | cols => map ra cols end).
    assert (Ga : in_group T k ra) by (unfold in_group, k; destruct (t_by T); reflexivity).
    assert (Gb : in_group T k rb).
    { unfold in_group, k. destruct (t_by T) as [|c0 l]; [reflexivity|]. apply map_ext_in. intros c Hc. apply B, Hc. }
    assert (Gx : in_group T k rx).
    { unfold in_group, k. destruct (t_by T) as [|c0 l]; [reflexivity|]. apply map_ext_in. intros c Hc. apply B, Hc. }
    destruct (line_item _ _ _ _ _ Ea Ga) as (a & La & Ia). destruct (line_item _ _ _ _ _ Eb Gb) as (b & Lb & Ib).
    destruct (line_item _ _ _ _ _ Ex Gx) as (x & Lx & Ix).
    exists k, a, b, x. split; [|auto]. exists ra, rb, rx. split; [exact Ia|]. split; [exact Ib|]. split; [exact Ix|]. split; [|exact P].
    split; [exact A1|]. split; [exact A2|]. split; [intros c Hc; apply A3, Hc|].
    destruct (t_across T) as [|c0 l]; [|intros c Hc; apply A3, Hc].
    intros ->. apply N. eapply on_line_fun; eauto.
Qed.

Lemma wanted_lines T db k a b x : wanted T db k a b x -> exists na nb nx,
  on_line T db k a na /\ on_line T db k b nb /\ on_line T db k x nx.
Proof.
  intros (ra & rb & rx & Ia & Ib & Ix & _). apply item_line in Ia as (na & La & _). apply item_line in Ib as (nb & Lb & _).
  apply item_line in Ix as (nx & Lx & _). eauto 6.
Qed.

Lemma paired_le {A B} (P : A -> B -> Prop) (l : list A) (m : list B) :
  NoDup l -> (forall a a' b, P a b -> P a' b -> a = a') -> (forall a, In a l -> exists b, P a b /\ In b m) ->
  (length l <= length m)%nat.
Proof.
  intros N HP. revert m. induction N as [|a l Ha N IH]; intros m H; [cbn; lia|].
  destruct (H a (or_introl eq_refl)) as (b & H1 & H2). apply in_split in H2 as (m1 & m2 & ->).
  rewrite app_length. cbn [length]. rewrite Nat.add_succ_r, <- app_length. apply le_n_S, IH.
  intros a' Ha'. destruct (H a' (or_intror Ha')) as (b' & H3 & H4). exists b'. split; [exact H3|].
  apply in_app_iff in H4 as [H4|[H4|H4]]; [apply in_app_iff; auto| |apply in_app_iff; auto].
  subst b'. rewrite (HP _ _ _ H3 H1) in Ha'. contradiction.
Qed.

Section Made.
Variable korder : list key -> list key.
Variable enum : list Z -> list Z.
Variable argsort : list Z -> list nat.
Hypothesis korder_ok : lists_keys korder.
Hypothesis enum_ok : lists_set enum.
Hypothesis argsort_ok : argsort_spec argsort.
Local Notation gen := (generated korder enum argsort).

Theorem file_lines T cols db n o :
  fine cols T db -> gen T cols db n o ->
  (forall l, has T db o l <-> abx_lines T db l) /\
  (forall L, NoDup L -> (forall l, In l L <-> abx_lines T db l) -> n = Zlen L) /\
  n = match o with None => 0 | Some f => Zlen (fl_triplets f) end.
Proof.
  intros (rd & dt & kf) (R & fuel & c & T' & bs & st & bs' & init & -> & G & S).
  pose proof (tagged_In korder_ok enum_ok rd dt kf init) as TI.
  pose proof (tagged_NoDup korder_ok enum_ok _ _ _ init) as TN.
  pose proof (tagged_length korder_ok enum_ok _ _ _ init) as TL.
  set (L0 := tagged korder enum T' bs) in *.
  split; [|split].
  - intros [[na nb] nx]. rewrite <- lines_wanted. destruct o as [f|].
    + destruct (file_exact R fuel korder_ok enum_ok argsort_ok rd dt kf init c G (or_introl eq_refl) S) as (F & B & _).
      cbn [has]. split.
      * intros (k & ij & a & b & x & H1 & H2 & H3). exists k, a, b, x. split; [|exact H3].
        assert (FC : lists_exactly T db k (rows_of ij (fl_triplets f))).
        { clear -F H1. induction F as [|k0 ij0 l m H F IH]; cbn in H1; [destruct H1|].
          destruct H1 as [E|H1]; [injection E as -> ->; exact H|auto]. }
        apply FC, H2.
      * intros (k & a & b & x & W & H3).
        assert (Hk : In k (fl_bys f)) by (apply B; eauto).
        assert (FC : exists ij, In (k, ij) (combine (fl_bys f) (fl_by_index f)) /\ lists_exactly T db k (rows_of ij (fl_triplets f))).
        { clear -F Hk. induction F as [|k0 ij0 l m H F IH]; [destruct Hk|]. cbn [combine].
          destruct Hk as [->|Hk]; [exists ij0; split; [left; reflexivity|exact H]|].
          destruct (IH Hk) as (ij & I1 & I2). exists ij. split; [right; exact I1|exact I2]. }
        destruct FC as (ij & I1 & I2). exists k, ij, a, b, x. split; [exact I1|]. split; [apply I2, W|exact H3].
    + cbn [has]. split; [intros []|]. intros (k & a & b & x & W & _). apply TI in W.
      assert (E : s_nb_triplets st = 0).
      { unfold generate_triplets in G. destruct (Z.eqb_spec (s_nb_triplets st) 0) as [E|_]; [exact E|].
        destruct (fit_integer_type (s_nb_triplets st) true); [cbn [bind] in G|discriminate].
        destruct (fit_integer_type (s_nb_blocks st) true); [cbn [bind] in G|discriminate].
        destruct (foldM _ _ _); [cbn [bind] in G|discriminate].
        destruct (fit_integer_type _ true); [cbn [bind] in G|]; discriminate. }
      rewrite E in TL. destruct L0; [destruct W|]. unfold Zlen in TL. cbn [length] in TL. lia.
  - intros L N H. rewrite <- TL. unfold Zlen. f_equal.
    set (P := fun (u : key * triplet) (l : lines) => let '(k, (a, b, x)) := u in let '(na, nb, nx) := l in
      on_line T db k a na /\ on_line T db k b nb /\ on_line T db k x nx).
    apply Nat.le_antisymm.
    + apply (paired_le P L0 L TN).
      * intros [k [[a b] x]] [k' [[a' b'] x']] [[na nb] nx] (P1 & P2 & P3) (Q1 & Q2 & Q3).
        assert (k = k') by (eapply on_line_key; eauto). subst k'.
        rewrite (on_line_inj _ _ _ _ _ _ P1 Q1), (on_line_inj _ _ _ _ _ _ P2 Q2), (on_line_inj _ _ _ _ _ _ P3 Q3). reflexivity.
      * intros [k [[a b] x]] W. apply TI in W. destruct (wanted_lines _ _ _ _ _ _ W) as (na & nb & nx & E).
        exists (na, nb, nx). split; [exact E|]. apply H, lines_wanted. exists k, a, b, x. auto.
    + apply (paired_le (fun l u => P u l) L L0 N).
      * intros [[na nb] nx] [[na' nb'] nx'] [k [[a b] x]] (P1 & P2 & P3) (Q1 & Q2 & Q3).
        rewrite (on_line_fun _ _ _ _ _ _ P1 Q1), (on_line_fun _ _ _ _ _ _ P2 Q2), (on_line_fun _ _ _ _ _ _ P3 Q3). reflexivity.
      * intros [[na nb] nx] Hl. apply H, lines_wanted in Hl as (k & a & b & x & W & E). exists (k, (a, b, x)).
        split; [exact E|]. apply TI, W.
  - destruct o as [f|].
    + destruct (file_exact R fuel korder_ok enum_ok argsort_ok rd dt kf init c G (or_introl eq_refl) S) as (_ & _ & E). auto.
    + unfold generate_triplets in G. destruct (Z.eqb_spec (s_nb_triplets st) 0) as [E|_]; [exact E|].
      destruct (fit_integer_type (s_nb_triplets st) true); [cbn [bind] in G|discriminate].
      destruct (fit_integer_type (s_nb_blocks st) true); [cbn [bind] in G|discriminate].
      destruct (foldM _ _ _); [cbn [bind] in G|discriminate].
      destruct (fit_integer_type _ true); [cbn [bind] in G|]; discriminate.
Qed.

Lemma lines_listed T cols db n o : fine cols T db -> gen T cols db n o -> exists L, NoDup L /\ forall l, In l L <-> abx_lines T db l.
Proof.
  intros (rd & dt & kf) (R & fuel & c & T' & bs & st & bs' & init & _ & G & S).
  pose proof (tagged_In korder_ok enum_ok rd dt kf init) as TI.
      assert (Y : forall u : list (key * triplet), (forall k a b x, In (k, (a, b, x)) u -> wanted T db k a b x) -> exists L : list lines,
        forall na nb nx, In (na, nb, nx) L <-> exists k a b x, In (k, (a, b, x)) u /\
          on_line T db k a na /\ on_line T db k b nb /\ on_line T db k x nx).
      { induction u as [|[k [[a b] x]] u IH]; intros Hu.
        - exists []. intros. split; [intros []|]. intros (? & ? & ? & ? & [] & _).
        - destruct IH as (L & HL); [intros; apply Hu; right; assumption|].
          destruct (wanted_lines _ _ _ _ _ _ (Hu k a b x (or_introl eq_refl))) as (na & nb & nx & Q1 & Q2 & Q3).
          exists ((na, nb, nx) :: L). intros na' nb' nx'. cbn [In]. rewrite HL. split.
          + intros [Z|(k' & a' & b' & x' & H & I)].
            * injection Z as <- <- <-. exists k, a, b, x. auto.
            * exists k', a', b', x'. auto.
          + intros (k' & a' & b' & x' & [Z|H] & I).
            * injection Z as <- <- <- <-. left. destruct I as (I1 & I2 & I3).
              rewrite (on_line_fun _ _ _ _ _ _ I1 Q1), (on_line_fun _ _ _ _ _ _ I2 Q2), (on_line_fun _ _ _ _ _ _ I3 Q3). reflexivity.
            * right. exists k', a', b', x'. auto. }
      destruct (Y (tagged korder enum T' bs)) as (L & HL); [intros; apply TI; assumption|].
      assert (dec : forall u v : lines, {u = v} + {u <> v}) by (repeat decide equality).
      exists (nodup dec L). split; [apply NoDup_nodup|]. intros [[na nb] nx]. rewrite nodup_In, HL, <- lines_wanted.
      split; intros (k & a & b & x & H & I); exists k, a, b, x; (split; [apply TI, H|exact I]).
Qed.

Lemma fewer T T' cols cols' db n n' o o' : fine cols T db -> fine cols' T' db -> gen T cols db n o -> gen T' cols' db n' o' ->
  (forall l, has T' db o' l -> has T db o l) -> n' <= n.
Proof.
  intros F F' G G' H. destruct (lines_listed _ _ _ _ _ F G) as (L & N & HL). destruct (lines_listed _ _ _ _ _ F' G') as (L' & N' & HL').
  destruct (file_lines _ _ _ _ _ F G) as (H1 & H2 & _). destruct (file_lines _ _ _ _ _ F' G') as (H1' & H2' & _).
  rewrite (H2 L N HL), (H2' L' N' HL'). unfold Zlen. apply inj_le, NoDup_incl_length; [exact N'|].
  intros l Hl. apply HL, H1, H, H1', HL', Hl.
Qed.

Theorem finer_by T m cols db n n' o o' :
  fine cols T db -> fine cols (with_by T m) db -> gen T cols db n o -> gen (with_by T m) cols db n' o' ->
  (forall l, has (with_by T m) db o' l <-> has T db o l /\ agree_on db m l) /\ n' <= n.
Proof.
  intros F F' G G'.
  assert (X : forall l, has (with_by T m) db o' l <-> has T db o l /\ agree_on db m l).
  2: { split; [exact X|]. apply (fewer _ _ _ _ _ _ _ _ _ F F' G G'). intros l Hl. apply X, Hl. }
  intros l. rewrite (proj1 (file_lines _ _ _ _ _ F G)), (proj1 (file_lines _ _ _ _ _ F' G')).
  destruct l as [[na nb] nx]. unfold abx_lines, agree_on, with_by. cbn [t_by t_on t_across t_filters]. split.
  - intros (ra & rb & rx & Ea & Eb & Ex & B & H). split.
    + exists ra, rb, rx. repeat (split; [assumption|]). split; [intros c Hc; apply B, in_or_app; auto|exact H].
    + intros ra' rb' rx' c E1 E2 E3 Hc. assert (ra' = ra) by congruence. assert (rb' = rb) by congruence.
      assert (rx' = rx) by congruence. subst. apply B, in_or_app. auto.
  - intros ((ra & rb & rx & Ea & Eb & Ex & B & H) & A). exists ra, rb, rx. repeat (split; [assumption|]). split; [|exact H].
    intros c Hc. apply in_app_iff in Hc as [Hc|Hc]; [apply B, Hc|]. eapply A; eauto.
Qed.

Theorem more_across T m cols db n n' o o' :
  fine cols T db -> fine cols (with_across T m) db -> gen T cols db n o -> gen (with_across T m) cols db n' o' ->
  (forall l, has (with_across T m) db o' l <-> has T db o l /\ across_on db m l) /\ n' <= n.
Proof.
  intros F F' G G'.
  assert (X : forall l, has (with_across T m) db o' l <-> has T db o l /\ across_on db m l).
  2: { split; [exact X|]. apply (fewer _ _ _ _ _ _ _ _ _ F F' G G'). intros l Hl. apply X, Hl. }
  intros l. rewrite (proj1 (file_lines _ _ _ _ _ F G)), (proj1 (file_lines _ _ _ _ _ F' G')).
  destruct l as [[na nb] nx]. unfold abx_lines, across_on, with_across. cbn [t_by t_on t_across t_filters]. split.
  - intros (ra & rb & rx & Ea & Eb & Ex & B & A1 & A2 & A3 & H). split.
    + exists ra, rb, rx. repeat (split; [assumption|]). split; [intros c Hc; apply A3, in_or_app; auto|exact H].
    + intros ra' rb' rx' c E1 E2 E3 Hc. assert (ra' = ra) by congruence. assert (rb' = rb) by congruence.
      assert (rx' = rx) by congruence. subst. apply A3, in_or_app. auto.
  - intros ((ra & rb & rx & Ea & Eb & Ex & B & A1 & A2 & A3 & H) & A). exists ra, rb, rx. repeat (split; [assumption|]). split; [|exact H].
    intros c Hc. apply in_app_iff in Hc as [Hc|Hc]; [apply A3, Hc|]. eapply A; eauto.
Qed.

Lemma exchange_lines T db na nb nx : t_across T = [] -> (forall ra rb rx, passes (t_filters T) ra rb rx) ->
  abx_lines T db (na, nb, nx) -> abx_lines T db (nx, nb, na).
Proof.
  unfold abx_lines. intros E HP (ra & rb & rx & Ea & Eb & Ex & B & A1 & A2 & A3 & N & P). exists rx, rb, ra.
  repeat (split; [assumption|]). split; [|split; [|split; [|split; [|split]]]].
  - intros c Hc. destruct (B c Hc) as [-> ->]. auto.
  - congruence.
  - congruence.
  - rewrite E. intros c [].
  - congruence.
  - apply HP.
Qed.

Definition flip (l : lines) : lines := let '(a, b, x) := l in (x, b, a).

Lemma even_flip : forall n (L : list lines), (length L <= n)%nat -> NoDup L ->
  (forall l, In l L -> In (flip l) L /\ flip l <> l) -> exists k, length L = (2 * k)%nat.
Proof.
  induction n as [|n IH]; intros L Hn N H.
  - exists 0%nat. lia.
  - destruct L as [|l L]; [exists 0%nat; reflexivity|].
    destruct (H l (or_introl eq_refl)) as [H1 H2]. destruct H1 as [H1|H1]; [congruence|].
    apply in_split in H1 as (L1 & L2 & ->). apply NoDup_cons_iff in N as [N1 N2].
    pose proof (NoDup_remove_1 _ _ _ N2) as N3. pose proof (NoDup_remove_2 _ _ _ N2) as N4.
    assert (FF : forall u, flip (flip u) = u) by (intros [[a b] x]; reflexivity).
    destruct (IH (L1 ++ L2)) as (k & E).
    + cbn [length] in Hn. rewrite app_length in *. cbn [length] in Hn. lia.
    + exact N3.
    + intros u Hu. assert (Hu' : In u (l :: L1 ++ flip l :: L2)).
      { right. apply in_app_iff in Hu as [|]; apply in_app_iff; [left|right; right]; assumption. }
      destruct (H u Hu') as [I1 I2]. split; [|exact I2].
      assert (X1 : flip u <> l) by (intros X; apply N4; rewrite <- X, FF; exact Hu).
      assert (X2 : flip u <> flip l).
      { intros X. assert (u = l) by (rewrite <- (FF u), X, FF; reflexivity). subst u. apply N1.
        apply in_app_iff in Hu as [|]; apply in_app_iff; [left|right; right]; assumption. }
      destruct I1 as [I1|I1]; [congruence|]. apply in_app_iff in I1 as [I1|[I1|I1]]; [apply in_app_iff; auto|congruence|apply in_app_iff; auto].
    + exists (S k). cbn [length]. rewrite app_length in *. cbn [length]. lia.
Qed.

Theorem exchange T cols db n o :
  t_across T = [] -> (forall ra rb rx, passes (t_filters T) ra rb rx) -> fine cols T db -> gen T cols db n o ->
  (forall na nb nx, has T db o (na, nb, nx) <-> has T db o (nx, nb, na)) /\ Z.even n = true.
Proof.
  intros E HP F G. destruct (file_lines _ _ _ _ _ F G) as (H1 & H2 & _). split.
  - intros na nb nx. rewrite !H1. split; apply exchange_lines; assumption.
  - destruct (lines_listed _ _ _ _ _ F G) as (L & N & HL). rewrite (H2 L N HL).
    destruct (even_flip (length L) L (le_n _) N) as (k & Ek).
    + intros [[na nb] nx] Hl. apply HL in Hl. split; [apply HL; cbn [flip]; apply exchange_lines; assumption|].
      destruct Hl as (ra & rb & rx & _ & _ & _ & _ & _ & _ & _ & D & _). cbn [flip]. congruence.
    + unfold Zlen. rewrite Ek, Nat2Z.inj_mul. apply Z.even_spec. exists (Z.of_nat k). lia.
Qed.

End Made.

(** With any threshold. *)
Theorem threshold_lines korder enum argsort T cols db T' bs st R fuel thr c bs' o :
  lists_keys korder -> lists_set enum -> argsort_spec argsort -> fine cols T db ->
  task_init korder enum T cols db = Ok (T', bs, st) ->
  generate_triplets korder enum argsort R fuel T' thr bs st c = Ok (bs', o) ->
  storable T db (capacity (s_nb_triplets st)) ->
  forall l, has T db o l -> abx_lines T db l.
Proof.
  intros K E A (rd & dt & kf) init G S [[na nb] nx] H. apply lines_wanted. destruct o as [f|]; [|destruct H].
  destruct (file_partition argsort R fuel K E rd dt kf init thr c G S) as (_ & _ & F).
  destruct H as (k & ij & a & b & x & H1 & H2 & H3). exists k, a, b, x. split; [|exact H3]. revert H2. revert a b x H3.
  clear -F H1. induction F as [|k0 ij0 l m H F IH]; cbn in H1; [destruct H1|].
  destruct H1 as [E|H1]; [injection E as -> ->; intros a b x _; apply H|auto].
Qed.
