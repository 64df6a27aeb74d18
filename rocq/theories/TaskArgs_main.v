(** Proofs about the arguments of a Task. *)
From Coq Require Import Ascii String.
From Coq Require Import List ZArith Lia Permutation Bool.
From Verif Require Import Prelude ListFacts TypeFitting Sampler Task Task_spec Task_sort Task_proofs Task_main Task_total
  TaskArgs TaskArgs_spec.
Import ListNotations.
Local Open Scope string_scope.
Local Open Scope list_scope.
Local Open Scope Z_scope.

Lemma names_list a l : names a l -> init_as_list a = AList l.
Proof. destruct a; cbn; intros H; subst; try reflexivity; destruct H. Qed.

Lemma check_args_list cols on across by_ :
  check_args cols on (AList across) (AList by_) = check_database cols on across by_.
Proof.
  unfold check_args, check_database. cbn [issuperset bind forallb]. rewrite andb_true_r.
  destruct (mem_string cols on); [|reflexivity]. destruct (forallb (mem_string cols) across); [|reflexivity].
  destruct (forallb (mem_string cols) by_); reflexivity.
Qed.

Lemma mem_string_In l s : mem_string l s = true <-> In s l.
Proof.
  unfold mem_string. rewrite existsb_exists. split.
  - intros (x & H & E). apply String.eqb_eq in E. subst. exact H.
  - intros H. exists s. split; [exact H|apply String.eqb_refl].
Qed.

Lemma has_char_contains c s : has_char c s = true <-> contains s c.
Proof.
  unfold has_char. induction s as [|d s IH]; cbn [list_ascii_of_string existsb].
  - split; [discriminate|]. intros (p & q & E). destruct p; discriminate.
  - rewrite orb_true_iff. split.
    + intros [H|H].
      * apply Ascii.eqb_eq in H. subst d. exists EmptyString, s. reflexivity.
      * apply IH in H as (p & q & ->). exists (String d p), q. reflexivity.
    + intros (p & q & E). destruct p as [|d' p]; cbn in E; injection E as -> E.
      * left. apply Ascii.eqb_refl.
      * right. apply IH. exists p, q. exact E.
Qed.

Lemma usable_iff c : negb (has_char "_"%char c) && negb (has_char "#"%char c) = true <-> usable c.
Proof.
  rewrite andb_true_iff, !negb_true_iff. unfold usable. rewrite <- !has_char_contains.
  destruct (has_char "_" c), (has_char "#" c); split; intros [H1 H2]; split; congruence.
Qed.

Lemma all_in cols l : forallb (mem_string cols) l = true <-> incl l cols.
Proof. rewrite forallb_forall. unfold incl. split; intros H x Hx; apply mem_string_In, H, Hx. Qed.

Lemma all_usable cols :
  forallb (fun c => negb (has_char "_"%char c) && negb (has_char "#"%char c)) cols = true <-> (forall c, In c cols -> usable c).
Proof. rewrite forallb_forall. split; intros H x Hx; apply usable_iff, H, Hx. Qed.

Theorem check_exact cols on across by_ :
  (In on cols /\ incl across cols /\ incl by_ cols /\ (forall c, In c cols -> usable c) -> check_database cols on across by_ = Ok tt) /\
  (~ (In on cols /\ incl across cols /\ incl by_ cols /\ (forall c, In c cols -> usable c)) ->
     check_database cols on across by_ = Err AssertionError).
Proof.
  rewrite <- mem_string_In, <- !all_in, <- all_usable. unfold check_database. split.
  - intros (-> & -> & -> & ->). reflexivity.
  - intros H. destruct (mem_string cols on); [|reflexivity]. destruct (forallb (mem_string cols) across); [|reflexivity].
    destruct (forallb (mem_string cols) by_); [|reflexivity]. destruct (forallb _ cols); [|reflexivity].
    exfalso. apply H. auto.
Qed.

Section New.
Variable korder : list key -> list key.
Variable enum : list Z -> list Z.
Variable isfile : string -> bool.
Variable load : string -> res (list string * list row).
Local Notation new := (new_task korder enum isfile load).

(** Only the columns that the arguments name count. *)
Theorem forms name on a a' b b' la lb F G :
  names a la -> names a' la -> names b lb -> names b' lb ->
  new name on a b F G = new name on a' b' F G.
Proof. intros H1 H2 H3 H4. unfold new_task. apply names_list in H1, H2, H3, H4. rewrite H1, H2, H3, H4. reflexivity. Qed.

Theorem new_given name on a b la lb F G cols db :
  isfile name = true -> names a la -> names b lb -> load name = Ok (cols, db) ->
  (In on cols /\ incl la cols /\ incl lb cols /\ (forall c, In c cols -> usable c) ->
     new name (AStr on) a b F G = task_init korder enum (mk_task on la lb F G) cols db) /\
  (~ (In on cols /\ incl la cols /\ incl lb cols /\ (forall c, In c cols -> usable c)) ->
     new name (AStr on) a b F G = Err AssertionError).
Proof.
  intros Hf H1 H2 L. apply names_list in H1, H2. unfold new_task. rewrite Hf, H1, H2, L. cbn [bind fst snd].
  rewrite check_args_list. destruct (check_exact cols on la lb) as [C1 C2]. split; intros H.
  - rewrite (C1 H). reflexivity.
  - rewrite (C2 H). reflexivity.
Qed.

Theorem new_refused name on a b F G :
  (isfile name = false -> new name on a b F G = Err AssertionError) /\
  ((forall s, on <> AStr s) -> new name on a b F G = Err AssertionError) /\
  (forall s e, isfile name = true -> on = AStr s -> load name = Err e -> new name on a b F G = Err e) /\
  (forall s cols db, isfile name = true -> on = AStr s -> load name = Ok (cols, db) ->
     (a = AOther -> In s cols -> new name on a b F G = Err TypeError) /\
     (forall la, b = AOther -> names a la -> In s cols -> incl la cols -> new name on a b F G = Err TypeError)).
Proof.
  unfold new_task. split; [intros ->; reflexivity|]. split.
  { intros H. destruct (isfile name); [|reflexivity]. destruct on; try reflexivity. exfalso. eapply H. reflexivity. }
  split; [intros s e -> -> ->; reflexivity|].
  intros s cols db -> -> ->. cbn [bind fst snd]. split.
  - intros -> Hs. unfold check_args. cbn [init_as_list issuperset forallb bind]. rewrite (proj2 (mem_string_In cols s) Hs).
    reflexivity.
  - intros la -> Ha Hs Hi. rewrite (names_list _ _ Ha). unfold check_args. cbn [init_as_list issuperset forallb bind].
    rewrite (proj2 (mem_string_In cols s) Hs), (proj2 (all_in cols la) Hi). reflexivity.
Qed.

End New.

(* ------------------------------------------------------------------ *)
(** ** A column given twice *)

Lemma by_rows_value T db k i r c : In c (t_by T) -> item (by_rows T db k) i r ->
  forall j s, item (by_rows T db k) j s -> r c = s c.
Proof.
  unfold by_rows. intros Hc [_ H1] j s [_ H2]. apply nth_error_In in H1, H2.
  destruct (t_by T) as [|c0 l] eqn:E; [destruct Hc|].
  apply filter_In in H1 as [_ H1]. apply filter_In in H2 as [_ H2].
  destruct (key_dec (map r (c0 :: l)) k) as [E1|]; [|discriminate]. destruct (key_dec (map s (c0 :: l)) k) as [E2|]; [|discriminate].
  rewrite <- E2 in E1. clear -Hc E1. revert Hc E1. generalize (c0 :: l). intros m.
  induction m as [|d m IH]; intros [].
  - cbn. intros E. injection E as E _. subst. exact E.
  - cbn. intros E. injection E as _ E. auto.
Qed.

Lemma overlap_none T db : overlapping T -> forall k a b x, ~ wanted T db k a b x.
Proof.
  intros H k a b x (ra & rb & rx & Ia & Ib & Ix & (H1 & H2 & H3 & H4) & _). destruct H as [H|[H|(c & Hc & H)]].
  - apply H2, H3, H.
  - apply H2. symmetry. eapply by_rows_value; eauto.
  - assert (E : rx c = ra c) by (symmetry; eapply by_rows_value; eauto).
    destruct (t_across T) as [|c0 l]; [destruct Hc|]. exact (H4 c Hc E).
Qed.

Section Made.
Variable korder : list key -> list key.
Variable enum : list Z -> list Z.
Variable argsort : list Z -> list nat.
Hypothesis korder_ok : lists_keys korder.
Hypothesis enum_ok : lists_set enum.
Hypothesis argsort_ok : argsort_spec argsort.

Theorem overlap_empty T cols db T' bs st :
  reads cols (t_filters T) -> determined T db -> kept_first T db -> overlapping T ->
  task_init korder enum T cols db = Ok (T', bs, st) ->
  s_nb_triplets st = 0 /\
  forall R fuel thr c, generate_triplets korder enum argsort R fuel T' thr bs st c = Ok (bs, None).
Proof.
  intros rd dt kf H init.
  assert (E : s_nb_triplets st = 0).
  { rewrite (announced_count korder_ok enum_ok rd dt kf init (L := [])); [reflexivity|constructor|].
    intros k a b x. split; [intros []|]. intros W. destruct (overlap_none T db H k a b x W). }
  split; [exact E|]. intros. unfold generate_triplets. rewrite E. reflexivity.
Qed.

(* ------------------------------------------------------------------ *)
(** ** The same columns, given otherwise *)

Section Same.
Variables T1 T2 : task.
Variable cols : list string.
Variable db : list row.
Hypothesis same : same_columns T1 T2.

Lemma map_eq_iff (l m : list string) (r s : row) : (forall c, In c l <-> In c m) -> map r l = map s l -> map r m = map s m.
Proof.
  intros H E. apply map_ext_in. intros c Hc. apply H in Hc. clear -E Hc. induction l as [|d l IH]; [destruct Hc|].
  cbn in E. injection E as E1 E2. destruct Hc as [<-|Hc]; auto.
Qed.

Lemma nil_iff (l m : list string) : (forall c, In c l <-> In c m) -> (l = [] <-> m = []).
Proof.
  intros H. split; intros ->; [destruct m as [|c m]|destruct l as [|c l]]; try reflexivity; exfalso;
    apply (H c); left; reflexivity.
Qed.

Lemma same_rows k1 k2 : same_by T1 T2 db k1 k2 -> by_rows T1 db k1 = by_rows T2 db k2.
Proof.
  destruct same as (_ & _ & _ & _ & HB). pose proof (nil_iff _ _ HB) as HN. unfold same_by, by_rows.
  destruct (t_by T1) as [|c1 l1].
  - rewrite (proj1 HN eq_refl). intros [-> ->]. reflexivity.
  - destruct (t_by T2) as [|c2 l2]; [destruct HN as [_ HN]; discriminate (HN eq_refl)|].
    intros (r & _ & -> & ->). apply filter_ext. intros s.
    destruct (key_dec (map s (c1 :: l1)) _) as [E|N], (key_dec (map s (c2 :: l2)) _) as [E'|N']; try reflexivity; exfalso.
    + apply N', (map_eq_iff _ _ _ _ HB), E.
    + apply N, (map_eq_iff _ _ _ _ (fun c => iff_sym (HB c))), E'.
Qed.

Lemma abx_same a x ra rb rx : abx T1 a x ra rb rx <-> abx T2 a x ra rb rx.
Proof.
  destruct same as (HO & _ & _ & HA & _). pose proof (nil_iff _ _ HA) as HN. unfold abx. rewrite HO.
  assert (E1 : (forall c, In c (t_across T1) -> rb c = ra c) <-> (forall c, In c (t_across T2) -> rb c = ra c))
    by (split; intros H c Hc; apply H, HA, Hc).
  assert (E2 : match t_across T1 with [] => x <> a | _ => forall c, In c (t_across T1) -> rx c <> ra c end <->
               match t_across T2 with [] => x <> a | _ => forall c, In c (t_across T2) -> rx c <> ra c end).
  { destruct (t_across T1) as [|c1 l1], (t_across T2) as [|c2 l2]; try tauto.
    - destruct HN as [HN _]. discriminate (HN eq_refl).
    - destruct HN as [_ HN]. discriminate (HN eq_refl).
    - split; intros H c Hc; apply H, HA, Hc. }
  rewrite E1, E2. reflexivity.
Qed.

Lemma wanted_same k1 k2 a b x : same_by T1 T2 db k1 k2 -> (wanted T1 db k1 a b x <-> wanted T2 db k2 a b x).
Proof.
  intros H. destruct same as (_ & HF & _). unfold wanted. rewrite (same_rows _ _ H), HF.
  split; intros (ra & rb & rx & I1 & I2 & I3 & I4 & I5); exists ra, rb, rx; (repeat split; try assumption);
    try (apply abx_same; assumption); try apply I5; try (apply I1); try apply I2; try apply I3; try apply (proj1 (abx_same _ _ _ _ _) I4);
    try apply (proj2 (abx_same _ _ _ _ _) I4).
Qed.

(** Every group that has items has a key in the other task. *)
Lemma other_key k1 i r : item (by_rows T1 db k1) i r -> exists k2, same_by T1 T2 db k1 k2.
Proof.
  intros [_ H]. apply nth_error_In in H. unfold by_rows in H. unfold same_by. destruct (t_by T1) as [|c l].
  - destruct (key_dec k1 [0]) as [->|]; [|destruct H]. exists [0]. auto.
  - apply filter_In in H as [H1 H2]. destruct (key_dec (map r (c :: l)) k1) as [<-|]; [|discriminate].
    exists (map r (t_by T2)), r. auto.
Qed.

Lemma same_by_fun k1 k2 k2' : same_by T1 T2 db k1 k2 -> same_by T1 T2 db k1 k2' -> k2 = k2'.
Proof.
  destruct same as (_ & _ & _ & _ & HB). unfold same_by. destruct (t_by T1) as [|c l] eqn:E.
  - intros [_ ->] [_ ->]. reflexivity.
  - intros (r & _ & E1 & ->) (s & _ & E2 & ->). rewrite E1 in E2. apply (map_eq_iff _ _ _ _ HB), E2.
Qed.

Lemma agree_same l m r r' : (forall c, In c l <-> In c m) -> agree m r r' -> agree l r r'.
Proof. intros H A c Hc. apply A, H, Hc. Qed.

End Same.

Lemma same_sym T1 T2 : same_columns T1 T2 -> same_columns T2 T1.
Proof. intros (H1 & H2 & H3 & H4 & H5). repeat split; try congruence; try apply H4; try apply H5. Qed.

Lemma same_by_sym T1 T2 db k1 k2 : same_columns T1 T2 -> same_by T1 T2 db k1 k2 -> same_by T2 T1 db k2 k1.
Proof.
  intros (_ & _ & _ & _ & HB). pose proof (nil_iff _ _ HB) as HN. unfold same_by.
  destruct (t_by T1) as [|c l].
  - rewrite (proj1 HN eq_refl). tauto.
  - destruct (t_by T2) as [|c2 l2]; [destruct HN as [_ HN]; discriminate (HN eq_refl)|].
    intros (r & H & -> & ->). exists r. auto.
Qed.

Section Transfer.
Variables T1 T2 : task.
Variable cols : list string.
Variable db : list row.
Hypothesis same : same_columns T1 T2.

Lemma determined_same : determined T1 db -> determined T2 db.
Proof.
  destruct same as (HO & HF & _ & HA & HB). pose proof (nil_iff _ _ HA) as HN.
  assert (G : forall r r', agree (t_on T2 :: t_across T2 ++ t_by T2) r r' -> agree (t_on T1 :: t_across T1 ++ t_by T1) r r').
  { intros r r'. apply agree_same. intros c. cbn [In]. rewrite !in_app_iff, HO, HA, HB. reflexivity. }
  assert (GB : forall r r', agree (t_by T2) r r' -> agree (t_by T1) r r') by (intros r r'; apply agree_same, HB).
  intros [D1 D2 D3 D4 D5 D6 D7]. rewrite HF in *.
  constructor; intros; [apply D1|apply D2|apply D3|eapply D4|eapply D5|eapply D6|eapply D7]; eauto; rewrite HN; assumption.
Qed.

Lemma key_back k2 i r : item (by_rows T2 db k2) i r -> exists k1, same_by T1 T2 db k1 k2.
Proof.
  intros H. destruct (other_key T2 T1 db _ _ _ H) as (k1 & Hk). exists k1. apply same_by_sym; [apply same_sym, same|exact Hk].
Qed.

Lemma kept_first_same : kept_first T1 db -> kept_first T2 db.
Proof.
  destruct same as (_ & HF & _). intros H k i j ri rj Hij H1 H2. rewrite <- HF.
  destruct (key_back _ _ _ H1) as (k1 & Hk). rewrite <- (same_rows T1 T2 db same _ _ Hk) in H1, H2. eapply H; eauto.
Qed.

Lemma none_emptied_same : none_emptied T1 db -> none_emptied T2 db.
Proof.
  destruct same as (_ & HF & _). intros H k i r H1. rewrite <- HF.
  destruct (key_back _ _ _ H1) as (k1 & Hk). rewrite <- (same_rows T1 T2 db same _ _ Hk) in H1 |- *. eapply H; eauto.
Qed.

Lemma check_same : check_database cols (t_on T1) (t_across T1) (t_by T1) = Ok tt ->
  check_database cols (t_on T2) (t_across T2) (t_by T2) = Ok tt.
Proof.
  destruct same as (HO & _ & _ & HA & HB). intros H. apply check_exact.
  destruct (check_exact cols (t_on T1) (t_across T1) (t_by T1)) as [_ C].
  assert (D : forall P : Prop, (P \/ ~ P) -> (~ P -> False) -> P) by tauto.
  assert (X : In (t_on T1) cols /\ incl (t_across T1) cols /\ incl (t_by T1) cols /\ (forall c, In c cols -> usable c)).
  { rewrite <- mem_string_In, <- !all_in, <- all_usable. unfold check_database in H.
    destruct (mem_string cols (t_on T1)); [|discriminate]. destruct (forallb (mem_string cols) (t_across T1)); [|discriminate].
    destruct (forallb (mem_string cols) (t_by T1)); [|discriminate]. destruct (forallb _ cols); [|discriminate]. auto. }
  destruct X as (X1 & X2 & X3 & X4). split; [congruence|]. split; [intros c Hc; apply X2, HA, Hc|].
  split; [intros c Hc; apply X3, HB, Hc|exact X4].
Qed.

Lemma wanted_item T k a b x : wanted T db k a b x -> exists r, item (by_rows T db k) a r.
Proof. intros (ra & _ & _ & H & _). eauto. Qed.

Lemma storable_same hi : storable T1 db hi -> storable T2 db hi.
Proof.
  intros H k a b x W. destruct (wanted_item _ _ _ _ _ W) as (r & Hr). destruct (key_back _ _ _ Hr) as (k1 & Hk).
  apply (H k1 a b x). apply (wanted_same T1 T2 db same _ _ _ _ _ Hk), W.
Qed.

Lemma announced_same T1' bs1 st1 T2' bs2 st2 :
  reads cols (t_filters T1) -> determined T1 db -> kept_first T1 db ->
  task_init korder enum T1 cols db = Ok (T1', bs1, st1) -> task_init korder enum T2 cols db = Ok (T2', bs2, st2) ->
  s_nb_triplets st1 = s_nb_triplets st2.
Proof.
  intros rd dt kf I1 I2.
  assert (rd2 : reads cols (t_filters T2)) by (destruct same as (_ & <- & _); exact rd).
  pose proof (determined_same dt) as dt2. pose proof (kept_first_same kf) as kf2.
  set (L1 := tagged korder enum T1' bs1). set (L2 := tagged korder enum T2' bs2).
  rewrite <- (tagged_length korder_ok enum_ok _ _ _ I1), <- (tagged_length korder_ok enum_ok _ _ _ I2).
  fold L1 L2. pose proof (tagged_NoDup korder_ok enum_ok _ _ _ I1) as N1.
  pose proof (tagged_NoDup korder_ok enum_ok _ _ _ I2) as N2.
  pose proof (tagged_In korder_ok enum_ok rd dt kf I1) as M1. pose proof (tagged_In korder_ok enum_ok rd2 dt2 kf2 I2) as M2.
  fold L1 in N1, M1. fold L2 in N2, M2.
  assert (LE : forall (l : list (key * triplet)) (m : list (key * triplet)) (P : key -> key -> Prop),
    NoDup l -> (forall k k' k2, P k k2 -> P k' k2 -> k = k') ->
    (forall k t, In (k, t) l -> exists k2, P k k2 /\ In (k2, t) m) -> (length l <= length m)%nat).
  { clear. intros l m P N. revert m. induction N as [|[k t] l Hk N IH]; intros m HP H; [cbn; lia|].
    destruct (H k t (or_introl eq_refl)) as (k2 & H1 & H2). apply in_split in H2 as (m1 & m2 & ->).
    rewrite app_length. cbn [length]. rewrite Nat.add_succ_r, <- app_length. apply le_n_S, IH; [exact HP|].
    intros k' t' Hin. destruct (H k' t' (or_intror Hin)) as (k2' & H3 & H4). exists k2'. split; [exact H3|].
    apply in_app_iff in H4 as [H4|[H4|H4]]; [apply in_app_iff; auto| |apply in_app_iff; auto].
    injection H4 as <- <-. rewrite (HP _ _ _ H3 H1) in Hin. contradiction. }
  unfold Zlen. f_equal. apply Nat.le_antisymm.
  - apply (LE L1 L2 (same_by T1 T2 db) N1).
    + intros k k' k2 H1 H2. apply (same_by_fun T2 T1 db (same_sym _ _ same) k2); apply same_by_sym; assumption.
    + intros k [[a b] x] H. apply M1 in H. destruct (wanted_item _ _ _ _ _ H) as (r & Hr).
      destruct (other_key T1 T2 db _ _ _ Hr) as (k2 & Hk). exists k2. split; [exact Hk|].
      apply M2, (wanted_same T1 T2 db same _ _ _ _ _ Hk), H.
  - apply (LE L2 L1 (fun k2 k1 => same_by T1 T2 db k1 k2) N2).
    + intros k k' k2 H1 H2. apply (same_by_fun T1 T2 db same k2); assumption.
    + intros k [[a b] x] H. apply M2 in H. destruct (wanted_item _ _ _ _ _ H) as (r & Hr).
      destruct (key_back _ _ _ Hr) as (k1 & Hk). exists k1. split; [exact Hk|].
      apply M1, (wanted_same T1 T2 db same _ _ _ _ _ Hk), H.
Qed.

Theorem same_task :
  reads cols (t_filters T1) -> determined T1 db -> kept_first T1 db -> none_emptied T1 db ->
  check_database cols (t_on T1) (t_across T1) (t_by T1) = Ok tt ->
  Zlen db * Zlen db * Zlen db < 2 ^ 63 -> r_ABX (t_regressors T1) = false ->
  exists T1' bs1 st1 T2' bs2 st2,
    task_init korder enum T1 cols db = Ok (T1', bs1, st1) /\ task_init korder enum T2 cols db = Ok (T2', bs2, st2) /\
    s_nb_triplets st1 = s_nb_triplets st2 /\
    forall R1 R2 fuel thr c1 c2, no_threshold thr -> storable T1 db (capacity (s_nb_triplets st1)) ->
      exists bs1' of1 bs2' of2,
        generate_triplets korder enum argsort R1 fuel T1' thr bs1 st1 c1 = Ok (bs1', of1) /\
        generate_triplets korder enum argsort R2 fuel T2' thr bs2 st2 c2 = Ok (bs2', of2) /\
        match of1, of2 with
        | None, None => True
        | Some f1, Some f2 => same_triplets T1 T2 db f1 f2
        | _, _ => False
        end.
Proof.
  intros rd dt kf ne ck sz HG.
  assert (rd2 : reads cols (t_filters T2)) by (destruct same as (_ & <- & _); exact rd).
  assert (HG2 : r_ABX (t_regressors T2) = false) by (destruct same as (_ & _ & <- & _); exact HG).
  pose proof (determined_same dt) as dt2. pose proof (kept_first_same kf) as kf2.
  destruct (init_succeeds korder_ok enum_ok rd dt kf ck sz ne) as (T1' & bs1 & st1 & I1).
  destruct (init_succeeds korder_ok enum_ok rd2 dt2 kf2 (check_same ck) sz (none_emptied_same ne)) as (T2' & bs2 & st2 & I2).
  pose proof (announced_same _ _ _ _ _ _ rd dt kf I1 I2) as ES.
  exists T1', bs1, st1, T2', bs2, st2. split; [exact I1|]. split; [exact I2|]. split; [exact ES|].
  intros R1 R2 fuel thr c1 c2 Ht Hs.
  destruct (generate_succeeds R1 fuel korder_ok enum_ok argsort_ok rd dt kf I1 c1 sz Ht HG) as (bs1' & of1 & G1 & O1).
  destruct (generate_succeeds R2 fuel korder_ok enum_ok argsort_ok rd2 dt2 kf2 I2 c2 sz Ht HG2) as (bs2' & of2 & G2 & O2).
  exists bs1', of1, bs2', of2. split; [exact G1|]. split; [exact G2|].
  assert (none : (forall k a b x, ~ wanted T1 db k a b x) <-> (forall k a b x, ~ wanted T2 db k a b x)).
  { split; intros H k a b x W; destruct (wanted_item _ _ _ _ _ W) as (r & Hr).
    - destruct (key_back _ _ _ Hr) as (k1 & Hk). apply (H k1 a b x), (wanted_same T1 T2 db same _ _ _ _ _ Hk), W.
    - destruct (other_key T1 T2 db _ _ _ Hr) as (k2 & Hk). apply (H k2 a b x), (wanted_same T1 T2 db same _ _ _ _ _ Hk), W. }
  destruct of1 as [f1|], of2 as [f2|]; try exact I.
  2: { exfalso. destruct O1 as [_ O1], O2 as [O2 _]. discriminate (O1 (proj2 none (O2 eq_refl))). }
  2: { exfalso. destruct O1 as [O1 _], O2 as [_ O2]. discriminate (O2 (proj1 none (O1 eq_refl))). }
  assert (Hs2 : storable T2 db (capacity (s_nb_triplets st2))) by (rewrite <- ES; apply storable_same, Hs).
  destruct (file_exact R1 fuel korder_ok enum_ok argsort_ok rd dt kf I1 c1 G1 Ht Hs) as (F1 & B1 & _).
  destruct (file_exact R2 fuel korder_ok enum_ok argsort_ok rd2 dt2 kf2 I2 c2 G2 Ht Hs2) as (F2 & B2 & _).
  assert (FC : forall (A B : Type) (P : A -> B -> Prop) l m x y, Forall2 P l m -> In (x, y) (combine l m) -> P x y).
  { clear. intros A B P l m x y F. induction F as [|a b l m H F IH]; cbn; [intros []|].
    intros [E|E]; [injection E as -> ->; exact H|auto]. }
  split; [|split; [|split]].
  - intros k1 k2 Hk. rewrite B1, B2. split; intros (a & b & x & W); exists a, b, x; apply (wanted_same T1 T2 db same _ _ _ _ _ Hk), W.
  - intros k1 Hk. apply B1 in Hk as (a & b & x & W). destruct (wanted_item _ _ _ _ _ W) as (r & Hr). eapply other_key; eauto.
  - intros k2 Hk. apply B2 in Hk as (a & b & x & W). destruct (wanted_item _ _ _ _ _ W) as (r & Hr). eapply key_back; eauto.
  - intros k1 k2 ij1 ij2 Hk H1 H2. apply (FC _ _ _ _ _ _ _ F1) in H1 as [N1 M1]. apply (FC _ _ _ _ _ _ _ F2) in H2 as [N2 M2].
    apply NoDup_Permutation; [exact N1|exact N2|]. intros [[a b] x]. rewrite M1, M2. apply (wanted_same T1 T2 db same), Hk.
Qed.

End Transfer.
End Made.
