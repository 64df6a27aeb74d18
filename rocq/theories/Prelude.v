(** Python / numpy primitives shared by all models, and lemmas about them.
    Nothing here is specific to ABXpy. *)
From Coq Require Export List Arith ZArith Lia Bool Permutation Sorted.
From Coq Require Export ZifyBool ZifyNat.
Export ListNotations.

Set Implicit Arguments.

(* ------------------------------------------------------------------ *)
(** ** Exceptions as values *)

Inductive exn : Set :=
| IndexError | ValueError | KeyError | AssertionError | IOError | TypeError
| ZeroDivisionError | RuntimeError | NameError | AttributeError
| StopIteration | OverflowError | NotImplementedError
| UserWarning        (* [raise Warning(...)] *)
| OutOfFuel.         (* not a Python exception: the model's fuel is exhausted *)

Inductive res (A : Type) : Type :=
| Ok (a : A)
| Err (e : exn).
Arguments Ok {A} a.
Arguments Err {A} e.

Definition bind {A B} (m : res A) (k : A -> res B) : res B :=
  match m with Ok a => k a | Err e => Err e end.

Declare Scope res_scope.
Delimit Scope res_scope with res.
Notation "x <- m ;; k" := (bind m (fun x => k))
  (at level 61, m at next level, right associativity) : res_scope.
Notation "'assert!' b 'else' e ;; k" := (if b then k else Err e)
  (at level 61, b at next level, e at next level, right associativity) : res_scope.
Open Scope res_scope.

Fixpoint mapM {A B} (f : A -> res B) (l : list A) : res (list B) :=
  match l with
  | [] => Ok []
  | a :: l' => b <- f a ;; bs <- mapM f l' ;; Ok (b :: bs)
  end.

Fixpoint foldM {S A} (f : S -> A -> res S) (l : list A) (s : S) : res S :=
  match l with
  | [] => Ok s
  | a :: l' => s' <- f s a ;; foldM f l' s'
  end.

Definition is_ok {A} (r : res A) : bool := match r with Ok _ => true | Err _ => false end.

(* ------------------------------------------------------------------ *)
(** ** Lists as numpy arrays *)

(** [l[i]] with a non-negative index. *)
Definition nth_res {A} (l : list A) (i : nat) : res A :=
  match nth_error l i with Some a => Ok a | None => Err IndexError end.

(** [l[idx]] with an array of non-negative indices (fancy indexing). *)
Definition gather {A} (l : list A) (idx : list nat) : res (list A) := mapM (nth_res l) idx.

(** [l[i:j]] with non-negative bounds. *)
Definition slice {A} (i j : nat) (l : list A) : list A := firstn (j - i) (skipn i l).

(** [l[i:i+len(new)] = new] when the range is inside [l]. *)
Definition splice {A} (i : nat) (new l : list A) : list A :=
  firstn i l ++ new ++ skipn (i + length new) l.

(** [np.where(mask)[0]]. *)
Fixpoint where_from (i : nat) (mask : list bool) : list nat :=
  match mask with
  | [] => []
  | b :: m => if b then i :: where_from (S i) m else where_from (S i) m
  end.
Definition np_where (mask : list bool) : list nat := where_from 0 mask.

Definition sumn (l : list nat) : nat := fold_right Nat.add 0 l.
Definition sumZ (l : list Z) : Z := fold_right Z.add 0%Z l.
Definition prodZ (l : list Z) : Z := fold_right Z.mul 1%Z l.
Definition maxZ (l : list Z) : Z := fold_right Z.max 0%Z l.

(* ------------------------------------------------------------------ *)
(** ** Sorting *)

Fixpoint insertZ (x : Z) (l : list Z) : list Z :=
  match l with
  | [] => [x]
  | y :: l' => if (x <=? y)%Z then x :: l else y :: insertZ x l'
  end.
Definition sortZ (l : list Z) : list Z := fold_right insertZ [] l.

(** Remove adjacent duplicates. *)
Fixpoint dedup (l : list Z) : list Z :=
  match l with
  | [] => []
  | x :: l' => match l' with
               | [] => [x]
               | y :: _ => if (x =? y)%Z then dedup l' else x :: dedup l'
               end
  end.

(** [np.unique]: the sorted distinct values. *)
Definition np_unique (l : list Z) : list Z := dedup (sortZ l).

(** [np.searchsorted(l, v)] (side='left') on a sorted array: number of leading
    elements smaller than [v]. *)
Fixpoint searchsorted (l : list Z) (v : Z) : nat :=
  match l with
  | [] => 0
  | x :: l' => if (x <? v)%Z then S (searchsorted l' v) else 0
  end.

(** [bisect.bisect_right(l, v)] on a sorted array: number of leading elements not
    greater than [v]. *)
Fixpoint bisect_right (l : list Z) (v : Z) : nat :=
  match l with
  | [] => 0
  | x :: l' => if (x <=? v)%Z then S (bisect_right l' v) else 0
  end.

(** What is assumed of [np.argsort] (its order on ties is unspecified): it returns
    the positions of the array, permuted so that the values are non-decreasing. *)
Definition argsort_spec (argsort : list Z -> list nat) : Prop :=
  forall l, Permutation (argsort l) (seq 0 (length l)) /\
            StronglySorted Z.le (map (fun i => nth i l 0%Z) (argsort l)).

(** A concrete argsort (stable insertion), used only in examples and witnesses. *)
Fixpoint insert_pos (l : list Z) (i : nat) (idx : list nat) : list nat :=
  match idx with
  | [] => [i]
  | j :: idx' => if (nth i l 0 <=? nth j l 0)%Z then i :: idx else j :: insert_pos l i idx'
  end.
Definition argsort_ins (l : list Z) : list nat :=
  fold_right (insert_pos l) [] (seq 0 (length l)).

(* ------------------------------------------------------------------ *)
(** ** Fixed-width integers *)

Inductive itype : Set := I8 | I16 | I32 | I64 | U8 | U16 | U32 | U64.

Definition bits (t : itype) : Z :=
  match t with
  | I8 | U8 => 8 | I16 | U16 => 16 | I32 | U32 => 32 | I64 | U64 => 64
  end%Z.
Definition signed (t : itype) : bool :=
  match t with I8 | I16 | I32 | I64 => true | _ => false end.
Definition tmin (t : itype) : Z := if signed t then (- 2 ^ (bits t - 1))%Z else 0%Z.
Definition tmax (t : itype) : Z := if signed t then (2 ^ (bits t - 1) - 1)%Z else (2 ^ bits t - 1)%Z.
(** Value stored when an integer is converted to a numpy integer type (C wrap-around). *)
Definition cast (t : itype) (v : Z) : Z :=
  if signed t
  then ((v + 2 ^ (bits t - 1)) mod 2 ^ bits t - 2 ^ (bits t - 1))%Z
  else (v mod 2 ^ bits t)%Z.
Definition itemsize (t : itype) : nat := match t with
  | I8 | U8 => 1 | I16 | U16 => 2 | I32 | U32 => 4 | I64 | U64 => 8 end.

(** Python 3 [round(a / b)] for integers [a >= 0], [b > 0]: round half to even. *)
Definition round_div (a b : Z) : Z :=
  let q := (a / b)%Z in
  let r := (a mod b)%Z in
  if (2 * r <? b)%Z then q
  else if (b <? 2 * r)%Z then (q + 1)%Z
  else if Z.even q then q else (q + 1)%Z.

Definition ceil_div (a b : Z) : Z := (- ((- a) / b))%Z.

(* ================================================================== *)
(** * Lemmas *)

Lemma bind_ok A B (m : res A) (k : A -> res B) b :
  bind m k = Ok b -> exists a, m = Ok a /\ k a = Ok b.
Proof. destruct m; cbn; intros H; [eauto | discriminate]. Qed.

Lemma mapM_ok_map A B (f : A -> res B) (g : A -> B) l :
  (forall a, In a l -> f a = Ok (g a)) -> mapM f l = Ok (map g l).
Proof.
  induction l as [|a l IH]; intros H; cbn; [reflexivity|].
  rewrite H by (left; reflexivity). cbn. rewrite IH by (intros; apply H; now right).
  reflexivity.
Qed.

Lemma mapM_length A B (f : A -> res B) l l' : mapM f l = Ok l' -> length l' = length l.
Proof.
  revert l'. induction l as [|a l IH]; cbn; intros l' H.
  - inversion H; reflexivity.
  - apply bind_ok in H as (b & Hb & H). apply bind_ok in H as (bs & Hbs & H).
    inversion H; subst. cbn. f_equal. auto.
Qed.

Lemma mapM_app A B (f : A -> res B) l1 l2 :
  mapM f (l1 ++ l2) = (b1 <- mapM f l1 ;; b2 <- mapM f l2 ;; Ok (b1 ++ b2)).
Proof.
  induction l1 as [|a l1 IH]; cbn.
  - destruct (mapM f l2); reflexivity.
  - destruct (f a); cbn; [|reflexivity]. rewrite IH.
    destruct (mapM f l1); cbn; [|reflexivity].
    destruct (mapM f l2); reflexivity.
Qed.

Lemma mapM_forall2 A B (f : A -> res B) l l' :
  mapM f l = Ok l' <-> Forall2 (fun a b => f a = Ok b) l l'.
Proof.
  split.
  - revert l'. induction l as [|a l IH]; cbn; intros l' H.
    + inversion H; constructor.
    + apply bind_ok in H as (b & Hb & H). apply bind_ok in H as (bs & Hbs & H).
      inversion H; subst. constructor; auto.
  - induction 1 as [|a b l l' H1 H2 IH]; cbn; [reflexivity|].
    rewrite H1; cbn; rewrite IH; reflexivity.
Qed.

Lemma mapM_In A B (f : A -> res B) l l' b :
  mapM f l = Ok l' -> In b l' -> exists a, In a l /\ f a = Ok b.
Proof.
  intros H. apply mapM_forall2 in H. induction H as [|x y l l' Hxy H IH]; cbn; [tauto|].
  intros [->|Hb]; [eauto|]. destruct (IH Hb) as (a & Ha & Hf). eauto.
Qed.

Lemma nth_res_lt A (l : list A) i d : i < length l -> nth_res l i = Ok (nth i l d).
Proof.
  intros H. unfold nth_res. now rewrite (nth_error_nth' l d H).
Qed.

Lemma nth_res_ok A (l : list A) i a : nth_res l i = Ok a <-> nth_error l i = Some a.
Proof. unfold nth_res. destruct (nth_error l i); split; congruence. Qed.

Lemma gather_ok A (l : list A) idx d :
  (forall i, In i idx -> i < length l) -> gather l idx = Ok (map (fun i => nth i l d) idx).
Proof. intros H. apply mapM_ok_map. intros i Hi. apply nth_res_lt; auto. Qed.

Lemma gather_bounds A (l : list A) idx l' :
  gather l idx = Ok l' -> forall i, In i idx -> i < length l.
Proof.
  intros H. apply mapM_forall2 in H. induction H as [|i a idx l' Hi H IH]; cbn; [tauto|].
  intros j [<-|Hj]; [|auto]. apply nth_res_ok in Hi.
  apply nth_error_Some. congruence.
Qed.

Lemma gather_map A B (f : A -> B) l idx :
  gather (map f l) idx = (l' <- gather l idx ;; Ok (map f l')).
Proof.
  unfold gather. induction idx as [|i idx IH]; cbn; [reflexivity|].
  unfold nth_res at 1 3. rewrite nth_error_map.
  destruct (nth_error l i); cbn; [|reflexivity]. rewrite IH.
  destruct (mapM (nth_res l) idx); reflexivity.
Qed.

Lemma map_nth_seq A (l : list A) d : map (fun i => nth i l d) (seq 0 (length l)) = l.
Proof.
  induction l as [|a l IH]; cbn; [reflexivity|]. f_equal.
  rewrite <- seq_shift, map_map. exact IH.
Qed.

Lemma map_nth_seq_map A B (l : list A) (f : A -> B) d :
  map (fun i => f (nth i l d)) (seq 0 (length l)) = map f l.
Proof. symmetry. rewrite <- (map_nth_seq l d) at 1. now rewrite map_map. Qed.

Lemma gather_seq A (l : list A) : gather l (seq 0 (length l)) = Ok l.
Proof.
  destruct l as [|d l]; [reflexivity|].
  rewrite gather_ok with (d := d).
  - now rewrite map_nth_seq.
  - intros i Hi. apply in_seq in Hi. lia.
Qed.

Lemma slice_length A (l : list A) i j :
  length (slice i j l) = Nat.min (j - i) (length l - i).
Proof. unfold slice. now rewrite firstn_length, skipn_length. Qed.

Lemma slice_full A (l : list A) : slice 0 (length l) l = l.
Proof. unfold slice. rewrite Nat.sub_0_r. cbn. apply firstn_all. Qed.

Lemma skipn_skipn A (l : list A) i j : skipn i (skipn j l) = skipn (i + j) l.
Proof.
  revert l. induction j as [|j IH]; intros l.
  - now rewrite Nat.add_0_r.
  - rewrite Nat.add_succ_r. destruct l as [|a l]; [now rewrite !skipn_nil|]. cbn. apply IH.
Qed.

Lemma slice_app A (l : list A) i j k :
  i <= j <= k -> slice i j l ++ slice j k l = slice i k l.
Proof.
  intros H. unfold slice.
  replace (skipn j l) with (skipn (j - i) (skipn i l)).
  - replace (firstn (k - j) (skipn (j - i) (skipn i l)))
      with (skipn (j - i) (firstn (k - i) (skipn i l))).
    + replace (firstn (j - i) (skipn i l)) with (firstn (j - i) (firstn (k - i) (skipn i l))).
      * apply firstn_skipn.
      * rewrite firstn_firstn. f_equal. lia.
    + rewrite skipn_firstn_comm. f_equal. lia.
  - rewrite skipn_skipn. f_equal. lia.
Qed.

Lemma nth_error_slice A (l : list A) i j k :
  nth_error (slice i j l) k = if k <? j - i then nth_error l (i + k) else None.
Proof.
  unfold slice. destruct (Nat.ltb_spec k (j - i)) as [H|H].
  - rewrite <- (firstn_skipn i l) at 2.
    destruct (Nat.le_gt_cases (length l) i) as [Hl|Hl].
    + rewrite skipn_all2 by lia. rewrite firstn_nil.
      rewrite (firstn_all2 l) by lia. rewrite app_nil_r.
      transitivity (@None A); [destruct k; reflexivity|].
      symmetry. apply nth_error_None. lia.
    + rewrite nth_error_app2; rewrite firstn_length_le by lia; [|lia].
      replace (i + k - i) with k by lia.
      set (m := skipn i l). clearbody m. clear -H.
      revert k H. generalize (j - i) as n. revert m.
      induction m as [|a m IH]; intros n k H.
      * rewrite firstn_nil. reflexivity.
      * destruct n; [lia|]. destruct k; cbn; [reflexivity|]. apply IH. lia.
  - apply nth_error_None. rewrite firstn_length. lia.
Qed.

Lemma splice_length A i (new l : list A) :
  i + length new <= length l -> length (splice i new l) = length l.
Proof.
  intros H. unfold splice. rewrite !app_length, firstn_length_le, skipn_length by lia. lia.
Qed.

Lemma splice_full A (new l : list A) : length new = length l -> splice 0 new l = new.
Proof.
  intros H. unfold splice. cbn. rewrite skipn_all2 by lia. apply app_nil_r.
Qed.

Lemma nth_error_splice A (new l : list A) i k :
  i + length new <= length l ->
  nth_error (splice i new l) k =
  if (i <=? k) && (k <? i + length new) then nth_error new (k - i) else nth_error l k.
Proof.
  intros H. unfold splice.
  destruct (Nat.leb_spec i k) as [H1|H1]; cbn [andb].
  - rewrite nth_error_app2; rewrite firstn_length_le by lia; [|lia].
    destruct (Nat.ltb_spec k (i + length new)) as [H2|H2].
    + rewrite nth_error_app1 by lia. reflexivity.
    + rewrite nth_error_app2 by lia.
      rewrite <- (firstn_skipn (i + length new) l) at 2.
      rewrite (nth_error_app2 (firstn _ l)); rewrite firstn_length_le by lia; [|lia].
      f_equal. lia.
  - rewrite nth_error_app1 by (rewrite firstn_length_le; lia).
    rewrite <- (firstn_skipn i l) at 2.
    rewrite nth_error_app1 by (rewrite firstn_length_le; lia). reflexivity.
Qed.

Lemma nth_error_ext A (l1 l2 : list A) :
  (forall k, nth_error l1 k = nth_error l2 k) -> l1 = l2.
Proof.
  revert l2. induction l1 as [|a l1 IH]; intros [|b l2] H.
  - reflexivity.
  - specialize (H 0). discriminate.
  - specialize (H 0). discriminate.
  - f_equal; [specialize (H 0); cbn in H; congruence|].
    apply IH. intros k. exact (H (S k)).
Qed.

Lemma splice_app A (l : list A) i n1 n2 :
  i + length n1 + length n2 <= length l ->
  splice (i + length n1) n2 (splice i n1 l) = splice i (n1 ++ n2) l.
Proof.
  intros H. apply nth_error_ext. intros k.
  rewrite nth_error_splice by (rewrite splice_length; lia).
  rewrite nth_error_splice by lia.
  rewrite nth_error_splice by (rewrite app_length; lia).
  rewrite app_length.
  destruct (Nat.leb_spec (i + length n1) k); destruct (Nat.ltb_spec k (i + length n1 + length n2));
    destruct (Nat.leb_spec i k); destruct (Nat.ltb_spec k (i + length n1));
    destruct (Nat.ltb_spec k (i + (length n1 + length n2))); cbn [andb]; try lia; try reflexivity.
  - rewrite nth_error_app2 by lia. f_equal. lia.
  - rewrite nth_error_app1 by lia. reflexivity.
Qed.

(** *** np.where *)

Lemma where_from_spec mask i k :
  In k (where_from i mask) <-> i <= k /\ nth_error mask (k - i) = Some true.
Proof.
  revert i. induction mask as [|b mask IH]; intros i; cbn.
  - split; [tauto|]. intros [_ H]. destruct (k - i); discriminate.
  - destruct b; cbn; rewrite IH; clear IH.
    + split.
      * intros [->|[H1 H2]]; [rewrite Nat.sub_diag; auto|].
        split; [lia|]. replace (k - i) with (S (k - S i)) by lia. exact H2.
      * intros [H1 H2]. destruct (Nat.eq_dec i k); [now left|right].
        split; [lia|]. replace (k - i) with (S (k - S i)) in H2 by lia. exact H2.
    + split.
      * intros [H1 H2]. split; [lia|]. replace (k - i) with (S (k - S i)) by lia. exact H2.
      * intros [H1 H2]. destruct (Nat.eq_dec i k) as [->|Hn].
        { rewrite Nat.sub_diag in H2. discriminate. }
        split; [lia|]. replace (k - i) with (S (k - S i)) in H2 by lia. exact H2.
Qed.

Lemma np_where_spec mask k : In k (np_where mask) <-> nth_error mask k = Some true.
Proof.
  unfold np_where. rewrite where_from_spec, Nat.sub_0_r. split; [tauto|]. split; [lia|assumption].
Qed.

Lemma where_from_sorted mask i : StronglySorted lt (where_from i mask).
Proof.
  revert i. induction mask as [|b mask IH]; intros i; cbn; [constructor|].
  destruct b; [|apply IH]. constructor; [apply IH|].
  apply Forall_forall. intros k Hk. apply where_from_spec in Hk. lia.
Qed.

Lemma np_where_sorted mask : StronglySorted lt (np_where mask).
Proof. apply where_from_sorted. Qed.

Lemma StronglySorted_lt_NoDup l : StronglySorted lt l -> NoDup l.
Proof.
  induction 1 as [|a l H IH Hf]; constructor; [|assumption].
  intros Hin. rewrite Forall_forall in Hf. specialize (Hf _ Hin). lia.
Qed.

Lemma np_where_NoDup mask : NoDup (np_where mask).
Proof. apply StronglySorted_lt_NoDup, np_where_sorted. Qed.

Lemma map_nth_where_from A (l : list A) (p : A -> bool) d pre :
  map (fun i => nth i (pre ++ l) d) (where_from (length pre) (map p l)) = filter p l.
Proof.
  revert pre. induction l as [|a l IH]; intros pre; cbn; [reflexivity|].
  specialize (IH (pre ++ [a])). rewrite app_length in IH. cbn in IH.
  rewrite Nat.add_1_r, <- app_assoc in IH. cbn in IH.
  destruct (p a); cbn; rewrite IH; [|reflexivity].
  f_equal. rewrite app_nth2, Nat.sub_diag; [reflexivity|lia].
Qed.

Lemma map_nth_np_where A (l : list A) (p : A -> bool) d :
  map (fun i => nth i l d) (np_where (map p l)) = filter p l.
Proof. apply (map_nth_where_from l p d []). Qed.

Lemma gather_np_where A (l : list A) (p : A -> bool) :
  gather l (np_where (map p l)) = Ok (filter p l).
Proof.
  destruct l as [|d l]; [reflexivity|].
  rewrite gather_ok with (d := d).
  - now rewrite map_nth_np_where.
  - intros i Hi. apply np_where_spec in Hi.
    assert (nth_error (map p (d :: l)) i <> None) as Hn by congruence.
    apply nth_error_Some in Hn. now rewrite map_length in Hn.
Qed.

(** *** Sorting *)

Lemma insertZ_perm x l : Permutation (insertZ x l) (x :: l).
Proof.
  induction l as [|y l IH]; cbn; [reflexivity|].
  destruct (x <=? y)%Z; [reflexivity|]. rewrite IH. apply perm_swap.
Qed.

Lemma sortZ_perm l : Permutation (sortZ l) l.
Proof.
  induction l as [|x l IH]; [constructor|].
  cbn [sortZ fold_right]. etransitivity; [apply insertZ_perm|]. now constructor.
Qed.

Lemma insertZ_sorted x l : StronglySorted Z.le l -> StronglySorted Z.le (insertZ x l).
Proof.
  induction 1 as [|y l H IH Hf]; cbn.
  - constructor; constructor.
  - destruct (Z.leb_spec x y) as [Hxy|Hxy].
    + constructor; [constructor; assumption|]. constructor; [assumption|].
      eapply Forall_impl; [|exact Hf]. intros; lia.
    + constructor; [assumption|]. rewrite Forall_forall in *. intros z Hz.
      apply (Permutation_in _ (insertZ_perm x l)) in Hz. destruct Hz as [<-|Hz]; [lia|].
      apply Hf in Hz. lia.
Qed.

Lemma sortZ_sorted l : StronglySorted Z.le (sortZ l).
Proof. induction l; cbn; [constructor|]. now apply insertZ_sorted. Qed.

Lemma sorted_perm_eq (l1 l2 : list Z) :
  StronglySorted Z.le l1 -> StronglySorted Z.le l2 -> Permutation l1 l2 -> l1 = l2.
Proof.
  revert l2. induction l1 as [|x l1 IH]; intros l2 H1 H2 HP.
  - apply Permutation_nil in HP. now subst.
  - destruct l2 as [|y l2]; [apply Permutation_sym, Permutation_nil in HP; discriminate|].
    inversion H1 as [|? ? H1s H1f]; subst. inversion H2 as [|? ? H2s H2f]; subst.
    rewrite Forall_forall in H1f, H2f.
    assert (x = y) as ->.
    { assert (In x (y :: l2)) as Hx by (eapply Permutation_in; [exact HP|now left]).
      assert (In y (x :: l1)) as Hy
        by (eapply Permutation_in; [apply Permutation_sym; exact HP|now left]).
      destruct Hx as [?|Hx]; [congruence|]. destruct Hy as [?|Hy]; [congruence|].
      apply H2f in Hx. apply H1f in Hy. lia. }
    f_equal. apply IH; try assumption. eapply Permutation_cons_inv; eassumption.
Qed.

Lemma dedup_In l x : In x (dedup l) <-> In x l.
Proof.
  induction l as [|a l IH]; [reflexivity|].
  destruct l as [|b l]; [reflexivity|].
  change (dedup (a :: b :: l)) with (if (a =? b)%Z then dedup (b :: l) else a :: dedup (b :: l)).
  destruct (Z.eqb_spec a b) as [->|Hab].
  - rewrite IH. cbn. tauto.
  - cbn [In]. rewrite IH. reflexivity.
Qed.

Lemma dedup_sorted l : StronglySorted Z.le l -> StronglySorted Z.lt (dedup l).
Proof.
  induction l as [|a l IH]; intros H; [constructor|].
  inversion H as [|? ? Hs Hf]; subst.
  destruct l as [|b l]; [constructor; constructor|].
  change (dedup (a :: b :: l)) with (if (a =? b)%Z then dedup (b :: l) else a :: dedup (b :: l)).
  destruct (Z.eqb_spec a b) as [->|Hab]; [auto|].
  constructor; [auto|]. rewrite Forall_forall in *. intros x Hx.
  apply (proj1 (dedup_In (b :: l) x)) in Hx.
  inversion Hs as [|? ? Hs' Hf']; subst. rewrite Forall_forall in Hf'.
  assert (a <= b)%Z by (apply Hf; now left).
  destruct Hx as [<-|Hx]; [lia|]. apply Hf' in Hx. lia.
Qed.

Lemma np_unique_In l x : In x (np_unique l) <-> In x l.
Proof.
  unfold np_unique. rewrite dedup_In. split; apply Permutation_in;
    [|apply Permutation_sym]; apply sortZ_perm.
Qed.

Lemma np_unique_sorted l : StronglySorted Z.lt (np_unique l).
Proof. apply dedup_sorted, sortZ_sorted. Qed.

Lemma StronglySorted_Zlt_NoDup l : StronglySorted Z.lt l -> NoDup l.
Proof.
  induction 1 as [|a l H IH Hf]; constructor; [|assumption].
  intros Hin. rewrite Forall_forall in Hf. specialize (Hf _ Hin). lia.
Qed.

Lemma np_unique_NoDup l : NoDup (np_unique l).
Proof. apply StronglySorted_Zlt_NoDup, np_unique_sorted. Qed.

Lemma ssorted_lt_ext (l1 l2 : list Z) :
  StronglySorted Z.lt l1 -> StronglySorted Z.lt l2 ->
  (forall x, In x l1 <-> In x l2) -> l1 = l2.
Proof.
  revert l2. induction l1 as [|x l1 IH]; intros l2 H1 H2 HI.
  - destruct l2 as [|y l2]; [reflexivity|]. exfalso. apply (proj2 (HI y)). now left.
  - destruct l2 as [|y l2]; [exfalso; apply (proj1 (HI x)); now left|].
    inversion H1 as [|? ? H1s H1f]; subst. inversion H2 as [|? ? H2s H2f]; subst.
    rewrite Forall_forall in H1f, H2f.
    assert (x = y) as ->.
    { destruct (proj1 (HI x)) as [?|Hx]; [now left|congruence|].
      destruct (proj2 (HI y)) as [?|Hy]; [now left|congruence|].
      apply H2f in Hx. apply H1f in Hy. lia. }
    f_equal. apply IH; try assumption. intros z. split; intros Hz.
    + destruct (proj1 (HI z)) as [?|?]; [now right| |assumption].
      subst. apply H1f in Hz. lia.
    + destruct (proj2 (HI z)) as [?|?]; [now right| |assumption].
      subst. apply H2f in Hz. lia.
Qed.

Lemma searchsorted_found l v :
  StronglySorted Z.lt l -> In v l ->
  searchsorted l v < length l /\ nth_error l (searchsorted l v) = Some v.
Proof.
  induction 1 as [|x l H IH Hf]; [intros []|]. intros Hin. cbn.
  rewrite Forall_forall in Hf.
  destruct (Z.ltb_spec x v) as [Hx|Hx].
  - destruct Hin as [->|Hin]; [lia|]. destruct (IH Hin) as [IH1 IH2]. split; [lia|assumption].
  - destruct Hin as [->|Hin]; [split; [lia|reflexivity]|]. apply Hf in Hin. lia.
Qed.

Lemma searchsorted_nth l i d :
  StronglySorted Z.lt l -> i < length l -> searchsorted l (nth i l d) = i.
Proof.
  intros H. revert i. induction H as [|x l H IH Hf]; intros i Hi; cbn in Hi; [lia|].
  rewrite Forall_forall in Hf. destruct i as [|i]; cbn.
  - now rewrite Z.ltb_irrefl.
  - assert (x < nth i l d)%Z by (apply Hf, nth_In; lia).
    destruct (Z.ltb_spec x (nth i l d)); [|lia]. f_equal. apply IH. lia.
Qed.

Lemma bisect_right_le l v : bisect_right l v <= length l.
Proof. induction l as [|x l IH]; cbn; [lia|]. destruct (x <=? v)%Z; lia. Qed.

Lemma bisect_right_firstn l v : Forall (fun x => x <= v)%Z (firstn (bisect_right l v) l).
Proof.
  induction l as [|x l IH]; cbn; [constructor|].
  destruct (Z.leb_spec x v); cbn; [|constructor]. constructor; assumption.
Qed.

Lemma bisect_right_skipn l v :
  StronglySorted Z.le l -> Forall (fun x => v < x)%Z (skipn (bisect_right l v) l).
Proof.
  induction 1 as [|x l H IH Hf]; cbn; [constructor|].
  destruct (Z.leb_spec x v) as [Hx|Hx]; cbn; [assumption|].
  constructor; [assumption|]. eapply Forall_impl; [|exact Hf]. intros; lia.
Qed.

Lemma insert_pos_perm l i idx : Permutation (insert_pos l i idx) (i :: idx).
Proof.
  induction idx as [|j idx IH]; cbn; [reflexivity|].
  destruct (_ <=? _)%Z; [reflexivity|]. rewrite IH. apply perm_swap.
Qed.

Lemma insert_pos_map l i idx :
  map (fun i => nth i l 0%Z) (insert_pos l i idx)
  = insertZ (nth i l 0%Z) (map (fun i => nth i l 0%Z) idx).
Proof.
  induction idx as [|j idx IH]; cbn; [reflexivity|].
  destruct (_ <=? _)%Z; [reflexivity|]. cbn. now rewrite IH.
Qed.

Lemma argsort_ins_spec : argsort_spec argsort_ins.
Proof.
  intros l. unfold argsort_ins. generalize (seq 0 (length l)) as idx.
  intros idx. split.
  - induction idx as [|i idx IH]; cbn [fold_right]; [constructor|].
    etransitivity; [apply insert_pos_perm|]. now constructor.
  - induction idx as [|i idx IH]; cbn [fold_right map]; [constructor|]. rewrite insert_pos_map.
    now apply insertZ_sorted.
Qed.

(** *** Fixed-width integers *)

Lemma bits_pos t : (0 < bits t)%Z.
Proof. destruct t; cbn; lia. Qed.

Lemma cast_id t v : (tmin t <= v <= tmax t)%Z -> cast t v = v.
Proof.
  unfold cast, tmin, tmax. intros H.
  destruct t; cbn [signed bits] in *; cbn in *;
    try (rewrite Z.mod_small by lia; lia).
Qed.

Lemma cast_range t v : (tmin t <= cast t v <= tmax t)%Z.
Proof.
  unfold cast, tmin, tmax.
  destruct t; cbn [signed bits]; cbn - [Z.modulo];
    match goal with |- context [(?a mod ?b)%Z] => pose proof (Z.mod_pos_bound a b ltac:(lia)) end;
    lia.
Qed.

(** *** Permutations and counting *)

Lemma Permutation_filter A (p : A -> bool) l l' :
  Permutation l l' -> Permutation (filter p l) (filter p l').
Proof.
  induction 1; cbn.
  - reflexivity.
  - destruct (p x); [constructor|]; assumption.
  - destruct (p x), (p y); try reflexivity. apply perm_swap.
  - etransitivity; eassumption.
Qed.

Lemma NoDup_map_inj A B (f : A -> B) l :
  (forall x y, In x l -> In y l -> f x = f y -> x = y) -> NoDup l -> NoDup (map f l).
Proof.
  intros Hinj Hnd. induction Hnd as [|a l Ha Hnd IH]; cbn; constructor.
  - intros Hin. apply in_map_iff in Hin as (y & Hy & Hy').
    assert (y = a) by (apply Hinj; [now right|now left|assumption]). subst. contradiction.
  - apply IH. intros x y Hx Hy. apply Hinj; now right.
Qed.

Lemma NoDup_app_intro A (l1 l2 : list A) :
  NoDup l1 -> NoDup l2 -> (forall x, In x l1 -> In x l2 -> False) -> NoDup (l1 ++ l2).
Proof.
  induction 1 as [|a l1 Ha H IH]; cbn; intros H2 Hd; [assumption|].
  constructor.
  - rewrite in_app_iff. intros [Hin|Hin]; [contradiction|]. eapply Hd; [now left|eassumption].
  - apply IH; [assumption|]. intros x Hx. apply Hd. now right.
Qed.

Lemma NoDup_concat A (ls : list (list A)) :
  (forall l, In l ls -> NoDup l) ->
  (forall i j x, i < j -> j < length ls -> In x (nth i ls []) -> In x (nth j ls []) -> False) ->
  NoDup (concat ls).
Proof.
  induction ls as [|l ls IH]; cbn; intros Hnd Hd; [constructor|].
  apply NoDup_app_intro.
  - apply Hnd. now left.
  - apply IH; [intros; apply Hnd; now right|].
    intros i j x Hij Hj. apply (Hd (S i) (S j) x); lia.
  - intros x Hx Hx'. apply in_concat in Hx' as (l' & Hl' & Hx').
    apply (In_nth _ _ []) in Hl' as (j & Hj & <-).
    apply (Hd 0 (S j) x); [lia|lia|assumption|assumption].
Qed.

Lemma sumn_app l1 l2 : sumn (l1 ++ l2) = sumn l1 + sumn l2.
Proof. unfold sumn. induction l1 as [|a l1 IH]; cbn; [reflexivity|]. rewrite IH. lia. Qed.

Lemma length_concat A (ls : list (list A)) : length (concat ls) = sumn (map (@length A) ls).
Proof. induction ls; cbn; [reflexivity|]. rewrite app_length, IHls. reflexivity. Qed.

Lemma length_flat_map A B (f : A -> list B) l :
  length (flat_map f l) = sumn (map (fun a => length (f a)) l).
Proof. rewrite flat_map_concat_map, length_concat, map_map. reflexivity. Qed.

Lemma filter_all A (p : A -> bool) l : (forall x, In x l -> p x = true) -> filter p l = l.
Proof.
  induction l as [|a l IH]; cbn; intros H; [reflexivity|].
  rewrite H by now left. f_equal. apply IH. intros; apply H; now right.
Qed.

Lemma filter_none A (p : A -> bool) l : (forall x, In x l -> p x = false) -> filter p l = [].
Proof.
  induction l as [|a l IH]; cbn; intros H; [reflexivity|].
  rewrite H by now left. apply IH. intros; apply H; now right.
Qed.

Lemma filter_filter A (p q : A -> bool) l :
  filter q (filter p l) = filter (fun x => p x && q x) l.
Proof.
  induction l as [|a l IH]; cbn; [reflexivity|].
  destruct (p a); cbn; [destruct (q a)|]; now rewrite IH.
Qed.

Lemma filter_length_split A (p : A -> bool) l :
  length (filter p l) + length (filter (fun x => negb (p x)) l) = length l.
Proof. induction l as [|a l IH]; cbn; [reflexivity|]. destruct (p a); cbn; lia. Qed.

Lemma NoDup_filter' A (p : A -> bool) l : NoDup l -> NoDup (filter p l).
Proof.
  induction 1 as [|a l Ha H IH]; cbn; [constructor|].
  destruct (p a); [|assumption]. constructor; [|assumption].
  intros Hin. apply filter_In in Hin. tauto.
Qed.

(** *** Rounding *)

Lemma round_div_exact a b : (0 < b)%Z -> (a mod b = 0)%Z -> round_div a b = (a / b)%Z.
Proof.
  intros Hb H. unfold round_div. rewrite H. destruct (Z.ltb_spec (2 * 0) b); [reflexivity|lia].
Qed.

Lemma round_div_bounds a b :
  (0 < b)%Z -> (2 * a - b <= 2 * b * round_div a b <= 2 * a + b)%Z.
Proof.
  intros Hb. unfold round_div.
  pose proof (Z.div_mod a b ltac:(lia)) as Hd. pose proof (Z.mod_pos_bound a b Hb) as Hm.
  set (q := (a / b)%Z) in *. set (r := (a mod b)%Z) in *. clearbody q r.
  destruct (Z.ltb_spec (2 * r) b); [nia|].
  destruct (Z.ltb_spec b (2 * r)); [nia|].
  destruct (Z.even q); nia.
Qed.

Lemma ceil_div_bounds a b : (0 < b)%Z -> (a <= b * ceil_div a b < a + b)%Z.
Proof.
  intros Hb. unfold ceil_div.
  pose proof (Z.div_mod (- a) b ltac:(lia)). pose proof (Z.mod_pos_bound (- a) b Hb). nia.
Qed.
