(** The keys of lookup tables. *)
From Coq Require Import String.
From Coq Require Import List ZArith Lia.
From Verif Require Import Prelude ListFacts TypeFitting Distances H5io H5io_keys LookupTable LookupTable_spec.
Import ListNotations.
Local Open Scope Z_scope.
Local Open Scope list_scope.

Lemma lookup_In A (d : list (string * A)) k a : NoDup (map fst d) -> In (k, a) d -> lookup d k = Ok a.
Proof.
  induction d as [|[k' a'] d IH]; [intros _ []|]. cbn [map fst lookup]. intros N [E|I].
  - injection E as -> ->. rewrite String.eqb_refl. reflexivity.
  - inversion N as [|? ? Hn Nd]; subst. destruct (String.eqb_spec k' k) as [->|Hk].
    + exfalso. apply Hn. change k with (fst (k, a)). apply in_map, I.
    + apply IH; assumption.
Qed.

Lemma index_of_shift V veq (e : V) l i : index_of veq e l i =
  match index_of veq e l 0 with Ok j => Ok (i + j) | Err x => Err x end.
Proof.
  revert i. induction l as [|x l IH]; intros i; [reflexivity|]. cbn [index_of]. destruct (veq e x); [f_equal; lia|].
  rewrite (IH (i + 1)), (IH (0 + 1)). destruct (index_of veq e l 0); [f_equal; lia|reflexivity].
Qed.

Lemma index_of_in V veq (e : V) l : In e l -> exists n, index_of veq e l 0 = Ok (Z.of_nat n) /\ nth_error l n = Some e.
Proof.
  induction l as [|x l IH]; [intros []|]. cbn [index_of]. intros H. destruct (veq e x) as [->|Hx].
  - exists 0%nat. split; reflexivity.
  - destruct H as [->|H]; [congruence|]. destruct (IH H) as (n & E & N). exists (S n). rewrite index_of_shift, E. split; [f_equal; lia|exact N].
Qed.

Lemma index_of_out V veq (e : V) l i : ~ In e l -> index_of veq e l i = Err ValueError.
Proof.
  revert i. induction l as [|x l IH]; intros i H; [reflexivity|]. cbn [index_of]. destruct (veq e x) as [->|Hx]; [exfalso; apply H; now left|].
  apply IH. intros I. apply H. now right.
Qed.

Lemma wts_cast ns : forall a, wts a (map (cast U64) ns) = wts a ns.
Proof.
  induction ns as [|n ns IH]; intros a; [reflexivity|]. cbn [map wts]. rewrite IH. f_equal. f_equal.
  unfold cast. cbn [signed]. apply Zmult_mod_idemp_r.
Qed.

Lemma mapM_ext A B (f g : A -> res B) l : (forall a, In a l -> f a = g a) -> mapM f l = mapM g l.
Proof.
  induction l as [|a l IH]; intros H; [reflexivity|]. cbn [mapM]. rewrite (H a) by now left. rewrite IH; [reflexivity|].
  intros; apply H; now right.
Qed.

Lemma mapM_map A B C (f : B -> res C) (g : A -> B) l : mapM f (map g l) = mapM (fun a => f (g a)) l.
Proof. induction l as [|a l IH]; [reflexivity|]. cbn [map mapM]. now rewrite IH. Qed.

Lemma mapM_fails A B (f : A -> res B) e l : (forall a, In a l -> (exists b, f a = Ok b) \/ f a = Err e) ->
  (exists a, In a l /\ f a = Err e) -> mapM f l = Err e.
Proof.
  intros H (a & I & E). induction l as [|x l IH]; [destruct I|]. cbn [mapM].
  destruct (H x (or_introl eq_refl)) as [[b Hb]|Hb]; rewrite Hb; [|reflexivity]. cbn [bind].
  destruct I as [->|I]; [congruence|]. rewrite IH; [reflexivity| |exact I]. intros; apply H; now right.
Qed.

Lemma column_nth A i (qs : list (list A)) col d : column i qs col -> col = map (fun q => nth i q d) qs.
Proof.
  unfold column. revert col. induction qs as [|q qs IH]; intros [|c col] H; try discriminate; [reflexivity|].
  cbn in H |- *. injection H as H1 H2. rewrite (IH col H2). f_equal. symmetry. apply nth_error_nth, H1.
Qed.

Lemma column_map A i (qs : list (list A)) d : Forall (fun q => (i < length q)%nat) qs -> column i qs (map (fun q => nth i q d) qs).
Proof.
  intros F. unfold column. rewrite map_map. apply map_ext_in. intros q Hq. apply nth_error_nth'. exact (proj1 (Forall_forall _ _) F q Hq).
Qed.

Lemma Forall2_len A B (P : A -> B -> Prop) l m : Forall2 P l m -> length l = length m.
Proof. induction 1; cbn; congruence. Qed.

Section Keys.
Variables V C : Type.
Variable veq : forall x y : V, {x = y} + {x <> y}.
Variable t : table V C.
Hypothesis Htypes : length (t_in_names t) = length (t_in_types t).
Hypothesis Hinputs : t_in_types t <> [].
Hypothesis Hindexes : NoDup (map fst (t_indexes t)).
Hypothesis Hlabels : forall s ix, In (s, ix) (t_indexes t) -> NoDup ix.
Hypothesis Hknown : forall s, In s (t_in_types t) -> exists ix, In (s, ix) (t_indexes t) /\ Z.of_nat (length ix) < 2 ^ 64.
Hypothesis Hlevels : Forall2 (fun s n => forall ix, In (s, ix) (t_indexes t) -> n = Z.of_nat (length ix)) (t_in_types t) (t_levels t).
Hypothesis Hprod : prodZ (t_levels t) <= 2 ^ 64.

(** The position of a label. *)
Definition digit (ty : string) (l : V) : Z :=
  match lookup (t_indexes t) ty with
  | Ok ix => match index_of veq l ix 0 with Ok i => i | Err _ => 0 end
  | Err _ => 0
  end.
Definition digits (q : list V) : list Z := map (fun p => digit (fst p) (snd p)) (combine (t_in_types t) q).
Definition key (q : list V) : Z := lval (t_levels t) (digits q).

Definition column_digits (col : list V) (ty : string) : res (list Z) :=
  ix <- lookup (t_indexes t) ty ;; mapM (fun e => index_of veq e ix 0) col.

Lemma digit_ok ty ix l : In (ty, ix) (t_indexes t) -> In l ix ->
  index_of veq l ix 0 = Ok (digit ty l) /\ 0 <= digit ty l < Z.of_nat (length ix) /\ nth_error ix (Z.to_nat (digit ty l)) = Some l.
Proof using Hindexes.
  clear Htypes Hinputs Hlabels Hknown Hlevels Hprod.
  intros I L. unfold digit. rewrite (lookup_In _ _ _ _ Hindexes I). destruct (index_of_in V veq l ix L) as (n & E & N). rewrite E.
  split; [reflexivity|]. rewrite Nat2Z.id. split; [|exact N]. pose proof (proj1 (nth_error_Some ix n)). assert (n < length ix)%nat by (apply H; congruence). lia.
Qed.

Lemma digits_under q : length q = length (t_in_types t) -> known t q -> Forall2 under (t_levels t) (digits q).
Proof.
  intros L K. unfold digits, known in *. revert q L K. induction Hlevels as [|ty n tys ns Hn F IH] in Hknown |- *; intros q L K.
  - constructor.
  - destruct q as [|l q]; [discriminate|]. cbn [combine map]. destruct (Hknown ty) as (ix & I & _); [now left|]. constructor.
    + unfold under. cbn [fst snd]. rewrite (Hn _ I). apply (digit_ok ty ix l I). apply (K 0%nat ty ix l); [reflexivity|exact I|reflexivity].
    + apply IH; [|cbn in L; lia|].
      * intros s Hs. apply Hknown. now right.
      * intros i ty' ix' l' A B D. apply (K (S i) ty' ix' l'); assumption.
Qed.

Lemma key_inj q q' : length q = length (t_in_types t) -> known t q -> length q' = length (t_in_types t) -> known t q' ->
  key q = key q' -> q = q'.
Proof.
  intros L K L' K' E. apply lval_inj in E; [|apply digits_under; assumption|apply digits_under; assumption].
  unfold digits, known in *. revert q q' L K L' K' E. induction (t_in_types t) as [|ty tys IH] in Hknown |- *; intros q q' L K L' K' E.
  - destruct q; [|discriminate]. destruct q'; [reflexivity|discriminate].
  - destruct q as [|l q]; [discriminate|]. destruct q' as [|l' q']; [discriminate|]. cbn [combine map fst snd] in E. injection E as E1 E2.
    destruct (Hknown ty) as (ix & I & _); [now left|]. f_equal.
    + destruct (digit_ok ty ix l I) as (_ & _ & N); [apply (K 0%nat ty ix l); auto|].
      destruct (digit_ok ty ix l' I) as (_ & _ & N'); [apply (K' 0%nat ty ix l'); auto|]. congruence.
    + apply IH; try (cbn in L, L'; lia); try assumption.
      * intros s Hs. apply Hknown. now right.
      * intros i ty' ix' m A B D. apply (K (S i) ty' ix' m); assumption.
      * intros i ty' ix' m A B D. apply (K' (S i) ty' ix' m); assumption.
Qed.

Lemma row_key q : length q = length (t_in_types t) -> known t q ->
  compute_keys (key_weights t) [digits q] = [key q].
Proof.
  intros L K. unfold compute_keys. cbn [map]. f_equal. pose proof (digits_under q L K) as F.
  assert (Hne : t_levels t <> []).
  { intros E. apply Hinputs. pose proof (Forall2_len _ _ _ _ _ Hlevels) as Z. rewrite E in Z. destruct (t_in_types t); [reflexivity|discriminate]. }
  unfold key_weights. rewrite wts_cumprod by exact Hne. change (sumZ (map (fun p => cast U64 (fst p * cast U64 (snd p))) (combine (wts 1 (t_levels t)) (digits q))))
    with (dot (wts 1 (t_levels t)) (digits q)). rewrite <- wts_cast. rewrite (dot_wts U64 (t_levels t) (digits q) eq_refl F 1) by (try change (tmax U64 + 1) with (2 ^ 64); lia).
  pose proof (lval_bound _ _ F). rewrite Z.mul_1_l. apply cast64. unfold key. lia.
Qed.

Lemma compute_keys_map (q : list (list V)) : Forall (fun q => length q = length (t_in_types t) /\ known t q) q ->
  compute_keys (key_weights t) (map digits q) = map key q.
Proof.
  induction 1 as [|x l [A B] F IH]; [reflexivity|]. cbn [map]. rewrite <- IH.
  pose proof (row_key x A B) as R. unfold compute_keys in *. cbn [map] in *. f_equal. exact (f_equal (fun l => hd 0 l) R).
Qed.

Lemma column_digits_ok ty i (qs : list (list V)) col : nth_error (t_in_types t) i = Some ty ->
  Forall (fun q => length q = length (t_in_types t) /\ known t q) qs -> column i qs col ->
  column_digits col ty = Ok (map (fun q => nth i (digits q) 0) qs).
Proof.
  intros Hi F Hc. destruct (Hknown ty) as (ix & I & _); [eapply nth_error_In; eauto|].
  unfold column_digits. rewrite (lookup_In _ _ _ _ Hindexes I). cbn [bind]. unfold column in Hc.
  revert col Hc. induction F as [|q qs [L K] F IH]; intros [|c col] Hc; try discriminate; [reflexivity|].
  cbn [map] in Hc. injection Hc as E Hc. cbn [mapM map]. destruct (digit_ok ty ix c I) as (D & _ & _); [apply (K i ty ix c); assumption|].
  rewrite D. cbn [bind]. rewrite (IH _ Hc). cbn [bind]. do 2 f_equal. symmetry. apply nth_error_nth. unfold digits.
  rewrite nth_error_map. assert (X : nth_error (combine (t_in_types t) q) i = Some (ty, c)).
  { clear - Hi E L. revert q i Hi E L. induction (t_in_types t) as [|a l IH]; intros [|b q] i Hi E L; try (destruct i; discriminate).
    destruct i as [|i]; cbn in *; [congruence|]. apply IH; [assumption|assumption|lia]. }
  rewrite X. reflexivity.
Qed.

Lemma mapM_columns (f : nat * string -> res (list Z)) (g : nat -> list Z) tys k :
  (forall i ty, nth_error tys i = Some ty -> f ((k + i)%nat, ty) = Ok (g (k + i)%nat)) ->
  mapM f (combine (seq k (length tys)) tys) = Ok (map g (seq k (length tys))).
Proof.
  revert k. induction tys as [|ty tys IH]; intros k H; [reflexivity|]. cbn [length seq combine mapM map].
  pose proof (H 0%nat ty eq_refl) as H0. rewrite Nat.add_0_r in H0. rewrite H0. cbn [bind]. rewrite IH; [reflexivity|].
  intros i ty' E. specialize (H (S i) ty' E). rewrite Nat.add_succ_r in H. exact H.
Qed.

(** The names of the inputs play no part but to find the columns. *)
Lemma combine_names (f : string * string -> res (list Z)) (g : nat -> list Z) :
  (forall i name ty, nth_error (t_in_names t) i = Some name -> nth_error (t_in_types t) i = Some ty -> f (name, ty) = Ok (g i)) ->
  mapM f (combine (t_in_names t) (t_in_types t)) = Ok (map g (seq 0 (length (t_in_types t)))).
Proof.
  intros H. assert (G : forall names tys k, length names = length tys ->
     (forall i name ty, nth_error names i = Some name -> nth_error tys i = Some ty -> f (name, ty) = Ok (g (k + i)%nat)) ->
     mapM f (combine names tys) = Ok (map g (seq k (length tys)))).
  { intros names. induction names as [|n names IH]; intros [|ty tys] k L Hf; try discriminate; [reflexivity|].
    cbn [combine mapM length seq map]. rewrite (Hf 0%nat n ty eq_refl eq_refl). cbn [bind]. rewrite Nat.add_0_r.
    rewrite (IH tys (S k)); [reflexivity|cbn in L; lia|]. intros i name ty' A B. specialize (Hf (S i) name ty' A B).
    rewrite Nat.add_succ_r in Hf. exact Hf. }
  apply (G _ _ 0%nat Htypes). intros i name ty A B. apply H; assumption.
Qed.

Lemma transpose_digits (qs : list (list V)) : Forall (fun q => length q = length (t_in_types t)) qs ->
  map (fun j => map (fun c' => nth j c' 0) (map (fun i => map (fun q => nth i (digits q) 0) qs) (seq 0 (length (t_in_types t))))) (seq 0 (length qs))
  = map digits qs.
Proof.
  intros F. rewrite <- (@map_nth_seq_map _ _ qs digits []). apply map_ext_in. intros j Hj. apply in_seq in Hj. cbn in Hj. rewrite map_map.
  assert (Lq : length (nth j qs []) = length (t_in_types t)) by (apply (proj1 (Forall_forall _ _) F), nth_In; lia).
  transitivity (map (fun i => nth i (digits (nth j qs [])) 0) (seq 0 (length (t_in_types t)))).
  - apply map_ext_in. intros i Hi. rewrite (nth_indep _ 0 ((fun q => nth i (digits q) 0) [])) by (rewrite map_length; lia).
    rewrite (map_nth (fun q => nth i (digits q) 0)). reflexivity.
  - assert (Ld : length (digits (nth j qs [])) = length (t_in_types t)) by (unfold digits; rewrite map_length, combine_length; lia).
    rewrite <- Ld. apply map_nth_seq.
Qed.

Lemma same_length_cols (cols : list (list Z)) n (w : list Z) : cols <> [] -> Forall (fun c => length c = n) cols ->
  match cols with
  | [] => Err ValueError
  | c :: _ =>
    if forallb (fun c' => (length c' =? length c)%nat) cols
    then Ok (compute_keys w (map (fun j => map (fun c' => nth j c' 0) cols) (seq 0 (length c))))
    else Err ValueError
  end = Ok (compute_keys w (map (fun j => map (fun c' => nth j c' 0) cols) (seq 0 n))).
Proof.
  intros Hne F. destruct cols as [|c cols]; [congruence|].
  assert (A : forallb (fun c' => (length c' =? length c)%nat) (c :: cols) = true).
  { apply forallb_forall. intros c' I. pose proof (proj1 (Forall_forall _ _) F) as G. rewrite (G c' I), (G c (or_introl eq_refl)). apply Nat.eqb_refl. }
  rewrite A. inversion F; subst. reflexivity.
Qed.

Definition wk (q : list V) : Prop := length q = length (t_in_types t) /\ known t q.

Lemma get_keys_ok ins qs : holds_inputs t ins qs -> Forall wk qs -> get_keys veq t ins = Ok (map key qs).
Proof.
  intros [Hl Hi] F. unfold get_keys.
  assert (E : (match ins with
           | InNames d =>
             mapM (fun nt : string * string =>
                     col <- lookup d (fst nt) ;;
                     ix <- lookup (t_indexes t) (snd nt) ;;
                     mapM (fun e => index_of veq e ix 0) col) (combine (t_in_names t) (t_in_types t))
           | InCols l =>
             mapM (fun it : nat * string =>
                     col <- nth_res l (fst it) ;;
                     ix <- lookup (t_indexes t) (snd it) ;;
                     mapM (fun e => index_of veq e ix 0) col) (combine (seq 0 (length (t_in_types t))) (t_in_types t))
           end) = Ok (map (fun i => map (fun q => nth i (digits q) 0) qs) (seq 0 (length (t_in_types t))))).
  { destruct ins as [d|l].
    - destruct Hi as [Nd Hi]. apply combine_names. intros i name ty A B. cbn [fst snd].
      destruct (Hi i name A) as (col & I & Cc). rewrite (lookup_In _ _ _ _ Nd I). cbn [bind].
      exact (column_digits_ok ty i qs col B F Cc).
    - apply mapM_columns. intros i ty B. cbn [fst snd plus]. assert (Li : (i < length (t_in_types t))%nat) by (apply nth_error_Some; congruence).
      destruct (Hi i Li) as (col & I & Cc). rewrite (proj2 (@nth_res_ok _ _ _ _) I). cbn [bind].
      exact (column_digits_ok ty i qs col B F Cc). }
  rewrite E. cbn [bind]. rewrite (same_length_cols _ (length qs)).
  - rewrite transpose_digits by exact Hl. f_equal. apply compute_keys_map. exact F.
  - intros Z. apply Hinputs. destruct (t_in_types t); [reflexivity|discriminate].
  - apply Forall_forall. intros c' I. apply in_map_iff in I. destruct I as (i & <- & _). apply map_length.
Qed.

(** A label that does not belong to the index of its input. *)
Lemma column_unknown ty i (qs : list (list V)) col : nth_error (t_in_types t) i = Some ty -> Forall (fun q => length q = length (t_in_types t)) qs ->
  column i qs col ->
  (exists ds, column_digits col ty = Ok ds) /\ (forall ix l q, In (ty, ix) (t_indexes t) -> In q qs -> nth_error q i = Some l -> In l ix)
  \/ column_digits col ty = Err ValueError.
Proof.
  intros Hi F Hc. destruct (Hknown ty) as (ix & I & _); [eapply nth_error_In; eauto|].
  unfold column_digits. rewrite (lookup_In _ _ _ _ Hindexes I). cbn [bind].
  assert (U : forall ix', In (ty, ix') (t_indexes t) -> ix' = ix).
  { intros ix' I'. pose proof (lookup_In _ _ _ _ Hindexes I) as A. pose proof (lookup_In _ _ _ _ Hindexes I') as B. congruence. }
  clear F. unfold column in Hc. revert col Hc. induction qs as [|q qs IH]; intros [|c col] Hc; try discriminate.
  - left. split; [exists []; reflexivity|]. intros ? ? ? ? [].
  - cbn [map] in Hc. injection Hc as E Hc. cbn [mapM]. destruct (in_dec veq c ix) as [Hin|Hout].
    + destruct (digit_ok ty ix c I Hin) as (D & _ & _). rewrite D. cbn [bind].
      destruct (IH _ Hc) as [[[ds Hds] Hk]|Hds]; rewrite Hds; [left|right; reflexivity]. split; [eexists; reflexivity|].
      intros ix' l q' I' [<-|Hq] Hl; [|eapply Hk; eauto]. rewrite (U _ I'). congruence.
    + right. rewrite index_of_out by exact Hout. reflexivity.
Qed.

Lemma in_combine_nth A B (l : list A) (m : list B) a b : In (a, b) (combine l m) -> exists i, nth_error l i = Some a /\ nth_error m i = Some b.
Proof.
  revert m. induction l as [|x l IH]; intros [|y m] H; try (destruct H). 
  - injection H as -> ->. exists 0%nat. split; reflexivity.
  - destruct (IH m H) as (i & P & Q). exists (S i). split; assumption.
Qed.

Lemma nth_in_combine A B (l : list A) (m : list B) i a b : nth_error l i = Some a -> nth_error m i = Some b -> In (a, b) (combine l m).
Proof.
  revert m i. induction l as [|x l IH]; intros [|y m] [|i] P Q; try discriminate; cbn in *.
  - left. congruence.
  - right. eapply IH; eauto.
Qed.

Lemma not_known q : length q = length (t_in_types t) -> ~ known t q ->
  exists i ty ix l, nth_error (t_in_types t) i = Some ty /\ In (ty, ix) (t_indexes t) /\ nth_error q i = Some l /\ ~ In l ix.
Proof.
  intros L K.
  assert (D : forall k, (forall i ty ix l, (i < k)%nat -> nth_error (t_in_types t) i = Some ty -> In (ty, ix) (t_indexes t) -> nth_error q i = Some l -> In l ix)
              \/ exists i ty ix l, nth_error (t_in_types t) i = Some ty /\ In (ty, ix) (t_indexes t) /\ nth_error q i = Some l /\ ~ In l ix).
  { induction k as [|k [IH|IH]]; [left; intros; lia| |right; exact IH].
    destruct (nth_error (t_in_types t) k) as [ty|] eqn:E1; [destruct (nth_error q k) as [l|] eqn:E2|].
    - destruct (Hknown ty) as (ix & I & _); [eapply nth_error_In; eauto|]. destruct (in_dec veq l ix) as [Y|N].
      + left. intros i ty' ix' l' Hlt A B Q. destruct (Nat.eq_dec i k) as [->|Hne]; [|eapply IH; eauto; lia].
        assert (ty' = ty) as -> by congruence. assert (l' = l) as -> by congruence.
        pose proof (lookup_In _ _ _ _ Hindexes I) as U1. pose proof (lookup_In _ _ _ _ Hindexes B) as U2. congruence.
      + right. exists k, ty, ix, l. auto.
    - left. intros i ty' ix' l' Hlt A B Q. destruct (Nat.eq_dec i k) as [->|Hne]; [congruence|]. eapply IH; eauto; lia.
    - left. intros i ty' ix' l' Hlt A B Q. destruct (Nat.eq_dec i k) as [->|Hne]; [congruence|]. eapply IH; eauto; lia. }
  destruct (D (length q)) as [A|A]; [|exact A]. exfalso. apply K. intros i ty ix l A1 A2 A3. eapply A; eauto. apply nth_error_Some. congruence.
Qed.

Lemma get_keys_unknown ins qs q : holds_inputs t ins qs -> In q qs -> ~ known t q -> get_keys veq t ins = Err ValueError.
Proof.
  intros [Hl Hi] Hq K. unfold get_keys.
  destruct (not_known q) as (k & ty & ix & lab & K1 & K2 & K3 & K4); [exact (proj1 (Forall_forall _ _) Hl q Hq)|exact K|].
  assert (E : (match ins with
           | InNames d =>
             mapM (fun nt : string * string =>
                     col <- lookup d (fst nt) ;;
                     ix <- lookup (t_indexes t) (snd nt) ;;
                     mapM (fun e => index_of veq e ix 0) col) (combine (t_in_names t) (t_in_types t))
           | InCols l =>
             mapM (fun it : nat * string =>
                     col <- nth_res l (fst it) ;;
                     ix <- lookup (t_indexes t) (snd it) ;;
                     mapM (fun e => index_of veq e ix 0) col) (combine (seq 0 (length (t_in_types t))) (t_in_types t))
           end) = Err ValueError).
  { destruct ins as [d|l].
    - destruct Hi as [Nd Hi]. apply mapM_fails.
      + intros [name ty'] I. destruct (in_combine_nth _ _ _ _ _ _ I) as (i & A & B). cbn [fst snd].
        destruct (Hi i name A) as (col & I' & Cc). rewrite (lookup_In _ _ _ _ Nd I'). cbn [bind].
        destruct (column_unknown ty' i qs col B Hl Cc) as [[Y _]|N]; [left; exact Y|right; exact N].
      + destruct (nth_error (t_in_names t) k) as [name|] eqn:A.
        2:{ exfalso. apply nth_error_None in A. assert (k < length (t_in_types t))%nat by (apply nth_error_Some; congruence). lia. }
        exists (name, ty). split; [eapply nth_in_combine; eauto|]. cbn [fst snd].
        destruct (Hi k name A) as (col & I' & Cc). rewrite (lookup_In _ _ _ _ Nd I'). cbn [bind].
        destruct (column_unknown ty k qs col K1 Hl Cc) as [[_ Y]|N]; [exfalso; apply K4; eapply Y; eauto|exact N].
    - apply mapM_fails.
      + intros [i' ty'] I. destruct (in_combine_nth _ _ _ _ _ _ I) as (i & A & B). cbn [fst snd].
        assert (Li : (i < length (t_in_types t))%nat) by (apply nth_error_Some; congruence).
        assert (i' = i) as ->. { rewrite (nth_error_nth' _ 0%nat) in A by (rewrite seq_length; lia). rewrite seq_nth in A by lia. cbn in A. congruence. }
        destruct (Hi i Li) as (col & I' & Cc). rewrite (proj2 (@nth_res_ok _ _ _ _) I'). cbn [bind].
        destruct (column_unknown ty' i qs col B Hl Cc) as [[Y _]|N]; [left; exact Y|right; exact N].
      + assert (Li : (k < length (t_in_types t))%nat) by (apply nth_error_Some; congruence).
        exists (k, ty). split.
        { eapply nth_in_combine; [|exact K1]. rewrite (nth_error_nth' _ 0%nat) by (rewrite seq_length; lia). rewrite seq_nth by lia. reflexivity. }
        cbn [fst snd]. destruct (Hi k Li) as (col & I' & Cc). rewrite (proj2 (@nth_res_ok _ _ _ _) I'). cbn [bind].
        destruct (column_unknown ty k qs col K1 Hl Cc) as [[_ Y]|N]; [exfalso; apply K4; eapply Y; eauto|exact N]. }
  rewrite E. reflexivity.
Qed.

(** The order of the keys. *)
Lemma lval_before ns ds : Forall2 under ns ds -> forall ds', Forall2 under ns ds' ->
  (lval ns ds < lval ns ds' <-> before (map Z.to_nat ds) (map Z.to_nat ds')).
Proof.
  induction 1 as [|n d ns ds H F IH]; intros ds' F'; inversion F' as [|? d' ? ds'' H' F'']; subst; [cbn; lia|].
  cbn [lval map before]. unfold under in *. rewrite <- (IH _ F''). split.
  - intros Hlt. destruct (Z.lt_trichotomy (lval ns ds) (lval ns ds'')) as [L|[E|G]]; [left; exact L| |nia].
    right. split; [f_equal; eapply lval_inj; eauto|]. nia.
  - intros [L|[E L]]; [nia|]. assert (ds = ds'') as ->.
    { clear - E F F''. revert ds'' E F''. induction F as [|n x ns xs Hx F IH]; intros [|y ys] E F''; try discriminate; [reflexivity|].
      inversion F'' as [|? ? ? ? Hy Fy]; subst. cbn in E. injection E as E1 E2. unfold under in *. f_equal; [lia|apply IH; assumption]. }
    lia.
Qed.

Lemma at_positions_digits q : wk q -> at_positions t q (map Z.to_nat (digits q)).
Proof.
  intros [L K]. unfold at_positions, digits, known in *. split.
  - revert q L K. induction (t_in_types t) as [|ty tys IH] in Hknown |- *; intros [|l q] L K; try discriminate; [constructor|].
    cbn [combine map]. constructor.
    + cbn [fst snd]. intros ix I. apply (digit_ok ty ix l I). apply (K 0%nat ty ix l); auto.
    + apply IH; [|cbn in L; lia|].
      * intros s Hs. apply Hknown. now right.
      * intros i ty' ix' l' A B D. apply (K (S i) ty' ix' l'); assumption.
  - rewrite !map_length, combine_length. lia.
Qed.

Lemma at_positions_unique q ds ds' : at_positions t q ds -> at_positions t q ds' -> ds = ds'.
Proof.
  unfold at_positions. intros [A LA] [B LB]. revert q ds ds' A LA B LB.
  induction (t_in_types t) as [|ty tys IH] in Hknown |- *; intros q ds ds' A LA B LB.
  - inversion A as [E|]. destruct q as [|x q]; [destruct ds; [|discriminate]; destruct ds'; [reflexivity|discriminate]|].
    destruct ds; [discriminate|discriminate].
  - destruct q as [|x q]; [inversion A|]. destruct ds as [|d ds]; [inversion A|]. destruct ds' as [|d' ds']; [inversion B|].
    cbn [combine] in A, B. inversion A as [|? ? ? ? A1 A2]; subst. inversion B as [|? ? ? ? B1 B2]; subst. cbn [fst snd] in *.
    destruct (Hknown ty) as (ix & I & _); [now left|]. specialize (A1 ix I). specialize (B1 ix I). f_equal.
    + eapply (proj1 (NoDup_nth_error ix) (Hlabels _ _ I)); [apply nth_error_Some; congruence|congruence].
    + eapply IH; eauto. intros s Hs. apply Hknown. now right.
Qed.

Lemma key_before q q' : wk q -> wk q' ->
  (key q < key q' <-> forall ds ds', at_positions t q ds -> at_positions t q' ds' -> before ds ds').
Proof.
  intros W W'. pose proof (digits_under q (proj1 W) (proj2 W)) as F. pose proof (digits_under q' (proj1 W') (proj2 W')) as F'.
  unfold key. rewrite (lval_before _ _ F _ F'). split.
  - intros H ds ds' A B. rewrite (at_positions_unique q ds _ A (at_positions_digits q W)), (at_positions_unique q' ds' _ B (at_positions_digits q' W')). exact H.
  - intros H. apply H; apply at_positions_digits; assumption.
Qed.

End Keys.
