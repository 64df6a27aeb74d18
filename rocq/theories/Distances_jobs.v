(** Proofs about the distance jobs. *)
From Coq Require Import String.
From Coq Require Import List ZArith Lia Permutation Sorted.
From Verif Require Import Prelude ListFacts Distances Distances_spec.
Import ListNotations.
Local Open Scope Z_scope.
Local Open Scope list_scope.

(** ** Lists *)

Lemma set_nth_length A (l : list A) i v : length (set_nth l i v) = length l.
Proof. revert i; induction l as [|x l IH]; intros [|i]; cbn; auto. Qed.

Lemma set_nth_same A (l : list A) i v : (i < length l)%nat -> nth_error (set_nth l i v) i = Some v.
Proof.
  revert i; induction l as [|x l IH]; intros [|i] H; cbn in *; try lia; auto.
  apply IH. lia.
Qed.

Lemma set_nth_other A (l : list A) i j v : i <> j -> nth_error (set_nth l i v) j = nth_error l j.
Proof.
  revert i j; induction l as [|x l IH]; intros [|i] [|j] H; cbn; auto; try congruence.
Qed.

Lemma nth_set_same A (l : list A) i v d : (i < length l)%nat -> nth i (set_nth l i v) d = v.
Proof. intros H. apply nth_error_nth. now apply set_nth_same. Qed.

Lemma nth_set_other A (l : list A) i j v d : i <> j -> nth j (set_nth l i v) d = nth j l d.
Proof.
  intros H. destruct (Nat.lt_ge_cases j (length l)) as [L|L].
  - apply nth_error_nth. rewrite set_nth_other by assumption. now apply nth_error_nth'.
  - rewrite !nth_overflow; auto. now rewrite set_nth_length.
Qed.

Lemma sumZ_app l1 l2 : sumZ (l1 ++ l2) = sumZ l1 + sumZ l2.
Proof. unfold sumZ. induction l1; cbn [app fold_right]; lia. Qed.

Lemma sumZ_perm l1 l2 : Permutation l1 l2 -> sumZ l1 = sumZ l2.
Proof. unfold sumZ. induction 1; cbn [fold_right]; lia. Qed.

Lemma sumZ_in (l : list (string * Z)) : (forall k n, In (k, n) l -> 0 <= n) ->
  forall k n, In (k, n) l -> 0 <= n <= sumZ (map snd l).
Proof.
  induction l as [|(k, n) l IH]; intros Hp k' n' E; [contradiction|].
  cbn. fold (sumZ (map snd l)).
  assert (Hq : forall k n, In (k, n) l -> 0 <= n) by (intros; apply (Hp k0); now right).
  assert (0 <= sumZ (map snd l)).
  { destruct l as [|(k2, n2) l2]; [cbn; lia|].
    specialize (IH Hq k2 n2 (or_introl eq_refl)). lia. }
  specialize (Hp k n (or_introl eq_refl)) as ?.
  destruct E as [[= -> ->]|E]; [lia|]. specialize (IH Hq k' n' E). lia.
Qed.

Lemma sumZ_snd_nonneg (l : list (string * Z)) : (forall k n, In (k, n) l -> 0 <= n) ->
  0 <= sumZ (map snd l).
Proof.
  intros H. destruct l as [|(k, n) l]; [cbn; lia|].
  pose proof (sumZ_in _ H k n (or_introl eq_refl)). lia.
Qed.

Lemma unique_index A (f : A -> bool) l :
  length (filter f l) = 1%nat -> exists! i, exists x, nth_error l i = Some x /\ f x = true.
Proof.
  induction l as [|a l IH]; cbn; [discriminate|].
  destruct (f a) eqn:Fa; cbn; intros H.
  - assert (E : filter f l = []) by (destruct (filter f l); [reflexivity|discriminate]).
    exists 0%nat. split; [exists a; auto|].
    intros [|i] (x & Hx & Fx); [reflexivity|]. cbn in Hx. exfalso.
    assert (I : In x (filter f l)) by (apply filter_In; split; [eapply nth_error_In; eauto|auto]).
    rewrite E in I. destruct I.
  - destruct (IH H) as (i & (x & Hx & Fx) & U). exists (S i). split; [exists x; auto|].
    intros [|j] (y & Hy & Fy); cbn in Hy; [congruence|]. f_equal. apply U. exists y; auto.
Qed.

(** ** Step 1 *)

(** The blocks are adjacent ranges of by [k] from [a] to [b], none of them empty or larger
    than [m]. *)
Fixpoint tiled (m : Z) (k : string) (a : Z) (bs : list block) (b : Z) : Prop :=
  match bs with
  | [] => a = b
  | x :: bs' =>
    k_by x = k /\ val (k_start x) = a /\ a < val (k_stop x) /\
    val (k_n x) = val (k_stop x) - a /\ val (k_n x) <= m /\
    tiled m k (val (k_stop x)) bs' b
  end.

Lemma val_nadd x y : val (nadd x y) = val x + val y.
Proof. destruct x, y; reflexivity. Qed.
Lemma val_nsub x y : val (nsub x y) = val x - val y.
Proof. destruct x, y; reflexivity. Qed.

Lemma split_by_tiled fuel m k : forall n sta sto bs,
  (0 < val n -> 0 < val m) -> 0 <= val n -> val sto = val sta ->
  split_by fuel m k n sta sto = Ok bs ->
  tiled (val m) k (val sta) bs (val sta + val n).
Proof.
  induction fuel as [|fuel IH]; intros n sta sto bs Hm Hn Hs; cbn [split_by];
    destruct (Z.ltb_spec 0 (val n)) as [P|P].
  - discriminate.
  - intros [= <-]. cbn. lia.
  - set (amount := if nlt m n then m else n).
    assert (Ha : 0 < val amount <= val m /\ val amount <= val n).
    { unfold amount, nlt. destruct (Z.ltb_spec (val m) (val n)); lia. }
    intros H. apply bind_ok in H as (r & Hr & [= <-]).
    apply IH in Hr; rewrite ?val_nadd, ?val_nsub in *; try lia.
    cbn. rewrite val_nadd. rewrite Hs.
    replace (val sta + val amount + (val n - val amount)) with (val sta + val n) in Hr by lia.
    repeat split; auto; lia.
  - intros [= <-]. cbn. lia.
Qed.

Lemma split_by_total fuel m k : forall n sta sto,
  (0 < val n -> 0 < val m) -> val n <= Z.of_nat fuel * val m ->
  exists bs, split_by fuel m k n sta sto = Ok bs.
Proof.
  induction fuel as [|fuel IH]; intros n sta sto Hm Hn; cbn [split_by];
    destruct (Z.ltb_spec 0 (val n)) as [P|P]; try (now eexists).
  - lia.
  - set (amount := if nlt m n then m else n).
    assert (Ha : 0 < val amount <= val m /\ val n - val amount <= Z.of_nat fuel * val m).
    { unfold amount, nlt. destruct (Z.ltb_spec (val m) (val n)); nia. }
    destruct (IH (nsub n amount) (nadd sta amount) (nadd sto amount)) as (r & ->).
    + rewrite val_nsub. lia.
    + rewrite val_nsub. lia.
    + cbn [bind]. now eexists.
Qed.

Definition block_range_cov (k : string) (p : Z) (x : block) : bool :=
  (String.eqb (k_by x) k && (val (k_start x) <=? p) && (p <? val (k_stop x)))%bool.

Lemma tiled_bounds m k bs : forall a b, tiled m k a bs b ->
  a <= b /\ forall x, In x bs -> k_by x = k /\ a <= val (k_start x) /\
                                 val (k_start x) < val (k_stop x) /\ val (k_stop x) <= b /\
                                 val (k_n x) = val (k_stop x) - val (k_start x) /\
                                 val (k_n x) <= m.
Proof.
  induction bs as [|x bs IH]; cbn; intros a b H.
  - split; [lia|]. contradiction.
  - destruct H as (Hk & Ha & Hlt & Hn & Hm & Ht). apply IH in Ht as (Hb & HI).
    split; [lia|]. intros y [<-|Hy].
    + repeat split; auto; lia.
    + apply HI in Hy as (? & ? & ? & ? & ? & ?). repeat split; auto; lia.
Qed.

Lemma tiled_sum m k bs : forall a b, tiled m k a bs b -> sumZ (map (fun x => val (k_n x)) bs) = b - a.
Proof.
  induction bs as [|x bs IH]; cbn; intros a b H; [lia|].
  destruct H as (Hk & Ha & Hlt & Hn & Hm & Ht). apply IH in Ht.
  fold (sumZ (map (fun x0 => val (k_n x0)) bs)). lia.
Qed.

Lemma tiled_once m k bs p : forall a b, tiled m k a bs b ->
  length (filter (block_range_cov k p) bs) = (if ((a <=? p) && (p <? b))%bool then 1%nat else 0%nat).
Proof.
  induction bs as [|x bs IH]; cbn [tiled filter]; intros a b H.
  - subst. destruct (Z.leb_spec b p), (Z.ltb_spec p b); cbn; auto; lia.
  - destruct H as (Hk & Ha & Hlt & Hn & Hm & Ht).
    pose proof (tiled_bounds _ _ _ _ _ Ht) as (Hb & _).
    apply IH in Ht. unfold block_range_cov at 1.
    rewrite Hk, String.eqb_refl, Ha. cbn [andb].
    destruct (Z.leb_spec a p), (Z.ltb_spec p (val (k_stop x))); cbn [andb length];
      rewrite Ht; destruct (Z.leb_spec (val (k_stop x)) p), (Z.ltb_spec p b); cbn; auto; lia.
Qed.

Lemma tiled_other m k k' bs p : forall a b, k <> k' -> tiled m k a bs b ->
  filter (block_range_cov k' p) bs = [].
Proof.
  intros a b Hk Ht. apply filter_none. intros x Hx.
  apply (tiled_bounds _ _ _ _ _ Ht) in Hx as (E & _). unfold block_range_cov.
  rewrite E. destruct (String.eqb_spec k k'); [contradiction|reflexivity].
Qed.

(** The blocks of several bys. *)
Lemma split_bys_spec fuel m bys : forall bs,
  (forall k n, In (k, n) bys -> 0 <= n) ->
  (0 < sumZ (map snd bys) -> 0 < val m) ->
  split_bys fuel m bys = Ok bs ->
  (forall x, In x bs -> exists n, In (k_by x, n) bys /\ 0 <= val (k_start x) /\
     val (k_start x) < val (k_stop x) /\ val (k_stop x) <= n /\
     val (k_n x) = val (k_stop x) - val (k_start x) /\ val (k_n x) <= val m) /\
  sumZ (map (fun x => val (k_n x)) bs) = sumZ (map snd bys) /\
  (NoDup (map fst bys) -> forall k n p, In (k, n) bys -> 0 <= p < n ->
     length (filter (block_range_cov k p) bs) = 1%nat).
Proof.
  induction bys as [|(k, n) bys IH]; cbn [split_bys]; intros bs Hn Hm H.
  - injection H as <-. cbn. repeat split; auto; contradiction.
  - apply bind_ok in H as (b & Hb & H). apply bind_ok in H as (r & Hr & [= <-]).
    assert (H0 : 0 <= n) by (apply (Hn k); now left).
    assert (Hs : 0 <= sumZ (map snd bys)).
    { apply sumZ_snd_nonneg. intros; apply (Hn k0); now right. }
    cbn in Hm. fold (sumZ (map snd bys)) in Hm.
    apply split_by_tiled in Hb; cbn [val] in *; try lia. cbn [Z.add] in Hb.
    destruct (IH r) as (HI & Hsum & Hone); auto.
    { intros; apply (Hn k0); now right. }
    { lia. }
    pose proof (tiled_bounds _ _ _ _ _ Hb) as (_ & HbI).
    split; [|split].
    + intros x Hx. apply in_app_or in Hx as [Hx|Hx].
      * apply HbI in Hx as (Ek & ? & ? & ? & ? & ?). exists n. rewrite Ek. cbn.
        repeat split; auto; lia.
      * apply HI in Hx as (n' & ? & Hx). exists n'. cbn. tauto.
    + rewrite map_app, sumZ_app, Hsum. apply tiled_sum in Hb. rewrite Hb.
      cbn [map snd]. cbn. fold (sumZ (map snd bys)). lia.
    + intros Hnd k' n' p Hin Hp. inversion Hnd as [|? ? Hni Hnd']; subst.
      rewrite filter_app, app_length.
      destruct Hin as [[= -> ->]|Hin].
      * rewrite (tiled_once _ _ _ p _ _ Hb).
        destruct (Z.leb_spec 0 p), (Z.ltb_spec p n'); try lia. cbn [andb].
        rewrite filter_none; [reflexivity|].
        intros x Hx. apply HI in Hx as (n'' & Hx & _). unfold block_range_cov.
        destruct (String.eqb_spec (k_by x) k') as [E|E]; [|reflexivity].
        exfalso. apply Hni. rewrite <- E. apply (in_map fst) in Hx || apply (in_map fst) in Hin; assumption.
      * rewrite (tiled_other (val m) k k' _ p 0 n); auto.
        { cbn. eauto. }
        { intros ->. apply Hni. apply (in_map fst) in Hx || apply (in_map fst) in Hin; assumption. }
Qed.

Lemma split_bys_total fuel m bys :
  (forall k n, In (k, n) bys -> n <= Z.of_nat fuel * val m) ->
  (forall k n, In (k, n) bys -> 0 < n -> 0 < val m) ->
  exists bs, split_bys fuel m bys = Ok bs.
Proof.
  induction bys as [|(k, n) bys IH]; cbn [split_bys]; intros H1 H2; [now eexists|].
  destruct (split_by_total fuel m k (Int n) (Int 0) (Int 0)) as (b & ->).
  - cbn. intros. apply (H2 k n); auto. now left.
  - cbn. apply (H1 k). now left.
  - cbn [bind]. destruct IH as (r & ->).
    + intros; apply (H1 k0); now right.
    + intros; apply (H2 k0 n0); auto. now right.
    + cbn [bind]. now eexists.
Qed.

(** ** Step 2 *)

Lemma argmin_from_spec l : forall i best v pre,
  length pre = i -> (best < i)%nat -> nth best pre 0 = v ->
  (forall j, (j < i)%nat -> v <= nth j pre 0) ->
  let b := argmin_from i best v l in
  (b < length (pre ++ l))%nat /\
  forall j, (j < length (pre ++ l))%nat -> nth b (pre ++ l) 0 <= nth j (pre ++ l) 0.
Proof.
  induction l as [|x l IH]; intros i best v pre Hl Hb Hv Hm; cbn [argmin_from].
  - rewrite app_nil_r. cbn zeta. rewrite Hv. split; [lia|]. intros; apply Hm; lia.
  - replace (pre ++ x :: l) with ((pre ++ [x]) ++ l) by (rewrite <- app_assoc; reflexivity).
    assert (Hl' : length (pre ++ [x]) = S i) by (rewrite app_length; cbn; lia).
    assert (Hlast : nth i (pre ++ [x]) 0 = x).
    { rewrite app_nth2 by lia. rewrite Hl, Nat.sub_diag. reflexivity. }
    assert (Hpre : forall j, (j < i)%nat -> nth j (pre ++ [x]) 0 = nth j pre 0).
    { intros. now rewrite app_nth1 by lia. }
    destruct (Z.ltb_spec x v).
    + apply IH; auto.
      intros j Hj. destruct (Nat.eq_dec j i) as [->|N]; [lia|].
      rewrite Hpre by lia. specialize (Hm j). lia.
    + apply IH; auto.
      * rewrite Hpre; auto.
      * intros j Hj. destruct (Nat.eq_dec j i) as [->|N]; [lia|].
        rewrite Hpre by lia. apply Hm. lia.
Qed.

Lemma argmin_spec l b : argmin l = Ok b ->
  (b < length l)%nat /\ forall j, (j < length l)%nat -> nth b l 0 <= nth j l 0.
Proof.
  destruct l as [|x l]; cbn [argmin]; [discriminate|]. intros [= <-].
  apply (argmin_from_spec l 1 0 x [x]); auto.
  intros j Hj. assert (j = 0%nat) by lia. subst. cbn. lia.
Qed.

Lemma argmin_total l : l <> [] -> exists b, argmin l = Ok b.
Proof. destruct l; [contradiction|]. intros _. now eexists. Qed.

Section Assign.
Variable sizes : list Z.
Variable n : nat.

Definition size (i : nat) : Z := nth i sizes 0.
Definition load (c : nat) (cpu : list nat) (l : list nat) : Z :=
  sumZ (map size (filter (fun i => Nat.eqb c (nth i cpu 0%nat)) l)).

Record inv (l : list nat) (cpu : list nat) (loads : list Z) : Prop := {
  inv_cpu : length cpu = length sizes;
  inv_loads : length loads = n;
  inv_lt : forall i, In i l -> (nth i cpu 0 < n)%nat;
  inv_sum : forall c, (c < n)%nat -> nth c loads 0 = load c cpu l;
  inv_bal : forall i c, In i l -> (c < n)%nat -> nth (nth i cpu 0%nat) loads 0 - size i <= nth c loads 0
}.

Lemma assign_step_inv l cpu loads i cpu' loads' :
  inv l cpu loads -> ~ In i l -> (forall j, In j l -> size i <= size j) -> 0 <= size i ->
  assign_step sizes (cpu, loads) i = Ok (cpu', loads') ->
  inv (i :: l) cpu' loads'.
Proof.
  intros [Ic Il It Is Ib] Hni Hd Hpos H. cbn [assign_step] in H.
  apply bind_ok in H as (m & Hm & H). apply bind_ok in H as (d & Hd' & H).
  apply bind_ok in H as (ld & Hld & [= <- <-]).
  apply argmin_spec in Hm as (Lm & Mm). rewrite Il in *.
  apply nth_res_ok in Hd'. apply nth_res_ok in Hld.
  assert (Ed : size i = d) by (unfold size; now apply nth_error_nth).
  apply (nth_error_nth _ _ 0) in Hld.
  assert (Li : (i < length sizes)%nat) by (apply nth_error_Some; congruence).
  constructor.
  - now rewrite set_nth_length.
  - now rewrite set_nth_length.
  - intros j [->|Hj].
    + rewrite nth_set_same by lia. assumption.
    + destruct (Nat.eq_dec i j) as [->|N]; [contradiction|]. rewrite nth_set_other; auto.
  - intros c Hc. unfold load. cbn [filter].
    assert (E : filter (fun j => Nat.eqb c (nth j (set_nth cpu i m) 0%nat)) l =
                filter (fun j => Nat.eqb c (nth j cpu 0%nat)) l).
    { apply filter_ext_in. intros j Hj. rewrite nth_set_other; auto. intros ->. contradiction. }
    rewrite E, nth_set_same by lia.
    destruct (Nat.eqb_spec c m) as [->|N].
    + rewrite nth_set_same by lia. cbn. fold (sumZ (map size (filter (fun i0 => Nat.eqb m (nth i0 cpu 0%nat)) l))).
      rewrite <- Hld, (Is m Hc). unfold load. lia.
    + rewrite nth_set_other by auto. now apply Is.
  - intros j c Hj Hc.
    assert (Hcpu : forall c', (c' < n)%nat -> nth c' loads 0 <= nth c' (set_nth loads m (ld + d)) 0 ).
    { intros c' Hc'. destruct (Nat.eq_dec m c') as [->|N].
      - rewrite nth_set_same by lia. rewrite Hld. lia.
      - rewrite nth_set_other by auto. lia. }
    specialize (Hcpu c Hc) as Gc. specialize (Mm c Hc) as Mc.
    destruct Hj as [->|Hj].
    + rewrite nth_set_same by lia. rewrite nth_set_same by lia. lia.
    + assert (N : i <> j) by (intros ->; contradiction).
      rewrite (nth_set_other _ cpu) by auto.
      destruct (Nat.eq_dec m (nth j cpu 0%nat)) as [E|E].
      * rewrite <- E, nth_set_same by lia. specialize (Hd j Hj). lia.
      * rewrite nth_set_other by auto. specialize (Ib j c Hj Hc). lia.
Qed.

Lemma assign_inv order : forall l cpu loads cpu' loads',
  inv l cpu loads -> NoDup (order ++ l) ->
  StronglySorted (fun i j => size j <= size i) order ->
  (forall i j, In i l -> In j order -> size j <= size i) ->
  (forall i, In i order -> 0 <= size i) ->
  foldM (assign_step sizes) order (cpu, loads) = Ok (cpu', loads') ->
  inv (rev order ++ l) cpu' loads'.
Proof.
  induction order as [|i order IH]; intros l cpu loads cpu' loads' Hi Hnd Hs Hd Hp H.
  - cbn in H. injection H as <- <-. assumption.
  - cbn [foldM] in H. apply bind_ok in H as ((cpu1, loads1) & H1 & H).
    inversion Hs as [|? ? Hs' Hall]; subst. inversion Hnd as [|? ? Hni Hnd']; subst.
    apply assign_step_inv with (l := l) in H1; auto.
    + apply IH with (l := i :: l) in H; auto.
      * cbn [rev]. rewrite <- app_assoc. exact H.
      * eapply Permutation_NoDup; [apply Permutation_middle|]. exact Hnd.
      * intros j j' [<-|Hj] Hj'; [|apply Hd; auto; now right].
        rewrite Forall_forall in Hall. now apply Hall.
      * intros; apply Hp; now right.
    + intros Hil. apply Hni. apply in_or_app. now right.
    + intros j Hj. apply Hd; auto. now left.
    + apply Hp. now left.
Qed.

Lemma assign_total order : forall cpu loads, length loads = n -> (0 < n)%nat ->
  (forall i, In i order -> (i < length sizes)%nat) ->
  exists s, foldM (assign_step sizes) order (cpu, loads) = Ok s.
Proof.
  induction order as [|i order IH]; intros cpu loads Hl Hn Ho; cbn [foldM]; [now eexists|].
  cbn [assign_step].
  destruct (argmin_total loads) as (m & Hm); [intros ->; cbn in Hl; lia|].
  rewrite Hm. cbn [bind]. apply argmin_spec in Hm as (Lm & _).
  rewrite nth_res_lt with (d := 0) by (apply Ho; now left). cbn [bind].
  rewrite nth_res_lt with (d := 0) by lia. cbn [bind].
  apply IH; auto; [now rewrite set_nth_length|intros; apply Ho; now right].
Qed.

End Assign.

Definition conv (l : list num) (x : num) : num :=
  if forallb is_int l then x else Flt (val x).
Lemma np_array_conv l : np_array l = map (conv l) l.
Proof. unfold np_array, conv. destruct (forallb is_int l); auto. now rewrite map_id. Qed.
Lemma val_conv l x : val (conv l x) = val x.
Proof. unfold conv. destruct (forallb is_int l); reflexivity. Qed.

(** The range made from a block. *)
Definition to_range (bs : list block) (b : block) : range :=
  mk_range (k_by b) (conv (map k_start bs) (k_start b)) (conv (map k_stop bs) (k_stop b)).

Definition jobs_for (bs : list block) (n : nat) (cpu : list nat) : list job :=
  map (fun i => map (fun k => nth k (map (to_range bs) bs) (mk_range "" (Int 0) (Int 0)))
                    (np_where (map (Nat.eqb i) cpu))) (seq 0 n).

Lemma combine_map3 A B C D (f : A -> B) (g : A -> C) (h : A -> D) l :
  combine (combine (map f l) (map g l)) (map h l) = map (fun x => ((f x, g x), h x)) l.
Proof. induction l; cbn; congruence. Qed.

Lemma assign_jobs_cpu argsort n bs jobs :
  assign_jobs argsort n bs = Ok jobs ->
  exists cpu loads,
    foldM (assign_step (map (fun b => val (k_n b)) bs)) (rev (argsort (map (fun b => val (k_n b)) bs)))
          (repeat 0%nat (length bs), repeat 0 n) = Ok (cpu, loads) /\
    (length cpu = length bs -> jobs = jobs_for bs n cpu).
Proof.
  unfold assign_jobs. intros H. apply bind_ok in H as ((cpu, loads) & Hf & H).
  exists cpu, loads. split; [exact Hf|]. intros Hl. cbn [fst] in H.
  rewrite mapM_ok_map with
    (g := fun i => map (fun k => nth k (map (to_range bs) bs) (mk_range "" (Int 0) (Int 0)))
                       (np_where (map (Nat.eqb i) cpu))) in H.
  - now injection H as <-.
  - intros i _.
    assert (B : forall k, In k (np_where (map (Nat.eqb i) cpu)) -> (k < length bs)%nat).
    { intros k Hk. apply np_where_spec in Hk. rewrite <- Hl, <- (map_length (Nat.eqb i)).
      apply nth_error_Some. congruence. }
    rewrite gather_ok with (l := (map k_by bs)) (d := ""%string) by (now rewrite map_length).
    rewrite gather_ok with (l := (np_array (map k_start bs))) (d := (Int 0))
      by (rewrite np_array_conv, !map_length; assumption).
    rewrite gather_ok with (l := (np_array (map k_stop bs))) (d := (Int 0))
      by (rewrite np_array_conv, !map_length; assumption).
    cbn [bind]. f_equal. rewrite combine_map3, map_map. apply map_ext_in.
    intros k Hk. cbn [fst snd]. specialize (B k Hk).
    assert (Db : exists d : block, True) by (destruct bs as [|b ?]; [cbn in B; lia|now exists b]).
    destruct Db as (d & _).
    rewrite !np_array_conv, !map_map.
    rewrite (nth_indep _ ""%string (k_by d)) by (now rewrite map_length).
    rewrite (nth_indep (map (fun x => conv (map k_start bs) (k_start x)) bs) (Int 0) (conv (map k_start bs) (k_start d))) by (now rewrite map_length).
    rewrite (nth_indep (map (fun x => conv (map k_stop bs) (k_stop x)) bs) (Int 0) (conv (map k_stop bs) (k_stop d))) by (now rewrite map_length).
    rewrite (nth_indep (map (to_range bs) bs) _ (to_range bs d)) by (now rewrite map_length).
    rewrite map_nth.
    rewrite (map_nth (fun x => conv (map k_start bs) (k_start x))).
    rewrite (map_nth (fun x => conv (map k_stop bs) (k_stop x))).
    rewrite (map_nth (to_range bs)). reflexivity.
Qed.

Lemma inv_start sizes n : inv sizes n [] (repeat 0%nat (length sizes)) (repeat 0 n).
Proof.
  constructor; try (now rewrite repeat_length); try contradiction.
  intros c Hc. cbn. now rewrite nth_repeat.
Qed.

Lemma StronglySorted_rev A (R : A -> A -> Prop) l :
  StronglySorted R l -> StronglySorted (fun x y => R y x) (rev l).
Proof.
  induction 1 as [|a l Hs IH Hall]; cbn; [constructor|].
  rewrite Forall_forall in Hall.
  assert (G : forall l1, StronglySorted (fun x y => R y x) l1 -> (forall x, In x l1 -> R a x) ->
              StronglySorted (fun x y => R y x) (l1 ++ [a])).
  { induction 1 as [|b l1 Hs1 IH1 Hall1]; cbn; intros Ha.
    - constructor; constructor.
    - constructor; [apply IH1; intros; apply Ha; now right|].
      rewrite Forall_forall in *. intros x Hx. apply in_app_or in Hx as [Hx|[<-|[]]]; auto.
      all: apply Ha; now left. }
  apply G; auto. intros x Hx. apply Hall. now apply in_rev.
Qed.

Lemma StronglySorted_map_inv A B (R : B -> B -> Prop) (f : A -> B) l :
  StronglySorted R (map f l) -> StronglySorted (fun x y => R (f x) (f y)) l.
Proof.
  induction l as [|a l IH]; cbn; intros H; [constructor|].
  inversion H as [|? ? Hs Hall]; subst. constructor; auto.
  rewrite Forall_forall in *. intros x Hx. apply Hall. now apply in_map.
Qed.

(** The assignment reached at the end. *)
Lemma assign_jobs_inv argsort n bs jobs :
  argsort_spec argsort -> (forall b, In b bs -> 0 <= val (k_n b)) ->
  assign_jobs argsort n bs = Ok jobs ->
  exists cpu loads l,
    inv (map (fun b => val (k_n b)) bs) n l cpu loads /\
    Permutation l (seq 0 (length bs)) /\ jobs = jobs_for bs n cpu.
Proof.
  intros Ha Hp H. apply assign_jobs_cpu in H as (cpu & loads & Hf & Hj).
  set (sizes := map (fun b => val (k_n b)) bs) in *.
  destruct (Ha sizes) as (Pa & Sa).
  assert (Ls : length sizes = length bs) by (unfold sizes; now rewrite map_length).
  exists cpu, loads, (rev (rev (argsort sizes)) ++ []).
  assert (I : inv sizes n (rev (rev (argsort sizes)) ++ []) cpu loads).
  { eapply assign_inv; try exact Hf.
    - rewrite <- Ls. apply inv_start.
    - rewrite app_nil_r. eapply Permutation_NoDup; [apply Permutation_rev|].
      eapply Permutation_NoDup; [apply Permutation_sym; exact Pa|]. apply seq_NoDup.
    - apply StronglySorted_rev with (R := fun i j => size sizes i <= size sizes j).
      apply StronglySorted_map_inv with (R := Z.le) (f := size sizes). exact Sa.
    - contradiction.
    - intros i Hi. apply in_rev in Hi. apply (Permutation_in _ Pa) in Hi.
      apply in_seq in Hi. unfold size.
      assert (Hin : In (nth i sizes 0) sizes) by (apply nth_In; lia).
      unfold sizes in Hin at 2. apply in_map_iff in Hin as (b & E & Hb). rewrite <- E. auto. }
  split; [exact I|split].
  - rewrite app_nil_r, rev_involutive, <- Ls. exact Pa.
  - apply Hj. rewrite (inv_cpu _ _ _ _ _ I). exact Ls.
Qed.

Lemma where_cpu_In i cpu k :
  In k (np_where (map (Nat.eqb i) cpu)) <-> ((k < length cpu)%nat /\ nth k cpu 0%nat = i).
Proof.
  rewrite np_where_spec, nth_error_map. split.
  - destruct (nth_error cpu k) as [c|] eqn:E; [|discriminate]. cbn. intros [= H].
    apply Nat.eqb_eq in H. split; [apply nth_error_Some; congruence|].
    apply (nth_error_nth _ _ 0%nat) in E. congruence.
  - intros (L & E). rewrite (nth_error_nth' cpu 0%nat L). cbn. rewrite E, Nat.eqb_refl. reflexivity.
Qed.

Lemma jobs_for_perm bs n cpu :
  length cpu = length bs -> (forall i, (i < length bs)%nat -> (nth i cpu 0 < n)%nat) ->
  Permutation (concat (jobs_for bs n cpu)) (map (to_range bs) bs).
Proof.
  intros Hl Hlt. unfold jobs_for.
  set (d := mk_range "" (Int 0) (Int 0)).
  rewrite <- (map_map (fun i => np_where (map (Nat.eqb i) cpu))
                      (map (fun k => nth k (map (to_range bs) bs) d))).
  rewrite <- concat_map.
  apply Permutation_trans with
    (map (fun k => nth k (map (to_range bs) bs) d) (seq 0 (length (map (to_range bs) bs))));
    [|now rewrite map_nth_seq].
  apply Permutation_map. rewrite map_length, <- Hl.
  apply NoDup_Permutation.
  - apply NoDup_concat.
    + intros l H. apply in_map_iff in H as (i & <- & _). apply np_where_NoDup.
    + intros i j x Hij Hj. rewrite map_length, seq_length in Hj.
      rewrite (nth_indep _ [] (np_where (map (Nat.eqb 0) cpu))) by (rewrite map_length, seq_length; lia).
      rewrite (nth_indep (map _ _) [] (np_where (map (Nat.eqb 0) cpu))) by (rewrite map_length, seq_length; lia).
      rewrite !(map_nth (fun i => np_where (map (Nat.eqb i) cpu))).
      rewrite !seq_nth by lia. rewrite !where_cpu_In. lia.
  - apply seq_NoDup.
  - intros k. rewrite in_concat, in_seq. split.
    + intros (l & H & Hk). apply in_map_iff in H as (i & <- & _).
      apply where_cpu_In in Hk. lia.
    + intros Hk. exists (np_where (map (Nat.eqb (nth k cpu 0%nat)) cpu)). split.
      * apply in_map_iff. eexists; split; [reflexivity|]. apply in_seq.
        specialize (Hlt k). lia.
      * apply where_cpu_In. split; [lia|reflexivity].
Qed.

Lemma ceil_pos total n : (1 <= n)%nat -> 0 < total -> 0 < ceil_div total (Z.of_nat n).
Proof. intros. pose proof (@ceil_div_bounds total (Z.of_nat n)). nia. Qed.

Lemma max_block_val total n buffer : (1 <= n)%nat -> 1 <= buffer -> 0 < total ->
  0 < val (max_block_size total n buffer) <= ceil_div total (Z.of_nat n).
Proof.
  intros Hn Hb Ht. unfold max_block_size, nmin, nlt. cbn [val].
  pose proof (ceil_pos total n Hn Ht).
  assert (0 < buffer * 1000000 / 8).
  { apply Z.div_str_pos. lia. }
  destruct (Z.ltb_spec (buffer * 1000000 / 8) (ceil_div total (Z.of_nat n))); cbn [val]; lia.
Qed.

Section Jobs.
Variable argsort : list Z -> list nat.
Hypothesis Hsort : argsort_spec argsort.
Variables (fuel n_cpu : nat) (buffer : Z) (bys : list (string * Z)).
Hypothesis Hcpu : (1 <= n_cpu)%nat.
Hypothesis Hbuf : 1 <= buffer.
Hypothesis Hpos : forall k n, In (k, n) bys -> 0 <= n.

Let total := sumZ (map snd bys).

Lemma distance_jobs_inv jobs :
  distance_jobs argsort fuel n_cpu buffer bys = Ok jobs ->
  exists bs cpu loads l,
    split_bys fuel (max_block_size total n_cpu buffer) bys = Ok bs /\
    inv (map (fun b => val (k_n b)) bs) n_cpu l cpu loads /\
    Permutation l (seq 0 (length bs)) /\ jobs = jobs_for bs n_cpu cpu /\
    Permutation (concat jobs) (map (to_range bs) bs).
Proof.
  unfold distance_jobs. intros H. apply bind_ok in H as (bs & Hb & H). fold total in Hb.
  destruct (split_bys_spec _ _ _ _ Hpos (fun Ht => proj1 (max_block_val total n_cpu buffer Hcpu Hbuf Ht)) Hb)
    as (HI & _ & _).
  apply assign_jobs_inv in H as (cpu & loads & l & Hi & Hp & Hj); auto.
  - exists bs, cpu, loads, l. split; [assumption|split; [assumption|split; [assumption|split; [assumption|]]]].
    subst jobs. destruct Hi as [Ic _ It _ _]. rewrite map_length in Ic.
    apply jobs_for_perm; auto.
    intros i Hl. apply It. apply (Permutation_in _ (Permutation_sym Hp)). apply in_seq. lia.
  - intros b Hbin. apply HI in Hbin as (? & ?). lia.
Qed.

Theorem jobs_cover jobs : NoDup (map fst bys) ->
  distance_jobs argsort fuel n_cpu buffer bys = Ok jobs ->
  length jobs = n_cpu /\ cover_once bys (concat jobs).
Proof.
  intros Hnd H. apply distance_jobs_inv in H as (bs & cpu & loads & l & Hb & _ & _ & Hj & Hp).
  destruct (split_bys_spec _ _ _ _ Hpos (fun Ht => proj1 (max_block_val total n_cpu buffer Hcpu Hbuf Ht)) Hb)
    as (HI & _ & Hone).
  split.
  { rewrite Hj. unfold jobs_for. now rewrite map_length, seq_length. }
  split.
  - intros r Hr. apply (Permutation_in _ Hp) in Hr. apply in_map_iff in Hr as (b & <- & Hb').
    apply HI in Hb' as (m & Hin & ? & ? & ? & _). exists m. cbn. rewrite !val_conv.
    repeat split; auto.
  - intros k m p Hk Hpm.
    specialize (Hone Hnd k m p Hk Hpm).
    set (f := fun r => (String.eqb (r_by r) k && (val (r_start r) <=? p) && (p <? val (r_stop r)))%bool).
    assert (E : length (filter f (concat jobs)) = 1%nat).
    { rewrite (Permutation_length (Permutation_filter f Hp)).
      rewrite <- Hone. clear - f.
      enough (G : forall bs0, length (filter f (map (to_range bs) bs0)) =
                              length (filter (block_range_cov k p) bs0)) by apply G.
      induction bs0 as [|b bs0 IH]; [reflexivity|].
      cbn [map filter]. unfold f at 1, block_range_cov at 1. cbn. rewrite !val_conv.
      destruct (_ && _)%bool; cbn; congruence. }
    apply unique_index in E as (i & (r & Hr & Fr) & U).
    exists i. split.
    + exists r. split; auto. unfold f in Fr. apply andb_prop in Fr as (Fr & F3).
      apply andb_prop in Fr as (F1 & F2). apply String.eqb_eq in F1. split; [exact F1|lia].
    + intros j (r' & Hr' & (C1 & C2)). apply U. exists r'. split; auto. unfold f.
      rewrite C1, String.eqb_refl. cbn [andb]. apply andb_true_intro. lia.
Qed.

Theorem jobs_balanced jobs :
  distance_jobs argsort fuel n_cpu buffer bys = Ok jobs -> balanced total n_cpu jobs.
Proof.
  intros H. apply distance_jobs_inv in H as (bs & cpu & loads & l & Hb & Hi & Hl & Hj & Hp).
  destruct (split_bys_spec _ _ _ _ Hpos (fun Ht => proj1 (max_block_val total n_cpu buffer Hcpu Hbuf Ht)) Hb)
    as (HI & Hsum & _).
  assert (Hsize : forall b, In b bs -> range_size (to_range bs b) = val (k_n b)).
  { intros b Hin. apply HI in Hin as (? & ? & ? & ? & ? & ? & ?). unfold range_size. cbn.
    rewrite !val_conv. lia. }
  split.
  - intros j r Hj' Hr.
    assert (Hin : In r (concat jobs)) by (apply in_concat; eauto).
    apply (Permutation_in _ Hp) in Hin. apply in_map_iff in Hin as (b & <- & Hbin).
    rewrite (Hsize b Hbin).
    apply HI in Hbin as (m & Hm & ? & ? & ? & ? & Hle).
    assert (Ht : 0 < total).
    { pose proof (sumZ_in bys Hpos _ _ Hm) as G. fold total in G. lia. }
    pose proof (max_block_val total n_cpu buffer Hcpu Hbuf Ht).
    pose proof (@ceil_div_bounds total (Z.of_nat n_cpu)). nia.
  - (* load of a job *)
    destruct Hi as [Ic Il It Is Ib]. rewrite map_length in Ic.
    set (sizes := map (fun b => val (k_n b)) bs) in *.
    assert (Hjob : forall c, (c < n_cpu)%nat -> forall d,
              job_size (map (fun k => nth k (map (to_range bs) bs) d) (np_where (map (Nat.eqb c) cpu)))
              = nth c loads 0).
    { intros c Hc d. rewrite (Is c Hc). unfold job_size, load. rewrite map_map.
      assert (P : Permutation (np_where (map (Nat.eqb c) cpu))
                              (filter (fun i => Nat.eqb c (nth i cpu 0%nat)) l)).
      { apply NoDup_Permutation.
        - apply np_where_NoDup.
        - apply NoDup_filter'. eapply Permutation_NoDup; [apply Permutation_sym; exact Hl|apply seq_NoDup].
        - intros k. rewrite where_cpu_In, filter_In.
          assert (Q : In k l <-> (k < length bs)%nat).
          { split; intros Hk.
            - apply (Permutation_in _ Hl) in Hk. apply in_seq in Hk. lia.
            - apply (Permutation_in _ (Permutation_sym Hl)). apply in_seq. lia. }
          rewrite Q, Nat.eqb_eq, Ic. intuition. }
      rewrite <- (sumZ_perm _ _ (Permutation_map (size sizes) P)). f_equal.
      apply map_ext_in. intros k Hk. apply where_cpu_In in Hk as (Hk & _). rewrite Ic in Hk.
      destruct (nth_error bs k) as [b|] eqn:E; [|apply nth_error_None in E; lia].
      rewrite (nth_error_nth _ _ d (map_nth_error (to_range bs) _ _ E)).
      unfold size, sizes.
      rewrite (nth_error_nth _ _ 0 (map_nth_error (fun b => val (k_n b)) _ _ E)).
      apply Hsize. eapply nth_error_In; eauto. }
    intros j j' r Hj1 Hj2 Hr. subst jobs. unfold jobs_for in Hj1, Hj2.
    apply in_map_iff in Hj1 as (c & <- & Hc). apply in_map_iff in Hj2 as (c' & <- & Hc').
    apply in_seq in Hc. apply in_seq in Hc'.
    rewrite !Hjob by lia. apply in_map_iff in Hr as (k & <- & Hk).
    apply where_cpu_In in Hk as (Hk & Ek). rewrite Ic in Hk.
    specialize (Ib k c'). rewrite Ek in Ib.
    destruct (nth_error bs k) as [b|] eqn:E; [|apply nth_error_None in E; lia].
    rewrite (nth_error_nth _ _ (mk_range "" (Int 0) (Int 0)) (map_nth_error (to_range bs) _ _ E)).
    rewrite Hsize by (eapply nth_error_In; eauto).
    unfold size, sizes in Ib.
    rewrite (nth_error_nth _ _ 0 (map_nth_error (fun b => val (k_n b)) _ _ E)) in Ib.
    apply Ib; [|lia].
    apply (Permutation_in _ (Permutation_sym Hl)). apply in_seq. lia.
Qed.

(** Jobs are produced as soon as the loops are given enough turns. *)
Theorem jobs_total : total <= Z.of_nat fuel ->
  exists jobs, distance_jobs argsort fuel n_cpu buffer bys = Ok jobs.
Proof.
  intros Hf. unfold distance_jobs. fold total.
  destruct (split_bys_total fuel (max_block_size total n_cpu buffer) bys) as (bs & Hb).
  - intros k n Hin. pose proof (sumZ_in bys Hpos k n Hin) as Hs. fold total in Hs.
    destruct (Z.eq_dec n 0) as [->|].
    + destruct (Z.eq_dec total 0) as [E|E].
      * unfold max_block_size, nmin, nlt, ceil_div. rewrite E. cbn [val Z.opp].
        rewrite Z.div_0_l by lia. cbn [Z.opp].
        destruct (Z.ltb_spec (buffer * 1000000 / 8) 0) as [L|L]; cbn [val]; [|lia].
        assert (0 <= buffer * 1000000 / 8) by (apply Z.div_pos; lia). lia.
      * pose proof (max_block_val total n_cpu buffer Hcpu Hbuf). nia.
    + pose proof (max_block_val total n_cpu buffer Hcpu Hbuf). nia.
  - intros k n Hin Hn. pose proof (sumZ_in bys Hpos k n Hin) as Hs. fold total in Hs.
    apply max_block_val; lia.
  - rewrite Hb. cbn [bind]. unfold assign_jobs.
    set (sizes := map (fun b => val (k_n b)) bs).
    destruct (Hsort sizes) as (Pa & _).
    assert (Ls : length sizes = length bs) by (unfold sizes; now rewrite map_length).
    destruct (assign_total sizes n_cpu (rev (argsort sizes)) (repeat 0%nat (length sizes)) (repeat 0 n_cpu))
      as ((cpu & loads) & Hs).
    + apply repeat_length.
    + lia.
    + intros i Hi. apply in_rev in Hi. apply (Permutation_in _ Pa) in Hi. apply in_seq in Hi. lia.
    + rewrite <- Ls, Hs. cbn [bind fst].
      assert (Lc : length cpu = length bs).
      { assert (G : forall ord c0 l0 c1 l1, foldM (assign_step sizes) ord (c0, l0) = Ok (c1, l1) ->
                     length c1 = length c0).
        { clear. induction ord as [|i ord IH]; intros c0 l0 c1 l1; cbn [foldM].
          - now intros [= <- <-].
          - intros H. apply bind_ok in H as ((c2, l2) & H2 & H). apply IH in H. rewrite H.
            cbn [assign_step] in H2. apply bind_ok in H2 as (? & _ & H2).
            apply bind_ok in H2 as (? & _ & H2). apply bind_ok in H2 as (? & _ & [= <- <-]).
            apply set_nth_length. }
        apply G in Hs. rewrite Hs, repeat_length. exact Ls. }
      match goal with |- exists jobs, mapM ?f ?l = Ok jobs =>
        destruct (mapM_exists _ _ f (fun _ _ => True) l) as (jobs & Hj & _) end.
      * intros i _.
        assert (B : forall k, In k (np_where (map (Nat.eqb i) cpu)) -> (k < length bs)%nat).
        { intros k Hk. apply where_cpu_In in Hk. lia. }
        rewrite gather_ok with (l := (map k_by bs)) (d := ""%string) by (now rewrite map_length).
        rewrite gather_ok with (l := (np_array (map k_start bs))) (d := (Int 0))
          by (rewrite np_array_conv, !map_length; assumption).
        rewrite gather_ok with (l := (np_array (map k_stop bs))) (d := (Int 0))
          by (rewrite np_array_conv, !map_length; assumption).
        cbn [bind]. eauto.
      * eauto.
Qed.

End Jobs.

(** ** Types of the bounds *)


(** The largest block that fits in the buffer. *)
Lemma split_by_int fuel m k : forall n sta sto bs,
  (is_int m = true \/ n <= val m) ->
  split_by fuel m k (Int n) (Int sta) (Int sto) = Ok bs ->
  forall b, In b bs -> is_int (k_start b) = true /\ is_int (k_stop b) = true.
Proof.
  induction fuel as [|fuel IH]; intros n sta sto bs Hm; cbn [split_by val];
    destruct (Z.ltb_spec 0 n) as [P|P]; try discriminate; try (intros [= <-]; contradiction).
  assert (exists a, (if nlt m (Int n) then m else Int n) = Int a /\ (is_int m = true \/ n - a <= val m)) as (a & -> & Ha).
  { unfold nlt. cbn [val]. destruct (Z.ltb_spec (val m) n).
    - destruct Hm as [Hm|Hm]; [|lia]. destruct m as [z|z]; [|discriminate]. exists z. auto.
    - exists n. split; [reflexivity|]. destruct Hm as [Hm|Hm]; [auto|right; lia]. }
  intros H. apply bind_ok in H as (r & Hr & [= <-]). cbn [nadd nsub] in *.
  intros b [<-|Hb]; [split; reflexivity|]. eapply IH in Hr; eauto.
Qed.

Lemma split_bys_int fuel m bys : forall bs,
  (is_int m = true \/ forall k n, In (k, n) bys -> n <= val m) ->
  split_bys fuel m bys = Ok bs ->
  forall b, In b bs -> is_int (k_start b) = true /\ is_int (k_stop b) = true.
Proof.
  induction bys as [|(k, n) bys IH]; cbn [split_bys]; intros bs Hm H b Hb.
  - injection H as <-. contradiction.
  - apply bind_ok in H as (b1 & H1 & H). apply bind_ok in H as (r & Hr & [= <-]).
    apply in_app_or in Hb as [Hb|Hb].
    + eapply split_by_int in H1; eauto. destruct Hm as [Hm|Hm]; [auto|right; apply (Hm k); now left].
    + eapply IH; eauto. destruct Hm as [Hm|Hm]; [auto|right; intros; apply (Hm k0); now right].
Qed.

(** When a by is larger than a float block size, two of its blocks start and stop at
    floats. *)
Lemma split_bys_float fuel v bys k n : forall bs,
  0 < v < n -> In (k, n) bys -> split_bys fuel (Flt v) bys = Ok bs ->
  (exists b, In b bs /\ is_int (k_start b) = false) /\ (exists b, In b bs /\ is_int (k_stop b) = false).
Proof.
  induction bys as [|(k', n') bys IH]; cbn [split_bys]; intros bs Hv Hin H; [contradiction|].
  apply bind_ok in H as (b1 & H1 & H). apply bind_ok in H as (r & Hr & [= <-]).
  destruct Hin as [[= -> ->]|Hin].
  - destruct fuel as [|fuel]; cbn [split_by val] in H1;
      destruct (Z.ltb_spec 0 n) as [P|P]; try discriminate; try lia.
    unfold nlt at 1 2 3 4 in H1. cbn [val] in H1.
    destruct (Z.ltb_spec v n) as [Q|Q]; [|lia].
    apply bind_ok in H1 as (r1 & Hr1 & [= <-]). cbn [nadd nsub] in *.
    destruct fuel as [|fuel]; cbn [split_by val] in Hr1;
      destruct (Z.ltb_spec 0 (n - v)) as [P'|P']; try discriminate; try lia.
    apply bind_ok in Hr1 as (r2 & Hr2 & [= <-]).
    split.
    + eexists. split; [apply in_or_app; left; right; left; reflexivity|reflexivity].
    + eexists. split; [apply in_or_app; left; left; reflexivity|reflexivity].
  - destruct (IH r Hv Hin Hr) as ((x & Hx & Ex) & (y & Hy & Ey)).
    split; [exists x|exists y]; (split; [apply in_or_app; now right|assumption]).
Qed.

Section Types.
Variable argsort : list Z -> list nat.
Hypothesis Hsort : argsort_spec argsort.
Variables (fuel n_cpu : nat) (buffer : Z) (bys : list (string * Z)).
Hypothesis Hcpu : (1 <= n_cpu)%nat.
Hypothesis Hbuf : 1 <= buffer.
Hypothesis Hpos : forall k n, In (k, n) bys -> 0 <= n.
Let total := sumZ (map snd bys).

Theorem jobs_sliceable jobs :
  (total <= Z.of_nat n_cpu * (buffer * 1000000 / 8) \/
   forall k n, In (k, n) bys -> n <= buffer * 1000000 / 8) ->
  distance_jobs argsort fuel n_cpu buffer bys = Ok jobs ->
  forall j r, In j jobs -> In r j -> sliceable r.
Proof.
  intros Hs H j r Hj Hr.
  destruct (distance_jobs_inv argsort Hsort fuel n_cpu buffer bys Hcpu Hbuf Hpos jobs H)
    as (bs & cpu & loads & l & Hb & _ & _ & _ & Hp).
  assert (I : forall b, In b bs -> is_int (k_start b) = true /\ is_int (k_stop b) = true).
  { eapply split_bys_int; [|exact Hb]. fold total. unfold max_block_size, nmin, nlt. cbn [val].
    pose proof (@ceil_div_bounds total (Z.of_nat n_cpu)).
    destruct (Z.ltb_spec (buffer * 1000000 / 8) (ceil_div total (Z.of_nat n_cpu))).
    - right. destruct Hs as [Hs|Hs]; [nia|exact Hs].
    - now left. }
  assert (Hin : In r (concat jobs)) by (apply in_concat; eauto).
  apply (Permutation_in _ Hp) in Hin. apply in_map_iff in Hin as (b & <- & Hbin).
  assert (A1 : forallb is_int (map k_start bs) = true).
  { apply forallb_forall. intros x Hx. apply in_map_iff in Hx as (b' & <- & Hx). now apply I. }
  assert (A2 : forallb is_int (map k_stop bs) = true).
  { apply forallb_forall. intros x Hx. apply in_map_iff in Hx as (b' & <- & Hx). now apply I. }
  unfold sliceable, to_range, conv. cbn. rewrite A1, A2.
  destruct (I b Hbin) as (I1 & I2). destruct (k_start b), (k_stop b); try discriminate. eauto.
Qed.

Theorem jobs_floats jobs k n :
  Z.of_nat n_cpu * (buffer * 1000000 / 8) < total -> In (k, n) bys -> buffer * 1000000 / 8 < n ->
  distance_jobs argsort fuel n_cpu buffer bys = Ok jobs ->
  forall j r, In j jobs -> In r j -> exists x y, r_start r = Flt x /\ r_stop r = Flt y.
Proof.
  intros Ht Hk Hn H j r Hj Hr.
  destruct (distance_jobs_inv argsort Hsort fuel n_cpu buffer bys Hcpu Hbuf Hpos jobs H)
    as (bs & cpu & loads & l & Hb & _ & _ & _ & Hp).
  assert (E : max_block_size total n_cpu buffer = Flt (buffer * 1000000 / 8)).
  { unfold max_block_size, nmin, nlt. cbn [val].
    pose proof (@ceil_div_bounds total (Z.of_nat n_cpu)).
    destruct (Z.ltb_spec (buffer * 1000000 / 8) (ceil_div total (Z.of_nat n_cpu))); [reflexivity|nia]. }
  fold total in Hb. rewrite E in Hb.
  assert (0 < buffer * 1000000 / 8) by (apply Z.div_str_pos; lia).
  eapply split_bys_float in Hb as ((b1 & Hb1 & E1) & (b2 & Hb2 & E2)); [|split; eassumption|eassumption].
  assert (Hin : In r (concat jobs)) by (apply in_concat; eauto).
  apply (Permutation_in _ Hp) in Hin. apply in_map_iff in Hin as (b & <- & Hbin).
  assert (A1 : forallb is_int (map k_start bs) = false).
  { destruct (forallb is_int (map k_start bs)) eqn:Q; auto. rewrite forallb_forall in Q.
    rewrite (Q (k_start b1)) in E1; [discriminate|]. now apply in_map. }
  assert (A2 : forallb is_int (map k_stop bs) = false).
  { destruct (forallb is_int (map k_stop bs)) eqn:Q; auto. rewrite forallb_forall in Q.
    rewrite (Q (k_stop b2)) in E2; [discriminate|]. now apply in_map. }
  unfold to_range, conv. cbn. rewrite A1, A2. eauto.
Qed.
End Types.
