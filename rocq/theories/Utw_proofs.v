(** Proofs about uniform time warping. *)
From Coq Require Import List Arith ZArith QArith Qround Qabs Qfield Lia Lqa Sorting Bool.
From Verif Require Import Prelude ListFacts Utw Utw_spec.
Import ListNotations.
Local Open Scope nat_scope.

Lemma where_filter (g : nat -> bool) n : forall a, where_from a (map g (seq a n)) = filter g (seq a n).
Proof. induction n as [|n IH]; intros a; cbn; [reflexivity|]. destruct (g a); rewrite IH; reflexivity. Qed.

Lemma gather_seq {A} (f : nat -> A) n l : (forall k, In k l -> k < n) -> gather (map f (seq 0 n)) l = Ok (map f l).
Proof.
  intros Hl. unfold gather. induction l as [|k l IH]; [reflexivity|]. cbn [mapM map].
  assert (E : nth_res (map f (seq 0 n)) k = Ok (f k)).
  { apply nth_res_ok. rewrite nth_error_map. rewrite (nth_error_nth' _ 0) by (rewrite seq_length; apply Hl; left; reflexivity).
    rewrite seq_nth by (apply Hl; left; reflexivity). reflexivity. }
  rewrite E. cbn [bind]. rewrite IH by (intros; apply Hl; right; assumption). reflexivity.
Qed.

Lemma combine_map {A B C} (f : A -> B) (g : A -> C) l : combine (map f l) (map g l) = map (fun a => (f a, g a)) l.
Proof. induction l as [|a l IH]; [reflexivity|]. cbn. rewrite IH. reflexivity. Qed.

Lemma combine_app' {A B} (l l' : list A) (m m' : list B) : length l = length m ->
  combine (l ++ l') (m ++ m') = combine l m ++ combine l' m'.
Proof.
  revert m. induction l as [|a l IH]; intros [|b m] E; try discriminate; [reflexivity|]. cbn. rewrite IH by (injection E; auto). reflexivity.
Qed.

Lemma sum_cons q l : sum (q :: l) = (q + sum l)%Q.
Proof. reflexivity. Qed.

Lemma sum_app l l' : (sum (l ++ l') == sum l + sum l')%Q.
Proof.
  induction l as [|q l IH]; [symmetry; apply Qplus_0_l|]. cbn [app]. rewrite !sum_cons, IH. ring.
Qed.

Lemma sum_split (g : nat -> bool) (f : nat -> Q) l :
  (sum (map f (filter g l)) + sum (map f (filter (fun k => negb (g k)) l)) == sum (map f l))%Q.
Proof.
  induction l as [|k l IH]; [reflexivity|]. cbn [filter]. destruct (g k); cbn [negb map]; rewrite !sum_cons, <- IH; ring.
Qed.

Lemma sum_ext {A} (f g : A -> Q) l : (forall k, In k l -> (f k == g k)%Q) -> (sum (map f l) == sum (map g l))%Q.
Proof.
  induction l as [|k l IH]; intros H; [reflexivity|]. cbn [map]. rewrite !sum_cons, (H k (or_introl eq_refl)), IH; [reflexivity|].
  intros; apply H; right; assumption.
Qed.

Lemma sum_plus (f g : nat -> Q) l : (sum (map f l) + sum (map g l) == sum (map (fun k => f k + g k) l))%Q.
Proof. induction l as [|k l IH]; [reflexivity|]. cbn [map]. rewrite !sum_cons, <- IH. ring. Qed.

Lemma sum_half (f : nat -> Q) l : (sum (map f l) / 2 == sum (map (fun k => f k / 2) l))%Q.
Proof. induction l as [|k l IH]; [reflexivity|]. cbn [map]. rewrite !sum_cons, <- IH. field. Qed.

Definition half (k : nat) : Q := (inject_Z (Z.of_nat k) + (1 # 2))%Q.

Lemma half_pos k : (0 < half k)%Q.
Proof. unfold half. assert (0 <= inject_Z (Z.of_nat k))%Q by (change 0%Q with (inject_Z 0); rewrite <- Zle_Qle; lia). lra. Qed.

Section Coordinates.
Variable rnd : Q -> Q.

Definition whole (n1 n2 k : nat) : bool :=
  Qeq_bool (coordinate rnd n1 n2 k) (inject_Z (Qfloor (coordinate rnd n1 n2 k))).
Definition floor (n1 n2 k : nat) : Z := Qfloor (coordinate rnd n1 n2 k).

Lemma coordinates_eq n1 n2 : n1 <= n2 -> 0 < n2 ->
  distance_coordinates rnd n1 n2 =
  let I := filter (whole n1 n2) (seq 0 n2) in
  let N := filter (fun k => negb (whole n1 n2 k)) (seq 0 n2) in
  Ok (map (fun i => i - 1)%Z (map (floor n1 n2) I) ++ map (floor n1 n2) I, I ++ I, map (floor n1 n2) N, N).
Proof.
  intros H1 H2. unfold distance_coordinates. destruct (Nat.ltb_spec n2 n1); [lia|]. destruct (Nat.eqb_spec n2 0); [lia|].
  rewrite !map_map, combine_map, !map_map. cbn [fst snd]. unfold np_where.
  change (map (fun x => Qeq_bool (coordinate rnd n1 n2 x) (inject_Z (Qfloor (coordinate rnd n1 n2 x)))) (seq 0 n2)) with (map (whole n1 n2) (seq 0 n2)).
  change (map (fun x => negb (Qeq_bool (coordinate rnd n1 n2 x) (inject_Z (Qfloor (coordinate rnd n1 n2 x))))) (seq 0 n2)) with (map (fun k => negb (whole n1 n2 k)) (seq 0 n2)).
  change (map (fun x => Qfloor (coordinate rnd n1 n2 x)) (seq 0 n2)) with (map (floor n1 n2) (seq 0 n2)).
  rewrite !where_filter.
  assert (L : forall g k, In k (filter g (seq 0 n2)) -> k < n2) by (intros g k Hk; apply filter_In in Hk; destruct Hk as [Hk _]; apply in_seq in Hk; lia).
  assert (G : forall l, (forall k, In k l -> k < n2) -> gather (seq 0 n2) l = Ok l).
  { intros l Hl. rewrite <- (map_id (seq 0 n2)). rewrite gather_seq by exact Hl. rewrite map_id. reflexivity. }
  rewrite !gather_seq by (apply L). cbn [bind]. rewrite !G by (apply L). cbn [bind]. cbv zeta. rewrite ?map_map. reflexivity.
Qed.

Hypothesis Hr : precise rnd.

Lemma precise_bounds q : (0 < q)%Q -> (q * (1 - (1 # 2 ^ 53)) <= rnd q <= q * (1 + (1 # 2 ^ 53)))%Q.
Proof.
  intros Hq. pose proof (Hr q Hq) as H. apply Qabs_Qle_condition in H. lra.
Qed.

Variables n1 n2 : nat.
Hypothesis H1 : 0 < n1.
Hypothesis H12 : n1 <= n2.
Hypothesis H2 : (Z.of_nat n2 <= 2 ^ 50)%Z.

Lemma ratio_pos : (0 < inject_Z (Z.of_nat n1) / inject_Z (Z.of_nat n2))%Q.
Proof.
  apply Qlt_shift_div_l.
  - change 0%Q with (inject_Z 0). rewrite <- Zlt_Qlt. lia.
  - rewrite Qmult_0_l. change 0%Q with (inject_Z 0). rewrite <- Zlt_Qlt. lia.
Qed.

Lemma n2_bound : (inject_Z (Z.of_nat n2) <= inject_Z (2 ^ 50))%Q.
Proof. rewrite <- Zle_Qle. exact H2. Qed.

Lemma half_bound k : k < n2 -> (half k <= inject_Z (Z.of_nat n2) - (1 # 2))%Q.
Proof.
  intros Hk. unfold half. assert (inject_Z (Z.of_nat k) + 1 <= inject_Z (Z.of_nat n2))%Q.
  { change 1%Q with (inject_Z 1). rewrite <- inject_Z_plus, <- Zle_Qle. lia. } lra.
Qed.

Lemma rate_bounds : exists r, rnd (inject_Z (Z.of_nat n1) / inject_Z (Z.of_nat n2)) = r /\ (0 < r)%Q /\
  (r * inject_Z (Z.of_nat n2) <= inject_Z (Z.of_nat n1) * (1 + (1 # 2 ^ 53)))%Q.
Proof.
  eexists. split; [reflexivity|]. pose proof ratio_pos as P. pose proof (precise_bounds _ P) as [B1 B2].
  set (q := (inject_Z (Z.of_nat n1) / inject_Z (Z.of_nat n2))%Q) in *.
  assert (Hn2 : (0 < inject_Z (Z.of_nat n2))%Q) by (change 0%Q with (inject_Z 0); rewrite <- Zlt_Qlt; lia).
  assert (Hq : (q * inject_Z (Z.of_nat n2) == inject_Z (Z.of_nat n1))%Q) by (unfold q; field; lra).
  split.
  - assert (0 < q * (1 - (1 # 2 ^ 53)))%Q by (apply Qmult_lt_0_compat; [exact P|reflexivity]). lra.
  - rewrite <- Hq. setoid_replace (q * inject_Z (Z.of_nat n2) * (1 + (1 # 2 ^ 53)))%Q with ((q * (1 + (1 # 2 ^ 53))) * inject_Z (Z.of_nat n2))%Q by ring.
    apply Qmult_le_compat_r; lra.
Qed.

Lemma coordinate_bounds k : k < n2 -> (0 < coordinate rnd n1 n2 k)%Q /\ (coordinate rnd n1 n2 k < inject_Z (Z.of_nat n1))%Q.
Proof.
  intros Hk. unfold coordinate. fold (half k). destruct rate_bounds as (r & -> & Pr & Br).
  pose proof (half_pos k) as Ph. pose proof (half_bound k Hk) as Bh. pose proof n2_bound as Bn.
  assert (P : (0 < r * half k)%Q) by (apply Qmult_lt_0_compat; assumption).
  pose proof (precise_bounds _ P) as [B1 B2]. set (p := rnd (r * half k)) in *. split.
  - assert (0 < r * half k * (1 - (1 # 2 ^ 53)))%Q by (apply Qmult_lt_0_compat; [exact P|reflexivity]). lra.
  - assert (Hn1 : (0 < inject_Z (Z.of_nat n1))%Q) by (change 0%Q with (inject_Z 0); rewrite <- Zlt_Qlt; lia).
    assert (Hn2 : (0 < inject_Z (Z.of_nat n2))%Q) by (change 0%Q with (inject_Z 0); rewrite <- Zlt_Qlt; lia).
    apply Qle_lt_trans with (r * half k * (1 + (1 # 2 ^ 53)))%Q; [exact B2|].
    apply (Qmult_lt_r _ _ (inject_Z (Z.of_nat n2)) Hn2).
    apply Qle_lt_trans with (inject_Z (Z.of_nat n1) * ((1 + (1 # 2 ^ 53)) * (1 + (1 # 2 ^ 53)) * half k))%Q.
    + setoid_replace (r * half k * (1 + (1 # 2 ^ 53)) * inject_Z (Z.of_nat n2))%Q with
        ((r * inject_Z (Z.of_nat n2)) * (half k * (1 + (1 # 2 ^ 53))))%Q by ring.
      setoid_replace (inject_Z (Z.of_nat n1) * ((1 + (1 # 2 ^ 53)) * (1 + (1 # 2 ^ 53)) * half k))%Q with
        ((inject_Z (Z.of_nat n1) * (1 + (1 # 2 ^ 53))) * (half k * (1 + (1 # 2 ^ 53))))%Q by ring.
      apply Qmult_le_compat_r; [exact Br|]. apply Qlt_le_weak. apply Qmult_lt_0_compat; [exact Ph|reflexivity].
    + apply Qmult_lt_l; [exact Hn1|]. change (inject_Z (2 ^ 50)) with (1125899906842624 # 1) in Bn. change (1 # 2 ^ 53) with (1 # 9007199254740992) in *.
      set (N := inject_Z (Z.of_nat n2)) in *. set (h := half k) in *. clearbody N h. lra.
Qed.

Lemma coordinate_increases k k' : k < k' -> k' < n2 -> (coordinate rnd n1 n2 k < coordinate rnd n1 n2 k')%Q.
Proof.
  intros Hk Hk'. unfold coordinate. fold (half k) (half k'). destruct rate_bounds as (r & -> & Pr & Br).
  pose proof (half_pos k) as Ph. pose proof (half_pos k') as Ph'. pose proof (half_bound k' Hk') as Bh. pose proof n2_bound as Bn.
  assert (Hs : (half k + 1 <= half k')%Q).
  { unfold half. assert (inject_Z (Z.of_nat k) + 1 <= inject_Z (Z.of_nat k'))%Q; [|lra].
    change 1%Q with (inject_Z 1). rewrite <- inject_Z_plus, <- Zle_Qle. lia. }
  assert (P : (0 < r * half k)%Q) by (apply Qmult_lt_0_compat; assumption).
  assert (P' : (0 < r * half k')%Q) by (apply Qmult_lt_0_compat; assumption).
  pose proof (precise_bounds _ P) as [_ B2]. pose proof (precise_bounds _ P') as [B1 _].
  apply Qle_lt_trans with (1 := B2). apply Qlt_le_trans with (2 := B1).
  setoid_replace (r * half k * (1 + (1 # 2 ^ 53)))%Q with (r * (half k * (1 + (1 # 2 ^ 53))))%Q by ring.
  setoid_replace (r * half k' * (1 - (1 # 2 ^ 53)))%Q with (r * (half k' * (1 - (1 # 2 ^ 53))))%Q by ring.
  apply Qmult_lt_l; [exact Pr|].
  change (inject_Z (2 ^ 50)) with (1125899906842624 # 1) in Bn. change (1 # 2 ^ 53) with (1 # 9007199254740992) in *.
  set (N := inject_Z (Z.of_nat n2)) in *. set (h := half k) in *. set (h' := half k') in *. clearbody N h h'. lra.
Qed.

(** The frames matched with frame [k]. *)
Definition matched (k : nat) : list nat :=
  let i := Z.to_nat (floor n1 n2 k) in
  if whole n1 n2 k then [i - 1; i] else [i].

Lemma floor_bounds k : k < n2 -> (0 <= floor n1 n2 k < Z.of_nat n1)%Z /\ (whole n1 n2 k = true -> (1 <= floor n1 n2 k)%Z).
Proof.
  intros Hk. destruct (coordinate_bounds k Hk) as [B1 B2]. unfold floor, whole. set (c := coordinate rnd n1 n2 k) in *.
  pose proof (Qfloor_le c) as F1. pose proof (Qlt_floor c) as F2. split; [split|].
  - assert (-1 < Qfloor c)%Z; [|lia]. rewrite Zlt_Qlt. rewrite inject_Z_plus in F2. change (inject_Z 1) with 1%Q in F2. change (inject_Z (-1)) with (-1)%Q. lra.
  - rewrite Zlt_Qlt. lra.
  - intros E. apply Qeq_bool_iff in E. assert (0 < Qfloor c)%Z; [|lia]. rewrite Zlt_Qlt. rewrite <- E. exact B1.
Qed.

Lemma matched_spec k : k < n2 -> exists i, (matched k = [i] \/ matched k = [i; S i]) /\ forall i', In i' (matched k) -> i' < n1.
Proof.
  intros Hk. destruct (floor_bounds k Hk) as [B1 B2]. unfold matched. destruct (whole n1 n2 k).
  - specialize (B2 eq_refl). exists (Z.to_nat (floor n1 n2 k) - 1). split.
    + right. do 2 f_equal. lia.
    + intros i' [<-|[<-|[]]]; lia.
  - exists (Z.to_nat (floor n1 n2 k)). split; [auto|]. intros i' [<-|[]]. lia.
Qed.

Lemma matched_order k k' i i' : k < k' -> k' < n2 -> In i (matched k) -> In i' (matched k') -> i <= i'.
Proof.
  intros Hk Hk' Hi Hi'. pose proof (coordinate_increases k k' Hk Hk') as M. destruct (floor_bounds k ltac:(lia)) as [B1 B2].
  destruct (floor_bounds k' Hk') as [B1' B2'].
  assert (Hi0 : i <= Z.to_nat (floor n1 n2 k)).
  { unfold matched in Hi. destruct (whole n1 n2 k); [destruct Hi as [<-|[<-|[]]]; lia|destruct Hi as [<-|[]]; lia]. }
  assert (Hfl : (floor n1 n2 k <= floor n1 n2 k')%Z) by (apply Qfloor_resp_le; lra).
  unfold matched in Hi'. destruct (whole n1 n2 k') eqn:W'; [|destruct Hi' as [<-|[]]; lia].
  assert (Hlt : (floor n1 n2 k < floor n1 n2 k')%Z).
  { unfold whole in W'. apply Qeq_bool_iff in W'. unfold floor. rewrite Zlt_Qlt. rewrite <- W'.
    apply Qle_lt_trans with (coordinate rnd n1 n2 k); [apply Qfloor_le|exact M]. }
  destruct Hi' as [<-|[<-|[]]]; lia.
Qed.

Lemma matching_ok : matching n1 n2 (map matched (seq 0 n2)).
Proof.
  constructor.
  - rewrite map_length, seq_length. reflexivity.
  - apply Forall_forall. intros frames Hf. apply in_map_iff in Hf. destruct Hf as (k & <- & Hk). apply in_seq in Hk.
    destruct (matched_spec k ltac:(lia)) as (i & Hi & _). exists i. exact Hi.
  - intros i Hi. apply in_concat in Hi. destruct Hi as (frames & Hf & Hi). apply in_map_iff in Hf.
    destruct Hf as (k & <- & Hk). apply in_seq in Hk. destruct (matched_spec k ltac:(lia)) as (i0 & _ & Hi0). apply Hi0. exact Hi.
  - assert (G : forall n a, a + n <= n2 -> StronglySorted le (concat (map matched (seq a n)))).
    { induction n as [|n IH]; intros a Ha; [constructor|]. cbn [seq map concat].
      assert (Hrest : forall i i', In i (matched a) -> In i' (concat (map matched (seq (S a) n))) -> i <= i').
      { intros i i' Hi Hi'. apply in_concat in Hi'. destruct Hi' as (frames & Hf & Hi'). apply in_map_iff in Hf.
        destruct Hf as (k & <- & Hk). apply in_seq in Hk. apply (matched_order a k i i'); auto; lia. }
      specialize (IH (S a) ltac:(lia)). destruct (matched_spec a ltac:(lia)) as (i & [E|E] & _); rewrite E in *; cbn [app].
      - constructor; [exact IH|]. apply Forall_forall. intros i' Hi'. apply Hrest; [left; reflexivity|exact Hi'].
      - constructor.
        + constructor; [exact IH|]. apply Forall_forall. intros i' Hi'. apply Hrest; [right; left; reflexivity|exact Hi'].
        + constructor; [lia|]. apply Forall_forall. intros i' Hi'. apply Hrest; [left; reflexivity|exact Hi']. }
    apply G. lia.
Qed.

Variable F : Type.
Variables x y : list F.
Hypothesis Hx : length x = n1.
Hypothesis Hy : length y = n2.
Variable delta : F -> F -> Q.

Lemma frame_ok (z : list F) i : i < length z -> exists a, frame z (Z.of_nat i) = Ok a /\ nth_error z i = Some a.
Proof.
  intros Hi. destruct (nth_error z i) as [a|] eqn:E; [|apply nth_error_None in E; lia]. exists a. split; [|reflexivity].
  unfold frame. destruct (Z.ltb_spec (Z.of_nat i) (- Z.of_nat (length z))); [lia|]. destruct (Z.leb_spec (Z.of_nat (length z)) (Z.of_nat i)); [lia|].
  cbn [orb]. destruct (Z.ltb_spec (Z.of_nat i) 0); [lia|]. rewrite Nat2Z.id. apply nth_res_ok. exact E.
Qed.

(** The distance of frames [i] and [j]. *)
Definition dist (i j : nat) : Q :=
  match nth_error x i, nth_error y j with Some a, Some b => delta a b | _, _ => 0 end.

Lemma frames_ok (f : nat -> nat) (div : list F -> list F -> res (list Q)) l : framewise delta div -> (forall k, In k l -> k < n2 /\ f k < n1) ->
  (xs <- mapM (frame x) (map (fun k => Z.of_nat (f k)) l) ;; ys <- mapM (fun j => frame y (Z.of_nat j)) l ;; div xs ys)
  = Ok (map (fun k => dist (f k) k) l).
Proof.
  intros Hd Hl.
  assert (E : exists xs ys, mapM (frame x) (map (fun k => Z.of_nat (f k)) l) = Ok xs /\ mapM (fun j => frame y (Z.of_nat j)) l = Ok ys /\
     length xs = length ys /\ map (fun p => delta (fst p) (snd p)) (combine xs ys) = map (fun k => dist (f k) k) l).
  { induction l as [|k l IH]; [exists [], []; repeat split|]. destruct IH as (xs & ys & E1 & E2 & L & E3).
    { intros k' Hk'. apply Hl. right. exact Hk'. }
    destruct (Hl k (or_introl eq_refl)) as [Hk Hf]. destruct (frame_ok x (f k) ltac:(lia)) as (a & Ea & Na).
    destruct (frame_ok y k ltac:(lia)) as (b & Eb & Nb). exists (a :: xs), (b :: ys). cbn [map mapM]. rewrite Ea, Eb, E1, E2. cbn [bind].
    split; [reflexivity|]. split; [reflexivity|]. split; [cbn; congruence|]. cbn [combine map fst snd]. rewrite E3. f_equal.
    unfold dist. rewrite Na, Nb. reflexivity. }
  destruct E as (xs & ys & -> & -> & L & E3). cbn [bind]. rewrite (Hd xs ys L). f_equal. exact E3.
Qed.

Lemma mapM_app' {A B} (f : A -> res B) l l' m m' : mapM f l = Ok m -> mapM f l' = Ok m' -> mapM f (l ++ l') = Ok (m ++ m').
Proof.
  revert m. induction l as [|a l IH]; intros m E E'; cbn in *; [injection E as <-; exact E'|].
  destruct (f a); cbn in *; [|discriminate]. destruct (mapM f l); cbn in *; [|discriminate]. injection E as <-. rewrite (IH _ eq_refl E'). reflexivity.
Qed.

Lemma utw_short (div : list F -> list F -> res (list Q)) : framewise delta div ->
  exists v, utw rnd x y div = Ok v /\
    (v == sum (map (fun p => mean_distance delta x (fst p) (snd p)) (combine (map matched (seq 0 n2)) y)))%Q.
Proof.
  intros Hd. unfold utw. destruct (Nat.ltb_spec (length y) (length x)); [lia|]. rewrite Hx, Hy.
  rewrite (coordinates_eq n1 n2 H12 ltac:(lia)). cbv zeta. cbn [bind].
  set (I := filter (whole n1 n2) (seq 0 n2)). set (N := filter (fun k => negb (whole n1 n2 k)) (seq 0 n2)).
  set (fl := fun k => Z.to_nat (floor n1 n2 k)).
  assert (HI : forall k, In k I -> k < n2 /\ whole n1 n2 k = true) by (intros k Hk; apply filter_In in Hk; rewrite in_seq in Hk; split; [lia|tauto]).
  assert (HN : forall k, In k N -> k < n2 /\ whole n1 n2 k = false).
  { intros k Hk. apply filter_In in Hk. rewrite in_seq in Hk. split; [lia|]. destruct (whole n1 n2 k); [destruct Hk; discriminate|reflexivity]. }
  assert (EI : map (floor n1 n2) I = map (fun k => Z.of_nat (fl k)) I).
  { apply map_ext_in. intros k Hk. destruct (floor_bounds k (proj1 (HI k Hk))) as [B _]. unfold fl. lia. }
  assert (EI' : map (fun i => i - 1)%Z (map (floor n1 n2) I) = map (fun k => Z.of_nat (fl k - 1)) I).
  { rewrite map_map. apply map_ext_in. intros k Hk. destruct (floor_bounds k (proj1 (HI k Hk))) as [B B']. specialize (B' (proj2 (HI k Hk))). unfold fl. lia. }
  assert (EN : map (floor n1 n2) N = map (fun k => Z.of_nat (fl k)) N).
  { apply map_ext_in. intros k Hk. destruct (floor_bounds k (proj1 (HN k Hk))) as [B _]. unfold fl. lia. }
  rewrite EI', EI, EN.
  assert (Bfl : forall k, k < n2 -> fl k < n1) by (intros k Hk; destruct (floor_bounds k Hk) as [B _]; unfold fl; lia).
  assert (Eh : exists h, (if 0 <? length (map (fun k => Z.of_nat (fl k - 1)) I ++ map (fun k => Z.of_nat (fl k)) I) then
       xs <- mapM (frame x) (map (fun k => Z.of_nat (fl k - 1)) I ++ map (fun k => Z.of_nat (fl k)) I) ;;
       ys <- mapM (fun j => frame y (Z.of_nat j)) (I ++ I) ;;
       ds <- div xs ys ;; Ok (sumQ ds / 2)%Q else Ok 0%Q) = Ok h /\
     (h == sum (map (fun k => (dist (fl k - 1) k + dist (fl k) k) / 2) I))%Q).
  { pose proof (frames_ok (fun k => fl k - 1) div I Hd) as F1. pose proof (frames_ok fl div I Hd) as F2.
    specialize (F1 ltac:(intros k Hk; pose proof (proj1 (HI k Hk)) as Hk'; pose proof (Bfl k Hk'); cbv beta; lia)).
    specialize (F2 ltac:(intros k Hk; pose proof (proj1 (HI k Hk)) as Hk'; pose proof (Bfl k Hk'); lia)). cbv beta in F1.
    destruct (mapM (frame x) (map (fun k => Z.of_nat (fl k - 1)) I)) as [x1|] eqn:E1; [|discriminate]. cbn [bind] in F1.
    destruct (mapM (frame x) (map (fun k => Z.of_nat (fl k)) I)) as [x2|] eqn:E2; [|discriminate]. cbn [bind] in F2.
    destruct (mapM (fun j => frame y (Z.of_nat j)) I) as [y1|] eqn:E3; [|discriminate]. cbn [bind] in F1, F2.
    assert (L1 : length x1 = length y1) by (rewrite (mapM_length _ _ E1), (mapM_length _ _ E3), map_length; reflexivity).
    assert (L2 : length x2 = length y1) by (rewrite (mapM_length _ _ E2), (mapM_length _ _ E3), map_length; reflexivity).
    rewrite (Hd _ _ L1) in F1. rewrite (Hd _ _ L2) in F2. injection F1 as F1. injection F2 as F2.
    destruct (Nat.ltb_spec 0 (length (map (fun k => Z.of_nat (fl k - 1)) I ++ map (fun k => Z.of_nat (fl k)) I))) as [_|Hz].
    - rewrite (mapM_app' _ _ _ _ _ E1 E2), (mapM_app' _ _ _ _ _ E3 E3). cbn [bind].
      rewrite Hd by (rewrite !app_length; lia). cbn [bind]. eexists. split; [reflexivity|]. change (@sumQ) with (@sum).
      rewrite <- sum_half. rewrite <- sum_plus. apply Qdiv_comp; [|reflexivity]. rewrite <- F1, <- F2. rewrite <- sum_app.
      rewrite combine_app' by exact L1. rewrite map_app. reflexivity.
    - rewrite app_length, !map_length in Hz. assert (I = []) as E0 by (apply length_zero_iff_nil; lia). rewrite E0.
      eexists. split; [reflexivity|]. reflexivity. }
  destruct Eh as (h & -> & Hh). cbn [bind].
  assert (Ew : exists w, (if 0 <? length (map (fun k => Z.of_nat (fl k)) N) then
       xs <- mapM (frame x) (map (fun k => Z.of_nat (fl k)) N) ;;
       ys <- mapM (fun j => frame y (Z.of_nat j)) N ;;
       ds <- div xs ys ;; Ok (sumQ ds)%Q else Ok 0%Q) = Ok w /\ (w == sum (map (fun k => dist (fl k) k) N))%Q).
  { pose proof (frames_ok fl div N Hd) as F1.
    specialize (F1 ltac:(intros k Hk; pose proof (proj1 (HN k Hk)) as Hk'; pose proof (Bfl k Hk'); lia)).
    destruct (Nat.ltb_spec 0 (length (map (fun k => Z.of_nat (fl k)) N))) as [_|Hz].
    - destruct (mapM (frame x) (map (fun k => Z.of_nat (fl k)) N)) as [x1|] eqn:E1; [|discriminate]. cbn [bind] in F1 |- *.
      destruct (mapM (fun j => frame y (Z.of_nat j)) N) as [y1|] eqn:E3; [|discriminate]. cbn [bind] in F1 |- *.
      rewrite F1. cbn [bind]. eexists. split; [reflexivity|]. reflexivity.
    - rewrite map_length in Hz. assert (N = []) as E0 by (apply length_zero_iff_nil; lia). rewrite E0.
      eexists. split; [reflexivity|]. reflexivity. }
  destruct Ew as (w & -> & Hw). cbn [bind]. eexists. split; [reflexivity|].
  rewrite Hh, Hw.
  set (g := fun k => if whole n1 n2 k then ((dist (fl k - 1) k + dist (fl k) k) / 2)%Q else dist (fl k) k).
  rewrite (sum_ext _ g I) by (intros k Hk; unfold g; rewrite (proj2 (HI k Hk)); reflexivity).
  rewrite (sum_ext _ g N) by (intros k Hk; unfold g; rewrite (proj2 (HN k Hk)); reflexivity).
  unfold I, N. rewrite Qplus_0_l, sum_split.
  assert (Ey : forall d, y = map (fun k => nth k y d) (seq 0 n2)) by (intros d; rewrite <- Hy; symmetry; apply map_nth_seq).
  destruct y as [|b0 y'] eqn:Eyy; [cbn in Hy; lia|]. rewrite <- Eyy in *. rewrite (Ey b0) at 1. rewrite combine_map, map_map. cbn [fst snd].
  apply sum_ext. intros k Hk. apply in_seq in Hk. unfold g, matched, mean_distance. fold (fl k).
  destruct (floor_bounds k ltac:(lia)) as [B B'].
  assert (D : forall i, i < n1 -> exists a, nth_error x i = Some a /\ dist i k = delta a (nth k y b0)).
  { intros i Hi. destruct (frame_ok x i ltac:(lia)) as (a & _ & Ea). exists a. split; [exact Ea|]. unfold dist. rewrite Ea.
    rewrite (nth_error_nth' y b0) by lia. reflexivity. }
  destruct (D (fl k) (Bfl k ltac:(lia))) as (a & Ea & Da). destruct (whole n1 n2 k).
  - destruct (D (fl k - 1) ltac:(pose proof (Bfl k ltac:(lia)); lia)) as (a' & Ea' & Da'). cbn [flat_map length]. rewrite Ea, Ea', Da, Da'. cbn [app sum fold_right].
    change (inject_Z (Z.of_nat 2)) with 2%Q. field.
  - cbn [flat_map length]. rewrite Ea, Da. cbn [app sum fold_right]. change (inject_Z (Z.of_nat 1)) with 1%Q. field.
Qed.

End Coordinates.
