(** Runs of equal keys: what [unique] computes. *)
From Coq Require Import String.
From Coq Require Import List ZArith QArith Lia Sorted Permutation.
From Verif Require Import Prelude ListFacts Analyze Analyze_spec.
Import ListNotations.
Local Open Scope Z_scope.
Local Open Scope list_scope.

(** The keys that follow each other and their scores. *)
Fixpoint group_runs (l : list (Z * Z)) : list (Z * list Z) :=
  match l with
  | [] => []
  | (x, s) :: l' =>
    match group_runs l' with
    | [] => [(x, [s])]
    | (y, ss) :: r => if x =? y then (y, s :: ss) :: r else (x, [s]) :: (y, ss) :: r
    end
  end.

Fixpoint scan (i : nat) (r : list (Z * list Z)) : list nat :=
  match r with
  | [] => [i]
  | (_, ss) :: r' => i :: scan (i + length ss) r'
  end.

Lemma group_runs_head x s l : exists ss r, group_runs ((x, s) :: l) = (x, s :: ss) :: r.
Proof.
  cbn. destruct (group_runs l) as [|[y ss] r]; [eexists _, _; reflexivity|].
  destruct (Z.eqb_spec x y) as [->|]; eexists _, _; reflexivity.
Qed.

Lemma scan_hd i r : exists t, scan i r = i :: t.
Proof. destruct r as [|[v ss] r]; eexists; reflexivity. Qed.

Lemma where_runs l : forall x s i,
  where_from i (true :: differs (map fst ((x, s) :: l)) ++ [true]) = scan i (group_runs ((x, s) :: l)).
Proof.
  induction l as [|[y t] l IH]; intros x s i; [cbn; f_equal; f_equal; lia|].
  specialize (IH y t (S i)).
  assert (D : differs (map fst ((x, s) :: (y, t) :: l)) = negb (y =? x) :: differs (map fst ((y, t) :: l))) by reflexivity.
  rewrite D. cbn [app]. remember (differs (map fst ((y, t) :: l)) ++ [true]) as rest.
  destruct (group_runs_head y t l) as (ss & r & G). rewrite G in IH.
  cbn [where_from] in IH |- *. cbn [scan] in IH. injection IH as IH.
  cbn [group_runs] in G |- *. rewrite G. rewrite Z.eqb_sym.
  destruct (Z.eqb_spec x y) as [->|N]; cbn [negb]; cbn [scan].
  - rewrite IH. f_equal. cbn [length]. f_equal. lia.
  - rewrite IH. f_equal. cbn [length]. replace (i + 1)%nat with (S i) by lia. reflexivity.
Qed.

Lemma steps_scan r : forall i, steps (scan i r) = map (fun g => length (snd g)) r.
Proof.
  induction r as [|[v ss] r IH]; intros i; [reflexivity|]. cbn [map snd]. rewrite <- (IH (i + length ss)%nat).
  cbn [scan]. destruct (scan_hd (i + length ss) r) as (t & E). rewrite E. unfold steps.
  cbn [tl removelast combine map fst snd].
  destruct t as [|b t]; cbn [combine map fst snd]; f_equal; try lia.
Qed.

Lemma group_runs_concat l : concat (map (fun g => map (fun s => (fst g, s)) (snd g)) (group_runs l)) = l.
Proof.
  induction l as [|[x s] l IH]; [reflexivity|]. cbn [group_runs].
  destruct (group_runs l) as [|[y ss] r]; cbn in IH |- *; [subst; reflexivity|].
  destruct (Z.eqb_spec x y) as [->|]; cbn; rewrite <- IH; reflexivity.
Qed.

Lemma group_runs_nonempty l : Forall (fun g => snd g <> []) (group_runs l).
Proof.
  induction l as [|[x s] l IH]; [constructor|]. cbn [group_runs].
  destruct (group_runs l) as [|[y ss] r]; [repeat constructor; discriminate|].
  inversion IH; subst. destruct (x =? y); constructor; auto; cbn; discriminate.
Qed.

Lemma removelast_scan r i : removelast (scan i r) = firstn (length r) (scan i r).
Proof.
  revert i. induction r as [|[v ss] r IH]; intros i; [reflexivity|].
  cbn [scan length firstn]. rewrite <- IH. destruct (scan_hd (i + length ss) r) as (t & E).
  rewrite E. reflexivity.
Qed.

Lemma starts_values r : Forall (fun g => snd g <> []) r -> forall pre,
  gather (pre ++ concat (map (fun g => map (fun _ => fst g) (snd g)) r))
         (removelast (scan (length pre) r)) = Ok (map (@fst Z (list Z)) r).
Proof.
  intros F. induction r as [|[v ss] r IH]; intros pre; [reflexivity|].
  inversion F as [|? ? Hs F']; subst. cbn [snd] in Hs. cbn [map fst snd concat].
  assert (R : removelast (scan (length pre) ((v, ss) :: r)) = length pre :: removelast (scan (length pre + length ss) r)).
  { cbn [scan]. destruct (scan_hd (length pre + length ss) r) as (t & E). rewrite E. reflexivity. }
  rewrite R. unfold gather. cbn [mapM]. destruct ss as [|s ss]; [congruence|].
  assert (N : nth_res (pre ++ map (fun _ : Z => v) (s :: ss) ++ concat (map (fun g => map (fun _ => fst g) (snd g)) r)) (length pre) = Ok v).
  { apply nth_res_ok. rewrite nth_error_app2, Nat.sub_diag by lia. reflexivity. }
  rewrite N. cbn [bind]. specialize (IH F' (pre ++ map (fun _ => v) (s :: ss))).
  rewrite <- app_assoc, app_length, map_length in IH. unfold gather in IH. rewrite IH. reflexivity.
Qed.

Lemma means_runs r : forall pre,
  means_from (length pre) (map (fun g => length (snd g)) r) (pre ++ concat (map (@snd Z (list Z)) r))
  = map (fun g => mean (snd g)) r.
Proof.
  induction r as [|[v ss] r IH]; intros pre; [reflexivity|]. cbn [map snd concat means_from]. f_equal.
  - f_equal. unfold slice. replace (length pre + length ss - length pre)%nat with (length ss) by lia.
    rewrite skipn_app, skipn_all, Nat.sub_diag. cbn [app skipn].
    rewrite firstn_app, Nat.sub_diag, firstn_all, firstn_O, app_nil_r. reflexivity.
  - specialize (IH (pre ++ ss)). rewrite app_length, <- app_assoc in IH. exact IH.
Qed.

Lemma unique_runs l : l <> [] ->
  unique (map fst l) (map snd l) =
  Ok (map (fun g => (mean (snd g) + 1) / 2)%Q (group_runs l), map fst (group_runs l),
      map (fun g => length (snd g)) (group_runs l)).
Proof.
  intros Hl. destruct l as [|[x s] l]; [congruence|]. unfold unique, np_where.
  rewrite where_runs. set (r := group_runs ((x, s) :: l)).
  pose proof (group_runs_concat ((x, s) :: l)) as C. fold r in C.
  pose proof (group_runs_nonempty ((x, s) :: l)) as F. fold r in F.
  rewrite steps_scan.
  assert (K : map fst ((x, s) :: l) = concat (map (fun g => map (fun _ => fst g) (snd g)) r)).
  { rewrite <- C, concat_map, map_map. f_equal. apply map_ext. intros g. rewrite map_map. reflexivity. }
  assert (S : map snd ((x, s) :: l) = concat (map (@snd Z (list Z)) r)).
  { rewrite <- C, concat_map, map_map. f_equal. apply map_ext. intros g. rewrite map_map. cbn. apply map_id. }
  pose proof (starts_values r F []) as V. cbn [app length] in V. rewrite K, V. cbn [bind].
  pose proof (means_runs r []) as M. cbn [app length] in M. rewrite S, M, map_map. reflexivity.
Qed.

(** On sorted keys the runs are the groups of equal keys. *)
Lemma group_runs_sorted l : StronglySorted Z.le (map fst l) ->
  StronglySorted Z.lt (map fst (group_runs l)) /\
  (forall v, In v (map fst (group_runs l)) <-> In v (map fst l)) /\
  (forall v ss, In (v, ss) (group_runs l) -> ss = map snd (filter (fun p => v =? fst p) l)).
Proof.
  induction l as [|[x s] l IH]; intros Hs; [split; [constructor|split; [reflexivity|intros ? ? []]]|].
  cbn [map fst] in Hs. inversion Hs as [|? ? Hs' Hx]; subst.
  destruct (IH Hs') as (I1 & I2 & I3). clear IH. cbn [group_runs].
  destruct (group_runs l) as [|[y ss] r] eqn:G.
  - assert (l = []) as ->.
    { destruct l as [|p l]; [reflexivity|]. exfalso. destruct (proj2 (I2 (fst p)) (or_introl eq_refl)). }
    split; [repeat constructor|]. split; [intros v; cbn; tauto|].
    intros v ss [E|[]]. injection E as <- <-. cbn [filter fst]. rewrite Z.eqb_refl. reflexivity.
  - cbn [map fst] in I1, I2. assert (Hy : In y (map fst l)) by (apply I2; left; reflexivity).
    pose proof (proj1 (Forall_forall _ _) Hx) as Hx'. pose proof (Hx' y Hy) as Hxy.
    inversion I1 as [|? ? I1' I1y]; subst. pose proof (proj1 (Forall_forall _ _) I1y) as I1y'.
    destruct (Z.eqb_spec x y) as [->|N].
    + split; [exact I1|]. split.
      * intros v. cbn [map fst In]. rewrite <- I2. cbn [In]. tauto.
      * intros v ss' [E|Hin].
        -- injection E as <- <-. cbn [filter fst]. rewrite Z.eqb_refl. cbn [map snd]. f_equal.
           apply I3. left. reflexivity.
        -- cbn [filter fst]. assert (y < v) by (apply I1y'; apply in_map_iff; exists (v, ss'); auto).
           destruct (Z.eqb_spec v y); [lia|]. apply I3. right. exact Hin.
    + assert (Hlt : x < y) by lia. split; [|split].
      * cbn [map fst]. constructor; [exact I1|]. constructor; [exact Hlt|].
        apply Forall_forall. intros z Hz. specialize (I1y' z Hz). lia.
      * intros v. cbn [map fst In]. rewrite <- I2. cbn [In]. tauto.
      * intros v ss' [E|Hin].
        -- injection E as <- <-. cbn [filter fst]. rewrite Z.eqb_refl. cbn [map snd]. f_equal.
           symmetry. rewrite filter_none; [reflexivity|]. intros p Hp. apply Z.eqb_neq.
           assert (In (fst p) (y :: map fst r)) as [E|E] by (apply I2, in_map, Hp); [lia|].
           specialize (I1y' _ E). lia.
        -- assert (y <= v).
           { destruct Hin as [E|Hin]; [injection E; lia|].
             assert (y < v) by (apply I1y'; apply in_map_iff; exists (v, ss'); auto). lia. }
           cbn [filter fst]. destruct (Z.eqb_spec v x); [lia|]. apply I3. exact Hin.
Qed.
