(** Filling, packing and querying lookup tables. *)
From Coq Require Import String.
From Coq Require Import List ZArith Lia Permutation Sorted.
From Verif Require Import Prelude ListFacts TypeFitting TypeFitting_proofs Distances H5io H5io_keys LookupTable LookupTable_spec LookupTable_keys.
Import ListNotations.
Local Open Scope Z_scope.
Local Open Scope list_scope.

Lemma mem_In s l : mem s l = true <-> In s l.
Proof.
  unfold mem. rewrite existsb_exists. split.
  - intros (x & I & E). apply String.eqb_eq in E. subst. exact I.
  - intros I. exists s. split; [exact I|apply String.eqb_refl].
Qed.

Lemma mem_false s l : mem s l = false <-> ~ In s l.
Proof. rewrite <- mem_In. destruct (mem s l); split; intros; congruence. Qed.

Lemma name_index_ok l : NoDup l -> forall i o, nth_error l i = Some o -> name_index o l = Ok i.
Proof.
  induction 1 as [|x l Hn N IH]; intros [|i] o E; try discriminate; cbn [name_index nth_error] in *.
  - injection E as ->. rewrite String.eqb_refl. reflexivity.
  - destruct (String.eqb_spec x o) as [->|D]; [exfalso; apply Hn; eapply nth_error_In; eauto|]. rewrite (IH _ _ E). reflexivity.
Qed.

Lemma set_nth_map A (l : list string) i o (a : A) (G : string -> A) : NoDup l -> nth_error l i = Some o ->
  set_nth i a (map G l) = map (fun o' => if String.eqb o' o then a else G o') l.
Proof.
  intros N. revert i. induction N as [|x l Hn N IH]; intros [|i] E; try discriminate; cbn [nth_error map] in *.
  - injection E as ->. unfold set_nth. cbn [firstn skipn app map]. rewrite String.eqb_refl. f_equal. apply map_ext_in.
    intros o' I. destruct (String.eqb_spec o' o) as [->|]; [contradiction|reflexivity].
  - destruct (String.eqb_spec x o) as [->|D]; [exfalso; apply Hn; eapply nth_error_In; eauto|].
    unfold set_nth. cbn [firstn skipn app]. f_equal. exact (IH i E).
Qed.

Lemma set_dset_map C (l : list string) o (v : nat * list (list C)) F :
  set_dset o v (map (fun o => (o, F o)) l) = map (fun o' => (o', if String.eqb o' o then v else F o')) l.
Proof.
  unfold set_dset. rewrite map_map. apply map_ext. intros o'. cbn [fst]. destruct (String.eqb_spec o' o) as [->|]; reflexivity.
Qed.

Lemma lookup_map A (l : list string) (F : string -> A) o : In o l -> lookup (map (fun o => (o, F o)) l) o = Ok (F o).
Proof.
  induction l as [|x l IH]; [intros []|]. cbn [map lookup]. intros H. destruct (String.eqb_spec x o) as [->|D]; [reflexivity|].
  apply IH. destruct H; [congruence|assumption].
Qed.

Lemma splice_end A (m v pad : list A) : length pad = length v -> splice (length m) v (m ++ pad) = m ++ v.
Proof.
  intros L. unfold splice. rewrite firstn_app, firstn_all, Nat.sub_diag. cbn [firstn]. rewrite app_nil_r.
  rewrite skipn_all2 by (rewrite app_length; lia). rewrite app_nil_r. reflexivity.
Qed.

Lemma broadcast_same A n d (m : list (list A)) a0 : length m = n -> Forall (fun r => length r = d) m -> broadcast n d d m a0 = Ok m.
Proof.
  intros L F. unfold broadcast. rewrite Nat.eqb_refl, L, Nat.eqb_refl. cbn [orb andb]. f_equal.
  transitivity (map (fun i => nth i m []) (seq 0 n)); [|rewrite <- L; apply map_nth_seq].
  apply map_ext_in. intros i Hi. apply in_seq in Hi. cbn in Hi.
  assert (Li : length (nth i m []) = d) by (apply (proj1 (Forall_forall _ _) F), nth_In; lia).
  replace (if (n =? 1)%nat then 0%nat else i) with i by (destruct (Nat.eqb_spec n 1); lia).
  transitivity (map (fun j => nth j (nth i m []) a0) (seq 0 d)); [|rewrite <- Li; apply map_nth_seq]. apply map_ext_in. intros j Hj. apply in_seq in Hj. cbn in Hj.
  f_equal. destruct (Nat.eqb_spec d 1); lia.
Qed.

Lemma searchsorted_present l v : StronglySorted Z.le l -> In v l -> nth_error l (searchsorted l v) = Some v.
Proof.
  induction 1 as [|x l H IH Hf]; [intros []|]. intros Hin. cbn. rewrite Forall_forall in Hf.
  destruct (Z.ltb_spec x v) as [Hx|Hx].
  - destruct Hin as [->|Hin]; [lia|]. exact (IH Hin).
  - destruct Hin as [->|Hin]; [reflexivity|]. apply Hf in Hin. cbn. f_equal. lia.
Qed.

Lemma searchsorted_end l v : searchsorted l v = length l <-> Forall (fun x => x < v) l.
Proof.
  induction l as [|x l IH]; [split; [constructor|reflexivity]|]. cbn. destruct (Z.ltb_spec x v) as [Hx|Hx].
  - split.
    + intros E. constructor; [exact Hx|]. apply IH. lia.
    + intros F. inversion F; subst. f_equal. apply IH. assumption.
  - split; [discriminate|]. intros F. inversion F; subst. lia.
Qed.

Lemma searchsorted_le l v : (searchsorted l v <= length l)%nat.
Proof. induction l as [|x l IH]; cbn; [lia|]. destruct (x <? v); lia. Qed.

Section Table.
Variables V C : Type.
Variable veq : forall x y : V, {x = y} + {x <> y}.
Variable c0 : C.
Variable as_int : C -> Z.
Variable argsort : list Z -> list nat.
Hypothesis Hsort : argsort_spec argsort.
Variable t0 : table V C.
Hypothesis N : new_table t0.
Variable ws : list nat.

Notation names := (t_out_names t0).
Notation iouts := (t_iouts t0).

Definition pos (o : string) : nat := match name_index o names with Ok i => i | Err _ => 0%nat end.
Definition wd (o : string) : nat := nth (pos o) ws 0%nat.
Definition out (o : string) (e : entry V C) : list C := nth (pos o) (e_out e) [].
Definition raws : list string := filter (fun o => negb (mem o iouts)) names.
Definition ints (o : string) (e : entry V C) : list Z := map as_int (out o e).
Definition irow (e : entry V C) : list Z := flat_map (fun o => ints o e) iouts.
Definition index (o : string) : list V := match lookup (t_indexes t0) o with Ok ix => ix | Err _ => [] end.
Definition ekey (e : entry V C) : Z := key V C veq t0 (e_in e).
Variable ty : itype.
Hypothesis Hty : fit_integer_type (maxZ (map (fun o => Z.of_nat (length (index o))) iouts)) false = Ok ty.

(** The table once it holds the entries. *)
Definition state (s : bool) (es : list (entry V C)) : table V C :=
  mk_table (t_indexed t0) false s (t_in_names t0) names (t_in_types t0) (t_indexes t0) (t_levels t0) iouts
    (Some (cumsum 0 (map wd iouts))) (map ekey es) (map (fun o => (o, (wd o, map (out o) es))) raws)
    (Some (ty, sumn (map wd iouts), map irow es)).

Lemma pos_ok o : In o names -> name_index o names = Ok (pos o) /\ nth_error names (pos o) = Some o.
Proof.
  intros I. destruct (In_nth_error _ _ I) as [i E]. unfold pos. rewrite (name_index_ok _ (n_names N) _ _ E). split; [reflexivity|exact E].
Qed.

Lemma index_ok o : In o iouts -> In (o, index o) (t_indexes t0) /\ lookup (t_indexes t0) o = Ok (index o).
Proof.
  intros I. destruct (n_known N o (or_intror I)) as (ix & H & _). pose proof (lookup_In _ _ _ _ (n_indexes N) H) as E.
  unfold index. rewrite E. split; [exact H|reflexivity].
Qed.

Lemma raws_In o : In o raws <-> In o names /\ ~ In o iouts.
Proof. unfold raws. rewrite filter_In, Bool.negb_true_iff, mem_false. reflexivity. Qed.

Notation ok := (entry_ok as_int t0 ws).

Lemma ok_width e o : ok e -> In o names -> (pos o < length ws)%nat -> length (out o e) = wd o.
Proof.
  intros (_ & E & _) I L. unfold out, wd. rewrite <- E in *. rewrite map_length in L.
  change 0%nat with (@length C []). rewrite map_nth. reflexivity.
Qed.

Section Fill.
Variable l : list (arr C).
Variable es : list (entry V C).
Hypothesis Hout : holds_outputs t0 ws l es.
Hypothesis Hok : Forall ok es.

Lemma given o : In o names -> exists a, nth_error l (pos o) = Some a /\ (pos o < length ws)%nat /\ holds_rows a (wd o) (map (out o) es) /\
  (In o iouts -> a = Mat (wd o) (map (out o) es)) /\ dim a = wd o /\ rows a = length es.
Proof.
  intros I. destruct (pos_ok o I) as [_ E]. destruct Hout as [Hl H]. destruct (H _ _ E) as (a & w & A & W & R & M).
  exists a. split; [exact A|]. assert (Lw : (pos o < length ws)%nat) by (apply nth_error_Some; congruence). split; [exact Lw|].
  assert (wd o = w) as -> by (unfold wd; apply nth_error_nth, W). split; [exact R|].
  assert (Rl : length (map (out o) es) = length es) by apply map_length. split; [|split].
  - intros Io. destruct (M Io) as [m ->]. cbn in R. destruct R as [_ R]. f_equal. symmetry. exact R.
  - destruct a as [v|w' m]; cbn in R |- *; destruct R; congruence.
  - destruct a as [v|w' m]; cbn in R |- *; destruct R as [? R].
    + rewrite <- (map_length (fun c => [c]) v), <- R. apply map_length.
    + rewrite <- R. apply map_length.
Qed.

Lemma out_rows o : In o names -> Forall (fun r => length r = wd o) (map (out o) es).
Proof.
  intros I. destruct (given o I) as (a & _ & L & _). apply Forall_forall. intros r Hr. apply in_map_iff in Hr. destruct Hr as (e & <- & He).
  apply ok_width; [exact (proj1 (Forall_forall _ _) Hok e He)|exact I|exact L].
Qed.

Lemma combine_given (f : string * arr C -> Prop) : (forall o a, In o names -> nth_error l (pos o) = Some a -> f (o, a)) -> Forall f (combine names l).
Proof.
  intros H. apply Forall_forall. intros [o a] I. destruct (in_combine_nth _ _ _ _ _ _ I) as (i & A & B).
  apply H; [eapply nth_error_In; eauto|]. unfold pos. rewrite (name_index_ok _ (n_names N) _ _ A). exact B.
Qed.

(** The datasets that are not indexed. *)
Lemma write_raw_ok old n (pl : list (string * arr C)) : forall (t : table V C) (F : string -> nat * list (list C)), t_iouts t = iouts ->
  t_data t = map (fun o => (o, F o)) raws -> n = length es -> NoDup (map fst pl) ->
  Forall (fun oa => In (fst oa) names /\ nth_error l (pos (fst oa)) = Some (snd oa)) pl ->
  (forall o, In o (map fst pl) -> fst (F o) = wd o /\ length (snd (F o)) = old) ->
  write_raw c0 old n t pl =
  (set_data (map (fun o => (o, if mem o (map fst pl) then (wd o, snd (F o) ++ map (out o) es) else F o)) raws) t, None).
Proof.
  induction pl as [|[o a] pl IH]; intros t F Hi Hd Hn Nd G HF.
  - cbn [write_raw map]. f_equal. destruct t; cbn in *. subst. reflexivity.
  - cbn [map fst] in Nd. inversion Nd as [|? ? Hnin Nd']; subst. inversion G as [|? ? [G1 G2] G']; subst. cbn [fst snd] in G1, G2.
    cbn [write_raw]. rewrite Hi. destruct (mem o iouts) eqn:Em.
    + rewrite (IH t F Hi Hd eq_refl Nd' G') by (intros o' I; apply HF; right; exact I). f_equal. f_equal. apply map_ext_in. intros o' I.
      f_equal. apply raws_In in I. destruct I as [_ I]. cbn [map fst]. unfold mem. cbn [existsb]. destruct (String.eqb_spec o' o) as [->|D]; [|reflexivity].
      apply mem_In in Em. contradiction.
    + assert (Ir : In o raws) by (apply raws_In; split; [exact G1|apply mem_false, Em]).
      rewrite Hd, (lookup_map _ _ F _ Ir). destruct (HF o (or_introl eq_refl)) as [F1 F2].
      destruct (F o) as [d m] eqn:EF. cbn [fst snd] in F1, F2. subst d. cbn [compute].
      destruct (given o G1) as (a' & A1 & _ & R & _ & _). assert (a' = a) as -> by congruence.
      assert (B : (match a with
               | Vec c => if (wd o =? 1)%nat then broadcast (length es) (wd o) 1 (map (fun x => [x]) c) c0
                          else broadcast (length es) (wd o) (length c) [c] c0
               | Mat w m' => broadcast (length es) (wd o) w m' c0
               end) = Ok (map (out o) es)).
      { pose proof (out_rows o G1) as Fr. destruct a as [v|w m']; cbn in R; destruct R as [R1 R2].
        - rewrite R1, Nat.eqb_refl. rewrite <- R2. rewrite <- R1. apply broadcast_same; [apply map_length|exact Fr].
        - subst w. rewrite <- R2. apply broadcast_same; [apply map_length|exact Fr]. }
      rewrite B. cbn [compute].
      assert (P : forall X, splice old (map (out o) es) (resized c0 (wd o) (old + length es) m) = X ->
                  X = m ++ map (out o) es).
      { intros X <-. unfold resized. subst old. apply splice_end. rewrite repeat_length, map_length. lia. }
      rewrite (P _ eq_refl). rewrite set_dset_map. cbn [t_data set_data]. rewrite set_dset_map.
      rewrite (IH _ (fun o' => if String.eqb o' o then (wd o, m ++ map (out o) es)
                               else (if String.eqb o' o then (wd o, resized c0 (wd o) (old + length es) m) else F o'))).
      * f_equal. unfold set_data. cbn [t_indexed t_empty t_sorted t_in_names t_out_names t_in_types t_indexes t_levels t_iouts t_dims t_keys t_data t_idata].
        f_equal. apply map_ext_in. intros o' I'. f_equal. cbn [map fst]. unfold mem. cbn [existsb]. fold (mem o' (map fst pl)).
        destruct (String.eqb_spec o' o) as [->|D].
        -- cbn [orb]. rewrite EF. cbn [snd]. destruct (mem o (map fst pl)) eqn:Ep; [apply mem_In in Ep; contradiction|reflexivity].
        -- cbn [orb]. reflexivity.
      * exact Hi.
      * reflexivity.
      * reflexivity.
      * exact Nd'.
      * exact G'.
      * intros o' I'. destruct (String.eqb_spec o' o) as [->|D]; [contradiction|]. apply HF. right. exact I'.
Qed.

Lemma hcat_given (os : list string) : os <> [] -> (forall o, In o os -> In o names) ->
  hcat (map (fun o => Mat (wd o) (map (out o) es)) os) = Ok (sumn (map wd os), map (fun e => flat_map (fun o => out o e) os) es).
Proof.
  induction os as [|o os IH]; [congruence|]. intros _ H. destruct os as [|o' os].
  - cbn [map hcat flat_map sumn fold_right]. rewrite Nat.add_0_r. do 2 f_equal. apply map_ext. intros e. symmetry. apply app_nil_r.
  - change (map (fun o => Mat (wd o) (map (out o) es)) (o :: o' :: os)) with (Mat (wd o) (map (out o) es) :: map (fun o => Mat (wd o) (map (out o) es)) (o' :: os)).
    assert (E : forall x r, hcat (Mat (wd o) (map (out o) es) :: x :: r) = 
       (q <- hcat (x :: r) ;; if (length (map (out o) es) =? length (snd q))%nat
         then Ok ((wd o + fst q)%nat, map (fun p => fst p ++ snd p) (combine (map (out o) es) (snd q))) else Err ValueError)) by reflexivity.
    cbn [map] in *. rewrite E. rewrite IH by (try discriminate; intros; apply H; now right). cbn [bind fst snd].
    rewrite !map_length, Nat.eqb_refl. do 2 f_equal. cbn [flat_map]. clear. induction es as [|e es' IH]; [reflexivity|]. cbn [map combine fst snd]. f_equal. exact IH.
Qed.

Lemma max_in x xs : In x xs -> x <= maxZ xs.
Proof. induction xs as [|y xs IH]; [intros []|]. unfold maxZ in *. cbn [fold_right]. intros [->|H]; [lia|specialize (IH H); lia]. Qed.

Lemma ints_range e o z : In e es -> In o iouts -> In z (ints o e) -> 0 <= z < Z.of_nat (length (index o)).
Proof.
  intros He Io Hz. pose proof (proj1 (Forall_forall _ _) Hok e He) as (_ & _ & R). unfold ints in Hz. apply in_map_iff in Hz. destruct Hz as (c & <- & Hc).
  destruct (pos_ok o (n_subset N o Io)) as [_ P]. unfold out in Hc. destruct (nth_error (e_out e) (pos o)) as [r|] eqn:Er.
  - rewrite (nth_error_nth _ _ _ Er) in Hc. exact (R _ _ _ _ _ P Io (proj1 (index_ok o Io)) Er Hc).
  - apply nth_error_None in Er. rewrite nth_overflow in Hc by exact Er. destruct Hc.
Qed.

Lemma clip_id z : 0 <= z <= maxZ (map (fun o => Z.of_nat (length (index o))) iouts) -> clip ty z = z.
Proof.
  intros H. pose proof (fit_narrowest _ _ _ Hty) as (Ts & Tm & _). rewrite largest_tmax in Tm. pose proof (tmin_nonpos ty). unfold clip. lia.
Qed.

Lemma write_indexed_ok (t : table V C) es0 : t_out_names t = names -> t_iouts t = iouts ->
  t_idata t = Some (ty, sumn (map wd iouts), map irow es0) ->
  write_indexed as_int (length es0) (length es) t l = (set_idata (ty, sumn (map wd iouts), map irow (es0 ++ es)) t, None).
Proof.
  intros En Ei Ed. unfold write_indexed. rewrite En, Ei.
  assert (E : mapM (fun o => i <- name_index o names ;; nth_res l i) iouts = Ok (map (fun o => Mat (wd o) (map (out o) es)) iouts)).
  { apply mapM_ok_map. intros o Io. pose proof (n_subset N o Io) as I. destruct (pos_ok o I) as [P _]. rewrite P. cbn [bind].
    destruct (given o I) as (a & A & _ & _ & M & _). rewrite <- (M Io). apply nth_res_ok, A. }
  rewrite E. cbn [compute]. rewrite (hcat_given iouts (n_some N) (n_subset N)). cbn [compute fst snd]. rewrite Ed.
  assert (B : map (map as_int) (map (fun e => flat_map (fun o => out o e) iouts) es) = map irow es).
  { rewrite map_map. apply map_ext. intros e. unfold irow, ints. clear. induction iouts as [|o os IH]; [reflexivity|]. cbn [flat_map]. rewrite map_app, IH. reflexivity. }
  rewrite B, broadcast_same.
  - cbn [compute].
    assert (K : map (map (clip ty)) (map irow es) = map irow es).
    { rewrite <- (map_id (map irow es)) at 2. apply map_ext_in. intros r Hr. apply in_map_iff in Hr. destruct Hr as (e & <- & He).
      rewrite <- (map_id (irow e)) at 2. apply map_ext_in. intros z Hz. unfold irow in Hz. apply in_flat_map in Hz. destruct Hz as (o & Io & Hz).
      pose proof (ints_range e o z He Io Hz) as R. apply clip_id.
      pose proof (max_in (Z.of_nat (length (index o))) (map (fun o => Z.of_nat (length (index o))) iouts)) as M.
      specialize (M (in_map (fun o => Z.of_nat (length (index o))) _ _ Io)). lia. }
    rewrite K, map_app. rewrite <- (splice_end _ (map irow es0) (map irow es) (repeat (repeat 0 (sumn (map wd iouts))) (length es0 + length es - length (map irow es0)))).
    + unfold resized. rewrite map_length. reflexivity.
    + rewrite repeat_length, !map_length. lia.
  - apply map_length.
  - apply Forall_forall. intros r Hr. apply in_map_iff in Hr. destruct Hr as (e & <- & He). unfold irow. rewrite length_flat_map. f_equal.
    apply map_ext_in. intros o Io. unfold ints. rewrite map_length. destruct (given o (n_subset N o Io)) as (a & _ & L & _).
    apply ok_width; [exact (proj1 (Forall_forall _ _) Hok e He)|exact (n_subset N o Io)|exact L].
Qed.

Lemma wk_entries : Forall (fun q => length q = length (t_in_types t0)) (map (@e_in V C) es) -> Forall (wk V C t0) (map (@e_in V C) es).
Proof.
  intros F. apply Forall_forall. intros q Hq. split; [exact (proj1 (Forall_forall _ _) F q Hq)|].
  apply in_map_iff in Hq. destruct Hq as (e & <- & He). exact (proj1 (proj1 (Forall_forall _ _) Hok e He)).
Qed.

Lemma get_keys_state s es0 ins qs : holds_inputs t0 ins qs -> Forall (wk V C t0) qs -> get_keys veq (state s es0) ins = Ok (map (key V C veq t0) qs).
Proof.
  intros H W. refine (get_keys_ok V C veq (state s es0) _ _ _ _ _ _ _ ins qs _ _).
  - exact (n_types N).
  - exact (n_inputs N).
  - exact (n_indexes N).
  - exact (n_labels N).
  - intros x Hx. exact (n_known N x (or_introl Hx)).
  - exact (n_levels N).
  - exact (n_product N).
  - exact H.
  - exact W.
Qed.

Lemma write_ok es0 ins : holds_inputs t0 ins (map (@e_in V C) es) ->
  write veq c0 as_int (state false es0) ins (OutCols l) = (state false (es0 ++ es), None).
Proof.
  intros Hin. unfold write. rewrite (get_keys_state _ _ _ _ Hin (wk_entries (proj1 Hin))). cbn [compute].
  change (length (t_keys (state false es0))) with (length (map ekey es0)). rewrite !map_length.
  change (t_out_names (state false es0)) with names.
  rewrite (write_raw_ok _ _ _ _ (fun o => (wd o, map (out o) es0))).
  - cbn [andthen]. rewrite (write_indexed_ok (set_data _ (set_keys _ (state false es0))) es0 eq_refl eq_refl eq_refl). f_equal. unfold state, set_idata, set_data, set_keys.
    cbn [t_indexed t_empty t_sorted t_in_names t_out_names t_in_types t_indexes t_levels t_iouts t_dims t_keys t_data t_idata].
    f_equal.
    + rewrite map_app. unfold ekey. rewrite map_map. reflexivity.
    + apply map_ext_in. intros o Io. apply raws_In in Io. destruct Io as [Io _]. 
      assert (M : mem o (map fst (combine names l)) = true).
      { apply mem_In. destruct (given o Io) as (a & A & _). destruct (pos_ok o Io) as [_ P].
        change o with (fst (o, a)). apply in_map. eapply nth_in_combine; eauto. }
      rewrite M. cbn [snd]. rewrite map_app. reflexivity.
  - reflexivity.
  - reflexivity.
  - reflexivity.
  - pose proof (n_names N) as Nn. destruct Hout as [Hl _]. clear - Nn Hl. revert l Hl. induction Nn as [|x ns Hn Nn IH]; intros [|a l] Hl; try constructor; try discriminate.
    + cbn. intros I. apply in_map_iff in I. destruct I as ([o b] & <- & I). apply in_combine_l in I. contradiction.
    + apply IH. cbn in Hl. lia.
  - apply combine_given. intros o a Io Ho. split; assumption.
  - intros o Io. cbn [fst snd]. rewrite map_length. split; reflexivity.
Qed.

Lemma create_dsets_ok (pl : list (string * nat)) : forall (t : table V C) F, t_iouts t = iouts -> t_data t = F ->
  NoDup (map fst F ++ filter (fun o => negb (mem o iouts)) (map fst pl)) ->
  create_dsets t pl = (set_data (F ++ map (fun od => (fst od, (snd od, @nil (list C)))) (filter (fun od => negb (mem (fst od) iouts)) pl)) t, None).
Proof.
  induction pl as [|[o d] pl IH]; intros t F Hi Hd Nd.
  - cbn. rewrite app_nil_r. f_equal. destruct t; cbn in *; subst; reflexivity.
  - cbn [create_dsets filter map fst snd] in *. rewrite Hi. destruct (mem o iouts); cbn [negb] in *.
    + apply IH; auto.
    + assert (M : mem o (map fst F) = false).
      { apply mem_false. intros I. apply NoDup_remove_2 in Nd. apply Nd, in_or_app. now left. }
      rewrite Hd, M. rewrite (IH (set_data (F ++ [(o, (d, []))]) t) (F ++ [(o, (d, []))]) Hi eq_refl); [|rewrite map_app, <- app_assoc; exact Nd].
      f_equal. unfold set_data. cbn. rewrite <- app_assoc. reflexivity.
Qed.

Lemma initialize_ok : es <> [] -> initialize_output_dsets true t0 (OutCols l) = (set_flags true false (state false []), None).
Proof.
  intros Hne. unfold initialize_output_dsets. cbn [negb andb].
  assert (R : existsb (fun a => (rows a =? 0)%nat) l = false).
  { apply Bool.not_true_iff_false. intros E. apply existsb_exists in E. destruct E as (a & I & E). destruct (In_nth_error _ _ I) as [i Hi].
    destruct Hout as [Hl Ho]. destruct (nth_error names i) as [o|] eqn:Eo.
    2:{ apply nth_error_None in Eo. assert (i < length l)%nat by (apply nth_error_Some; congruence). lia. }
    assert (Io : In o names) by (eapply nth_error_In; eauto). destruct (given o Io) as (a' & A & _ & _ & _ & _ & Rw).
    unfold pos in A. rewrite (name_index_ok _ (n_names N) _ _ Eo) in A. assert (a' = a) as -> by congruence. rewrite Rw in E.
    apply Nat.eqb_eq in E. destruct es; [congruence|discriminate]. }
  rewrite R. cbv zeta.
  assert (Lc : combine names (map (@dim C) l) = map (fun o => (o, wd o)) names).
  { apply nth_error_ext. intros i. rewrite nth_error_map. destruct (nth_error names i) as [o|] eqn:Eo.
    - assert (Io : In o names) by (eapply nth_error_In; eauto). destruct (given o Io) as (a & A & _ & _ & _ & D & _).
      unfold pos in A. rewrite (name_index_ok _ (n_names N) _ _ Eo) in A.
      cbn [option_map]. rewrite <- D. clear - Eo A. revert l i Eo A. induction names as [|x ns IH]; intros [|b l] [|i] Eo A; try discriminate; cbn in *.
      + congruence.
      + apply IH; assumption.
    - cbn [option_map]. apply nth_error_None. apply nth_error_None in Eo. rewrite combine_length. lia. }
  rewrite Lc. 
  assert (Fn : map fst (map (fun o => (o, wd o)) names) = names) by (rewrite map_map; apply map_id).
  rewrite (create_dsets_ok _ t0 [] eq_refl (n_data N)); [|rewrite Fn; apply NoDup_filter', (n_names N)].
  cbn [andthen app].
  assert (E : mapM (fun o => i <- name_index o names ;; d <- nth_res (map (@dim C) l) i ;; ix <- lookup (t_indexes t0) o ;; Ok (d, Z.of_nat (length ix))) iouts
     = Ok (map (fun o => (wd o, Z.of_nat (length (index o)))) iouts)).
  { apply mapM_ok_map. intros o Io. pose proof (n_subset N o Io) as I. destruct (pos_ok o I) as [P _]. rewrite P. cbn [bind].
    destruct (given o I) as (a & A & _ & _ & _ & D & _). rewrite (proj2 (@nth_res_ok _ _ _ (dim a))) by (rewrite nth_error_map, A; reflexivity).
    cbn [bind]. rewrite (proj2 (index_ok o Io)). cbn [bind]. rewrite D. reflexivity. }
  rewrite E. cbn [compute]. rewrite map_length.
  assert (L0 : (length iouts =? 0)%nat = false) by (pose proof (n_some N); destruct iouts; [congruence|reflexivity]).
  rewrite L0. rewrite !map_map. cbn [snd fst]. rewrite Hty. cbn [compute].
  change (t_idata (set_data ?d t0)) with (t_idata t0). rewrite (n_idata N). f_equal.
  unfold state, set_dims, set_idata, set_data, set_flags. cbn [t_indexed t_empty t_sorted t_in_names t_out_names t_in_types t_indexes t_levels t_iouts t_dims t_keys t_data t_idata].
  rewrite (n_empty N), (n_sorted N), (n_keys N). f_equal. unfold raws. clear. induction names as [|o ns IH]; [reflexivity|]. cbn [map filter fst].
  destruct (negb (mem o iouts)); cbn [map fst snd]; [f_equal|]; exact IH.
Qed.

Lemma fill_first ins append : holds_inputs t0 ins (map (@e_in V C) es) -> es <> [] ->
  fill veq c0 as_int true t0 ins (OutCols l) append = (state false es, None).
Proof.
  intros Hin Hne. unfold fill. rewrite (n_empty N). cbn [negb andb]. rewrite (initialize_ok Hne). cbn [andthen].
  change (set_flags false false (set_flags true false (state false []))) with (state false []). exact (write_ok [] ins Hin).
Qed.

Lemma fill_next s es0 ins : holds_inputs t0 ins (map (@e_in V C) es) ->
  fill veq c0 as_int true (state s es0) ins (OutCols l) true = (state false (es0 ++ es), None).
Proof. intros Hin. unfold fill. cbn [state t_empty negb andb andthen]. exact (write_ok es0 ins Hin). Qed.
End Fill.

(** ** Packing *)
Lemma gather_entries A (f : entry V C -> A) (es es' : list (entry V C)) idx : gather es idx = Ok es' -> gather (map f es) idx = Ok (map f es').
Proof. intros E. rewrite gather_map, E. reflexivity. Qed.

Lemma pack_dsets_ok order es es' (os : list string) : gather es order = Ok es' -> length es' = length es ->
  forall (t : table V C) (F : string -> nat * list (list C)), t_data t = map (fun o => (o, F o)) raws ->
  NoDup os -> (forall o, In o os -> In o raws /\ F o = (wd o, map (out o) es)) ->
  pack_dsets order t os = (set_data (map (fun o => (o, if mem o os then (wd o, map (out o) es') else F o)) raws) t, None).
Proof.
  intros Hg Hl. induction os as [|o os IH]; intros t F Hd Nd HF.
  - cbn. f_equal. destruct t; cbn in *; subst; reflexivity.
  - inversion Nd as [|? ? Hnin Nd']; subst. cbn [pack_dsets]. destruct (HF o (or_introl eq_refl)) as [Ir Fo].
    rewrite Hd, (lookup_map _ _ F _ Ir), Fo. cbn [compute fst snd]. unfold reorder. rewrite (gather_entries _ (out o) _ _ _ Hg). cbn [bind].
    rewrite !map_length, Hl, Nat.eqb_refl. cbn [orb compute]. rewrite set_dset_map.
    rewrite (IH _ (fun o' => if String.eqb o' o then (wd o, map (out o) es') else F o')).
    + f_equal. unfold set_data. cbn [t_indexed t_empty t_sorted t_in_names t_out_names t_in_types t_indexes t_levels t_iouts t_dims t_keys t_data t_idata].
      f_equal. apply map_ext_in. intros o' I'. f_equal. unfold mem. cbn [existsb]. fold (mem o' os). destruct (String.eqb_spec o' o) as [->|D].
      * cbn [orb]. destruct (mem o os) eqn:Em; reflexivity.
      * reflexivity.
    + reflexivity.
    + exact Nd'.
    + intros o' I'. destruct (String.eqb_spec o' o) as [->|D]; [contradiction|]. apply HF. now right.
Qed.

Lemma pack_ok s es : exists es', pack argsort (state s es) = (state true es', None) /\ Permutation es' es /\
  StronglySorted Z.le (map ekey es').
Proof.
  destruct (Hsort (map ekey es)) as [P S]. rewrite map_length in P. set (order := argsort (map ekey es)) in *.
  assert (X : exists es', gather es order = Ok es' /\ length es' = length es /\ Permutation es' es /\ StronglySorted Z.le (map ekey es')).
  { destruct es as [|e0 es0] eqn:Ee.
    - exists []. assert (order = []) as ->. { cbn in P. apply Permutation_sym in P. apply Permutation_nil in P. exact P. }
      repeat split; constructor.
    - rewrite <- Ee in *.
      assert (B : Forall (fun i => (i < length es)%nat) order).
      { apply Forall_forall. intros i Hi. apply (Permutation_in _ P) in Hi. apply in_seq in Hi. lia. }
      exists (map (fun i => nth i es e0) order). split; [exact (@gather_ok _ es order e0 (proj1 (Forall_forall _ _) B))|]. split; [|split].
      + rewrite map_length, (Permutation_length P), seq_length. reflexivity.
      + rewrite P. rewrite map_nth_seq. reflexivity.
      + rewrite map_map. rewrite (map_ext_in (fun i => ekey (nth i es e0)) (fun i => nth i (map ekey es) 0)); [exact S|]. intros i Hi. apply (proj1 (Forall_forall _ _) B) in Hi.
        rewrite (nth_indep _ 0 (ekey e0)) by (rewrite map_length; exact Hi). symmetry. apply map_nth. }
  destruct X as (es' & G & Le & Pe & Se). exists es'. split; [|split; assumption].
  unfold pack. change (t_keys (state s es)) with (map ekey es). fold order. rewrite (gather_entries _ ekey _ _ _ G). cbn [compute].
  change (t_iouts (state s es)) with iouts. change (t_out_names (state s es)) with names. fold raws.
  rewrite (pack_dsets_ok order es es' raws G Le (set_keys (map ekey es') (state s es)) (fun o => (wd o, map (out o) es)) eq_refl).
  - cbn [andthen]. change (t_idata (set_data ?d (set_keys ?k (state s es)))) with (Some (ty, sumn (map wd iouts), map irow es)). cbv beta iota.
    unfold reorder. rewrite (gather_entries _ irow _ _ _ G). cbn [bind].
    rewrite !map_length, Le, Nat.eqb_refl. cbn [orb compute]. f_equal. unfold state, set_flags, set_idata, set_data, set_keys.
    cbn [t_indexed t_empty t_sorted t_in_names t_out_names t_in_types t_indexes t_levels t_iouts t_dims t_keys t_data t_idata]. f_equal.
    apply map_ext_in. intros o Io. rewrite (proj2 (mem_In o raws) Io). reflexivity.
  - apply NoDup_filter', (n_names N).
  - intros o Io. split; [exact Io|reflexivity].
Qed.

(** ** Querying *)
Lemma indexed_answers_ok (t : table V C) es (os : list string) : t_out_names t = names -> (forall o, In o os -> In o names) ->
  Forall (fun e => forall o, In o os -> length (ints o e) = wd o) es ->
  forall d (pre : entry V C -> list Z) (G : string -> answer V C), (forall e, In e es -> length (pre e) = d) ->
  indexed_answers t (map (fun e => pre e ++ flat_map (fun o => ints o e) os) es) d (combine (cumsum d (map wd os)) os) (map G names)
  = Ok (map (fun o' => if mem o' os then APositions V C (map (ints o') es) else G o') names).
Proof.
  intros En. induction os as [|o os IH]; intros Hs F d pre G Hp.
  - reflexivity.
  - cbn [map cumsum combine indexed_answers]. destruct (pos_ok o (Hs o (or_introl eq_refl))) as [P Pn]. rewrite En, P. cbn [bind].
    rewrite (set_nth_map _ _ _ _ _ _ (n_names N) Pn).
    assert (Sl : map (slice d (d + wd o)) (map (fun e => pre e ++ flat_map (fun o => ints o e) (o :: os)) es) = map (ints o) es).
    { rewrite map_map. apply map_ext_in. intros e He. cbn [flat_map]. unfold slice. rewrite skipn_app, (Hp e He), Nat.sub_diag.
      rewrite skipn_all2 by (rewrite (Hp e He); lia). cbn [skipn app].
      replace (d + wd o - d)%nat with (length (ints o e)) by (rewrite (proj1 (Forall_forall _ _) F e He o (or_introl eq_refl)); lia).
      rewrite firstn_app, Nat.sub_diag, firstn_all. cbn [firstn]. apply app_nil_r. }
    rewrite Sl.
    assert (R : map (fun e => pre e ++ flat_map (fun o => ints o e) (o :: os)) es = map (fun e => (pre e ++ ints o e) ++ flat_map (fun o => ints o e) os) es).
    { apply map_ext. intros e. cbn [flat_map]. apply app_assoc. }
    rewrite R. rewrite (IH (fun o' I => Hs o' (or_intror I))).
    + f_equal. apply map_ext. intros o'. unfold mem. cbn [existsb]. fold (mem o' os). destruct (String.eqb_spec o' o) as [->|D]; cbn [orb].
      * destruct (mem o os); reflexivity.
      * reflexivity.
    + apply Forall_forall. intros e He o' I'. apply (proj1 (Forall_forall _ _) F e He). now right.
    + intros e He. rewrite app_length, (Hp e He), (proj1 (Forall_forall _ _) F e He o (or_introl eq_refl)). reflexivity.
Qed.

Lemma decoded_answers_ok (t : table V C) (L : string -> list (list V)) (M : string -> list (list Z)) (os : list string) :
  t_out_names t = names -> t_indexes t = t_indexes t0 -> NoDup os -> (forall o, In o os -> In o iouts /\ decode (index o) (M o) = Ok (L o)) ->
  forall (G : string -> answer V C), (forall o, In o os -> G o = APositions V C (M o)) ->
  decoded_answers t os (map G names) = Ok (map (fun o' => if mem o' os then ALabels C (L o') else G o') names).
Proof.
  intros En Ei Nd. induction Nd as [|o os Hn Nd IH]; intros H G HG; [reflexivity|].
  cbn [decoded_answers]. destruct (H o (or_introl eq_refl)) as [Io Dec]. pose proof (n_subset N o Io) as I. destruct (pos_ok o I) as [P Pn].
  rewrite En, P, Ei, (proj2 (index_ok o Io)). cbn [bind].
  rewrite (proj2 (@nth_res_ok _ _ _ (G o))) by (rewrite nth_error_map, Pn; reflexivity). cbn [bind]. rewrite (HG o (or_introl eq_refl)), Dec. cbn [bind].
  rewrite (set_nth_map _ _ _ _ _ _ (n_names N) Pn). rewrite IH.
  - f_equal. apply map_ext. intros o'. unfold mem. cbn [existsb]. fold (mem o' os). destruct (String.eqb_spec o' o) as [->|D]; cbn [orb]; [|reflexivity].
    rewrite (proj2 (mem_false o os) Hn). reflexivity.
  - intros o' I'. apply H. now right.
  - intros o' I'. destruct (String.eqb_spec o' o) as [->|D]; [contradiction|]. apply HG. now right.
Qed.

Lemma decode_ok ix (m : list (list Z)) : Forall (Forall (fun z => 0 <= z < Z.of_nat (length ix))) m ->
  exists lm, decode ix m = Ok lm /\ Forall2 (Forall2 (fun lab z => @nth_error V ix (Z.to_nat z) = Some lab)) lm m.
Proof.
  unfold decode. intros F.
  destruct (mapM_exists _ _ (fun r => mapM (fun p => nth_res ix (Z.to_nat p)) r) (fun r lr => Forall2 (fun lab z => nth_error ix (Z.to_nat z) = Some lab) lr r) m) as (lm & E & H).
  - intros r Hr. destruct (mapM_exists _ _ (fun p => nth_res ix (Z.to_nat p)) (fun z lab => nth_error ix (Z.to_nat z) = Some lab) r) as (lr & E & H).
    + intros z Hz. pose proof (proj1 (Forall_forall _ _) (proj1 (Forall_forall _ _) F r Hr) z Hz) as B. cbn in B.
      destruct (nth_error ix (Z.to_nat z)) as [lab|] eqn:El; [|apply nth_error_None in El; lia]. exists lab. split; [apply nth_res_ok; exact El|reflexivity].
    + exists lr. split; [exact E|apply Forall2_flip, H].
  - exists lm. split; [exact E|apply Forall2_flip, H].
Qed.

Lemma found_none (found keys : list Z) : found = keys -> np_where (map (fun p => negb (fst p =? snd p)) (combine found keys)) = [].
Proof.
  intros ->. destruct (np_where _) as [|k w] eqn:E; [reflexivity|]. exfalso. assert (I : In k (np_where (map (fun p => negb (fst p =? snd p)) (combine keys keys)))) by (rewrite E; now left).
  apply np_where_spec in I. rewrite nth_error_map in I. destruct (nth_error (combine keys keys) k) as [[a b]|] eqn:E2; [|discriminate]. cbn in I.
  assert (a = b) as ->.
  { clear - E2. revert k E2. induction keys as [|x l IH]; intros [|k] E; try discriminate; cbn in E; [congruence|eauto]. }
  rewrite Z.eqb_refl in I. discriminate.
Qed.

Lemma key_inj0 q q' : length q = length (t_in_types t0) -> known t0 q -> length q' = length (t_in_types t0) -> known t0 q' ->
  key V C veq t0 q = key V C veq t0 q' -> q = q'.
Proof.
  apply key_inj.
  - exact (n_types N).
  - exact (n_indexes N).
  - exact (n_labels N).
  - intros x Hx. exact (n_known N x (or_introl Hx)).
  - exact (n_levels N).
Qed.

Section Query.
Variable es : list (entry V C).
Hypothesis Hsorted : StronglySorted Z.le (map ekey es).
Hypothesis Hok : Forall ok es.
Hypothesis Hwk : Forall (fun e => wk V C t0 (e_in e)) es.
Hypothesis Hws : length names = length ws.

Lemma evaluate_ok ctx qs : holds_inputs t0 ctx qs -> qs <> [] -> (forall q, In q qs -> exists e, In e es /\ e_in e = q) ->
  exists es' l, evaluate veq (state true es) ctx = Ok l /\ Forall2 (fun q e => In e es /\ e_in e = q) qs es' /\
    length l = length names /\
    forall i o a, nth_error names i = Some o -> nth_error l i = Some a -> answers as_int t0 i o es' a.
Proof.
  intros Hin Hne Hp.
  assert (W : Forall (wk V C t0) qs).
  { apply Forall_forall. intros q Hq. destruct (Hp q Hq) as (e & He & <-). exact (proj1 (Forall_forall _ _) Hwk e He). }
  assert (X : exists es', gather es (map (searchsorted (map ekey es)) (map (key V C veq t0) qs)) = Ok es' /\ Forall2 (fun q e => In e es /\ e_in e = q) qs es').
  { unfold gather. rewrite map_map, mapM_map. apply mapM_exists. intros q Hq. destruct (Hp q Hq) as (e & He & E).
    assert (K : In (key V C veq t0 q) (map ekey es)) by (rewrite <- E; apply (in_map ekey), He).
    pose proof (searchsorted_present _ _ Hsorted K) as S. rewrite nth_error_map in S.
    destruct (nth_error es (searchsorted (map ekey es) (key V C veq t0 q))) as [e'|] eqn:Ee; [|discriminate]. cbn in S. injection S as S.
    exists e'. split; [apply nth_res_ok, Ee|]. assert (He' : In e' es) by (eapply nth_error_In; eauto). split; [exact He'|].
    pose proof (proj1 (Forall_forall _ _) W q Hq) as [W1 W2]. pose proof (proj1 (Forall_forall _ _) Hwk e' He') as [W3 W4].
    exact (key_inj0 _ _ W3 W4 W1 W2 S). }
  destruct X as (es' & G & F2). exists es'.
  assert (He' : forall e, In e es' -> In e es).
  { intros e I. destruct (In_nth_error _ _ I) as [i Hi]. clear - F2 I. induction F2 as [|q e' qs es' [A _] F IH]; [destruct I|].
    destruct I as [<-|I]; [exact A|apply IH, I]. }
  assert (Hok' : Forall ok es') by (apply Forall_forall; intros e I; exact (proj1 (Forall_forall _ _) Hok e (He' e I))).
  assert (Wd : forall e o, In e es' -> In o names -> length (out o e) = wd o).
  { intros e o He Ho. apply ok_width; [exact (proj1 (Forall_forall _ _) Hok' e He)|exact Ho|]. destruct (pos_ok o Ho) as [_ P].
    rewrite <- Hws. apply nth_error_Some. congruence. }
  set (G1 := fun o => if mem o iouts then APlaceholder V C else ACells V (map (out o) es')).
  set (G2 := fun o' => if mem o' iouts then APositions V C (map (ints o') es') else G1 o').
  assert (E : evaluate veq (state true es) ctx = if t_indexed t0 then Ok (map G2 names) else decoded_answers (state true es) iouts (map G2 names)).
  { unfold evaluate. change (t_sorted (state true es)) with true. cbn [negb].
    rewrite (get_keys_state _ _ _ _ Hin W). cbn [bind].
    change (t_keys (state true es)) with (map ekey es).
    assert (Ln : (length (map ekey es) =? 0)%nat = false).
    { destruct qs as [|q qs]; [congruence|]. destruct (Hp q (or_introl eq_refl)) as (e & I & _). rewrite map_length. destruct es; [destruct I|reflexivity]. }
    rewrite Ln. cbv zeta.
    assert (Ek : map ekey es' = map (key V C veq t0) qs).
    { clear - F2. induction F2 as [|q e qs es' [_ E] F IH]; [reflexivity|]. cbn [map]. unfold ekey at 1. rewrite E, IH. reflexivity. }
    rewrite (gather_entries _ ekey _ _ _ G), Ek. cbn [bind]. rewrite found_none by reflexivity. cbn [length Nat.ltb Nat.leb].
    assert (Lk : (length (map (key V C veq t0) qs) =? 0)%nat = false) by (rewrite map_length; destruct qs; [congruence|reflexivity]). rewrite Lk.
    change (t_out_names (state true es)) with names. change (t_iouts (state true es)) with iouts.
    rewrite (@mapM_ok_map _ _ _ G1).
    2:{ intros o Io. unfold G1. destruct (mem o iouts) eqn:Em; [reflexivity|].
        change (t_data (state true es)) with (map (fun o => (o, (wd o, map (out o) es))) raws).
        rewrite (lookup_map _ raws (fun o => (wd o, map (out o) es))) by (apply raws_In; split; [exact Io|apply mem_false, Em]). cbn [bind snd].
        rewrite (gather_entries _ (out o) _ _ _ G). reflexivity. }
    cbn [bind state t_idata t_dims]. rewrite (gather_entries _ irow _ _ _ G). cbn [bind].
    change (map irow es') with (map (fun e => (fun _ => []) e ++ flat_map (fun o => ints o e) iouts) es').
    rewrite (indexed_answers_ok (state true es) es' iouts eq_refl (n_subset N)).
    - cbn [bind]. reflexivity.
    - apply Forall_forall. intros e He o Io. unfold ints. rewrite map_length. apply Wd; [exact He|exact (n_subset N o Io)].
    - reflexivity. }
  assert (Out : forall i o, nth_error names i = Some o -> map (fun e => nth i (e_out e) []) es' = map (out o) es').
  { intros i o Ei. unfold out, pos. rewrite (name_index_ok _ (n_names N) _ _ Ei). reflexivity. }
  destruct (t_indexed t0) eqn:Ex.
  - exists (map G2 names). split; [exact E|]. split; [exact F2|]. split; [apply map_length|]. intros i o a Ei Ea. rewrite nth_error_map, Ei in Ea. cbn in Ea. injection Ea as <-.
    unfold answers. rewrite (Out i o Ei). unfold G2, G1. split; [|split].
    + intros Hi. rewrite (proj2 (mem_false _ _) Hi). reflexivity.
    + intros Hi _. rewrite (proj2 (mem_In _ _) Hi). f_equal. rewrite map_map. reflexivity.
    + intros _ Hi. congruence.
  - assert (D : forall o, In o iouts -> exists lm, decode (index o) (map (ints o) es') = Ok lm /\
        Forall2 (Forall2 (fun lab z => nth_error (index o) (Z.to_nat z) = Some lab)) lm (map (ints o) es')).
    { intros o Io. apply decode_ok. apply Forall_forall. intros r Hr. apply in_map_iff in Hr. destruct Hr as (e & <- & He). apply Forall_forall. intros z Hz.
      exact (ints_range es' Hok' e o z He Io Hz). }
    set (L := fun o => match decode (index o) (map (ints o) es') with Ok lm => lm | Err _ => [] end).
    rewrite (decoded_answers_ok (state true es) L (fun o => map (ints o) es') iouts eq_refl eq_refl (n_iouts N)) in E.
    + eexists. split; [exact E|]. split; [exact F2|]. split; [apply map_length|]. intros i o a Ei Ea. rewrite nth_error_map, Ei in Ea. cbn in Ea. injection Ea as <-.
      unfold answers. rewrite (Out i o Ei). split; [|split].
      * intros Hi. unfold G2, G1. rewrite (proj2 (mem_false _ _) Hi). reflexivity.
      * intros _ Hi. congruence.
      * intros Hi _. rewrite (proj2 (mem_In _ _) Hi). exists (L o). split; [reflexivity|]. destruct (D o Hi) as (lm & D1 & D2). unfold L. rewrite D1.
        assert (U : forall ix, In (o, ix) (t_indexes t0) -> ix = index o).
        { intros ix I. unfold index. rewrite (lookup_In _ _ _ _ (n_indexes N) I). reflexivity. }
        clear - D2 U. revert lm D2. induction es' as [|e es' IH]; intros lm D2; inversion D2 as [|r ? rs ? H Hs]; subst; cbn [map]; constructor.
        -- clear - H U. unfold ints in H. revert r H. induction (out o e) as [|c cs IHc]; intros r H; inversion H as [|x ? xs ? H1 H2]; subst; constructor.
           ++ intros ix I. rewrite (U ix I). exact H1.
           ++ apply IHc, H2.
        -- apply IH, Hs.
    + intros o Io. split; [exact Io|]. destruct (D o Io) as (lm & D1 & _). unfold L. rewrite D1. reflexivity.
    + intros o Io. unfold G2. rewrite (proj2 (mem_In _ _) Io). reflexivity.
Qed.

Lemma key_lt q q' : wk V C t0 q -> wk V C t0 q' ->
  (key V C veq t0 q < key V C veq t0 q' <-> forall ds ds', at_positions t0 q ds -> at_positions t0 q' ds' -> before ds ds').
Proof.
  intros W W'. apply key_before; try assumption.
  - exact (n_types N).
  - exact (n_indexes N).
  - exact (n_labels N).
  - intros x Hx. exact (n_known N x (or_introl Hx)).
  - exact (n_levels N).
Qed.

(** A tuple after all the entries. *)
Lemma evaluate_after ctx qs q : holds_inputs t0 ctx qs -> Forall (wk V C t0) qs -> es <> [] -> In q qs -> after_all t0 es q ->
  evaluate veq (state true es) ctx = Err IndexError.
Proof.
  intros Hin W Hne Hq Ha. unfold evaluate. change (t_sorted (state true es)) with true. cbn [negb].
  rewrite (get_keys_state _ _ _ _ Hin W). cbn [bind]. change (t_keys (state true es)) with (map ekey es).
  assert (Ln : (length (map ekey es) =? 0)%nat = false) by (rewrite map_length; destruct es; [congruence|reflexivity]).
  rewrite Ln. cbv zeta. unfold gather. rewrite (mapM_fails _ _ _ IndexError); [reflexivity| |].
  - intros p _. destruct (nth_res (map ekey es) p) as [z|e] eqn:E; [left; eauto|right]. unfold nth_res in E. destruct (nth_error (map ekey es) p); [discriminate|congruence].
  - exists (searchsorted (map ekey es) (key V C veq t0 q)). split; [apply in_map, in_map, Hq|].
    unfold nth_res. rewrite (proj2 (nth_error_None _ _)); [reflexivity|]. rewrite (proj2 (searchsorted_end _ _)); [reflexivity|].
    apply Forall_forall. intros k Hk. apply in_map_iff in Hk. destruct Hk as (e & <- & He). apply key_lt.
    + exact (proj1 (Forall_forall _ _) Hwk e He).
    + exact (proj1 (Forall_forall _ _) W q Hq).
    + exact (Ha e He).
Qed.

(** Other missing tuples. *)
Lemma evaluate_missing ctx qs q : holds_inputs t0 ctx qs -> Forall (wk V C t0) qs -> es <> [] ->
  (forall q', In q' qs -> ~ after_all t0 es q') -> In q qs -> (forall e, In e es -> e_in e <> q) ->
  evaluate veq (state true es) ctx = Err RuntimeError.
Proof.
  intros Hin W Hne Ha Hq Hm. unfold evaluate. change (t_sorted (state true es)) with true. cbn [negb].
  rewrite (get_keys_state _ _ _ _ Hin W). cbn [bind]. change (t_keys (state true es)) with (map ekey es).
  assert (Ln : (length (map ekey es) =? 0)%nat = false) by (rewrite map_length; destruct es; [congruence|reflexivity]).
  rewrite Ln. cbv zeta.
  assert (B : Forall (fun i => (i < length (map ekey es))%nat) (map (searchsorted (map ekey es)) (map (key V C veq t0) qs))).
  { apply Forall_forall. intros p Hp. apply in_map_iff in Hp. destruct Hp as (k & <- & Hk). apply in_map_iff in Hk. destruct Hk as (q' & <- & Hq').
    pose proof (searchsorted_le (map ekey es) (key V C veq t0 q')). destruct (Nat.eq_dec (searchsorted (map ekey es) (key V C veq t0 q')) (length (map ekey es))) as [E|]; [|lia].
    exfalso. apply (Ha q' Hq'). intros e He. apply searchsorted_end in E. apply key_lt.
    - exact (proj1 (Forall_forall _ _) Hwk e He).
    - exact (proj1 (Forall_forall _ _) W q' Hq').
    - apply (proj1 (Forall_forall _ _) E). apply (in_map ekey), He. }
  rewrite (@gather_ok _ (map ekey es) _ 0 (proj1 (Forall_forall _ _) B)). cbn [bind].
  destruct (np_where (map (fun p => negb (fst p =? snd p)) (combine (map (fun i => nth i (map ekey es) 0) (map (searchsorted (map ekey es)) (map (key V C veq t0) qs))) (map (key V C veq t0) qs)))) as [|k w] eqn:En.
  - exfalso. destruct (In_nth_error _ _ Hq) as [i Hi].
    assert (I : In i (np_where (map (fun p => negb (fst p =? snd p)) (combine (map (fun i => nth i (map ekey es) 0) (map (searchsorted (map ekey es)) (map (key V C veq t0) qs))) (map (key V C veq t0) qs))))).
    { apply np_where_spec. rewrite nth_error_map.
      assert (Cm : forall A B (l1 : list A) (l2 : list B) k a b, nth_error l1 k = Some a -> nth_error l2 k = Some b -> nth_error (combine l1 l2) k = Some (a, b)).
      { intros A B' l1. induction l1 as [|x l1 IH]; intros [|y l2] [|k'] a b H1 H2; try discriminate; cbn in *; [congruence|eauto]. }
      rewrite (Cm _ _ _ _ i (nth (searchsorted (map ekey es) (key V C veq t0 q)) (map ekey es) 0) (key V C veq t0 q)).
      - cbn [option_map fst snd]. f_equal. apply Bool.negb_true_iff, Z.eqb_neq. intros E.
        assert (Lq : (searchsorted (map ekey es) (key V C veq t0 q) < length (map ekey es))%nat) by (apply (proj1 (Forall_forall _ _) B), in_map, in_map, Hq).
        assert (Iq : In (key V C veq t0 q) (map ekey es)) by (rewrite <- E; apply nth_In, Lq).
        apply in_map_iff in Iq. destruct Iq as (e & Ke & He). apply (Hm e He).
        pose proof (proj1 (Forall_forall _ _) W q Hq) as [W1 W2]. pose proof (proj1 (Forall_forall _ _) Hwk e He) as [W3 W4].
        exact (key_inj0 _ _ W3 W4 W1 W2 Ke).
      - rewrite !nth_error_map, Hi. reflexivity.
      - rewrite nth_error_map, Hi. reflexivity. }
    rewrite En in I. destruct I.
  - cbn [length]. reflexivity.
Qed.

End Query.
End Table.
