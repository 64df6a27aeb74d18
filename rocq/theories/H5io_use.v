(** H5IO with labels, with positions, and its declarations. *)
From Coq Require Import String.
From Coq Require Import List ZArith Lia.
From Verif Require Import Prelude ListFacts TypeFitting TypeFitting_proofs Distances Distances_proofs H5io H5io_spec
  H5io_proofs H5io_keys H5io_main.
Import ListNotations.
Local Open Scope Z_scope.
Local Open Scope list_scope.

Lemma lookup_absent {A} (d : list (string * A)) s : ~ In s (map fst d) -> lookup d s = Err KeyError.
Proof.
  induction d as [|[k a] d IH]; intros Hn; [reflexivity|]. cbn in Hn |- *.
  destruct (String.eqb_spec k s) as [->|N]; [exfalso; apply Hn; left; reflexivity|]. apply IH. tauto.
Qed.

Section Use.
Variable V : Type.
Variable veq : forall x y : V, {x = y} + {x <> y}.
Variable H : h5io V.
Hypothesis Hd : declared_ok H.

Lemma index_for_lookup s l : index_for H s l ->
  exists ix, lookup (h_indexed H) s = Ok ix /\ lookup (h_indexes H) ix = Ok l.
Proof.
  intros (ix & H1 & H2). exists ix. split; [apply lookup_NoDup; [apply (k_indexed Hd)|exact H1]|].
  apply lookup_NoDup; [apply (k_indexes Hd)|exact H2].
Qed.

Lemma index_for_unique s l l' : index_for H s l -> index_for H s l' -> l = l'.
Proof.
  intros A B. destruct (index_for_lookup s l A) as (ix & A1 & A2). destruct (index_for_lookup s l' B) as (ix' & B1 & B2). congruence.
Qed.

Lemma indexed_index s : In s (map fst (h_indexed H)) -> exists l, index_for H s l.
Proof.
  intros Hs. apply in_map_iff in Hs. destruct Hs as ([s' ix] & E & Hs). cbn in E. subst s'.
  destruct (k_index Hd _ _ Hs) as (_ & l & Hl). exists l, ix. auto.
Qed.

Lemma index_of_ok e l : forall i0, In e l -> exists i, index_of veq e l i0 = Ok i.
Proof.
  induction l as [|x l IH]; intros i0 Hin; [destruct Hin|]. cbn. destruct (veq e x) as [->|N]; [eauto|].
  apply IH. destruct Hin; [congruence|assumption].
Qed.

Lemma index_of_spec e l : forall i0 i, index_of veq e l i0 = Ok i ->
  i0 <= i < i0 + Z.of_nat (length l) /\ nth_error l (Z.to_nat (i - i0)) = Some e.
Proof.
  induction l as [|x l IH]; intros i0 i E; cbn in E; [discriminate|]. cbn [length]. destruct (veq e x) as [->|N].
  - injection E as ->. rewrite Z.sub_diag. cbn. split; [lia|reflexivity].
  - apply IH in E. destruct E as [B E]. split; [lia|].
    replace (Z.to_nat (i - i0)) with (S (Z.to_nat (i - (i0 + 1)))) by lia. exact E.
Qed.

Section Labels.
Variable batches : list (list (string * values V) * nat).
Hypothesis Hne : batches <> [].
Hypothesis Hb : Forall (fun dn => labels_batch H (fst dn) (snd dn)) batches.

Let bs : list ((input V * bool) * nat) := map (fun dn => ((InDict (fst dn), false), snd dn)) batches.

Lemma labels_parse d n : labels_batch H d n -> parse_input H (InDict d) = Ok d.
Proof.
  intros B. unfold parse_input.
  assert (S1 : subset (map fst d) (h_managed H) = true) by (apply subset_incl; intros s Hs; apply (lb_all B); exact Hs).
  assert (S2 : subset (h_managed H) (map fst d) = true) by (apply subset_incl; intros s Hs; apply (lb_all B); exact Hs).
  rewrite S1, S2. reflexivity.
Qed.

Lemma labels_value d n s v : labels_batch H d n -> In (s, v) d ->
  exists zs, (v' <- compute_indexes veq H s v ;; convert v') = Ok (map (fun x => [x]) zs) /\ length zs = n /\ width v = 1%nat /\
   (exists v' m, compute_indexes veq H s v = Ok v' /\ convert v' = Ok m) /\
   (forall l, index_for H s l -> exists labels, v = Labels labels /\
      Forall2 (fun e i => index_of veq e l 0 = Ok i) labels zs).
Proof.
  intros B Hin. destruct (in_dec String.string_dec s (map fst (h_indexed H))) as [Hi|Hn].
  - destruct (indexed_index s Hi) as (l & Hl). destruct (lb_labels B _ Hin Hl) as (labels & -> & Len & Inc).
    destruct (index_for_lookup s l Hl) as (ix & L1 & L2).
    assert (exists zs, mapM (fun e => index_of veq e l 0) labels = Ok zs) as (zs & Ez).
    { destruct (mapM_exists _ _ (fun e => index_of veq e l 0) (fun _ _ => True) labels) as (zs & Ez & _); [|eauto].
      intros e He. destruct (index_of_ok e l 0 (Inc e He)) as (i & Ei). eauto. }
    assert (Ec : compute_indexes veq H s (Labels labels) = Ok (Ints V zs)).
    { unfold compute_indexes. rewrite L1, L2. cbn [bind]. rewrite Ez. reflexivity. }
    exists zs. rewrite Ec. cbn [bind convert]. split; [reflexivity|]. split; [rewrite (mapM_length _ _ Ez); exact Len|]. split; [reflexivity|].
    split; [eexists _, _; split; reflexivity|]. intros l' Hl'. rewrite (index_for_unique s l' l Hl' Hl). exists labels. split; [reflexivity|].
    apply mapM_forall2. exact Ez.
  - destruct (lb_raw B _ _ Hin Hn) as (zs & -> & Len).
    assert (Ec : compute_indexes veq H s (Ints V zs) = Ok (Ints V zs)).
    { unfold compute_indexes. rewrite (lookup_absent _ _ Hn). reflexivity. }
    exists zs. rewrite Ec. cbn [bind convert]. split; [reflexivity|]. split; [exact Len|]. split; [reflexivity|].
    split; [eexists _, _; split; reflexivity|]. intros l (ix & Hl & _). exfalso. apply Hn. apply in_map_iff. exists (s, ix). auto.
Qed.

Lemma labels_matrix d n s v zs : labels_batch H d n -> In (s, v) d ->
  (v' <- compute_indexes veq H s v ;; convert v') = Ok (map (fun x => [x]) zs) ->
  matrix V veq H (InDict d, false) s = map (fun x => [x]) zs.
Proof.
  intros B Hin E. unfold matrix. cbn [fst snd]. rewrite (labels_parse d n B). cbn [bind].
  rewrite (lookup_NoDup _ _ _ _ (lb_once B) Hin). cbn [bind]. rewrite E. reflexivity.
Qed.

Lemma labels_batch_ok d n : labels_batch H d n -> batch_ok V veq H (fun _ => 1%nat) (InDict d, false) n.
Proof.
  intros B. constructor.
  - exists d. split; [apply (labels_parse d n B)|]. split.
    + intros s v Hin. destruct (labels_value d n s v B Hin) as (zs & _ & _ & _ & E & _). exact E.
    + intros s Hs. apply (lb_all B) in Hs. apply in_map_iff in Hs. destruct Hs as ([s' v] & E & Hin). cbn in E. subst s'.
      exists v. split; [apply lookup_NoDup; [apply (lb_once B)|exact Hin]|].
      destruct (labels_value d n s v B Hin) as (zs & _ & _ & W & _). exact W.
  - intros s Hs. apply (lb_all B) in Hs. apply in_map_iff in Hs. destruct Hs as ([s' v] & E & Hin). cbn in E. subst s'.
    destruct (labels_value d n s v B Hin) as (zs & E & L & _). rewrite (labels_matrix d n s v zs B Hin E).
    rewrite map_length. split; [exact L|]. intros r Hr. apply in_map_iff in Hr. destruct Hr as (x & <- & _). reflexivity.
Qed.

Lemma bs_ok : Forall (fun bn => batch_ok V veq H (fun _ => 1%nat) (fst bn) (snd bn)) bs.
Proof.
  unfold bs. apply Forall_forall. intros x Hx. apply in_map_iff in Hx. destruct Hx as (dn & <- & Hin). cbn [fst snd].
  apply labels_batch_ok. apply (proj1 (Forall_forall _ _) Hb). exact Hin.
Qed.

Lemma given_one d n s labels : labels_batch H d n -> In (s, Labels labels) d ->
  flat_map (fun kv : string * values V => if String.eqb (fst kv) s then match snd kv with Labels l => l | _ => [] end else []) d = labels.
Proof.
  intros B Hin. pose proof (lb_once B) as Hn. clear B. induction d as [|[k v] d IH]; [destruct Hin|].
  cbn [map fst] in Hn. inversion Hn as [|? ? N1 N2]; subst. cbn [flat_map fst snd]. destruct Hin as [E|Hin].
  - injection E as -> ->. rewrite String.eqb_refl. cbn [snd].
    assert (Z : flat_map (fun kv : string * values V => if String.eqb (fst kv) s then match snd kv with Labels l => l | _ => [] end else []) d = []).
    { clear -N1. induction d as [|[k v] d IH]; [reflexivity|]. cbn [flat_map fst snd map] in *.
      destruct (String.eqb_spec k s) as [->|]; [exfalso; apply N1; left; reflexivity|]. apply IH. intros C. apply N1. right. exact C. }
    rewrite Z. apply app_nil_r.
  - destruct (String.eqb_spec k s) as [->|]; [exfalso; apply N1; apply in_map_iff; exists (s, Labels labels); auto|].
    cbn [app]. apply IH; auto.
Qed.

Lemma all_rows_labels s l : In s (h_managed H) -> index_for H s l ->
  exists zs, all_rows V veq H bs s = map (fun x => [x]) zs /\
    Forall2 (fun e i => index_of veq e l 0 = Ok i) (labels_given s (map fst batches)) zs.
Proof.
  intros Hs Hl. unfold all_rows, bs, labels_given. pose proof Hb as F. clear Hne Hb bs.
  induction F as [|[d n] batches B F IH]; [exists []; split; [reflexivity|constructor]|].
  destruct IH as (zs & E & Fz). cbn [map fst snd concat flat_map]. cbn [fst snd] in B.
  pose proof Hs as Hs'. apply (lb_all B) in Hs'. apply in_map_iff in Hs'. destruct Hs' as ([s' v] & E' & Hin). cbn in E'. subst s'.
  destruct (labels_value d n s v B Hin) as (zs0 & E0 & _ & _ & _ & Hlab). destruct (Hlab l Hl) as (labels & -> & Fl).
  exists (zs0 ++ zs). rewrite (labels_matrix d n s _ zs0 B Hin E0), E, map_app. split; [reflexivity|].
  rewrite (given_one d n s labels B Hin). apply Forall2_app; assumption.
Qed.

Lemma labels_range : in_range V veq H bs.
Proof.
  intros s index r x Hix Hr Hx. assert (Hs : In s (h_managed H)) by (destruct Hix as (ix & Hi & _); apply (k_index Hd) in Hi; apply Hi).
  destruct (all_rows_labels s index Hs Hix) as (zs & E & F). rewrite E in Hr. apply in_map_iff in Hr. destruct Hr as (z & <- & Hz).
  destruct Hx as [<-|[]]. destruct (Forall2_in_l _ _ _ _ _ z (Forall2_flip _ _ _ _ _ F) Hz) as (e & _ & Ee).
  apply index_of_spec in Ee. lia.
Qed.

Lemma nth_singletons (f : string -> list Z) k : forall names j s, nth_error names j = Some s -> (forall s', In s' names -> (k < length (f s'))%nat) ->
  nth_error (concat (map (fun s => nth k (map (fun x => [x]) (f s)) []) names)) j = nth_error (f s) k.
Proof.
  induction names as [|n names IH]; intros j s E Hk; [destruct j; discriminate|].
  assert (E0 : nth k (map (fun x => [x]) (f n)) [] = [nth k (f n) 0]).
  { rewrite nth_indep with (d' := [0]) by (rewrite map_length; apply Hk; left; reflexivity).
    apply (map_nth (fun x => [x])). }
  cbn [map concat]. rewrite E0. cbn [app]. destruct j as [|j]; cbn [nth_error] in *.
  - injection E as ->. symmetry. apply nth_error_nth'. apply Hk. left. reflexivity.
  - apply IH; [exact E|]. intros s' Hs'. apply Hk. right. exact Hs'.
Qed.

Lemma write_labels : exists o, write_all veq H None (map (fun dn => (InDict (fst dn), false)) batches) = Ok (Some o) /\
  (forall j s index, nth_error (h_non_fused H) j = Some s -> index_for H s index ->
     exists t rows, o_indexed o = Some (t, rows) /\
       Forall2 (fun row label => exists i, nth_error row j = Some i /\ 0 <= i /\ nth_error index (Z.to_nat i) = Some label)
         rows (labels_given s (map fst batches))) /\
  (forall f members levels, In (f, members) (h_fused H) -> In (f, levels) (h_nb_levels H) -> prodZ levels <= 2 ^ 64 ->
     exists fo, In (f, fo) (o_fused o) /\ length (f_keys fo) = sumn (map snd batches) /\
       forall k k', (k < length (f_keys fo))%nat -> (k' < length (f_keys fo))%nat ->
         (nth_error (f_keys fo) k = nth_error (f_keys fo) k' <->
          forall s, In s members -> nth_error (labels_given s (map fst batches)) k = nth_error (labels_given s (map fst batches)) k')).
Proof.
  assert (Hne' : bs <> []) by (unfold bs; intros C; apply map_eq_nil in C; congruence).
  destruct (write_all_ok V veq H Hd (fun _ => 1%nat) bs Hne' bs_ok labels_range) as (o & E & _ & Hi & Hf).
  assert (Et : total V bs = sumn (map snd batches)) by (unfold total, bs; rewrite map_map; reflexivity).
  exists o. split; [|split].
  - rewrite <- E. unfold bs. rewrite map_map. reflexivity.
  - intros j s index Hj Hix. destruct Hi as (t & Ei); [intros C; rewrite C in Hj; destruct j; discriminate|].
    rewrite Ei. eexists _, _. split; [reflexivity|].
    pose (zs_of := fun s => concat (all_rows V veq H bs s)).
    assert (Hz : forall s, In s (h_non_fused H) -> all_rows V veq H bs s = map (fun x => [x]) (zs_of s) /\ length (zs_of s) = total V bs).
    { intros s' Hs'. pose proof (k_non_fused Hd _ Hs') as Hi'. destruct (k_index Hd _ _ Hi') as (Hm & l & Hl).
      destruct (all_rows_labels s' l Hm) as (zs & Ez & _); [exists s'; auto|].
      assert (zs_of s' = zs) as Ezs by (unfold zs_of; rewrite Ez; clear; induction zs as [|z zs IH]; [reflexivity|cbn; f_equal; exact IH]).
      rewrite Ezs. split; [exact Ez|].
      pose proof (all_rows_length V veq H (fun _ => 1%nat) bs bs_ok s' Hm) as L. rewrite Ez, map_length in L. exact L. }
    assert (Hs : In s (h_non_fused H)) by (eapply nth_error_In; exact Hj).
    destruct (k_index Hd _ _ (k_non_fused Hd _ Hs)) as (Hm & _).
    destruct (all_rows_labels s index Hm Hix) as (zs & Ez & Fz).
    destruct (Hz s Hs) as [Ez' Lz].
    assert (zs_of s = zs) as Ezs by (unfold zs_of; rewrite Ez; clear; induction zs as [|z zs IH]; [reflexivity|cbn; f_equal; exact IH]).
    rewrite Ezs in Lz. apply Forall2_map_l_inv with (f := fun k => k). rewrite map_id.
    assert (F2 : Forall2 (fun k z => nth_error zs k = Some z) (seq 0 (total V bs)) zs).
    { rewrite <- Lz. clear. rewrite <- (map_nth_seq zs 0) at 2. 
      assert (G : forall l, (forall k, In k l -> (k < length zs)%nat) -> Forall2 (fun k z => nth_error zs k = Some z) l (map (fun i => nth i zs 0) l)).
      { induction l as [|k l IH]; intros Hl; constructor; [apply nth_error_nth'; apply Hl; left; reflexivity|]. apply IH. intros; apply Hl; right; assumption. }
      apply G. intros k Hk. apply in_seq in Hk. lia. }
    apply Forall2_map_l. apply Forall2_flip in Fz.
    assert (G : forall ks zs' labels, Forall2 (fun k z => nth_error zs k = Some z) ks zs' -> Forall2 (fun i e => index_of veq e index 0 = Ok i) zs' labels ->
      (forall k, In k ks -> (k < total V bs)%nat) ->
      Forall2 (fun k label => exists i, nth_error (concat (map (fun s => nth k (all_rows V veq H bs s) []) (h_non_fused H))) j = Some i /\
                 0 <= i /\ nth_error index (Z.to_nat i) = Some label) ks labels).
    { intros ks zs' labels Fk. revert labels. induction Fk as [|k z ks zs' Ek Fk IH]; intros labels Fl Hks; inversion Fl as [|? e ? labels' Ee Fl']; subst; constructor.
      - exists z. split; [|apply index_of_spec in Ee; rewrite Z.sub_0_r in Ee; split; [lia|apply Ee]].
        rewrite (map_ext_in _ (fun s => nth k (map (fun x => [x]) (zs_of s)) [])) by (intros s' Hs'; destruct (Hz s' Hs') as [-> _]; reflexivity).
        rewrite (nth_singletons zs_of k (h_non_fused H) j s Hj).
        + exact Ek.
        + intros s' Hs'. destruct (Hz s' Hs') as [_ ->]. apply Hks. left. reflexivity.
      - apply IH; auto. intros k' Hk'. apply Hks. right. exact Hk'. }
    apply (G _ _ _ F2 Fz). intros k Hk. apply in_seq in Hk. lia.
  - intros f members levels Hfm Hlv Hp.
    assert (Hc : combinations (fun _ => 1%nat) members levels <= 2 ^ 64).
    { unfold combinations. pose proof (k_nb Hd _ _ _ Hfm Hlv) as Fl.
      replace (map (fun p => fst p ^ Z.of_nat (snd p)) (combine levels (map (fun _ => 1%nat) members))) with levels; [exact Hp|].
      clear -Fl. induction Fl as [|s n members levels _ F IH]; [reflexivity|]. cbn [map combine fst snd]. rewrite <- IH. f_equal. change (Z.of_nat 1) with 1. ring. }
    destruct (Hf f members levels Hfm Hlv Hc) as (fo & Hin & Lk & Hkk). exists fo. rewrite Lk. split; [exact Hin|].
    split; [exact Et|]. intros k k' Hk Hk'.
    rewrite (nth_error_nth' _ 0) by lia. rewrite (nth_error_nth' (f_keys fo) 0) by lia.
    assert (G : forall s, In s members -> (nth k (all_rows V veq H bs s) [] = nth k' (all_rows V veq H bs s) [] <->
       nth_error (labels_given s (map fst batches)) k = nth_error (labels_given s (map fst batches)) k')).
    { intros s Hs. pose proof (k_members Hd _ _ _ Hfm Hs) as Hi'. destruct (indexed_index s Hi') as (l & Hl).
      assert (Hm : In s (h_managed H)) by (apply (member_managed V H Hd _ _ _ Hfm Hs)).
      destruct (all_rows_labels s l Hm Hl) as (zs & Ez & Fz). rewrite Ez.
      pose proof (all_rows_length V veq H (fun _ => 1%nat) bs bs_ok s Hm) as L. rewrite Ez, map_length in L.
      assert (N : forall i, (i < total V bs)%nat -> nth i (map (fun x => [x]) zs) [] = [nth i zs 0]).
      { intros i Hi''. rewrite nth_indep with (d' := [0]) by (rewrite map_length; lia). apply (map_nth (fun x => [x])). }
      rewrite (N k Hk), (N k' Hk').
      assert (Q : forall i, (i < total V bs)%nat -> exists e, nth_error (labels_given s (map fst batches)) i = Some e /\ index_of veq e l 0 = Ok (nth i zs 0)).
      { intros i Hi''. rewrite <- L in Hi''. clear -Fz Hi''. revert i Hi''. induction Fz as [|e z es zs Ee F IH]; intros i Hi; [cbn in Hi; lia|].
        destruct i as [|i]; [exists e; auto|]. cbn in Hi |- *. apply IH. lia. }
      destruct (Q k Hk) as (e & -> & E1). destruct (Q k' Hk') as (e' & -> & E2). split.
      - intros E3. injection E3 as E3. rewrite E3 in E1. apply index_of_spec in E1, E2. destruct E1 as [_ E1]. destruct E2 as [_ E2]. congruence.
      - intros E3. injection E3 as ->. rewrite E1 in E2. injection E2 as ->. reflexivity. }
    split.
    + intros E1 s Hs. apply (G s Hs). apply (proj1 (Hkk k k' Hk Hk')); [congruence|exact Hs].
    + intros E1. f_equal. apply (Hkk k k' Hk Hk'). intros s Hs. apply (G s Hs). apply E1. exact Hs.
Qed.

End Labels.

Section Positions.
Variable w : string -> nat.
Variable batches : list (list (values V) * nat).
Hypothesis Hne : batches <> [].
Hypothesis Hm : NoDup (h_managed H).
Hypothesis Hb : Forall (fun ln => positions_batch H w (fst ln) (snd ln)) batches.

Let bs : list ((input V * bool) * nat) := map (fun ln => ((InList (fst ln), true), snd ln)) batches.

Lemma combine_keys {A B} (l : list A) (m : list B) : length m = length l -> map fst (combine l m) = l.
Proof.
  revert m. induction l as [|a l IH]; intros [|b m] E; try discriminate; [reflexivity|]. cbn. f_equal. apply IH. injection E; auto.
Qed.

Lemma positions_parse l n : positions_batch H w l n -> parse_input H (InList l) = Ok (rev (combine (h_managed H) l)).
Proof.
  intros B. unfold parse_input. rewrite map_rev, (combine_keys _ _ (pb_all B)).
  assert (S1 : subset (rev (h_managed H)) (h_managed H) = true) by (apply subset_incl; intros s Hs; apply in_rev in Hs; exact Hs).
  assert (S2 : subset (h_managed H) (rev (h_managed H)) = true) by (apply subset_incl; intros s Hs; apply in_rev in Hs; exact Hs).
  rewrite S1, S2. reflexivity.
Qed.

Lemma positions_lookup l n s : positions_batch H w l n -> In s (h_managed H) ->
  exists rows, In (s, Rows V (w s) rows) (combine (h_managed H) l) /\
    lookup (rev (combine (h_managed H) l)) s = Ok (Rows V (w s) rows) /\ length rows = n /\
    (forall r, In r rows -> length r = w s) /\
    (forall index r x, index_for H s index -> In r rows -> In x r -> 0 <= x < Z.of_nat (length index)).
Proof.
  intros B Hs. rewrite <- (combine_keys _ _ (pb_all B)) in Hs. apply in_map_iff in Hs. destruct Hs as ([s' v] & E & Hin). cbn in E. subst s'.
  destruct (pb_rows B _ _ Hin) as (rows & -> & R). exists rows. split; [exact Hin|]. split; [|exact R].
  apply lookup_NoDup; [|apply -> in_rev; exact Hin]. rewrite map_rev, (combine_keys _ _ (pb_all B)).
  apply NoDup_rev. exact Hm.
Qed.

Lemma positions_matrix l n s : positions_batch H w l n -> In s (h_managed H) ->
  matrix V veq H (InList l, true) s = flat_map (fun kv => if String.eqb (fst kv) s then
                                 match snd kv with Rows _ _ rows => rows | _ => [] end else []) (combine (h_managed H) l).
Proof.
  intros B Hs. destruct (positions_lookup l n s B Hs) as (rows & Hin & L & _). unfold matrix. cbn [fst snd].
  rewrite (positions_parse l n B). cbn [bind]. rewrite L. cbn [bind convert].
  assert (Hn : NoDup (map fst (combine (h_managed H) l))) by (rewrite (combine_keys _ _ (pb_all B)); exact Hm).
  clear -Hn Hin. induction (combine (h_managed H) l) as [|[k v] d IH]; [destruct Hin|].
  cbn [map fst] in Hn. inversion Hn as [|? ? N1 N2]; subst. cbn [flat_map fst snd]. destruct Hin as [E|Hin].
  - injection E as -> ->. rewrite String.eqb_refl.
    assert (Z : flat_map (fun kv : string * values V => if String.eqb (fst kv) s then match snd kv with Rows _ _ rows => rows | _ => [] end else []) d = []).
    { clear -N1. induction d as [|[k v] d IH]; [reflexivity|]. cbn [flat_map fst snd map] in *.
      destruct (String.eqb_spec k s) as [->|]; [exfalso; apply N1; left; reflexivity|]. apply IH. intros C. apply N1. right. exact C. }
    rewrite Z. symmetry. apply app_nil_r.
  - destruct (String.eqb_spec k s) as [->|]; [exfalso; apply N1; apply in_map_iff; exists (s, Rows V (w s) rows); auto|].
    cbn [app]. apply IH; auto.
Qed.

Lemma matrix_rows l n s : positions_batch H w l n -> In s (h_managed H) ->
  length (matrix V veq H (InList l, true) s) = n /\
  (forall r, In r (matrix V veq H (InList l, true) s) -> length r = w s) /\
  (forall index r x, index_for H s index -> In r (matrix V veq H (InList l, true) s) -> In x r -> 0 <= x < Z.of_nat (length index)).
Proof.
  intros B Hs. destruct (positions_lookup l n s B Hs) as (rows & Hin & L & R). 
  assert (E : matrix V veq H (InList l, true) s = rows).
  { unfold matrix. cbn [fst snd]. rewrite (positions_parse l n B). cbn [bind]. rewrite L. reflexivity. }
  rewrite E. exact R.
Qed.

Lemma positions_ok : Forall (fun bn => batch_ok V veq H w (fst bn) (snd bn)) bs.
Proof.
  unfold bs. apply Forall_forall. intros x Hx. apply in_map_iff in Hx. destruct Hx as ([l n] & <- & Hin). cbn [fst snd].
  pose proof (proj1 (Forall_forall _ _) Hb _ Hin) as B. cbn [fst snd] in B. constructor; cbn [fst snd].
  - eexists. split; [apply (positions_parse l n B)|]. split.
    + intros s v Hv. apply in_rev in Hv. destruct (pb_rows B _ _ Hv) as (rows & -> & _). eexists _, _. split; reflexivity.
    + intros s Hs. destruct (positions_lookup l n s B Hs) as (rows & _ & L & _). eexists. split; [exact L|reflexivity].
  - intros s Hs. destruct (matrix_rows l n s B Hs) as (A1 & A2 & _). auto.
Qed.

Lemma positions_rows s : In s (h_managed H) -> all_rows V veq H bs s = rows_given H s (map fst batches).
Proof.
  intros Hs. unfold all_rows, rows_given, bs. rewrite flat_map_concat_map, !map_map. f_equal. apply map_ext_in.
  intros [l n] Hin. pose proof (proj1 (Forall_forall _ _) Hb _ Hin) as B. cbn [fst snd] in *. apply (positions_matrix l n s B Hs).
Qed.

Lemma write_positions : exists o, write_all veq H None (map (fun ln => (InList (fst ln), true)) batches) = Ok (Some o) /\
  (forall s, In s (h_raw H) -> In (s, rows_given H s (map fst batches)) (o_raw o)) /\
  (h_non_fused H <> [] -> exists t, o_indexed o =
     Some (t, map (fun k => concat (map (fun s => nth k (rows_given H s (map fst batches)) []) (h_non_fused H)))
                  (seq 0 (sumn (map snd batches))))) /\
  (forall f members levels, In (f, members) (h_fused H) -> In (f, levels) (h_nb_levels H) ->
     combinations w members levels <= 2 ^ 64 ->
     exists fo, In (f, fo) (o_fused o) /\ length (f_keys fo) = sumn (map snd batches) /\
       forall k k', (k < length (f_keys fo))%nat -> (k' < length (f_keys fo))%nat ->
         (nth k (f_keys fo) 0 = nth k' (f_keys fo) 0 <->
          forall s, In s members -> nth k (rows_given H s (map fst batches)) [] = nth k' (rows_given H s (map fst batches)) [])).
Proof.
  assert (Hne' : bs <> []) by (unfold bs; intros C; apply map_eq_nil in C; congruence).
  assert (Hr : in_range V veq H bs).
  { intros s index r x Hix Hr Hx. assert (Hs : In s (h_managed H)) by (destruct Hix as (ix & Hi & _); apply (k_index Hd) in Hi; apply Hi).
    unfold all_rows, bs in Hr. apply in_concat in Hr. destruct Hr as (m & Hm' & Hr). rewrite map_map in Hm'. apply in_map_iff in Hm'.
    destruct Hm' as ([l n] & <- & Hin). cbn [fst snd] in Hr. pose proof (proj1 (Forall_forall _ _) Hb _ Hin) as B.
    destruct (matrix_rows l n s B Hs) as (_ & _ & A). apply (A index r x Hix Hr Hx). }
  destruct (write_all_ok V veq H Hd w bs Hne' positions_ok Hr) as (o & E & Hraw & Hi & Hf).
  assert (Et : total V bs = sumn (map snd batches)) by (unfold total, bs; rewrite map_map; reflexivity).
  exists o. split; [|split; [|split]].
  - rewrite <- E. unfold bs. rewrite map_map. reflexivity.
  - intros s Hs. rewrite <- positions_rows by (apply (k_raw Hd); exact Hs). apply Hraw. exact Hs.
  - intros Hn. destruct (Hi Hn) as (t & ->). exists t. rewrite Et. do 2 f_equal. apply map_ext. intros k. f_equal.
    apply map_ext_in. intros s Hs. rewrite positions_rows by (apply (non_fused_managed V H Hd); exact Hs). reflexivity.
  - intros f members levels Hfm Hlv Hc. destruct (Hf f members levels Hfm Hlv Hc) as (fo & Hin & Lk & Hkk). exists fo.
    split; [exact Hin|]. split; [congruence|]. rewrite Lk. intros k k' Hk Hk'. rewrite (Hkk k k' Hk Hk').
    split; intros A s Hs; specialize (A s Hs); rewrite positions_rows in * by (apply (member_managed V H Hd _ _ _ Hfm Hs)); exact A.
Qed.

End Positions.
End Use.

(** Declarations. *)
Section Init.
Variable V : Type.

Lemma nb_levels_ok indexed (indexes : list (string * list V)) fused : NoDup (map fst indexed) -> NoDup (map fst indexes) ->
  (forall s ix, In (s, ix) indexed -> In ix (map fst indexes)) ->
  (forall s, In s (flat_map snd fused) -> In s (map fst indexed)) ->
  exists nb, mapM (fun nf : string * list string =>
        levels <- mapM (fun dset => ix <- lookup indexed dset ;; l <- lookup indexes ix ;;
                                    Ok (Z.of_nat (length l))) (snd nf) ;;
        Ok (fst nf, levels)) fused = Ok nb /\ map fst nb = map fst fused /\
   (NoDup (map fst fused) -> forall f members levels, In (f, members) fused -> In (f, levels) nb ->
    Forall2 (fun s n => exists ix l, In (s, ix) indexed /\ In (ix, l) indexes /\ n = Z.of_nat (length l)) members levels).
Proof.
  intros N1 N2 H1 H2. induction fused as [|[f members] fused IH].
  - exists []. split; [reflexivity|]. split; [reflexivity|]. intros _ ? ? ? [].
  - destruct IH as (nb & E & Ef & Hnb). { intros s Hs. apply H2. cbn. apply in_or_app. right. exact Hs. }
    destruct (mapM_exists _ _ (fun dset => ix <- lookup indexed dset ;; l <- lookup indexes ix ;; Ok (Z.of_nat (length l)))
       (fun s n => exists ix l, In (s, ix) indexed /\ In (ix, l) indexes /\ n = Z.of_nat (length l)) members) as (levels & El & Fl).
    { intros s Hs. assert (Hi : In s (map fst indexed)) by (apply H2; cbn; apply in_or_app; left; exact Hs).
      apply in_map_iff in Hi. destruct Hi as ([s' ix] & E' & Hi). cbn in E'. subst s'.
      pose proof (H1 _ _ Hi) as Hx. apply in_map_iff in Hx. destruct Hx as ([ix' l] & E' & Hl). cbn in E'. subst ix'.
      rewrite (lookup_NoDup _ _ _ _ N1 Hi). cbn [bind]. rewrite (lookup_NoDup _ _ _ _ N2 Hl). cbn [bind].
      eexists. split; [reflexivity|]. eauto. }
    cbn [mapM fst snd]. rewrite El. cbn [bind]. rewrite E. cbn [bind]. eexists. split; [reflexivity|].
    split; [cbn; congruence|]. intros Nf f' members' levels' Hin Hin'. cbn in Nf. inversion Nf as [|? ? Nf1 Nf2]; subst.
    destruct Hin as [E1|Hin]; destruct Hin' as [E2|Hin'].
    + injection E1 as <- <-. injection E2 as <-. exact Fl.
    + injection E1 as <- <-. exfalso. apply Nf1. rewrite <- Ef. apply in_map_iff. exists (f, levels'). auto.
    + injection E2 as <- <-. exfalso. apply Nf1. apply in_map_iff. exists (f, members'). auto.
    + eapply Hnb; eassumption.
Qed.

Lemma plain_text_iff s : plain_text s = true <-> ascii_only s.
Proof.
  unfold plain_text, ascii_only. rewrite forallb_forall. split; intros H c Hc; specialize (H c Hc); apply Nat.ltb_lt; exact H.
Qed.

Lemma get_names l : l <> [] -> (forall s, In s l -> ascii_only s) -> get_array plain_text l = Ok l.
Proof.
  intros Hne Ha. assert (E : forallb plain_text l = true).
  { apply forallb_forall. intros s Hs. apply plain_text_iff, Ha, Hs. }
  unfold get_array. rewrite E. destruct l; [congruence|reflexivity].
Qed.

Lemma get_indexes (plain : V -> bool) (indexes : list (string * list V)) : (forall ix l, In (ix, l) indexes -> l <> []) -> labels_plain plain indexes ->
  mapM (fun kv : string * list V => l <- get_array plain (snd kv) ;; Ok (fst kv, l)) indexes = Ok indexes.
Proof.
  induction indexes as [|[ix l] indexes IH]; intros Hi Hp; [reflexivity|]. cbn [mapM fst snd].
  assert (E : get_array plain l = Ok l).
  { assert (E : forallb plain l = true) by (apply forallb_forall; intros x Hx; apply (Hp ix l); [left; reflexivity|exact Hx]).
    unfold get_array. rewrite E. specialize (Hi ix l (or_introl eq_refl)). destruct l; [congruence|reflexivity]. }
  rewrite E. cbn [bind]. rewrite IH; [reflexivity| |].
  - intros ix' l' Hin. apply (Hi ix' l'). right. exact Hin.
  - intros ix' l' x Hin. apply (Hp ix' l'). right. exact Hin.
Qed.

(** The two forms of declaration. *)
Lemma init_list plain l (indexes : list (string * list V)) fused : indexes_ok indexes fused -> l <> [] ->
  (forall s, In s l -> ascii_only s) -> labels_plain plain indexes ->
  incl (map fst indexes) l -> incl (flat_map snd fused) (map fst indexes) ->
  exists H, init plain (DList l) indexes fused = Ok H /\ declared_ok H /\ h_managed H = l /\ h_indexes H = indexes /\ h_fused H = fused /\
    (forall s, In s (h_non_fused H) <-> In s (map fst indexes) /\ ~ In s (flat_map snd fused)) /\
    (forall s, In s (h_raw H) <-> In s l /\ ~ In s (map fst indexes)) /\
    (forall s index, In (s, index) indexes -> index_for H s index) /\
    (fused = [] -> h_non_fused H = map fst indexes).
Proof.
  intros (N1 & N2 & Hl & Hm) Hne Ha Hp I1 I2. unfold init, indexed_datasets.
  assert (S1 : subset (map fst indexes) l = true) by (apply subset_incl; exact I1). rewrite S1. cbn [bind].
  assert (Ef : map fst (map (fun kv : string * list V => (fst kv, fst kv)) indexes) = map fst indexes) by (rewrite map_map; reflexivity).
  rewrite Ef. assert (S2 : subset (flat_map snd fused) (map fst indexes) = true) by (apply subset_incl; exact I2). rewrite S2. cbn [negb].
  rewrite (get_names l Hne Ha). cbn [bind]. rewrite (get_indexes plain indexes (fun ix l H => proj1 (Hl ix l H)) Hp). cbn [bind].
  assert (Hix : forall s ix, In (s, ix) (map (fun kv : string * list V => (fst kv, fst kv)) indexes) -> s = ix /\ In ix (map fst indexes)).
  { intros s ix Hin. apply in_map_iff in Hin. destruct Hin as (kv & E & Hin). injection E as <- <-. split; [reflexivity|apply in_map; exact Hin]. }
  destruct (nb_levels_ok (map (fun kv : string * list V => (fst kv, fst kv)) indexes) indexes fused) as (nb & E & Enb & Hnb).
  { rewrite Ef. exact N1. } { exact N1. } { intros s ix Hin. apply Hix in Hin. apply Hin. } { rewrite Ef. exact I2. }
  rewrite E. cbn [bind]. eexists. split; [reflexivity|].
  assert (Hnf : forall s, In s (filter (fun s => negb (mem s (flat_map snd fused))) (map fst indexes)) <-> In s (map fst indexes) /\ ~ In s (flat_map snd fused)).
  { intros s. rewrite filter_In, Bool.negb_true_iff. rewrite <- (mem_In s (flat_map snd fused)). destruct (mem s (flat_map snd fused)); intuition congruence. }
  assert (Hraw : forall s, In s (filter (fun s => negb (mem s (map fst indexes))) l) <-> In s l /\ ~ In s (map fst indexes)).
  { intros s. rewrite filter_In, Bool.negb_true_iff. rewrite <- (mem_In s (map fst indexes)). destruct (mem s (map fst indexes)); intuition congruence. }
  split; [|cbn [h_managed h_indexes h_fused h_non_fused h_raw]; repeat split; try (apply Hnf || apply Hraw); try assumption].
  - constructor; cbn [h_managed h_raw h_indexed h_indexes h_non_fused h_fused h_nb_levels].
    + rewrite Ef. exact N1.
    + exact N1.
    + exact N2.
    + intros s ix Hin. destruct (Hix s ix Hin) as [-> Hi]. split; [apply I1; exact Hi|].
      apply in_map_iff in Hi. destruct Hi as ([ix' l'] & E' & Hi). cbn in E'. subst. eauto.
    + exact Hl.
    + intros s Hs. rewrite Ef. apply Hraw. exact Hs.
    + intros s Hs. apply Hnf in Hs. destruct Hs as [Hs _]. apply in_map_iff in Hs. destruct Hs as (kv & <- & Hs).
      apply in_map_iff. exists kv. auto.
    + intros f members s Hf Hs. rewrite Ef. apply I2. apply in_flat_map. exists (f, members). auto.
    + exact Hm.
    + exact Enb.
    + apply Hnb. exact N2.
  - intros s index Hin. exists s. cbn [h_indexed h_indexes]. split; [|exact Hin]. apply in_map_iff. exists (s, index). auto.
  - intros ->. cbn [flat_map]. apply filter_all. intros x _. reflexivity.
Qed.

Lemma init_dict plain d (indexes : list (string * list V)) fused : indexes_ok indexes fused -> d <> [] -> NoDup (map fst d) ->
  (forall s, In s (map fst d) -> ascii_only s) -> labels_plain plain indexes ->
  (forall ix, In ix (map fst indexes) <-> exists s, In (s, Some ix) d) ->
  (forall s, In s (flat_map snd fused) -> exists ix, In (s, Some ix) d) ->
  own_indexes d fused ->
  exists H, init plain (DDict d) indexes fused = Ok H /\ declared_ok H /\ h_managed H = map fst d /\ h_indexes H = indexes /\ h_fused H = fused /\
    (forall s index, index_for H s index <-> exists ix, In (s, Some ix) d /\ In (ix, index) indexes).
Proof.
  intros (N1 & N2 & Hl & Hm) Hne Nd Ha Hp I1 I2 I3. unfold init, indexed_datasets.
  set (idx := flat_map (fun kv : string * option string => match snd kv with Some v => [(fst kv, v)] | None => [] end) d).
  assert (Hidx : forall s ix, In (s, ix) idx <-> In (s, Some ix) d).
  { intros s ix. unfold idx. rewrite in_flat_map. split.
    - intros ([s' [v|]] & Hin & E); cbn in E; [|destruct E]. destruct E as [E|[]]. injection E as <- <-. exact Hin.
    - intros Hin. exists (s, Some ix). split; [exact Hin|]. left. reflexivity. }
  assert (Nidx : NoDup (map fst idx)).
  { unfold idx. clear -Nd. induction d as [|[s o] d IH]; [constructor|]. cbn [map fst] in Nd. inversion Nd as [|? ? A B]; subst.
    cbn [flat_map snd fst]. destruct o as [v|]; [|apply IH; exact B]. cbn. constructor; [|apply IH; exact B].
    intros C. apply A. apply in_map_iff in C. destruct C as ([s' x] & E & C). cbn in E. subst s'.
    apply in_flat_map in C. destruct C as ([s'' [y|]] & C1 & C2); cbn in C2; [|destruct C2]. destruct C2 as [C2|[]].
    injection C2 as -> _. apply in_map_iff. exists (s, Some y). auto. }
  assert (S1 : subset (map snd idx) (map fst indexes) = true).
  { apply subset_incl. intros ix Hin. apply in_map_iff in Hin. destruct Hin as ([s ix'] & E & Hin). cbn in E. subst ix'.
    apply I1. exists s. apply Hidx. exact Hin. }
  assert (S1' : subset (map fst indexes) (map snd idx) = true).
  { apply subset_incl. intros ix Hin. apply I1 in Hin. destruct Hin as (s & Hin). apply in_map_iff. exists (s, ix). split; [reflexivity|]. apply Hidx. exact Hin. }
  rewrite S1, S1'. cbn [andb bind].
  assert (I2' : incl (flat_map snd fused) (map fst idx)).
  { intros s Hs. destruct (I2 s Hs) as (ix & Hin). apply in_map_iff. exists (s, ix). split; [reflexivity|]. apply Hidx. exact Hin. }
  assert (S2 : subset (flat_map snd fused) (map fst idx) = true) by (apply subset_incl; exact I2'). rewrite S2. cbn [negb].
  rewrite (get_names (map fst d)); [|intros E; apply map_eq_nil in E; congruence|exact Ha]. cbn [bind].
  rewrite (get_indexes plain indexes (fun ix l H => proj1 (Hl ix l H)) Hp). cbn [bind].
  destruct (nb_levels_ok idx indexes fused) as (nb & E & Enb & Hnb).
  { exact Nidx. } { exact N1. } { intros s ix Hin. apply I1. exists s. apply Hidx. exact Hin. } { exact I2'. }
  rewrite E. cbn [bind]. eexists. split; [reflexivity|].
  assert (Hnf : forall s, In s (filter (fun s => negb (mem s (flat_map snd fused))) (map fst idx)) <-> In s (map fst idx) /\ ~ In s (flat_map snd fused)).
  { intros s. rewrite filter_In, Bool.negb_true_iff. rewrite <- (mem_In s (flat_map snd fused)). destruct (mem s (flat_map snd fused)); intuition congruence. }
  split; [|cbn [h_managed h_indexes h_fused]; split; [reflexivity|split; [reflexivity|split; [reflexivity|]]]].
  - constructor; cbn [h_managed h_raw h_indexed h_indexes h_non_fused h_fused h_nb_levels].
    + exact Nidx.
    + exact N1.
    + exact N2.
    + intros s ix Hin. apply Hidx in Hin. split; [apply in_map_iff; exists (s, Some ix); auto|].
      assert (Hi : In ix (map fst indexes)) by (apply I1; eauto).
      apply in_map_iff in Hi. destruct Hi as ([ix' l'] & E' & Hi). cbn in E'. subst. eauto.
    + exact Hl.
    + intros s Hs. apply filter_In in Hs. destruct Hs as [Hs Hb]. split; [exact Hs|]. rewrite Bool.negb_true_iff in Hb.
      rewrite <- mem_In. congruence.
    + intros s Hs. apply Hnf in Hs. destruct Hs as [Hs Hnm]. apply in_map_iff in Hs. destruct Hs as ([s' ix] & E' & Hs). cbn in E'. subst s'.
      assert (ix = s) as -> by (apply I3; [apply Hidx; exact Hs|exact Hnm]). exact Hs.
    + intros f members s Hf Hs. apply I2'. apply in_flat_map. exists (f, members). auto.
    + exact Hm.
    + exact Enb.
    + apply Hnb. exact N2.
  - intros s index. split; intros (ix & H1 & H2); exists ix; cbn [h_indexed h_indexes] in *; (split; [apply Hidx; exact H1|exact H2]).
Qed.


Lemma init_rejects plain d (indexes : list (string * list V)) fused :
  match d with
  | DList l => exists ix, In ix (map fst indexes) /\ ~ In ix l
  | DDict d => exists ix, (In ix (map fst indexes) /\ forall s, ~ In (s, Some ix) d) \/ (~ In ix (map fst indexes) /\ exists s, In (s, Some ix) d)
  end \/
  (exists s, In s (flat_map snd fused) /\ match d with DList _ => ~ In s (map fst indexes) | DDict d => forall ix, ~ In (s, Some ix) d end) ->
  init plain d indexes fused = Err ValueError.
Proof.
  assert (Sf : forall a b s, In s a -> ~ In s b -> subset a b = false).
  { intros a b s A B. destruct (subset a b) eqn:E; [|reflexivity]. apply subset_incl in E. exfalso. apply B, E, A. }
  unfold init, indexed_datasets. destruct d as [d|l].
  - set (idx := flat_map (fun kv : string * option string => match snd kv with Some v => [(fst kv, v)] | None => [] end) d).
    assert (Hidx : forall s ix, In (s, ix) idx <-> In (s, Some ix) d).
    { intros s ix. unfold idx. rewrite in_flat_map. split.
      - intros ([s' [v|]] & Hin & E); cbn in E; [|destruct E]. destruct E as [E|[]]. injection E as <- <-. exact Hin.
      - intros Hin. exists (s, Some ix). split; [exact Hin|]. left. reflexivity. }
    intros [(ix & [[A B]|[A (s & B)]])|(s & A & B)].
    + rewrite (Sf (map fst indexes) (map snd idx) ix A); [rewrite Bool.andb_false_r; reflexivity|].
      intros C. apply in_map_iff in C. destruct C as ([s ix'] & E & C). cbn in E. subst ix'. apply (B s). apply Hidx. exact C.
    + rewrite (Sf (map snd idx) (map fst indexes) ix); [reflexivity| |exact A].
      apply in_map_iff. exists (s, ix). split; [reflexivity|]. apply Hidx. exact B.
    + destruct (_ && _)%bool; [|reflexivity]. cbn [bind]. rewrite (Sf (flat_map snd fused) (map fst idx) s A); [reflexivity|].
      intros C. apply in_map_iff in C. destruct C as ([s' ix] & E & C). cbn in E. subst s'. apply (B ix). apply Hidx. exact C.
  - intros [(ix & A & B)|(s & A & B)].
    + rewrite (Sf _ _ ix A B). reflexivity.
    + destruct (subset (map fst indexes) l); [|reflexivity]. cbn [bind]. rewrite (Sf (flat_map snd fused) _ s A); [reflexivity|].
      rewrite map_map. exact B.
Qed.

Lemma init_not_ascii plain d (indexes : list (string * list V)) fused :
  let datasets := match d with DList l => l | DDict d => map fst d end in
  datasets <> [] -> (forall ix l, In (ix, l) indexes -> l <> []) ->
  (exists s, In s datasets /\ ~ ascii_only s) \/ (exists ix l x, In (ix, l) indexes /\ In x l /\ plain x = false) ->
  init plain d indexes fused = Err ValueError.
Proof.
  intros datasets Hne Hl Hbad. unfold init.
  assert (E : indexed_datasets d indexes = Err ValueError \/ exists idx, indexed_datasets d indexes = Ok (datasets, idx)).
  { unfold indexed_datasets, datasets. destruct d as [d|l].
    - destruct (_ && _)%bool; [right; eexists; reflexivity|left; reflexivity].
    - destruct (subset _ _); [right; eexists; reflexivity|left; reflexivity]. }
  destruct E as [->|(idx & ->)]; [reflexivity|]. cbn [bind]. destruct (negb _); [reflexivity|].
  unfold get_array at 1. destruct datasets as [|s0 ds] eqn:Ed; [congruence|]. rewrite <- Ed in *.
  destruct (forallb plain_text datasets) eqn:Ef; [|reflexivity]. cbn [bind].
  destruct Hbad as [(s & Hs & N)|(ix & l & x & Hin & Hx & Ex)].
  { exfalso. apply N, plain_text_iff. exact (proj1 (forallb_forall _ _) Ef s Hs). }
  assert (E : mapM (fun kv : string * list V => l <- get_array plain (snd kv) ;; Ok (fst kv, l)) indexes = Err ValueError).
  { clear - Hl Hin Hx Ex. induction indexes as [|[ix' l'] indexes IH]; [destruct Hin|]. cbn [mapM fst snd].
    pose proof (Hl ix' l' (or_introl eq_refl)) as Hne. unfold get_array at 1. destruct l' as [|x' l']; [congruence|].
    destruct (forallb plain (x' :: l')) eqn:E; [|reflexivity]. cbn [bind].
    destruct Hin as [E'|Hin].
    - exfalso. injection E' as <- <-. rewrite (proj1 (forallb_forall _ _) E x Hx) in Ex. discriminate.
    - rewrite IH; [reflexivity| |exact Hin]. intros ix2 l2 H2. apply (Hl ix2 l2). right. exact H2. }
  rewrite E. reflexivity.
Qed.

End Init.
