(** Files of H5IO created, written and opened again. *)
From Coq Require Import Ascii String.
From Coq Require Import List ZArith Permutation Lia.
From Verif Require Import Prelude ListFacts TypeFitting Distances Distances_proofs H5Names H5Names_proofs H5io H5io_spec
  H5io_proofs H5io_use H5io_reject H5ioFile H5ioFile_spec H5ioFile_proofs.
Import ListNotations.
Local Open Scope string_scope.
Local Open Scope list_scope.

Lemma lookup_perm {A} (l l' : list (string * A)) s : NoDup (map fst l) -> Permutation l l' -> lookup l' s = lookup l s.
Proof.
  intros N P. assert (N' : NoDup (map fst l')) by (apply (Permutation_NoDup (Permutation_map fst P)); exact N).
  destruct (in_dec string_dec s (map fst l)) as [Hi|Hn].
  - apply in_map_iff in Hi. destruct Hi as ([s' a] & E & Hi). cbn in E. subst s'.
    rewrite (lookup_NoDup _ _ _ _ N Hi). apply (lookup_NoDup _ _ _ _ N'). apply (Permutation_in _ P). exact Hi.
  - rewrite (lookup_absent l s Hn). apply lookup_absent. intros Hi. apply Hn. apply (Permutation_in (l := map fst l')); [|exact Hi].
    symmetry. apply Permutation_map. exact P.
Qed.

Section Same.
Variable V : Type.
Variable veq : forall x y : V, {x = y} + {x <> y}.
Variables H H' : h5io V.
Hypothesis N : NoDup (map fst (h_indexes H)).
Hypothesis S : same_group H H'.

Lemma same_lookup s : lookup (h_indexes H') s = lookup (h_indexes H) s.
Proof. apply lookup_perm; [exact N|apply S]. Qed.

Lemma same_parse d : parse_input H' d = parse_input H d.
Proof. destruct S as (E1 & _). unfold parse_input. rewrite E1. reflexivity. Qed.

Lemma same_initialize d : initialize H' d = initialize H d.
Proof.
  pose proof same_lookup as L. destruct S as (E1 & E2 & E3 & _ & E5 & E6 & E7). unfold initialize. rewrite same_parse.
  destruct (parse_input H d) as [p|]; [|reflexivity]. cbn [bind]. rewrite E5, E6, E2.
  assert (Em : mapM (fun s => l <- lookup (h_indexes H') s;; Ok (Z.of_nat (List.length l))) (h_non_fused H) =
               mapM (fun s => l <- lookup (h_indexes H) s;; Ok (Z.of_nat (List.length l))) (h_non_fused H)).
  { apply mapM_cong. intros s. rewrite L. reflexivity. }
  rewrite Em. match goal with |- bind ?x _ = bind ?x _ => destruct x as [ind|]; [|reflexivity] end. cbn [bind].
  assert (Ef : mapM (init_fused H' (fun s => v <- lookup p s;; Ok (width v))) (h_fused H) =
               mapM (init_fused H (fun s => v <- lookup p s;; Ok (width v))) (h_fused H)).
  { apply mapM_cong. intros nf. unfold init_fused. rewrite E7. reflexivity. }
  rewrite Ef. reflexivity.
Qed.

Lemma same_write o d ix : write_data veq H' o d ix = write_data veq H o d ix.
Proof.
  pose proof same_lookup as L. destruct S as (E1 & E2 & E3 & _ & E5 & E6 & E7). unfold write_data. rewrite same_parse.
  destruct (parse_input H d) as [p|]; [|reflexivity]. cbn [bind].
  assert (Em : mapM (fun kv : string * values V => v <- (if ix then Ok (snd kv) else compute_indexes veq H' (fst kv) (snd kv));; m <- convert v;; Ok (fst kv, m)) p =
               mapM (fun kv : string * values V => v <- (if ix then Ok (snd kv) else compute_indexes veq H (fst kv) (snd kv));; m <- convert v;; Ok (fst kv, m)) p).
  { apply mapM_cong. intros kv. destruct ix; [reflexivity|]. unfold compute_indexes. rewrite E3.
    destruct (lookup (h_indexed H) (fst kv)); [|reflexivity]. rewrite L. reflexivity. }
  rewrite Em, E5, E6. reflexivity.
Qed.
End Same.

Section Main.
Variable V : Type.
Variable veq : forall x y : V, {x = y} + {x <> y}.
Variable plain : V -> bool.
Variable texts : bool.

Lemma array_ok {A} (ok : A -> bool) (l : list A) l' : get_array ok l = Ok l' -> l' = l /\ l <> [] /\ forall x, In x l -> ok x = true.
Proof.
  unfold get_array. destruct l as [|a l]; [discriminate|]. destruct (forallb ok (a :: l)) eqn:E; [|discriminate].
  intros X. injection X as <-. split; [reflexivity|]. split; [discriminate|]. apply forallb_forall. exact E.
Qed.

Lemma array_of {A} (ok : A -> bool) (l : list A) : l <> [] -> (forall x, In x l -> ok x = true) -> get_array ok l = Ok l.
Proof. intros N P. unfold get_array. destruct l as [|a l]; [congruence|]. rewrite (proj2 (forallb_forall _ _) P). reflexivity. Qed.

Lemma stored_ok (indexes stored : list (string * list V)) :
  mapM (fun kv : string * list V => l <- get_array plain (snd kv) ;; Ok (fst kv, l)) indexes = Ok stored ->
  stored = indexes /\ forall ix lv, In (ix, lv) indexes -> get_array plain lv = Ok lv.
Proof.
  revert stored. induction indexes as [|[ix lv] indexes IH]; intros stored E; cbn [mapM] in E.
  - injection E as <-. split; [reflexivity|intros ? ? []].
  - cbn [fst snd] in E. destruct (get_array plain lv) as [lv'|] eqn:Ea; [|discriminate]. cbn [bind] in E.
    destruct (mapM _ indexes) as [st|]; [|discriminate]. injection E as <-. destruct (IH st eq_refl) as [-> P].
    pose proof (array_ok _ _ _ Ea) as (-> & _). split; [reflexivity|].
    intros ix' lv'' [X|Hi]; [injection X as <- <-; exact Ea|exact (P ix' lv'' Hi)].
Qed.

Section Created.
Variable d : declared.
Variable indexes : list (string * list V).
Variable H : h5io V.
Hypothesis Ei : init plain d indexes [] = Ok H.
Hypothesis Hraw : h_raw H = [].
Hypothesis Nix : NoDup (map fst indexes).
Hypothesis Six : forall s, In s (map fst indexes) -> simple s /\ ascii_only s.

Lemma declared_facts : check d indexes [] = Ok (h_managed H, h_indexed H) /\ h_indexes H = indexes /\
  h_non_fused H = map fst (h_indexed H) /\ h_fused H = [] /\ h_nb_levels H = [] /\
  get_array plain_text (h_managed H) = Ok (h_managed H) /\
  filter (fun s => negb (mem s (map fst (h_indexed H)))) (h_managed H) = [] /\
  get_array plain_text (map fst (h_indexed H)) = Ok (map fst (h_indexed H)) /\
  get_array plain_text (map snd (h_indexed H)) = Ok (map snd (h_indexed H)) /\
  forall ix lv, In (ix, lv) indexes -> get_array plain lv = Ok lv.
Proof.
  pose proof Ei as E. unfold init in E. unfold check. destruct (indexed_datasets d indexes) as [[ds idx]|] eqn:Ed; [|discriminate].
  cbn [bind flat_map snd] in E |- *. cbn [subset forallb negb] in E |- *.
  destruct (get_array plain_text ds) as [m|] eqn:Em; [|discriminate]. cbn [bind] in E.
  destruct (mapM _ indexes) as [st|] eqn:Es; [|discriminate]. cbn [bind mapM] in E. injection E as E. rewrite <- E in *.
  cbn [h_managed h_raw h_indexed h_indexes h_non_fused h_fused h_nb_levels] in *.
  destruct (array_ok _ _ _ Em) as (-> & Nm & Pm). destruct (stored_ok _ _ Es) as [-> Pl].
  assert (Hsub : (forall s, In s (map fst idx) -> In s ds) /\ (forall s, In s (map snd idx) -> In s (map fst indexes))).
  { unfold indexed_datasets in Ed. destruct d as [dd|l].
    - destruct (_ && _)%bool eqn:Eb; [|discriminate]. injection Ed as <- <-. apply Bool.andb_true_iff in Eb. destruct Eb as [Eb _].
      split; [|apply subset_incl; exact Eb]. intros s Hs. apply in_map_iff in Hs. destruct Hs as ([s' v] & X & Hs). cbn in X. subst s'.
      apply in_flat_map in Hs. destruct Hs as ([s2 [v2|]] & H1 & H2); cbn in H2; [|destruct H2]. destruct H2 as [H2|[]]. injection H2 as -> _.
      apply in_map_iff. exists (s, Some v2). auto.
    - destruct (subset _ _) eqn:Eb; [|discriminate]. injection Ed as <- <-. rewrite !map_map. cbn [fst snd].
      split; [apply subset_incl; exact Eb|tauto]. }
  destruct Hsub as [H1 H2].
  assert (Ni : idx <> []).
  { intros ->. destruct ds as [|s0 ds]; [congruence|]. discriminate Hraw. }
  assert (Nf : filter (fun s => negb (mem s [])) (map fst idx) = map fst idx) by (apply filter_all; reflexivity).
  repeat split; try assumption.
  - apply array_of; [intros X; apply map_eq_nil in X; congruence|]. intros s Hs. apply Pm, H1, Hs.
  - apply array_of; [intros X; apply map_eq_nil in X; congruence|]. intros s Hs. apply plain_text_iff. apply Six, H2, Hs.
Qed.

(** A new group, in a new file or in one that is there. *)
Lemma created fs group : let q := components group in
  match fs with Some f => well_formed f /\ free f q | None => True end ->
  exists f' H', construct plain texts fs (Some d) indexes [] group = (Some f', Ok (true, false, H')) /\
    same_group H H' /\ well_formed f' /\ elsewhere q (before fs) f' /\
    (exists a, get f' q = Some (Group (("sorted", false) :: ("empty", true) :: a))) /\
    (forall r, r <> [] -> get f' (q ++ r) = get (made V (h_managed H) (h_indexed H) indexes) r).
Proof.
  intros q Hfs. assert (Hs : file_ok (before fs) /\ free (before fs) q).
  { unfold before. destruct fs as [f|]; [split; [apply well_formed_ok|]; apply Hfs|]. split; [apply new_file_ok|]. split.
    - intros [|n p] r c _; discriminate.
    - intros r Nr. destruct q as [|x q']; [destruct r; [congruence|reflexivity]|reflexivity]. }
  destruct Hs as [Ks Fr]. destruct declared_facts as (Ec & Eix & Enf & Efu & Enb & P1 & P2 & P3 & P4 & P5).
  destruct (opened (before fs) q Ks Fr) as (f1 & E1 & K1 & A1 & F1 & S1 & New1).
  set (f2 := set_attr (set_attr f1 q "empty" true) q "sorted" false).
  destruct A1 as [a A1].
  assert (A2 : get f2 q = Some (Group (("sorted", false) :: ("empty", true) :: a))).
  { unfold f2. rewrite get_set_attr, path_eqb_refl, get_set_attr, path_eqb_refl, A1. reflexivity. }
  assert (K2 : file_ok f2) by (apply set_attr_ok, set_attr_ok; exact K1).
  assert (O2 : forall p, p <> q -> get f2 p = get f1 p).
  { intros p Np. unfold f2. rewrite !get_set_attr. rewrite !path_eqb_neq by congruence. reflexivity. }
  assert (F2 : forall r, r <> [] -> get f2 (q ++ r) = None).
  { intros r Nr. rewrite O2; [apply F1; exact Nr|]. intros X. apply (f_equal (@List.length string)) in X. rewrite app_length in X.
    destruct r; [congruence|cbn in X; lia]. }
  destruct (created_run V plain texts q f2 K2 (ex_intro _ _ A2) F2 (h_managed H) (h_indexed H) indexes P1 P2 P3 P4 P5 Nix (fun s Hs => proj1 (Six s Hs)))
    as [E3 K3].
  set (f3 := so_far V q f2 (made V (h_managed H) (h_indexed H) indexes)) in *.
  assert (A3 : get f3 q = Some (Group (("sorted", false) :: ("empty", true) :: a))) by (unfold f3, so_far; rewrite get_app, A2; reflexivity).
  assert (G3 : forall r, r <> [] -> get f3 (q ++ r) = get (made V (h_managed H) (h_indexed H) indexes) r).
  { intros r Nr. apply get_inside; assumption. }
  destruct (load_made V q f3 (h_managed H) (h_indexed H) indexes Nix (ok_once f3 K3) (fun r N1 _ _ => G3 r N1) true false) as (ix' & P & El).
  { unfold get_attr. rewrite A3. reflexivity. } { unfold get_attr. rewrite A3. reflexivity. }
  exists f3, (mk_h5io (h_managed H) [] (h_indexed H) ix' (map fst (h_indexed H)) [] []). split.
  { unfold construct. rewrite Ec. fold q. fold (before fs).
    unfold creation. cbn [app].
    rewrite (run_step _ _ _ _ _ E1). erewrite run_step by reflexivity. erewrite run_step by reflexivity. fold f2.
    rewrite E3. rewrite El. reflexivity. }
  split.
  { unfold same_group. cbn [h_managed h_raw h_indexed h_indexes h_non_fused h_fused h_nb_levels]. rewrite Eix.
    repeat split; try (symmetry; assumption); try assumption; reflexivity. }
  split; [apply well_formed_ok; exact K3|]. split.
  { split.
    - intros p Np Nq. unfold f3, so_far. rewrite get_app, (O2 p Nq). destruct (get (before fs) p) as [o|] eqn:X; [|congruence].
      rewrite (S1 p o X). reflexivity.
    - intros p Np Nq. unfold f3, so_far in *. rewrite get_app in *. destruct (list_eq_dec string_dec p q) as [->|Npq].
      + left. exists []. symmetry. apply app_nil_r.
      + rewrite (O2 p Npq) in *. destruct (get f1 p) as [o|] eqn:X.
        * right. destruct (New1 p Np) as [Y Z]; [congruence|]. split; [exact Z|congruence].
        * left. destruct (get (under q (made V (h_managed H) (h_indexed H) indexes)) p) as [o|] eqn:Y; [|congruence].
          assert (Y' : get (under q (made V (h_managed H) (h_indexed H) indexes)) p <> None) by congruence.
          clear Y. rename Y' into Y. apply (proj1 (get_in _ _)) in Y. unfold under in Y. rewrite map_map in Y. apply in_map_iff in Y.
          destruct Y as (po & <- & _). exists (fst po). reflexivity. }
  split; [exists a; exact A3|exact G3].
Qed.

(** What is in the file once [o] is written from the state [f'] of a new group. *)
Record written (q : path) (f' g : file (content V)) (t : itype) (n : nat) (rows : list (list Z)) : Prop := mk_written {
  wr_ok : file_ok g;
  wr_attrs : get_attr g q "empty" = Ok false /\ get_attr g q "sorted" = Ok false /\ is_group g q;
  wr_table : get g (q ++ ["indexed_data"]) = Some (Dataset (Table V t n rows));
  wr_rest : forall p, p <> q -> p <> q ++ ["indexed_data"] -> p <> q ++ ["indexed_cumudims"] -> get g p = get f' p
}.

Lemma beside_q (q : path) n : q ++ [n] <> q.
Proof. apply snoc_neq. Qed.

Lemma child_neq (q : path) m n : m <> n -> q ++ [m] <> q ++ [n].
Proof. intros N E. apply app_inv_head in E. congruence. Qed.

(** New rows. *)
Lemma put_written q f' g t n rows rows' : written q f' g t n rows -> written q f' (put_rows (q ++ ["indexed_data"]) rows' g) t n rows'.
Proof.
  intros [K (A1 & A2 & A3) T R]. unfold put_rows. rewrite T.
  assert (O : forall p, p <> q ++ ["indexed_data"] -> get (set_data g (q ++ ["indexed_data"]) (Table V t n rows')) p = get g p).
  { intros p N. rewrite get_set_data, path_eqb_neq by congruence. reflexivity. }
  assert (Oq : get (set_data g (q ++ ["indexed_data"]) (Table V t n rows')) q = get g q) by (apply O; intros X; apply (beside_q q "indexed_data"); congruence).
  constructor.
  - apply set_data_ok. exact K.
  - unfold get_attr, is_group in *. rewrite Oq. auto.
  - rewrite get_set_data, path_eqb_refl, T. reflexivity.
  - intros p N1 N2 N3. rewrite O by exact N2. apply R; assumption.
Qed.

Section Write.
Variable q : path.
Variables (f' : file (content V)) (H' : h5io V) (a : list (string * bool)).
Hypothesis Sg : same_group H H'.
Hypothesis Kf : file_ok f'.
Hypothesis Aq : get f' q = Some (Group (("sorted", false) :: ("empty", true) :: a)).
Hypothesis Gq : forall r, r <> [] -> get f' (q ++ r) = get (made V (h_managed H) (h_indexed H) indexes) r.

Lemma Nh : NoDup (map fst (h_indexes H)).
Proof. destruct declared_facts as (_ & -> & _). exact Nix. Qed.

Lemma not_made n : n = "indexed_data" \/ n = "indexed_cumudims" -> get f' (q ++ [n]) = None.
Proof.
  intros N. rewrite Gq by discriminate. unfold made. cbn [app get].
  destruct N as [-> | ->]; repeat rewrite path_eqb_neq by discriminate; rewrite get_app, get_beside; reflexivity.
Qed.

(** The first call of [write]. *)
Lemma first_write d0 ix o0 o1 : initialize H d0 = Ok o0 -> write_data veq H o0 d0 ix = Ok o1 ->
  exists g t rows p, parse_input H d0 = Ok p /\ o_indexed o1 = Some (t, rows) /\
    written q f' g t (sumn (map (fun s => match lookup p s with Ok v => width v | Err _ => 0%nat end) (h_non_fused H))) rows /\
    write veq (mk_handle f' q true false H' true None) (Once d0) true ix = (mk_handle g q false false H' true (Some o1), Ok tt).
Proof.
  intros Ein Ewr. destruct declared_facts as (_ & Eix & Enf & Efu & _ & _ & _ & P3 & _).
  unfold write. cbn [w_inside w_empty w_path w_sorted w_meta w_out w_file negb andb]. unfold prepare.
  cbn [w_inside w_empty w_path w_sorted w_meta w_out w_file].
  rewrite (same_initialize V H H' Nh Sg d0), Ein. cbn [bind]. rewrite (same_parse V H H' Sg d0).
  assert (Ep : exists p, parse_input H d0 = Ok p).
  { unfold initialize in Ein. destruct (parse_input H d0); [eauto|discriminate]. }
  destruct Ep as [p Ep]. rewrite Ep. cbn [bind].
  assert (Eo : exists t, o_raw o0 = [] /\ o_indexed o0 = Some (t, []) /\ o_fused o0 = []).
  { unfold initialize in Ein. rewrite Ep in Ein. cbn [bind] in Ein. rewrite Efu, Hraw in Ein. cbn [mapM map] in Ein.
    destruct (Nat.eqb_spec (List.length (h_non_fused H)) 0) as [X|X].
    - exfalso. apply length_zero_iff_nil in X. rewrite Enf in X. rewrite X in P3. discriminate.
    - destruct (mapM _ (h_non_fused H)) as [lv|]; [|discriminate]. cbn [bind] in Ein.
      destruct (fit_integer_type _ _) as [t|]; [|discriminate]. cbn [bind] in Ein. injection Ein as <-. exists t. repeat split. }
  destruct Eo as (t & Eo1 & Eo2 & Eo3). unfold table_steps. rewrite Eo2, Eo3.
  assert (Hr : h_raw H' = []) by (destruct Sg as (_ & -> & _); exact Hraw). rewrite Hr. cbn [map app flat_map].
  assert (Hn : h_non_fused H' = h_non_fused H) by apply Sg. rewrite Hn.
  set (cols := sumn (map (fun s => match lookup p s with Ok v => width v | Err _ => 0%nat end) (h_non_fused H))).
  match goal with |- context [Numbers V ?l] => set (nums := l) end.
  pose proof (make_child IOError f' q "indexed_data" (Dataset (Table V t cols [])) Kf (ex_intro _ _ Aq) (not_made _ (or_introl eq_refl))) as M1.
  set (f1 := f' ++ [(q ++ ["indexed_data"], Dataset (Table V t cols []))]) in *.
  assert (K1 : file_ok f1) by (apply snoc_ok; [exact Kf|exists (("sorted", false) :: ("empty", true) :: a); exact Aq|apply not_made; now left]).
  assert (G1 : forall p, get f1 p = if path_eqb (q ++ ["indexed_data"]) p then Some (Dataset (Table V t cols [])) else get f' p).
  { intros p'. apply get_snoc. apply not_made. now left. }
  assert (Aq1 : get f1 q = Some (Group (("sorted", false) :: ("empty", true) :: a))).
  { rewrite G1, path_eqb_neq by apply beside_q. exact Aq. }
  assert (N1 : get f1 (q ++ ["indexed_cumudims"]) = None).
  { rewrite G1, path_eqb_neq by (apply child_neq; discriminate). apply not_made. now right. }
  pose proof (make_child RuntimeError f1 q "indexed_cumudims" (Dataset (Numbers V nums)) K1 (ex_intro _ _ Aq1) N1) as M2.
  set (f2 := f1 ++ [(q ++ ["indexed_cumudims"], Dataset (Numbers V nums))]) in *.
  assert (K2 : file_ok f2) by (apply snoc_ok; [exact K1|eexists; exact Aq1|exact N1]).
  assert (G2 : forall p, get f2 p = if path_eqb (q ++ ["indexed_cumudims"]) p then Some (Dataset (Numbers V nums)) else get f1 p).
  { intros p'. apply get_snoc. exact N1. }
  rewrite (run_step _ _ _ _ _ M1). rewrite (run_step _ _ _ f1 f2) by exact M2. cbn [run].
  cbn [write_each]. rewrite (same_write V veq H H' Nh Sg o0 d0 ix), Ewr. cbn [bind].
  assert (Ew : exists rows, o_raw o1 = [] /\ o_indexed o1 = Some (t, rows) /\ o_fused o1 = []).
  { unfold write_data in Ewr. rewrite Ep in Ewr. cbn [bind] in Ewr. destruct (mapM _ p) as [d'|]; [|discriminate]. cbn [bind] in Ewr.
    rewrite Eo1, Eo2, Eo3 in Ewr. cbn [mapM bind] in Ewr. destruct (mapM _ (h_non_fused H)) as [ms|]; [|discriminate]. cbn [bind] in Ewr.
    destruct (hcat ms) as [m|]; [|discriminate]. cbn [bind] in Ewr. injection Ewr as <-. eexists. repeat split. }
  destruct Ew as (rows & Ew1 & Ew2 & Ew3). eexists _, t, rows, p. split; [reflexivity|]. split; [exact Ew2|]. split; [|reflexivity].
  unfold put. rewrite Ew1, Ew2, Ew3. cbn [fold_left]. fold cols. apply (put_written q f' _ t cols []).
  assert (G3 : forall p, p <> q -> get (set_attr f2 q "empty" false) p = get f2 p).
  { intros p' N. rewrite get_set_attr, path_eqb_neq by congruence. reflexivity. }
  assert (Aq3 : get (set_attr f2 q "empty" false) q = Some (Group (("empty", false) :: ("sorted", false) :: ("empty", true) :: a))).
  { rewrite get_set_attr, path_eqb_refl, G2, path_eqb_neq by apply beside_q. rewrite Aq1. reflexivity. }
  constructor.
  - apply set_attr_ok. exact K2.
  - unfold get_attr, is_group. rewrite Aq3. cbn. repeat split. eauto.
  - rewrite G3 by apply beside_q. rewrite G2, path_eqb_neq by (apply child_neq; discriminate). rewrite G1, path_eqb_refl. reflexivity.
  - intros p' N2 N3 N4. rewrite G3 by exact N2. rewrite G2, path_eqb_neq by congruence. rewrite G1, path_eqb_neq by congruence. reflexivity.
Qed.

(** The others. *)
Lemma next_write g t n rows o d1 ix o1 : written q f' g t n rows -> o_indexed o = Some (t, rows) -> o_raw o = [] -> o_fused o = [] ->
  write_data veq H o d1 ix = Ok o1 ->
  exists g' rows', o_indexed o1 = Some (t, rows') /\ o_raw o1 = [] /\ o_fused o1 = [] /\ written q f' g' t n rows' /\
    write veq (mk_handle g q false false H' true (Some o)) (Once d1) true ix = (mk_handle g' q false false H' true (Some o1), Ok tt).
Proof.
  intros W Eo Er Ef Ewr.
  unfold write. cbn [w_inside w_empty w_path w_sorted w_meta w_out w_file negb andb]. unfold prepare.
  cbn [w_inside w_empty w_path w_sorted w_meta w_out w_file write_each].
  rewrite (same_write V veq H H' Nh Sg o d1 ix), Ewr. cbn [bind].
  assert (Ew : exists rows', o_raw o1 = [] /\ o_indexed o1 = Some (t, rows') /\ o_fused o1 = []).
  { unfold write_data in Ewr. destruct (parse_input H d1) as [p|]; [|discriminate]. cbn [bind] in Ewr.
    destruct (mapM _ p) as [d'|]; [|discriminate]. cbn [bind] in Ewr.
    rewrite Er, Eo, Ef in Ewr. cbn [mapM bind] in Ewr. destruct (mapM _ (h_non_fused H)) as [ms|]; [|discriminate]. cbn [bind] in Ewr.
    destruct (hcat ms) as [m|]; [|discriminate]. cbn [bind] in Ewr. injection Ewr as <-. eexists. repeat split. }
  destruct Ew as (rows' & Ew1 & Ew2 & Ew3). eexists _, rows'. split; [exact Ew2|]. split; [exact Ew1|]. split; [exact Ew3|]. split; [|reflexivity].
  unfold put. rewrite Ew1, Ew2, Ew3. cbn [fold_left]. apply (put_written q f' g t n rows). exact W.
Qed.

Lemma next_writes : forall batches g t n rows o o1, written q f' g t n rows -> o_indexed o = Some (t, rows) -> o_raw o = [] -> o_fused o = [] ->
  write_all veq H (Some o) batches = Ok o1 ->
  exists g' rows' o1', o1 = Some o1' /\ o_indexed o1' = Some (t, rows') /\ written q f' g' t n rows' /\
    writes veq (mk_handle g q false false H' true (Some o)) batches = (mk_handle g' q false false H' true (Some o1'), Ok tt).
Proof.
  induction batches as [|[d1 ix] batches IH]; intros g t n rows o o1 W Eo Er Ef E; cbn [write_all] in E.
  - injection E as <-. exists g, rows, o. split; [reflexivity|]. split; [exact Eo|]. split; [exact W|reflexivity].
  - cbn [bind] in E. destruct (write_data veq H o d1 ix) as [o2|] eqn:E2; [|discriminate]. cbn [bind] in E.
    destruct (next_write g t n rows o d1 ix o2 W Eo Er Ef E2) as (g' & rows' & A1 & A2 & A3 & W' & A4).
    destruct (IH g' t n rows' o2 o1 W' A1 A2 A3 E) as (g'' & rows'' & o1' & B1 & B2 & B3 & B4).
    exists g'', rows'', o1'. split; [exact B1|]. split; [exact B2|]. split; [exact B3|]. cbn [writes]. rewrite A4. exact B4.
Qed.

Lemma all_writes batches o : batches <> [] -> write_all veq H None batches = Ok o ->
  exists g t rows o' p, o = Some o' /\ o_indexed o' = Some (t, rows) /\
    (exists d0 ix rest, batches = (d0, ix) :: rest /\ parse_input H d0 = Ok p) /\
    written q f' g t (sumn (map (fun s => match lookup p s with Ok v => width v | Err _ => 0%nat end) (h_non_fused H))) rows /\
    writes veq (mk_handle f' q true false H' true None) batches = (mk_handle g q false false H' true (Some o'), Ok tt).
Proof.
  destruct batches as [|[d0 ix] batches]; [congruence|]. intros _ E. cbn [write_all] in E.
  destruct (initialize H d0) as [o0|] eqn:E0; [|discriminate]. cbn [bind] in E.
  destruct (write_data veq H o0 d0 ix) as [o1|] eqn:E1; [|discriminate]. cbn [bind] in E.
  destruct (first_write d0 ix o0 o1 E0 E1) as (g & t & rows & p & A0 & A1 & W & A2).
  assert (Er : o_raw o1 = [] /\ o_fused o1 = []).
  { destruct declared_facts as (_ & _ & _ & Efu & _).
    unfold initialize in E0. rewrite A0 in E0. cbn [bind] in E0. rewrite Efu, Hraw in E0.
    match type of E0 with bind ?x _ = _ => destruct x as [ind|]; [|discriminate] end. cbn [bind mapM map] in E0. injection E0 as <-.
    unfold write_data in E1. rewrite A0 in E1. cbn [bind] in E1. destruct (mapM _ p) as [d'|]; [|discriminate]. cbn [bind o_raw o_fused o_indexed mapM] in E1.
    match type of E1 with bind ?x _ = _ => destruct x as [ind'|]; [|discriminate] end. cbn [bind] in E1. injection E1 as <-. split; reflexivity. }
  destruct (next_writes batches g t _ rows o1 o W A1 (proj1 Er) (proj2 Er) E) as (g' & rows' & o' & B1 & B2 & B3 & B4).
  exists g', t, rows', o', p. split; [exact B1|]. split; [exact B2|]. split; [eauto 6|]. split; [exact B3|]. cbn [writes]. rewrite A2. exact B4.
Qed.

(** A group is opened again with the same declarations. *)
Lemma reopened group g t n rows : components group = q -> written q f' g t n rows ->
  exists H'', construct plain texts (Some g) None [] [] group = (Some g, Ok (false, false, H'')) /\ same_group H H''.
Proof.
  intros Eq [K (A1 & A2 & A3) T R]. destruct declared_facts as (_ & Eix & Enf & Efu & Enb & _).
  destruct (load_made V q g (h_managed H) (h_indexed H) indexes Nix (ok_once g K)) with (e := false) (o := false) as (ix' & P & El).
  { intros r N1 N2 N3. rewrite R; [apply Gq; exact N1| | |].
    - intros X. apply (f_equal (@List.length string)) in X. rewrite app_length in X. destruct r; [congruence|cbn in X; lia].
    - intros X. apply app_inv_head in X. congruence.
    - intros X. apply app_inv_head in X. congruence. }
  { exact A1. } { exact A2. }
  exists (mk_h5io (h_managed H) [] (h_indexed H) ix' (map fst (h_indexed H)) [] []). split.
  - unfold construct. rewrite Eq. destruct A3 as [b A3]. unfold present. rewrite A3, El. reflexivity.
  - unfold same_group. cbn [h_managed h_raw h_indexed h_indexes h_non_fused h_fused h_nb_levels]. rewrite Eix.
    repeat split; try (symmetry; assumption); try assumption; reflexivity.
Qed.
End Write.
End Created.
End Main.
