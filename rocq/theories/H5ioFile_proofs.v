(** The creation and the loading of the files of H5IO. *)
From Coq Require Import Ascii String.
From Coq Require Import List ZArith Permutation Lia.
From Verif Require Import Prelude ListFacts TypeFitting Distances Distances_proofs H5Names H5Names_proofs H5io H5io_spec
  H5io_proofs H5io_use H5ioFile H5ioFile_spec.
Import ListNotations.
Local Open Scope string_scope.
Local Open Scope list_scope.

Lemma well_formed_ok {C} (f : file C) : well_formed f <-> file_ok f.
Proof. split; [intros (A & B & D); constructor; assumption|intros [A B D]; repeat split; assumption]. Qed.

Lemma parents_made {C} e names : forall (f : file C) here, file_ok f -> is_group f here ->
  (forall p r c, names = p ++ r -> get f (here ++ p) <> Some (Dataset c)) ->
  exists f1, make_parents e f here names = Ok f1 /\ file_ok f1 /\ is_group f1 (here ++ names) /\
    (forall p o, get f p = Some o -> get f1 p = Some o) /\
    (forall p, get f p = None -> get f1 p <> None -> get f1 p = Some (Group []) /\ exists r r', p = here ++ r /\ names = r ++ r').
Proof.
  induction names as [|n names IH]; intros f here K A D.
  - exists f. split; [reflexivity|]. split; [exact K|]. rewrite app_nil_r. split; [exact A|]. split; [tauto|]. intros p E N. congruence.
  - cbn [make_parents]. destruct (get f (here ++ [n])) as [[a|c]|] eqn:E.
    + destruct (IH f (here ++ [n]) K) as (f1 & E1 & K1 & A1 & S1 & N1).
      { exists a. exact E. }
      { intros p r c Er. rewrite <- app_assoc. apply (D (n :: p) r c). rewrite Er. reflexivity. }
      rewrite <- app_assoc in A1. exists f1. split; [exact E1|]. split; [exact K1|]. split; [exact A1|]. split; [exact S1|].
      intros p Ep Np. destruct (N1 p Ep Np) as (G & r & r' & -> & ->). split; [exact G|]. exists (n :: r), r'.
      rewrite <- app_assoc. split; reflexivity.
    + exfalso. exact (D [n] names c eq_refl E).
    + destruct (IH (f ++ [(here ++ [n], Group [])]) (here ++ [n])) as (f1 & E1 & K1 & A1 & S1 & N1).
      { apply snoc_ok; assumption. }
      { exists []. rewrite (get_snoc f _ _ _ E), path_eqb_refl. reflexivity. }
      { intros p r c Er. rewrite (get_snoc f _ _ _ E). destruct (path_eqb _ _); [discriminate|].
        rewrite <- app_assoc. apply (D (n :: p) r c). rewrite Er. reflexivity. }
      rewrite <- app_assoc in A1. exists f1. split; [exact E1|]. split; [exact K1|]. split; [exact A1|]. split.
      * intros p o Ep. apply S1. rewrite (get_snoc f _ _ _ E). destruct (path_eqb (here ++ [n]) p) eqn:X; [|exact Ep].
        apply path_eqb_eq in X. congruence.
      * intros p Ep Np. destruct (path_eqb (here ++ [n]) p) eqn:X.
        -- apply path_eqb_eq in X. subst p. split; [apply S1; rewrite (get_snoc f _ _ _ E), path_eqb_refl; reflexivity|].
           exists [n], names. split; reflexivity.
        -- destruct (N1 p) as (G & r & r' & -> & ->); [rewrite (get_snoc f _ _ _ E), X; exact Ep|exact Np|].
           split; [exact G|]. exists (n :: r), r'. rewrite <- app_assoc. split; reflexivity.
Qed.

(** The group is there after it is opened. *)
Lemma opened {V} (f : file (content V)) q : file_ok f -> free f q ->
  exists f1, open_group q f = Ok f1 /\ file_ok f1 /\ is_group f1 q /\ (forall r, r <> [] -> get f1 (q ++ r) = None) /\
    (forall p o, get f p = Some o -> get f1 p = Some o) /\
    (forall p, get f p = None -> get f1 p <> None -> get f1 p = Some (Group []) /\ exists r, q = p ++ r).
Proof.
  intros K [D F]. unfold open_group. destruct (get f q) as [[a|c]|] eqn:E.
  - exists f. split; [reflexivity|]. split; [exact K|]. split; [exists a; exact E|]. split; [exact F|]. split; [tauto|congruence].
  - exfalso. apply (D q [] c); [rewrite app_nil_r; reflexivity|exact E].
  - destruct (exists_last (l := q)) as (q0 & n & ->).
    { intros ->. destruct (ok_root f K) as [a R]. congruence. }
    unfold make. rewrite E, removelast_last. destruct (parents_made ValueError q0 f []) as (f1 & E1 & K1 & A1 & S1 & N1).
    { exact K. } { apply (ok_root f K). } { intros p r c Er. apply (D p (r ++ [n]) c). rewrite Er, app_assoc. reflexivity. }
    cbn [app] in A1. rewrite E1. cbn [bind].
    assert (E' : get f1 (q0 ++ [n]) = None).
    { destruct (get f1 (q0 ++ [n])) as [o|] eqn:X; [|reflexivity]. exfalso.
      destruct (N1 (q0 ++ [n]) E) as (_ & r & r' & Hr & Hq); [congruence|]. cbn [app] in Hr. subst r.
      apply (f_equal (@List.length string)) in Hq. rewrite !app_length in Hq. cbn in Hq. lia. }
    eexists. split; [reflexivity|]. split; [apply snoc_ok; assumption|].
    split; [exists []; rewrite (get_snoc f1 _ _ _ E'), path_eqb_refl; reflexivity|]. split.
    { intros r Hr. rewrite (get_snoc f1 _ _ _ E'). rewrite path_eqb_neq.
      - destruct (get f1 ((q0 ++ [n]) ++ r)) as [o|] eqn:X; [|reflexivity]. exfalso.
        destruct (N1 _ (F r Hr)) as (_ & r1 & r2 & H1 & H2); [congruence|]. cbn [app] in H1. subst r1.
        apply (f_equal (@List.length string)) in H2. rewrite !app_length in H2. cbn in H2. lia.
      - intros X. apply (f_equal (@List.length string)) in X. rewrite !app_length in X. destruct r; [congruence|cbn in X; lia]. }
    split.
    + intros p o Ep. rewrite (get_snoc f1 _ _ _ E'). destruct (path_eqb (q0 ++ [n]) p) eqn:X; [|apply S1; exact Ep].
      apply path_eqb_eq in X. congruence.
    + intros p Ep. rewrite (get_snoc f1 _ _ _ E'). destruct (path_eqb (q0 ++ [n]) p) eqn:X.
      * apply path_eqb_eq in X. subst p. intros _. split; [reflexivity|]. exists []. rewrite app_nil_r. reflexivity.
      * intros Np. destruct (N1 p Ep Np) as (G & r & r' & -> & ->). cbn [app]. split; [exact G|]. exists (r' ++ [n]). rewrite app_assoc. reflexivity.
Qed.

(** Objects moved under a group. *)
Definition under {C} (q : path) (l : file C) : file C := map (fun po => (q ++ fst po, snd po)) l.

Lemma path_eqb_under q p p' : path_eqb (q ++ p) (q ++ p') = path_eqb p p'.
Proof.
  destruct (path_eqb p p') eqn:E.
  - apply path_eqb_eq in E. subst. apply path_eqb_refl.
  - apply path_eqb_neq. intros X. apply app_inv_head in X. subst. rewrite path_eqb_refl in E. discriminate.
Qed.

Lemma get_under {C} q (l : file C) r : get (under q l) (q ++ r) = get l r.
Proof. unfold under. induction l as [|[p o] l IH]; [reflexivity|]. cbn [map get fst snd]. rewrite path_eqb_under, IH. reflexivity. Qed.

Lemma get_not_under {C} q (l : file C) p : (forall r, p <> q ++ r) -> get (under q l) p = None.
Proof. intros N. unfold under. induction l as [|[p' o] l IH]; [reflexivity|]. cbn [map get fst snd]. rewrite path_eqb_neq; [exact IH|]. intros E. exact (N p' (eq_sym E)). Qed.

Lemma under_app {C} q (l l' : file C) : under q (l ++ l') = under q l ++ under q l'.
Proof. apply map_app. Qed.

Section Create.
Variable V : Type.
Variable plain : V -> bool.
Variable texts : bool.

(** What is created in a group, without raw and fused datasets. *)
Definition made (datasets : list string) (indexed : list (string * string)) (indexes : list (string * list V)) : file (content V) :=
  [(["managed_datasets"], Dataset (Texts V datasets));
   (["indexed_datasets"], Dataset (Texts V (map fst indexed)));
   (["indexed_datasets_indexes"], Dataset (Texts V (map snd indexed)));
   (["indexes"], Group [])]
  ++ map (fun kv : string * list V => (["indexes"; fst kv], Dataset (Levels (snd kv)))) indexes
  ++ [(["non_fused_datasets"], Dataset (Texts V (map fst indexed)))].

Lemma run_step (s : step V) steps f f' : s f = Ok f' -> run (s :: steps) f = run steps f'.
Proof. intros E. cbn [run]. rewrite E. reflexivity. Qed.

Lemma run_app (s1 s2 : list (step V)) f f' : run s1 f = (f', Ok tt) -> run (s1 ++ s2) f = run s2 f'.
Proof.
  revert f. induction s1 as [|s s1 IH]; intros f E; cbn [run app] in *; [injection E as ->; reflexivity|].
  destruct (s f); [apply IH; exact E|discriminate].
Qed.

Lemma get_beside n (indexes : list (string * list V)) :
  get (map (fun kv : string * list V => (["indexes"; fst kv], Dataset (Levels (snd kv)))) indexes) [n] = None.
Proof. induction indexes as [|kv ixs IH]; [reflexivity|]. cbn [map get]. rewrite path_eqb_neq by discriminate. exact IH. Qed.

Section Group.
Variable q : path.
Variable f : file (content V).
Hypothesis K : file_ok f.
Hypothesis A : is_group f q.
Hypothesis F : forall r, r <> [] -> get f (q ++ r) = None.

(** What is in the group is made of [l] so far. *)
Definition so_far (l : file (content V)) : file (content V) := f ++ under q l.

Lemma get_inside l r : r <> [] -> get (so_far l) (q ++ r) = get l r.
Proof. intros N. unfold so_far. rewrite get_app, (F r N). apply get_under. Qed.

Lemma group_so_far l : is_group (so_far l) q.
Proof. destruct A as [a E]. exists a. unfold so_far. rewrite get_app, E. reflexivity. Qed.

Lemma add_one l e r n o : file_ok (so_far l) -> (r = [] \/ r <> [] /\ exists a, get l r = Some (Group a)) -> get l (r ++ [n]) = None ->
  make e (so_far l) (q ++ r ++ [n]) o = Ok (so_far (l ++ [(r ++ [n], o)])) /\ file_ok (so_far (l ++ [(r ++ [n], o)])).
Proof.
  intros Kl G N.
  assert (Ag : is_group (so_far l) (q ++ r)).
  { destruct G as [-> | [Nr [a G]]]; [rewrite app_nil_r; apply group_so_far|]. exists a. rewrite get_inside by exact Nr. exact G. }
  assert (E : get (so_far l) ((q ++ r) ++ [n]) = None).
  { rewrite <- app_assoc, get_inside by (destruct r; discriminate). exact N. }
  replace (q ++ r ++ [n]) with ((q ++ r) ++ [n]) by (rewrite app_assoc; reflexivity).
  rewrite (make_child e (so_far l) (q ++ r) n o Kl Ag E).
  assert (X : so_far (l ++ [(r ++ [n], o)]) = so_far l ++ [((q ++ r) ++ [n], o)]).
  { unfold so_far. rewrite under_app, app_assoc. cbn. rewrite app_assoc. reflexivity. }
  rewrite X. split; [reflexivity|]. apply snoc_ok; assumption.
Qed.

Lemma so_far_nil : so_far [] = f.
Proof. unfold so_far. apply app_nil_r. Qed.

(** The indexes are created one after the other. *)
Lemma indexes_run : forall indexes l, file_ok (so_far l) -> (exists a, get l ["indexes"] = Some (Group a)) ->
  NoDup (map fst indexes) -> (forall s, In s (map fst indexes) -> simple s /\ get l ["indexes"; s] = None) ->
  (forall ix lv, In (ix, lv) indexes -> get_array plain lv = Ok lv) ->
  run (map (fun kv : string * list V =>
              new_dataset (l <- get_array plain (snd kv) ;; Ok (Levels l)) (resolve (q ++ ["indexes"]) (fst kv))) indexes) (so_far l) =
  (so_far (l ++ map (fun kv : string * list V => (["indexes"; fst kv], Dataset (Levels (snd kv)))) indexes), Ok tt) /\
  file_ok (so_far (l ++ map (fun kv : string * list V => (["indexes"; fst kv], Dataset (Levels (snd kv)))) indexes)).
Proof.
  induction indexes as [|[ix lv] indexes IH]; intros l Kl G N S P.
  - cbn [map run]. rewrite app_nil_r. split; [reflexivity|exact Kl].
  - cbn [map fst snd] in *. apply NoDup_cons_iff in N. destruct N as [N1 N2].
    destruct (S ix (or_introl eq_refl)) as [[Sx Sn] Nx].
    destruct (add_one l RuntimeError ["indexes"] ix (Dataset (Levels lv)) Kl) as [E1 K1].
    { right. split; [discriminate|exact G]. } { exact Nx. }
    rewrite (run_step _ _ _ (so_far (l ++ [(["indexes"] ++ [ix], Dataset (Levels lv))]))).
    2:{ unfold new_dataset. rewrite (P ix lv (or_introl eq_refl)). cbn [bind].
        rewrite (resolve_simple _ ix Sn Sx). rewrite <- app_assoc. exact E1. }
    destruct (IH (l ++ [(["indexes"] ++ [ix], Dataset (Levels lv))])) as [E2 K2].
    { exact K1. }
    { destruct G as [a G]. exists a. rewrite get_app, G. reflexivity. }
    { exact N2. }
    { intros s Hs. destruct (S s (or_intror Hs)) as [Ss Ns]. split; [exact Ss|]. rewrite get_app, Ns. cbn.
      rewrite path_eqb_neq; [reflexivity|]. intros X. injection X as ->. contradiction. }
    { intros ix' lv' Hin. apply (P ix' lv'). right. exact Hin. }
    rewrite E2. rewrite <- app_assoc in *. cbn [app] in *. split; [reflexivity|exact K2].
Qed.

Section Declared.
Variable datasets : list string.
Variable indexed : list (string * string).
Variable indexes : list (string * list V).
Hypothesis Hmanaged : get_array plain_text datasets = Ok datasets.
Hypothesis Hraw : filter (fun s => negb (mem s (map fst indexed))) datasets = [].
Hypothesis Hindexed : get_array plain_text (map fst indexed) = Ok (map fst indexed).
Hypothesis Hix : get_array plain_text (map snd indexed) = Ok (map snd indexed).
Hypothesis Hlevels : forall ix lv, In (ix, lv) indexes -> get_array plain lv = Ok lv.
Hypothesis Nix : NoDup (map fst indexes).
Hypothesis Six : forall s, In s (map fst indexes) -> simple s.

Lemma created_run :
  run (new_managed q datasets ::
       match filter (fun s => negb (mem s (map fst indexed))) datasets with
       | [] => []
       | _ :: _ => [new_dataset (texts_of V texts (filter (fun s => negb (mem s (map fst indexed))) datasets)) (q ++ ["raw_datasets"])]
       end ++ index_steps plain q indexed indexes (flat_map snd (@nil (string * list string))) ++ fused_steps texts q indexed indexes []) f =
  (so_far (made datasets indexed indexes), Ok tt) /\ file_ok (so_far (made datasets indexed indexes)).
Proof.
  rewrite Hraw. cbn [app fused_steps flat_map]. rewrite app_nil_r.
  rewrite <- so_far_nil at 1. pose proof K as K0. rewrite <- so_far_nil in K0.
  destruct (add_one [] RuntimeError [] "managed_datasets" (Dataset (Texts V datasets)) K0 (or_introl eq_refl) eq_refl) as [E1 K1].
  erewrite run_step.
  2:{ unfold new_managed. destruct (group_so_far []) as [a Ea]. rewrite Ea. unfold new_dataset, bytes_of. rewrite Hmanaged. cbn [bind]. exact E1. }
  unfold index_steps. assert (Nf : filter (fun s => negb (mem s [])) (map fst indexed) = map fst indexed) by (apply filter_all; reflexivity).
  destruct indexed as [|i0 indexed0] eqn:Ei; [discriminate Hindexed|]. rewrite <- Ei in *. clear Ei.
  destruct (add_one _ RuntimeError [] "indexed_datasets" (Dataset (Texts V (map fst indexed))) K1 (or_introl eq_refl) eq_refl) as [E2 K2].
  destruct (add_one _ RuntimeError [] "indexed_datasets_indexes" (Dataset (Texts V (map snd indexed))) K2 (or_introl eq_refl) eq_refl) as [E3 K3].
  destruct (add_one _ ValueError [] "indexes" (Group []) K3 (or_introl eq_refl) eq_refl) as [E4 K4].
  cbn [app] in *.
  erewrite run_step by (unfold new_dataset, bytes_of; rewrite Hindexed; cbn [bind]; exact E2).
  erewrite run_step by (unfold new_dataset, bytes_of; rewrite Hix; cbn [bind]; exact E3).
  rewrite (run_step _ _ _ _ E4).
  destruct (indexes_run indexes _ K4) as [E5 K5].
  { exists []. reflexivity. } { exact Nix. } { intros s Hs. split; [apply Six; exact Hs|reflexivity]. } { exact Hlevels. }
  rewrite (run_app _ _ _ _ E5). rewrite Nf.
  destruct (map fst indexed) as [|n0 names] eqn:En; [discriminate Hindexed|]. rewrite <- En in *.
  destruct (add_one _ RuntimeError [] "non_fused_datasets" (Dataset (Texts V (map fst indexed))) K5 (or_introl eq_refl)) as [E6 K6].
  { apply get_beside. }
  cbn [app] in *.
  erewrite run_step by (unfold new_dataset, bytes_of; rewrite Hindexed; cbn [bind]; exact E6).
  cbn [run]. split; [reflexivity|exact K6].
Qed.
End Declared.
End Group.

(** The group is read back, whatever else is in the file. *)
Section Load.
Variable q : path.
Variable g : file (content V).
Variable datasets : list string.
Variable indexed : list (string * string).
Variable indexes : list (string * list V).
Hypothesis Nix : NoDup (map fst indexes).
Hypothesis Once : NoDup (map fst g).
Hypothesis G : forall r, r <> [] -> r <> ["indexed_data"] -> r <> ["indexed_cumudims"] -> get g (q ++ r) = get (made datasets indexed indexes) r.

Lemma get_levels s : get (made datasets indexed indexes) ["indexes"; s] =
  match lookup indexes s with Ok lv => Some (Dataset (Levels lv)) | Err _ => None end.
Proof.
  unfold made. cbn [app get]. repeat (rewrite path_eqb_neq by discriminate). rewrite get_app.
  assert (E : get (map (fun kv : string * list V => (["indexes"; fst kv], Dataset (Levels (snd kv)))) indexes) ["indexes"; s] =
              match lookup indexes s with Ok lv => Some (Dataset (Levels lv)) | Err _ => None end).
  { clear. induction indexes as [|[ix lv] ixs IH]; [reflexivity|]. cbn [map get lookup fst snd].
    destruct (String.eqb_spec ix s) as [->|N]; [rewrite path_eqb_refl; reflexivity|].
    rewrite path_eqb_neq by congruence. exact IH. }
  rewrite E. destruct (lookup indexes s); reflexivity.
Qed.

Lemma lookup_in s lv : lookup indexes s = Ok lv <-> In (s, lv) indexes.
Proof.
  split; [|apply lookup_NoDup; exact Nix]. clear. induction indexes as [|[ix l] ixs IH]; [discriminate|]. cbn [lookup].
  destruct (String.eqb_spec ix s) as [->|N]; [intros E; injection E as ->; now left|intros E; right; apply IH; exact E].
Qed.

Lemma listed s : In s (listing g (q ++ ["indexes"])) <-> In s (map fst indexes).
Proof.
  rewrite listing_in, <- app_assoc. cbn [app]. rewrite G by discriminate. rewrite get_levels.
  destruct (lookup indexes s) as [lv|e] eqn:E.
  - split; [intros _|discriminate]. apply lookup_in in E. apply in_map_iff. exists (s, lv). auto.
  - split; [congruence|]. intros Hi. exfalso. apply in_map_iff in Hi. destruct Hi as ([s' lv] & Es & Hi). cbn in Es. subst s'.
    apply lookup_in in Hi. congruence.
Qed.

Variables e o : bool.
Hypothesis He : get_attr g q "empty" = Ok e.
Hypothesis Ho : get_attr g q "sorted" = Ok o.

Lemma load_made : exists indexes', Permutation indexes indexes' /\
  load g q = Ok (e, o, mk_h5io datasets [] indexed indexes' (map fst indexed) [] []).
Proof.
  set (names := listing g (q ++ ["indexes"])).
  assert (P : Permutation (map fst indexes) names).
  { apply NoDup_Permutation; [exact Nix|apply listing_once; exact Once|]. intros s. symmetry. apply listed. }
  destruct (mapM_exists _ _ (fun dset => l <- read_levels g (q ++ ["indexes"; dset]) ;; Ok (dset, l)) (fun s kv => fst kv = s /\ In kv indexes) names)
    as (indexes' & E & Fi).
  { intros s Hs. apply listed in Hs. apply in_map_iff in Hs. destruct Hs as ([s' lv] & Es & Hi). cbn in Es. subst s'.
    exists (s, lv). split; [|split; [reflexivity|exact Hi]]. unfold read_levels, read. rewrite G by discriminate. rewrite get_levels.
    apply lookup_in in Hi. rewrite Hi. reflexivity. }
  assert (En : map fst indexes' = names).
  { clear - Fi. induction Fi as [|s kv l l' [H _] F IH]; [reflexivity|]. cbn [map]. rewrite IH, H. reflexivity. }
  assert (Inc : forall kv, In kv indexes' -> In kv indexes).
  { clear - Fi. intros kv Hi. induction Fi as [|s kv' l l' [_ H] F IH]; [destruct Hi|]. destruct Hi as [<-|Hi]; [exact H|exact (IH Hi)]. }
  exists indexes'. split.
  - apply NoDup_Permutation_bis.
    + apply (NoDup_map_inv fst). exact Nix.
    + apply Permutation_length in P. rewrite <- En, !map_length in P. lia.
    + intros kv Hi. destruct kv as [s lv].
      assert (Hs : In s (map fst indexes')) by (rewrite En; apply listed; apply in_map_iff; exists (s, lv); auto).
      apply in_map_iff in Hs. destruct Hs as ([s' lv'] & Es & Hs). cbn in Es. subst s'.
      assert (lv' = lv) as <-; [|exact Hs]. apply Inc, lookup_in in Hs. apply lookup_in in Hi. congruence.
  - unfold load. rewrite He, Ho. cbn [bind].
    assert (R : forall n l, n <> "indexed_data" -> n <> "indexed_cumudims" -> get (made datasets indexed indexes) [n] = Some (Dataset (Texts V l)) ->
              read_texts g (q ++ [n]) = Ok l /\ present g (q ++ [n]) = true).
    { intros n l N1 N2 E'. unfold read_texts, read, present. rewrite G by congruence. rewrite E'. split; reflexivity. }
    assert (B : forall n, n <> "indexed_data" -> n <> "indexed_cumudims" -> get (made datasets indexed indexes) [n] = None -> present g (q ++ [n]) = false).
    { intros n N1 N2 E'. unfold present. rewrite G by congruence. rewrite E'. reflexivity. }
    assert (M : forall n, ~ In n ["managed_datasets"; "indexed_datasets"; "indexed_datasets_indexes"; "indexes"; "non_fused_datasets"] ->
              get (made datasets indexed indexes) [n] = None).
    { intros n N. unfold made. cbn [app get]. repeat rewrite path_eqb_neq by (intros X; injection X as <-; apply N; cbn; tauto).
      rewrite get_app, get_beside. cbn. rewrite path_eqb_neq by (intros X; injection X as <-; apply N; cbn; tauto). reflexivity. }
    assert (Mf : get (made datasets indexed indexes) ["non_fused_datasets"] = Some (Dataset (Texts V (map fst indexed)))).
    { unfold made. rewrite app_assoc, get_app. cbn [app get]. repeat rewrite path_eqb_neq by discriminate. rewrite get_beside. reflexivity. }
    rewrite (proj1 (R "managed_datasets" datasets ltac:(discriminate) ltac:(discriminate) eq_refl)). cbn [bind].
    unfold read_if at 1. rewrite (B "raw_datasets") by (try discriminate; apply M; cbn; intuition discriminate). cbn [bind].
    rewrite (proj2 (R "indexed_datasets" (map fst indexed) ltac:(discriminate) ltac:(discriminate) eq_refl)).
    rewrite (proj1 (R "indexed_datasets" (map fst indexed) ltac:(discriminate) ltac:(discriminate) eq_refl)). cbn [bind].
    rewrite (proj1 (R "indexed_datasets_indexes" (map snd indexed) ltac:(discriminate) ltac:(discriminate) eq_refl)). cbn [bind].
    assert (Em : members g (q ++ ["indexes"]) = Ok names).
    { unfold members. rewrite G by discriminate. reflexivity. }
    rewrite Em. cbn [bind]. rewrite E. cbn [bind].
    unfold read_if. rewrite (proj2 (R "non_fused_datasets" _ ltac:(discriminate) ltac:(discriminate) Mf)).
    rewrite (proj1 (R "non_fused_datasets" _ ltac:(discriminate) ltac:(discriminate) Mf)). cbn [bind].
    rewrite (B "fused_datasets") by (try discriminate; apply M; cbn; intuition discriminate). cbn [bind fst snd map flat_map].
    assert (Ec : combine (map fst indexed) (map snd indexed) = indexed).
    { clear. induction indexed as [|[a b] l IH]; [reflexivity|]. cbn. f_equal. exact IH. }
    rewrite Ec. reflexivity.
Qed.
End Load.
End Create.
