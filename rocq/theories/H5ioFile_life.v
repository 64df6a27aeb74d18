(** The statements about the life of the files of H5IO. *)
From Coq Require Import Ascii String.
From Coq Require Import List ZArith Permutation Lia.
From Verif Require Import Prelude ListFacts TypeFitting Distances H5Names H5Names_proofs H5io H5io_spec
  H5io_proofs H5io_use H5ioFile H5ioFile_spec H5ioFile_proofs H5ioFile_main.
Import ListNotations.
Local Open Scope string_scope.
Local Open Scope list_scope.

Section Life.
Variable V : Type.
Variable veq : forall x y : V, {x = y} + {x <> y}.
Variable plain : V -> bool.
Variable texts : bool.

Lemma construct_load (fs : option (file (content V))) d indexes fused group f x :
  construct plain texts fs (Some d) indexes fused group = (Some f, Ok x) -> load f (components group) = Ok x.
Proof.
  unfold construct. destruct (check d indexes fused) as [[ds ix]|]; [|discriminate].
  destruct (run _ _) as [f' [u|e]]; [|discriminate]. intros E. injection E as <- E. exact E.
Qed.

Lemma made_files d indexes H fs group :
  init plain d indexes [] = Ok H -> h_raw H = [] -> NoDup (map fst indexes) ->
  (forall s, In s (map fst indexes) -> simple s /\ ascii_only s) ->
  (match fs with Some f => well_formed f /\ free f (components group) | None => True end) ->
  exists f' H', construct plain texts fs (Some d) indexes [] group = (Some f', Ok (true, false, H')) /\
    same_group H H' /\ well_formed f' /\ elsewhere (components group) (before fs) f' /\
    construct plain texts (Some f') None [] [] group = (Some f', Ok (true, false, H')).
Proof.
  intros Ei Hr Nix Six Hfs.
  destruct (created V plain texts d indexes H Ei Hr Nix Six fs group Hfs) as (f' & H' & E & S & W & El & (a & A) & _).
  exists f', H'. split; [exact E|]. split; [exact S|]. split; [exact W|]. split; [exact El|].
  unfold construct, present. rewrite A. rewrite (construct_load _ _ _ _ _ _ _ E). reflexivity.
Qed.

Lemma written_files d indexes H fs group batches o f' H' :
  init plain d indexes [] = Ok H -> h_raw H = [] -> NoDup (map fst indexes) ->
  (forall s, In s (map fst indexes) -> simple s /\ ascii_only s) ->
  (match fs with Some f => well_formed f /\ free f (components group) | None => True end) ->
  batches <> [] -> write_all veq H None batches = Ok (Some o) ->
  construct plain texts fs (Some d) indexes [] group = (Some f', Ok (true, false, H')) ->
  exists g t n rows H'',
    writes veq (enter (mk_handle f' (components group) true false H' false None)) batches =
      (mk_handle g (components group) false false H' true (Some o), Ok tt) /\
    o_indexed o = Some (t, rows) /\
    get g (components group ++ ["indexed_data"]) = Some (Dataset (Table V t n rows)) /\
    well_formed g /\ elsewhere (components group) (before fs) g /\
    construct plain texts (Some g) None [] [] group = (Some g, Ok (false, false, H'')) /\ same_group H H''.
Proof.
  intros Ei Hr Nix Six Hfs Nb Ew Ec.
  destruct (created V plain texts d indexes H Ei Hr Nix Six fs group Hfs) as (f1 & H1 & E & S & W & El & (a & A) & G).
  rewrite E in Ec. injection Ec as -> ->.
  pose proof (proj1 (well_formed_ok f') W) as K.
  destruct (all_writes V veq plain d indexes H Ei Hr Nix Six (components group) f' H' a S K A G batches (Some o) Nb Ew)
    as (g & t & rows & o' & p & Eo & Er & _ & Wg & E2).
  injection Eo as <-.
  destruct (reopened V plain texts d indexes H Ei Hr Nix Six (components group) f' G group g t _ rows eq_refl Wg) as (H'' & E3 & S3).
  exists g, t. eexists. exists rows, H''. split; [exact E2|]. split; [exact Er|]. split; [exact (wr_table _ _ _ _ _ _ _ Wg)|].
  split; [apply well_formed_ok; apply (wr_ok _ _ _ _ _ _ _ Wg)|]. split; [|split; [exact E3|exact S3]].
  assert (In1 : forall n, get (before fs) (components group ++ [n]) = None).
  { intros n. destruct fs as [f|]; cbn [before]; [apply Hfs; discriminate|]. destruct (components group); reflexivity. }
  split.
  - intros p' N1 N2. rewrite (wr_rest _ _ _ _ _ _ _ Wg); [apply El; assumption|exact N2| |]; intros ->; apply N1, In1.
  - intros p' N1 N2. destruct (list_eq_dec string_dec p' (components group)) as [->|M1]; [left; exists []; symmetry; apply app_nil_r|].
    destruct (list_eq_dec string_dec p' (components group ++ ["indexed_data"])) as [->|M2]; [left; eauto|].
    destruct (list_eq_dec string_dec p' (components group ++ ["indexed_cumudims"])) as [->|M3]; [left; eauto|].
    rewrite (wr_rest _ _ _ _ _ _ _ Wg p' M1 M2 M3) in *. exact (proj2 El p' N1 N2).
Qed.

(** What is written once cannot be completed later. *)
Lemma closed f q sorted (H : h5io V) data append ix :
  let h := mk_handle f q false sorted H false None in
  write veq (enter h) data append ix = (enter h, Err (if append then ValueError else IOError)).
Proof. destruct append; reflexivity. Qed.

Lemma outside (h : handle V) data append ix : w_inside h = false -> write veq h data append ix = (h, Err RuntimeError).
Proof. intros E. unfold write. rewrite E. reflexivity. Qed.

(** Within the [with] statement that wrote first, [append=False] refuses. *)
Lemma append_refused (h : handle V) data ix : w_inside h = true -> w_empty h = false -> write veq h data false ix = (h, Err IOError).
Proof. intros E1 E2. unfold write. rewrite E1, E2. reflexivity. Qed.

Lemma missing fs indexes fused group : (match fs with Some f => get f (components group) = None | None => True end) ->
  construct plain texts fs None indexes fused group = (fs, Err IOError).
Proof. intros Hfs. unfold construct. destruct fs as [f|]; [|reflexivity]. unfold present. rewrite Hfs. reflexivity. Qed.

(** The declarations are checked before the file is touched. *)
Lemma checked fs d indexes fused group e : check d indexes fused = Err e ->
  construct plain texts fs (Some d) indexes fused group = (fs, Err e).
Proof. intros E. unfold construct. rewrite E. reflexivity. Qed.

(** [iterate=True] on a new group. *)
Lemma iterate_fails f q sorted (H : h5io V) l append ix :
  let h := enter (mk_handle f q true sorted H false None) in write veq h (Each l) append ix = (h, Err AttributeError).
Proof. destruct append; reflexivity. Qed.

(** A group that exists already. *)
Lemma again f d indexes group a c o : let q := components group in
  get f q = Some (Group a) -> get f (q ++ ["managed_datasets"]) = Some o -> check d indexes [] = Ok c ->
  get_array plain_text (fst c) = Ok (fst c) ->
  let f' := set_attr (set_attr f q "empty" true) q "sorted" false in
  construct plain texts (Some f) (Some d) indexes [] group = (Some f', Err RuntimeError).
Proof.
  intros q A M C P f'. unfold construct. rewrite C. destruct c as [ds ix]. fold q. unfold creation. cbn [app].
  erewrite run_step by (unfold open_group; rewrite A; reflexivity). erewrite run_step by reflexivity. erewrite run_step by reflexivity. fold f'.
  cbn [run].
  assert (O : forall p, p <> q -> get f' p = get f p).
  { intros p Np. unfold f'. rewrite !get_set_attr. rewrite !path_eqb_neq by congruence. reflexivity. }
  assert (Q : get f' q = Some (Group (("sorted", false) :: ("empty", true) :: a))).
  { unfold f'. rewrite get_set_attr, path_eqb_refl, get_set_attr, path_eqb_refl, A. reflexivity. }
  unfold new_managed. rewrite Q. unfold new_dataset, bytes_of. cbn [fst] in P. rewrite P. cbn [bind]. unfold make.
  rewrite O by apply beside_q. rewrite M. reflexivity.
Qed.

(** Datasets without index. *)
Lemma raw_fails d indexes fused H fs group :
  texts = false -> init plain d indexes fused = Ok H -> h_raw H <> [] ->
  (match fs with Some f => well_formed f /\ free f (components group) | None => True end) ->
  exists f', construct plain texts fs (Some d) indexes fused group = (Some f', Err TypeError).
Proof.
  intros -> Ei Nr Hfs. set (q := components group) in *.
  assert (Hs : file_ok (before fs) /\ free (before fs) q).
  { destruct fs as [f|]; cbn [before]; [split; [apply well_formed_ok|]; apply Hfs|]. split; [apply new_file_ok|]. split.
    - intros [|n p] r c _; discriminate.
    - intros r N. destruct q as [|x q']; [destruct r; [congruence|reflexivity]|reflexivity]. }
  destruct Hs as [Ks Fr].
  unfold init in Ei. unfold construct, check. destruct (indexed_datasets d indexes) as [[ds ix]|]; [|discriminate].
  cbn [bind fst snd] in Ei |- *. destruct (subset (flat_map snd fused) (map fst ix)) eqn:Esub; cbn [negb] in Ei |- *; [|discriminate].
  destruct (get_array plain_text ds) as [m|] eqn:Em; [|discriminate]. cbn [bind] in Ei.
  assert (Er : filter (fun s => negb (mem s (map fst ix))) ds <> []).
  { destruct (mapM _ indexes); [|discriminate]. cbn [bind] in Ei. destruct (mapM _ fused); [|discriminate]. cbn [bind] in Ei.
    injection Ei as <-. exact Nr. }
  clear Ei Nr. fold q. fold (before fs).
  destruct (opened (before fs) q Ks Fr) as (f1 & E1 & K1 & [a A1] & F1 & _).
  unfold creation. cbn [app]. rewrite (run_step _ _ _ _ _ E1). erewrite run_step by reflexivity. erewrite run_step by reflexivity.
  set (f2 := set_attr (set_attr f1 q "empty" true) q "sorted" false).
  assert (A2 : get f2 q = Some (Group (("sorted", false) :: ("empty", true) :: a))).
  { unfold f2. rewrite get_set_attr, path_eqb_refl, get_set_attr, path_eqb_refl, A1. reflexivity. }
  assert (K2 : file_ok f2) by (apply set_attr_ok, set_attr_ok; exact K1).
  assert (N2 : get f2 (q ++ ["managed_datasets"]) = None).
  { unfold f2. rewrite !get_set_attr. rewrite !path_eqb_neq by (intros X; apply (beside_q q "managed_datasets"); congruence). apply F1. discriminate. }
  pose proof (make_child RuntimeError f2 q "managed_datasets" (Dataset (Texts V m)) K2 (ex_intro _ _ A2) N2) as M.
  erewrite run_step by (unfold new_managed; rewrite A2; unfold new_dataset, bytes_of; rewrite Em; cbn [bind]; exact M).
  destruct (filter (fun s => negb (mem s (map fst ix))) ds) as [|r0 rs]; [congruence|]. cbn [app run]. eexists. reflexivity.
Qed.
End Life.
