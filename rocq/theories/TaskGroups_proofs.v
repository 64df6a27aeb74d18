(** The groups of regressors of a task file, written then read. *)
From Coq Require Import Ascii String.
From Coq Require Import List ZArith QArith Permutation Lia.
From Verif Require Import Prelude ListFacts TypeFitting Distances Distances_proofs Analyze AnalyzeText H5Names H5Names_proofs
  H5io H5io_spec H5io_proofs H5io_use H5ioFile H5ioFile_spec H5ioFile_proofs H5ioFile_main Pipeline TaskGroups.
Import ListNotations.
Local Open Scope string_scope.
Local Open Scope list_scope.

Lemma simple_no_slash s : simple s -> no_slash s /\ s <> "".
Proof. intros [H1 H2]. split; [exact H2|exact H1]. Qed.

Lemma group_path by_ : simple by_ -> components (group_name by_) = ["regressors"; by_].
Proof.
  intros Hs. destruct (simple_no_slash by_ Hs) as [N E].
  change (group_name by_) with ("/regressors" ++ String "/" (by_ ++ String "/" ""))%string.
  rewrite !components_slash, (components_simple by_ N E). reflexivity.
Qed.

Lemma none_left {A} (p : A -> bool) l : (forall x, In x l -> p x = false) -> filter p l = [].
Proof. induction l as [|a l IH]; intros H; [reflexivity|]. cbn. rewrite H by (left; reflexivity). apply IH. intros x Hx. apply H. right. exact Hx. Qed.

Section Groups.
Variable L : Type.
Variable leq : forall x y : L, {x = y} + {x <> y}.
Variable plain : L -> bool.
Variable texts : bool.
Variable names : list string.
Variable indexes : list (string * list L).
Hypothesis Nix : NoDup (map fst indexes).
Hypothesis Six : forall s, In s (map fst indexes) -> simple s /\ ascii_only s.
Hypothesis Inc : incl names (map fst indexes).

Notation blocks_of := (list (list (string * list Z))).

(** What the group of a by contains. *)
Record group_of (f : file (content L)) (by_ : string) (blocks : blocks_of) (g : by_group L) : Prop := mk_group_of {
  go_group : is_group f ["regressors"; by_];
  go_names : get f ["regressors"; by_; "indexed_datasets"] = Some (Dataset (Texts L (g_names g)));
  go_data : blocks <> [] -> get f ["regressors"; by_; "indexed_data"] = Some (Dataset (Table L (g_type g) (g_columns g) (g_data g)));
  go_levels : forall reg, In reg (g_names g) -> exists lv, lookup (g_indexes g) reg = Ok lv /\
                get f ["regressors"; by_; "indexes"; reg] = Some (Dataset (Levels lv));
  go_simple : forall reg, In reg (g_names g) -> simple reg
}.

Lemma group_kept f f' by_ blocks g : (forall p, get f p <> None -> get f' p = get f p) -> group_of f by_ blocks g -> group_of f' by_ blocks g.
Proof.
  intros E [G1 G2 G3 G4 G5].
  assert (K : forall p o, get f p = Some o -> get f' p = Some o) by (intros p o Hr; rewrite E; congruence).
  constructor.
  - destruct G1 as [a G1]. exists a. apply K. exact G1.
  - apply K. exact G2.
  - intros Nb. apply K, G3, Nb.
  - intros reg Hr. destruct (G4 reg Hr) as (lv & E1 & E2). exists lv. split; [exact E1|apply K; exact E2].
  - exact G5.
Qed.

Lemma widths (H : h5io L) cols p : init plain (DList names) indexes [] = Ok H ->
  parse_input H (InDict (map (fun nc : string * list Z => (fst nc, Ints L (snd nc))) cols)) = Ok p ->
  sumn (map (fun s => match lookup p s with Ok v => width v | Err _ => 0%nat end) (h_non_fused H)) = List.length (h_non_fused H).
Proof.
  intros Ei Ep.
  assert (Hn : forall s, In s (h_non_fused H) -> In s (h_managed H)).
  { unfold init in Ei. cbn [indexed_datasets] in Ei. destruct (subset (map fst indexes) names) eqn:Es; [|discriminate].
    cbn [bind flat_map snd subset forallb negb] in Ei. destruct (get_array plain_text names) as [m|] eqn:Em; [|discriminate]. cbn [bind] in Ei.
    destruct (array_ok _ _ _ Em) as (-> & _).
    destruct (mapM _ indexes); [|discriminate]. cbn [bind mapM] in Ei. injection Ei as <-. cbn [h_non_fused h_managed].
    intros s Hs. apply filter_In in Hs. destruct Hs as [Hs _]. rewrite map_map in Hs. cbn [fst] in Hs.
    apply (proj1 (subset_incl _ _) Es). apply in_map_iff in Hs. destruct Hs as (x & <- & Hx). first [exact Hx|apply in_map; exact Hx]. }
  unfold parse_input in Ep. destruct (_ && _)%bool eqn:Eb; [|discriminate]. injection Ep as <-. apply Bool.andb_true_iff in Eb. destruct Eb as [_ Eb].
  pose proof (proj1 (subset_incl _ _) Eb) as Hs. rewrite map_map in Hs. cbn [fst] in Hs. clear Eb.
  assert (W : forall s, In s (h_non_fused H) ->
    match lookup (map (fun nc : string * list Z => (fst nc, Ints L (snd nc))) cols) s with Ok v => width v | Err _ => 0%nat end = 1%nat).
  { intros s Hi. specialize (Hs s (Hn s Hi)). clear - Hs. induction cols as [|[s' l] cols IH]; [destruct Hs|]. cbn [map lookup fst snd].
    destruct (String.eqb_spec s' s) as [->|N]; [reflexivity|]. apply IH. destruct Hs as [E|Hs]; [cbn in E; congruence|exact Hs]. }
  clear - W. induction (h_non_fused H) as [|s nf IH]; [reflexivity|]. cbn [map List.length]. unfold sumn in *. cbn [fold_right].
  rewrite (W s (or_introl eq_refl)), IH by (intros s' Hs'; apply W; now right). reflexivity.
Qed.

Lemma one_by f by_ blocks g : file_ok f -> simple by_ -> free f ["regressors"; by_] ->
  regressor_group leq plain names indexes blocks = Ok g ->
  exists f', write_by leq plain texts f names indexes by_ blocks = (f', Ok tt) /\ file_ok f' /\
    elsewhere ["regressors"; by_] f f' /\ group_of f' by_ blocks g.
Proof.
  intros K Sb Fr Eg. unfold regressor_group in Eg. destruct (init plain (DList names) indexes []) as [H|] eqn:Ei; [|discriminate]. cbn [bind] in Eg.
  assert (Hraw : h_raw H = []).
  { pose proof Ei as E. unfold init in E. cbn [indexed_datasets] in E. destruct (subset (map fst indexes) names); [|discriminate].
    cbn [bind flat_map snd subset forallb negb] in E. destruct (get_array plain_text names) as [m|] eqn:Em; [|discriminate]. cbn [bind] in E.
    destruct (mapM _ indexes); [|discriminate]. cbn [bind mapM] in E. injection E as <-. cbn [h_raw].
    apply none_left. intros s Hs. apply Bool.negb_false_iff. rewrite map_map. cbn [fst].
    apply existsb_exists. exists s. split; [|apply String.eqb_refl]. rewrite map_map in *. cbn [fst]. apply Inc. exact Hs. }
  match type of Eg with bind ?x _ = _ => destruct x as [o|] eqn:Ew; [|discriminate] end. cbn [bind] in Eg.
  pose proof (group_path by_ Sb) as Ep.
  destruct (created L plain texts (DList names) indexes H Ei Hraw Nix Six (Some f) (group_name by_)) as (f1 & H1 & Ec & S1 & W1 & El & (a & A1) & G1).
  { rewrite Ep. split; [apply well_formed_ok; exact K|exact Fr]. }
  rewrite Ep in *. cbn [before] in El.
  destruct (declared_facts L plain (DList names) indexes H Ei Hraw Six) as (_ & Eix & Enf & _).
  assert (Esame : map snd (h_indexed H) = map fst (h_indexed H) /\ map fst (h_indexed H) = map fst indexes).
  { pose proof Ei as E. unfold init in E. cbn [indexed_datasets] in E. destruct (subset (map fst indexes) names); [|discriminate].
    cbn [bind flat_map snd subset forallb negb] in E. destruct (get_array plain_text names) as [m|] eqn:Em; [|discriminate]. cbn [bind] in E.
    destruct (mapM _ indexes); [|discriminate]. cbn [bind mapM] in E. injection E as <-. cbn [h_indexed]. rewrite !map_map. split; reflexivity. }
  assert (Gnames : g_names g = map fst indexes /\ g_indexes g = indexes /\ g_columns g = List.length (h_non_fused H)).
  { destruct (match o with Some _ => _ | None => _ end) as [t rows]. injection Eg as <-. cbn [g_names g_indexes g_columns].
    repeat split; [apply Esame|exact Eix]. }
  destruct Gnames as (Gn & Gi & Gc).
  assert (Lv : forall reg, In reg (g_names g) -> exists lv, lookup indexes reg = Ok lv).
  { intros reg Hr. rewrite Gn in Hr. apply in_map_iff in Hr. destruct Hr as ([s lv] & <- & Hi). exists lv. apply lookup_NoDup; [exact Nix|exact Hi]. }
  assert (Fin : forall f', (forall r, r <> [] -> r <> ["indexed_data"] -> r <> ["indexed_cumudims"] ->
             get f' (["regressors"; by_] ++ r) = get (made L (h_managed H) (h_indexed H) indexes) r) ->
           is_group f' ["regressors"; by_] ->
           (blocks <> [] -> get f' ["regressors"; by_; "indexed_data"] = Some (Dataset (Table L (g_type g) (g_columns g) (g_data g)))) ->
           group_of f' by_ blocks g).
  { intros f' Gf Gr Gd. constructor.
    - exact Gr.
    - change ["regressors"; by_; "indexed_datasets"] with (["regressors"; by_] ++ ["indexed_datasets"]). rewrite Gf by discriminate.
      rewrite Gn, <- (proj2 Esame). reflexivity.
    - exact Gd.
    - intros reg Hr. destruct (Lv reg Hr) as [lv Hl]. exists lv. rewrite Gi. split; [exact Hl|].
      change ["regressors"; by_; "indexes"; reg] with (["regressors"; by_] ++ ["indexes"; reg]). rewrite Gf by discriminate.
      rewrite get_levels, Hl. reflexivity.
    - intros reg Hr. apply Six. rewrite Gn in Hr. exact Hr. }
  unfold write_by. rewrite Ec, Ep.
  destruct blocks as [|b0 blocks].
  - cbn [map writes]. cbn [enter leave w_file]. exists f1. split; [reflexivity|]. split; [apply well_formed_ok; exact W1|]. split; [exact El|].
    apply Fin; [intros r Nr _ _; apply G1; exact Nr|eexists; exact A1|congruence].
  - destruct (all_writes L leq plain (DList names) indexes H Ei Hraw Nix Six ["regressors"; by_] f1 H1 a S1 (proj1 (well_formed_ok f1) W1) A1 G1
       (map (fun cols => (InDict (map (fun nc : string * list Z => (fst nc, Ints L (snd nc))) cols), true)) (b0 :: blocks)) o)
      as (g' & t & rows & o' & p & Eo & Er & (d0 & ix & rest & Eb & Epi) & Wg & E2).
    { discriminate. } { exact Ew. }
    cbn [map] in Eb. injection Eb as <- <- <-. rewrite (widths H b0 p Ei Epi) in Wg.
    unfold enter at 1. cbn [w_file w_path w_empty w_sorted w_meta]. rewrite E2. cbn [leave w_file].
    exists g'. split; [reflexivity|]. destruct Wg as [Kg (At1 & At2 & Gg) Tg Rg]. split; [exact Kg|]. split.
    + destruct El as [El1 El2].
      assert (In1 : forall n, get f ["regressors"; by_; n] = None) by (intros n; apply (proj2 Fr [n]); discriminate).
      split.
      * intros p' N1 N2. rewrite Rg; [apply El1; assumption|exact N2| |]; intros ->; apply N1, In1.
      * intros p' N1 N2. destruct (list_eq_dec string_dec p' ["regressors"; by_]) as [->|M1]; [left; exists []; reflexivity|].
        destruct (list_eq_dec string_dec p' (["regressors"; by_] ++ ["indexed_data"])) as [->|M2]; [left; eauto|].
        destruct (list_eq_dec string_dec p' (["regressors"; by_] ++ ["indexed_cumudims"])) as [->|M3]; [left; eauto|].
        rewrite (Rg p' M1 M2 M3) in *. exact (El2 p' N1 N2).
    + subst o. rewrite Er in Eg. injection Eg as Eg. apply Fin.
      * intros r N1 N2 N3. rewrite Rg; [apply G1; exact N1| | |].
        -- intros X. destruct r; [congruence|discriminate].
        -- intros X. apply app_inv_head in X. congruence.
        -- intros X. apply app_inv_head in X. congruence.
      * exact Gg.
      * intros _. rewrite <- Eg. exact Tg.
Qed.

Notation made_groups l := (mapM (fun kb : string * blocks_of => g <- regressor_group leq plain names indexes (snd kb) ;; Ok (fst kb, g)) l).

(** All bys. *)
Lemma all_bys : forall l f groups, file_ok f -> (forall c, get f ["regressors"] <> Some (Dataset c)) -> NoDup (map fst l) ->
  (forall b, In b (map fst l) -> simple b /\ forall r, get f ("regressors" :: b :: r) = None) ->
  made_groups l = Ok groups ->
  exists f', write_bys leq plain texts f names indexes l = (f', Ok tt) /\ file_ok f' /\
    Forall2 (fun kb ng => fst ng = fst kb /\ group_of f' (fst kb) (snd kb) (snd ng) /\
                          regressor_group leq plain names indexes (snd kb) = Ok (snd ng)) l groups /\
    (forall p, get f p <> None -> get f' p = get f p) /\
    (forall p, get f p = None -> get f' p <> None -> p = ["regressors"] \/ exists b r, In b (map fst l) /\ p = "regressors" :: b :: r).
Proof.
  induction l as [|[b blocks] l IH]; intros f groups K Hd Nl Hn Em; cbn [mapM] in Em.
  - injection Em as <-. exists f. split; [reflexivity|]. split; [exact K|]. split; [constructor|]. split; [reflexivity|congruence].
  - cbn [fst snd] in Em. destruct (regressor_group leq plain names indexes blocks) as [g|] eqn:Eg; [|discriminate]. cbn [bind] in Em.
    destruct (made_groups l) as [gs|] eqn:El; [|discriminate]. injection Em as <-.
    cbn [map fst] in Nl, Hn. apply NoDup_cons_iff in Nl. destruct Nl as [Nb Nl].
    destruct (Hn b (or_introl eq_refl)) as [Sb Fb].
    destruct (one_by f b blocks g K Sb) as (f1 & E1 & K1 & [O1 O2] & G1); [|exact Eg|].
    { split; [|intros r _; apply Fb]. intros p r c Ep. destruct p as [|x p].
      - destruct (ok_root f K) as [a R]. congruence.
      - cbn in Ep. injection Ep as <- Ep. destruct p as [|y p]; [apply Hd|]. injection Ep as <- Ep. rewrite Fb. discriminate. }
    assert (Keep : forall p, get f p <> None -> get f1 p = get f p).
    { intros p Np. apply O1; [exact Np|]. intros ->. apply Np, Fb. }
    destruct (IH f1 gs K1) as (f' & E2 & K2 & F2 & P2 & N2).
    { intros c. destruct (get f ["regressors"]) as [o|] eqn:Er.
      - rewrite Keep by congruence. rewrite Er. intros X. apply (Hd c). congruence.
      - intros X. destruct (O2 ["regressors"] Er) as [[r Y]|[_ Y]]; [congruence|discriminate|congruence]. }
    { exact Nl. }
    { intros b' Hb. destruct (Hn b' (or_intror Hb)) as [Sb' Fb']. split; [exact Sb'|]. intros r.
      destruct (get f1 ("regressors" :: b' :: r)) as [o|] eqn:Er; [|reflexivity]. exfalso.
      destruct (O2 ("regressors" :: b' :: r)) as [[r' Y]|[[r' Y] _]]; [apply Fb'|congruence| |].
      - injection Y as -> _. apply Nb. exact Hb.
      - cbn in Y. injection Y as Y1 _. apply Nb. rewrite Y1. exact Hb. }
    { exact eq_refl. }
    exists f'. cbn [write_bys]. rewrite E1. split; [exact E2|]. split; [exact K2|]. split.
    { constructor; [|exact F2]. cbn [fst snd]. split; [reflexivity|]. split; [|exact Eg]. apply (group_kept f1); [exact P2|exact G1]. }
    split.
    { intros p Np. rewrite P2; [apply Keep; exact Np|]. rewrite Keep; exact Np. }
    intros p Np Nf. destruct (get f1 p) as [o|] eqn:Ep.
    + destruct (O2 p Np) as [[r Y]|[[r Y] _]]; [congruence| |].
      * right. exists b, r. split; [now left|exact Y].
      * destruct p as [|x [|y p]].
        -- destruct (ok_root f K) as [a R]. congruence.
        -- injection Y as <- _. now left.
        -- cbn in Y. injection Y as <- <- Y. right. exists b, p. split; [now left|reflexivity].
    + destruct (N2 p Ep Nf) as [->|(b' & r & Hb & ->)]; [now left|]. right. exists b', r. split; [now right|reflexivity].
Qed.

Lemma group_parts blocks g : regressor_group leq plain names indexes blocks = Ok g -> g_names g = map fst indexes /\ g_indexes g = indexes.
Proof.
  unfold regressor_group. destruct (init plain (DList names) indexes []) as [H|] eqn:E; [|discriminate]. cbn [bind].
  unfold init in E. cbn [indexed_datasets] in E. destruct (subset (map fst indexes) names); [|discriminate].
  cbn [bind flat_map snd subset forallb negb] in E. destruct (get_array plain_text names) as [m|] eqn:Em; [|discriminate]. cbn [bind] in E.
  destruct (mapM _ indexes) as [st|] eqn:Es; [|discriminate]. cbn [bind mapM] in E. injection E as <-.
  destruct (stored_ok L plain _ _ Es) as [-> _].
  match goal with |- bind ?x _ = _ -> _ => destruct x as [o|]; [|discriminate] end. cbn [bind].
  destruct (match o with Some _ => _ | None => _ end) as [t rows]. intros E. injection E as <-. cbn [g_names g_indexes h_indexed h_indexes].
  rewrite map_map. split; [|reflexivity]. cbn [fst]. rewrite ?map_map. reflexivity.
Qed.

Lemma levels_read f b blocks g : group_of f b blocks g -> g_names g = map fst indexes -> g_indexes g = indexes ->
  mapM (fun reg => l <- read_levels f (resolve ["regressors"; b; "indexes"] reg) ;; Ok (reg, l)) (g_names g) = Ok indexes.
Proof.
  intros G En Ei. destruct G as [_ _ _ G4 G5]. rewrite En in *. rewrite Ei in *.
  assert (A : forall ixs, incl ixs indexes ->
     mapM (fun reg => l <- read_levels f (resolve ["regressors"; b; "indexes"] reg) ;; Ok (reg, l)) (map fst ixs) = Ok ixs); [|apply A, incl_refl].
  induction ixs as [|[s lv] ixs IH]; intros Hi; [reflexivity|]. cbn [map mapM fst].
  assert (Hs : In s (map fst indexes)) by (apply in_map_iff; exists (s, lv); split; [reflexivity|apply Hi; now left]).
  destruct (simple_no_slash s (G5 s Hs)) as [N1 N2]. rewrite (resolve_simple _ s N1 N2). cbn [app].
  destruct (G4 s Hs) as (lv' & E1 & E2). unfold read_levels, read in IH |- *. rewrite E2. cbn [bind].
  rewrite (lookup_NoDup _ _ _ _ Nix (Hi _ (or_introl eq_refl))) in E1. injection E1 as <-.
  rewrite IH by (intros x Hx; apply Hi; now right). reflexivity.
Qed.

Lemma names_read f b blocks g : group_of f b blocks g -> names_at f ["regressors"; b] = Ok (g_names g).
Proof. intros [[a G1] G2 _ _ _]. unfold names_at. rewrite G1. cbn [app]. rewrite G2. reflexivity. Qed.

Lemma read_group f b blocks g : simple b -> group_of f b blocks g -> blocks <> [] -> g_names g = map fst indexes -> g_indexes g = indexes ->
  read_by f b = Ok (if (List.length (g_data g) * g_columns g =? 0)%nat then mk_group (g_type g) (g_columns g) (g_data g) [] [] else g).
Proof.
  intros Sb G Nb En Ei. destruct (simple_no_slash b Sb) as [N1 N2]. unfold read_by. rewrite (resolve_simple _ b N1 N2). cbn [app].
  pose proof (names_read f b blocks g G) as Er. pose proof (levels_read f b blocks g G En Ei) as El.
  destruct G as [[a G1] G2 G3 _ _]. rewrite G1. unfold read. rewrite (G3 Nb). cbn [bind].
  destruct (_ =? 0)%nat; [reflexivity|]. rewrite Er. cbn [bind]. rewrite El. cbn [bind]. rewrite <- Ei. destruct g. reflexivity.
Qed.

Section Read.
Variable rnd : Q -> Q.
Variable argsort : list Z -> list nat.
Variable str_label : L -> string.
Variable str_float : Q -> string.

Lemma same_collapse f l groups groups' by_index scores :
  NoDup (map fst l) -> (forall b, In b (map fst l) -> simple b) ->
  Forall2 (fun kb ng => fst ng = fst kb /\ group_of f (fst kb) (snd kb) (snd ng) /\
                        regressor_group leq plain names indexes (snd kb) = Ok (snd ng)) l groups ->
  Permutation groups groups' ->
  forall bys by_idx all, (forall b, In b bys -> exists blocks, In (b, blocks) l /\ blocks <> []) ->
  collapse_h5 rnd argsort str_label str_float f by_index scores by_idx bys =
  collapse_text rnd argsort str_label str_float (mk_analyzed all by_index groups') scores by_idx bys.
Proof.
  intros Nl Sl F P. induction bys as [|b bys IH]; intros by_idx all Hb; [reflexivity|]. cbn [collapse_h5 collapse_text].
  rewrite (IH (S by_idx) all) by (intros b' Hb'; apply Hb; now right). f_equal.
  destruct (Hb b (or_introl eq_refl)) as (blocks & Hin & Nb).
  assert (Hg : exists g, In (b, g) groups /\ group_of f b blocks g /\ regressor_group leq plain names indexes blocks = Ok g).
  { clear - F Hin. induction F as [|kb [n g] l groups (E1 & E2 & E3) F IH]; [destruct Hin|]. destruct Hin as [-> |Hin].
    - cbn [fst snd] in *. subst n. exists g. split; [now left|]. split; assumption.
    - destruct (IH Hin) as (g' & X & Y). exists g'. split; [now right|exact Y]. }
  destruct Hg as (g & Hi & G & Eg). destruct (group_parts blocks g Eg) as [En Ei].
  assert (En' : map fst groups = map fst l).
  { clear - F. induction F as [|kb ng l groups (E1 & _) F IH]; [reflexivity|]. cbn [map]. rewrite IH, E1. reflexivity. }
  assert (El : lookup groups' b = Ok g).
  { rewrite (lookup_perm groups groups' b); [|rewrite En'; exact Nl|exact P]. apply lookup_NoDup; [rewrite En'; exact Nl|exact Hi]. }
  assert (Sb : simple b) by (apply Sl; apply in_map_iff; exists (b, blocks); split; [reflexivity|exact Hin]).
  rewrite (read_group f b blocks g Sb G Nb En Ei). unfold collapse_by_text, by_table. cbn [a_by_index a_groups lookup].
  rewrite El. destruct (nth_res by_index by_idx) as [ta|e]; [|reflexivity]. cbn [bind].
  rewrite (String.eqb_refl b). cbn [bind]. destruct (List.length (g_data g) * g_columns g =? 0)%nat eqn:Ez; cbn [g_data g_columns]; rewrite Ez; reflexivity.
Qed.

Lemma analyzed_file l f0 groups :
  l <> [] -> well_formed f0 -> free f0 ["regressors"] -> NoDup (map fst l) -> (forall b, In b (map fst l) -> simple b) ->
  made_groups l = Ok groups ->
  exists f, write_bys leq plain texts f0 names indexes l = (f, Ok tt) /\ well_formed f /\ elsewhere ["regressors"] f0 f /\
    (forall n, In n (listing f ["regressors"]) <-> In n (map fst l)) /\
    forall groups' bys by_index scores, Permutation groups groups' ->
      (forall b, In b bys -> exists blocks, In (b, blocks) l /\ blocks <> []) ->
      analyze_h5 rnd argsort str_label str_float f bys by_index scores =
      analyze_text rnd argsort str_label str_float (mk_analyzed bys by_index groups') scores.
Proof.
  intros Nil W [Fr1 Fr2] Nl Sl Em. pose proof (proj1 (well_formed_ok f0) W) as K.
  assert (Under : forall b r, get f0 ("regressors" :: b :: r) = None) by (intros b r; apply (Fr2 (b :: r)); discriminate).
  destruct (all_bys l f0 groups K) as (f & E & Kf & F & P & N).
  { intros c. apply (Fr1 ["regressors"] [] c). reflexivity. } { exact Nl. } { intros b Hb. split; [apply Sl; exact Hb|apply Under]. } { exact Em. }
  assert (Lst : forall n, In n (listing f ["regressors"]) <-> In n (map fst l)).
  { intros n. rewrite listing_in. cbn [app]. split.
    - intros X. destruct (N _ (Under n []) X) as [Y|(b & r & Hb & Y)]; [discriminate|]. injection Y as -> _. exact Hb.
    - intros Hn. assert (Hg : is_group f ["regressors"; n]).
      { clear - F Hn. induction F as [|kb ng l groups (_ & G & _) F IH]; [destruct Hn|]. destruct Hn as [<-|Hn]; [apply G|exact (IH Hn)]. }
      destruct Hg as [a Hg]. congruence. }
  exists f. split; [exact E|]. split; [apply well_formed_ok; exact Kf|]. split.
  { split.
    - intros p Np _. apply P. exact Np.
    - intros p Np Nf. left. destruct (N p Np Nf) as [->|(b & r & _ & ->)]; [exists []; reflexivity|exists (b :: r); reflexivity]. }
  split; [exact Lst|]. intros groups' bys by_index scores Pg Hb. unfold analyze_h5, analyze_text, members. cbn [a_groups a_bys].
  assert (Gr : is_group f ["regressors"]).
  { destruct l as [|[b bl] l]; [congruence|]. apply (ok_parent f Kf ["regressors"] b). cbn [app].
    assert (X : In b (listing f ["regressors"])) by (apply Lst; now left). apply listing_in in X. exact X. }
  destruct Gr as [a Gr]. rewrite Gr.
  destruct (listing f ["regressors"]) as [|n ns] eqn:El.
  { exfalso. destruct l as [|[b bl] l]; [congruence|]. exact (proj2 (Lst b) (or_introl eq_refl)). }
  assert (Hn : In n (map fst l)) by (apply Lst; now left).
  assert (Nn : names_at f ["regressors"; n] = Ok (map fst indexes)).
  { clear - F Hn. induction F as [|kb ng l groups (_ & G & Eg) F IH]; [destruct Hn|]. destruct Hn as [<-|Hn]; [|exact (IH Hn)].
    rewrite (names_read _ _ _ _ G). f_equal. apply (group_parts _ _ Eg). }
  rewrite Nn.
  assert (Ng : forall ng, In ng groups -> g_names (snd ng) = map fst indexes).
  { intros ng Hg. clear - F Hg. induction F as [|kb ng' l groups (_ & _ & Eg) F IH]; [destruct Hg|].
    destruct Hg as [<-|Hg]; [apply (group_parts _ _ Eg)|exact (IH Hg)]. }
  destruct groups' as [|[n0 g0] gs'].
  { exfalso. apply Permutation_sym, Permutation_nil in Pg. subst groups. inversion F. subst. congruence. }
  cbn [map snd nth_res nth_error]. specialize (Ng (n0, g0) (Permutation_in _ (Permutation_sym Pg) (or_introl eq_refl))). cbn [snd] in Ng. rewrite Ng.
  rewrite (same_collapse f l groups ((n0, g0) :: gs') by_index scores Nl Sl F Pg bys 0%nat bys Hb). reflexivity.
Qed.
End Read.
End Groups.
