(** The names and indexes of the regressors of a task, and the groups declared with them. *)
From Coq Require Import Ascii String.
From Coq Require Import List ZArith QArith Permutation Lia.
From Verif Require Import Prelude ListFacts Analyze H5Names H5Names_proofs H5io H5io_spec H5io_use H5ioFile H5ioFile_spec H5ioFile_proofs H5ioFile_main
  H5io_proofs AnalyzeText_proofs Pipeline TaskGroups TaskGroups_proofs RegressorInfo.
Import ListNotations.
Local Open Scope string_scope.
Local Open Scope list_scope.
Local Open Scope nat_scope.
Set Implicit Arguments.

Section Info.
Variable L : Type.
Variable str : nat -> string.

(** The names of function after function. *)
Fixpoint named_from (all : list (specs L)) (reg_id : nat) : list (list string) :=
  match all with
  | [] => []
  | f :: all' =>
    match sp_names f with
    | None => map (fun n => ("reg_" ++ str (reg_id + n))%string) (seq 0 (sp_number f)) :: named_from all' (reg_id + sp_number f)
    | Some l => l :: named_from all' reg_id
    end
  end.

Definition unnamed (f : specs L) : bool := match sp_names f with None => true | Some _ => false end.
Definition outputs (l : list (specs L)) : nat := list_sum (map (@sp_number L) (filter unnamed l)).

Lemma outputs_cons f l : outputs (f :: l) = (if unnamed f then sp_number f else 0) + outputs l.
Proof. unfold outputs. cbn [filter]. destruct (unnamed f); reflexivity. Qed.

Lemma outputs_app l l' : outputs (l ++ l') = outputs l + outputs l'.
Proof. induction l as [|f l IH]; [reflexivity|]. cbn [app]. rewrite !outputs_cons, IH. lia. Qed.

Lemma fetch_ok funs : forall r, fetch_regressor_info str funs r = (named_from funs r, map (@sp_indexes L) funs, r + outputs funs).
Proof.
  induction funs as [|f funs IH]; intros r; cbn [fetch_regressor_info named_from map]; [unfold outputs; cbn; rewrite Nat.add_0_r; reflexivity|].
  rewrite outputs_cons. unfold unnamed. destruct (sp_names f); rewrite IH; [reflexivity|]. rewrite <- Nat.add_assoc. reflexivity.
Qed.

Lemma named_app l l' : forall r, named_from (l ++ l') r = named_from l r ++ named_from l' (r + outputs l).
Proof.
  induction l as [|f l IH]; intros r; cbn [app named_from]; [unfold outputs; cbn; rewrite Nat.add_0_r; reflexivity|].
  rewrite outputs_cons. unfold unnamed. destruct (sp_names f); rewrite IH; cbn [app]; [reflexivity|]. rewrite <- Nat.add_assoc. reflexivity.
Qed.

Definition stored (all : list (specs L)) : list (string * list L) :=
  fold_left (fun d (ki : string * list L) => store d (fst ki) (snd ki)) (flat_map (@sp_indexes L) all) [].

Lemma fold_flat (l : list (list (string * list L))) : forall d,
  fold_left (fun d dictionary => fold_left (fun d (ki : string * list L) => store d (fst ki) (snd ki)) dictionary d) l d =
  fold_left (fun d (ki : string * list L) => store d (fst ki) (snd ki)) (concat l) d.
Proof. induction l as [|x l IH]; intros d; cbn [fold_left concat]; [reflexivity|]. rewrite IH, fold_left_app. reflexivity. Qed.

Lemma info_from stages : forall r names d,
  fold_left (fun acc (st : list (list string) * list (list (string * list L))) =>
      (fst acc ++ concat (fst st),
       fold_left (fun d dictionary => fold_left (fun d (ki : string * list L) => store d (fst ki) (snd ki)) dictionary d) (snd st) (snd acc)))
    (fetch_all str stages r) (names, d) =
  (names ++ concat (named_from (concat stages) r),
   fold_left (fun d (ki : string * list L) => store d (fst ki) (snd ki)) (flat_map (@sp_indexes L) (concat stages)) d).
Proof.
  induction stages as [|funs stages IH]; intros r names d; cbn [fetch_all]; [cbn; rewrite app_nil_r; reflexivity|].
  rewrite fetch_ok. cbn [fold_left fst snd]. rewrite IH. cbn [concat]. rewrite named_app, concat_app, app_assoc. f_equal.
  rewrite fold_flat, flat_map_app, fold_left_app. rewrite <- flat_map_concat_map. reflexivity.
Qed.

Lemma info_ok (by_ oab a b x abx : list (specs L)) : let all := by_ ++ oab ++ a ++ b ++ x ++ abx in
  get_regressor_info str by_ oab a b x abx = (concat (named_from all 0), stored all).
Proof.
  intros all. unfold get_regressor_info. rewrite info_from. cbn [app concat]. unfold stored. rewrite app_nil_r. reflexivity.
Qed.

(** Columns and tables give the names, scripts are numbered. *)
Theorem info_names (by_ oab a b x abx : list (specs L)) : let all := by_ ++ oab ++ a ++ b ++ x ++ abx in
  exists blocks, fst (get_regressor_info str by_ oab a b x abx) = concat blocks /\ List.length blocks = List.length all /\
    forall i s, nth_error all i = Some s ->
      (forall l, sp_names s = Some l -> nth_error blocks i = Some l) /\
      (sp_names s = None -> nth_error blocks i = Some (map (fun n =>
         ("reg_" ++ str (list_sum (map (fun s => match sp_names s with None => sp_number s | Some _ => 0 end) (firstn i all)) + n))%string) (seq 0 (sp_number s)))).
Proof.
  intros all. exists (named_from all 0). rewrite info_ok. split; [reflexivity|].
  assert (G : forall l r, List.length (named_from l r) = List.length l /\
    forall i s, nth_error l i = Some s ->
      (forall n, sp_names s = Some n -> nth_error (named_from l r) i = Some n) /\
      (sp_names s = None -> nth_error (named_from l r) i = Some (map (fun n =>
         ("reg_" ++ str (r + list_sum (map (fun s : specs L => match sp_names s with None => sp_number s | Some _ => 0 end) (firstn i l)) + n))%string) (seq 0 (sp_number s))))).
  { induction l as [|f l IH]; intros r; [split; [reflexivity|]; intros [|i] s Hs; discriminate|]. cbn [named_from].
    destruct (sp_names f) as [nf|] eqn:Ef.
    - destruct (IH r) as [H1 H2]. split; [cbn; rewrite H1; reflexivity|]. intros [|i] s Hs.
      + injection Hs as <-. rewrite Ef. split; [intros n E; injection E as <-; reflexivity|discriminate].
      + destruct (H2 i s Hs) as [H3 H4]. split; [exact H3|]. intros N. cbn [nth_error firstn map list_sum fold_right]. rewrite Ef. rewrite (H4 N). reflexivity.
    - destruct (IH (r + sp_number f)) as [H1 H2]. split; [cbn; rewrite H1; reflexivity|]. intros [|i] s Hs.
      + injection Hs as <-. rewrite Ef. split; [discriminate|]. intros _. cbn [nth_error firstn map list_sum fold_right].
        f_equal. apply map_ext. intros n. do 2 f_equal. lia.
      + destruct (H2 i s Hs) as [H3 H4]. split; [exact H3|]. intros N. cbn [nth_error firstn map]. rewrite (H4 N). f_equal. apply map_ext. intros n.
        do 2 f_equal. rewrite Ef. cbn [list_sum fold_right]. change (fold_right Nat.add 0) with list_sum. lia. }
  destruct (G all 0) as [G1 G2]. split; [exact G1|]. exact G2.
Qed.

Lemma store_in (d : list (string * list L)) k i : NoDup (map fst d) -> NoDup (map fst (store d k i)) /\
  forall k' i', In (k', i') (store d k i) <-> (k', i') = (k, i) \/ k' <> k /\ In (k', i') d.
Proof.
  induction d as [|[k0 i0] d IH]; intros N; cbn [store].
  - split; [cbn; constructor; [intros []|constructor]|]. intros k' i'. cbn. split; [intros [E|[]]; left; congruence|]. intros [E|[_ []]]; left; congruence.
  - inversion N as [|? ? N1 N2]; subst. destruct (String.eqb_spec k k0) as [->|Hk].
    + split; [exact N|]. intros k' i'. cbn [In]. split.
      * intros [E|I]; [left; congruence|]. right. split; [|right; exact I]. intros ->. apply N1. apply in_map_iff. exists (k0, i'). split; [reflexivity|exact I].
      * intros [E|[Nk [E|I]]]; [left; congruence|congruence|right; exact I].
    + destruct (IH N2) as [H1 H2]. split.
      * cbn [map fst]. constructor; [|exact H1]. intros I. apply in_map_iff in I as ([k' i'] & E & I). cbn in E. subst k'. apply H2 in I as [E|[_ I]]; [congruence|].
        apply N1. apply in_map_iff. exists (k0, i'). split; [reflexivity|exact I].
      * intros k' i'. cbn [In]. rewrite H2. split; [intros [E|[E|[A B]]]; [right; split; [congruence|left; exact E]|left; exact E|right; split; [exact A|right; exact B]]|].
        intros [E|[A [E|B]]]; [right; left; exact E|left; exact E|right; right; split; assumption].
Qed.

Lemma stored_in l : forall d : list (string * list L), NoDup (map fst d) ->
  let r := fold_left (fun d (ki : string * list L) => store d (fst ki) (snd ki)) l d in
  NoDup (map fst r) /\
  forall k i, In (k, i) r <-> (exists l1 l2, l = l1 ++ (k, i) :: l2 /\ ~ In k (map fst l2)) \/ ~ In k (map fst l) /\ In (k, i) d.
Proof.
  induction l as [|[k0 i0] l IH]; intros d N; cbn [fold_left fst snd].
  - split; [exact N|]. intros k i. split; [intros H; right; split; [intros []|exact H]|]. intros [(l1 & l2 & E & _)|[_ H]]; [destruct l1; discriminate|exact H].
  - destruct (@store_in d k0 i0 N) as [N' S]. destruct (IH _ N') as [H1 H2]. split; [exact H1|]. intros k i. rewrite H2, S. split.
    + intros [(l1 & l2 & -> & Hn)|[Hn [E|[A B]]]].
      * left. exists ((k0, i0) :: l1), l2. split; [reflexivity|exact Hn].
      * injection E as -> ->. left. exists [], l. split; [reflexivity|exact Hn].
      * right. split; [|exact B]. intros [E|I]; [cbn in E; congruence|contradiction].
    + intros [(l1 & l2 & E & Hn)|[Hn B]].
      * destruct l1 as [|x l1]; cbn [app] in E; inversion E; subst.
        -- right. split; [exact Hn|]. left. reflexivity.
        -- left. exists l1, l2. split; [reflexivity|assumption].
      * right. split; [intros I; apply Hn; right; exact I|]. right. split; [|exact B]. intros ->. apply Hn. left. reflexivity.
Qed.

(** The indexes: of several with the same name, the last. *)
Theorem info_indexes (by_ oab a b x abx : list (specs L)) : let all := flat_map (@sp_indexes L) (by_ ++ oab ++ a ++ b ++ x ++ abx) in
  let indexes := snd (get_regressor_info str by_ oab a b x abx) in
  NoDup (map fst indexes) /\
  (forall n i, In (n, i) indexes <-> exists l1 l2, all = l1 ++ (n, i) :: l2 /\ ~ In n (map fst l2)) /\
  (NoDup (map fst all) -> indexes = all).
Proof.
  intros all indexes. unfold indexes. rewrite info_ok. cbn [snd]. unfold stored. fold all.
  destruct (@stored_in all [] (NoDup_nil _)) as [H1 H2]. split; [exact H1|]. split.
  - intros n i. rewrite H2. split; [intros [H|[_ []]]; exact H|intros H; left; exact H].
  - clear. intros N.
    assert (S : forall (d : list (string * list L)) k i, ~ In k (map fst d) -> store d k i = d ++ [(k, i)]).
    { induction d as [|[k0 i0] d IH]; intros k i H; [reflexivity|]. cbn [store app]. destruct (String.eqb_spec k k0) as [->|_]; [exfalso; apply H; left; reflexivity|].
      rewrite IH; [reflexivity|]. intros I; apply H; right; exact I. }
    assert (G : forall l d, NoDup (map fst (d ++ l)) -> fold_left (fun d (ki : string * list L) => store d (fst ki) (snd ki)) l d = d ++ l).
    { induction l as [|[k i] l IH]; intros d Nd; cbn [fold_left fst snd]; [rewrite app_nil_r; reflexivity|].
      rewrite S.
      - rewrite IH; rewrite <- app_assoc; [reflexivity|exact Nd].
      - rewrite map_app in Nd. cbn [map fst] in Nd. apply NoDup_remove_2 in Nd. intros I. apply Nd. apply in_or_app. left. exact I. }
    apply (G all []). exact N.
Qed.

End Info.

(** A group cannot be declared with a name that has no index (h5py 2). *)
Lemma raw_group {V} (plain : V -> bool) f names (indexes : list (string * list V)) group :
  well_formed f -> free f (components group) -> incl (map fst indexes) names -> (forall s, In s names -> ascii_only s) ->
  (exists s, In s names /\ ~ In s (map fst indexes)) ->
  exists f', construct plain false (Some f) (Some (DList names)) indexes [] group = (Some f', Err TypeError).
Proof.
  intros W Fr Hi Ha (s & Hs & Ns). apply well_formed_ok in W. set (q := components group) in *.
  assert (Sub : subset (map fst indexes) names = true) by (apply subset_incl; exact Hi).
  destruct (opened f q W Fr) as (f1 & E1 & K1 & A1 & F1 & _).
  set (f2 := set_attr (set_attr f1 q "empty" true) q "sorted" false).
  destruct A1 as [a A1].
  assert (A2 : get f2 q = Some (Group (("sorted", false) :: ("empty", true) :: a))).
  { unfold f2. rewrite get_set_attr, path_eqb_refl, get_set_attr, path_eqb_refl, A1. reflexivity. }
  assert (K2 : file_ok f2) by (apply set_attr_ok, set_attr_ok; exact K1).
  assert (F2 : get f2 (q ++ ["managed_datasets"]) = None).
  { unfold f2. rewrite !get_set_attr. rewrite !path_eqb_neq.
    - apply F1. discriminate.
    - intros X. apply (f_equal (@List.length string)) in X. rewrite app_length in X. cbn in X. lia. }
  assert (Nn : names <> []) by (intros ->; destruct Hs).
  assert (Ar : get_array plain_text names = Ok names).
  { apply array_of; [exact Nn|]. intros x Hx. apply plain_text_iff, Ha, Hx. }
  unfold construct, check, indexed_datasets. rewrite Sub. cbn [bind fst snd flat_map]. cbn [subset forallb negb]. cbv zeta. fold q.
  unfold creation. rewrite map_map. cbn [fst].
  change (map (fun x : string * list V => fst x) indexes) with (map fst indexes).
  assert (Er : exists r0 r, filter (fun s => negb (mem s (map fst indexes))) names = r0 :: r).
  { assert (I : In s (filter (fun s => negb (mem s (map fst indexes))) names)).
    { apply filter_In. split; [exact Hs|]. destruct (mem s (map fst indexes)) eqn:M; [|reflexivity]. exfalso. apply Ns.
      unfold mem in M. apply existsb_exists in M as (y & Hy & M). apply String.eqb_eq in M. subst y. exact Hy. }
    destruct (filter _ names) as [|r0 r]; [destruct I|eauto]. }
  destruct Er as (r0 & r & Er). rewrite Er. cbn [app].
  rewrite (run_step _ _ _ _ _ E1). erewrite run_step by reflexivity. erewrite run_step by reflexivity. fold f2.
  assert (E3 : new_managed q names f2 = Ok (f2 ++ [(q ++ ["managed_datasets"], Dataset (Texts V names))])).
  { unfold new_managed. rewrite A2. unfold new_dataset, bytes_of. rewrite Ar. cbn [bind].
    rewrite (make_child RuntimeError f2 q "managed_datasets" (Dataset (Texts V names)) K2 (ex_intro _ _ A2) F2). reflexivity. }
  rewrite (run_step _ _ _ _ _ E3). cbn [run]. unfold new_dataset at 1, texts_of at 1. cbn [bind]. eexists. reflexivity.
Qed.

(** So a task with such a name has no task file. *)
Theorem without_index (L : Type) (leq : forall x y : L, {x = y} + {x <> y}) (plain : L -> bool) names (indexes : list (string * list L)) :
  incl (map fst indexes) names -> (forall n, In n names -> ascii_only n) -> (exists n, In n names /\ ~ In n (map fst indexes)) ->
  forall f0 l, well_formed f0 -> free f0 ["regressors"] -> l <> [] -> (forall k, In k (map fst l) -> simple k) ->
  snd (write_bys leq plain false f0 names indexes l) = Err TypeError.
Proof.
  intros Inc Asc Raw f0 l W Fr Nl Hl.
  destruct l as [|[key blocks] l]; [congruence|]. cbn [write_bys]. unfold write_by.
  assert (Sk : simple key) by (apply Hl; left; reflexivity).
  destruct (@raw_group L plain f0 names indexes (group_name key) W) as (f' & Ef); [|exact Inc|exact Asc|exact Raw|].
  - rewrite (group_path key Sk). destruct Fr as [D F]. split.
    + intros p r c X. destruct p as [|y p]; [apply (D [] ["regressors"] c eq_refl)|]. cbn [app] in X. injection X as <- X.
      destruct p as [|z p]; [apply (D ["regressors"] [] c eq_refl)|]. cbn [app] in X. injection X as <- X. destruct p; [|discriminate].
      change ["regressors"; key] with (["regressors"] ++ [key]). rewrite F by discriminate. discriminate.
    + intros r Nr. change (["regressors"; key] ++ r) with (["regressors"] ++ ([key] ++ r)). apply F. discriminate.
  - rewrite Ef. reflexivity.
Qed.

(** For instance, a task with a script among its regressors. *)
Theorem script_regressor (L : Type) (leq : forall x y : L, {x = y} + {x <> y}) (plain : L -> bool) (str : nat -> string)
  (by_ oab a b x abx : list (specs L)) names indexes :
  get_regressor_info str by_ oab a b x abx = (names, indexes) ->
  (forall s, In s (by_ ++ oab ++ a ++ b ++ x ++ abx) -> s = script_specs L \/ exists n i, s = column_specs n i /\ i <> [] /\ ascii_only n /\ forall k, n <> ("reg_" ++ str k)%string) ->
  (forall k, ascii_only (str k)) ->
  In (script_specs L) (by_ ++ oab ++ a ++ b ++ x ++ abx) ->
  forall f0 l, well_formed f0 -> free f0 ["regressors"] -> l <> [] -> (forall k, In k (map fst l) -> simple k) ->
  snd (write_bys leq plain false f0 names indexes l) = Err TypeError.
Proof.
  intros E Hall Hstr Hscript f0 l W Fr Nl Hl.
  set (all := by_ ++ oab ++ a ++ b ++ x ++ abx) in *.
  assert (En : names = concat (named_from str all 0)) by (rewrite info_ok in E; injection E as <- _; reflexivity).
  assert (Ei : forall n i, In (n, i) indexes -> In (n, i) (flat_map (@sp_indexes L) all)).
  { intros n i I. destruct (info_indexes str by_ oab a b x abx) as (_ & H & _). rewrite E in H. cbn [snd] in H. apply H in I as (l1 & l2 & X & _).
    fold all in X. rewrite X. apply in_or_app. right. left. reflexivity. }
  assert (Hn : forall n, In n names <-> (exists i, In (n, i) (flat_map (@sp_indexes L) all)) \/ exists k, n = ("reg_" ++ str k)%string /\ In n (concat (named_from str all 0))).
  { rewrite En. generalize 0 as r. clear E En Ei Hscript. clearbody all. induction all as [|s all IH]; intros r n.
    - cbn. split; [intros []|]. intros [(i & [])|(k & _ & [])].
    - assert (Hall' : forall s, In s all -> s = script_specs L \/ exists n i, s = column_specs n i /\ i <> [] /\ ascii_only n /\ forall k, n <> ("reg_" ++ str k)%string)
        by (intros; apply Hall; right; assumption).
      destruct (Hall s (or_introl eq_refl)) as [->|(n0 & i0 & -> & Ni & _ & _)].
      + cbn [named_from sp_names script_specs sp_number seq map concat app flat_map sp_indexes]. cbn [In]. rewrite (IH Hall' (r + 1) n). split.
        * intros [<-|[H|(k & -> & I)]]; [right; eexists; split; [reflexivity|left; reflexivity]|left; exact H|right; exists k; split; [reflexivity|right; exact I]].
        * intros [H|(k & -> & [H|I])]; [right; left; exact H|left; exact H|right]. apply (IH Hall' (r + 1)) in I. exact I.
      + destruct i0 as [|v i0]; [congruence|].
        cbn [named_from sp_names column_specs sp_number concat app flat_map sp_indexes]. cbn [In]. rewrite (IH Hall' r n). split.
        * intros [<-|[(i & H)|(k & -> & I)]]; [left; eexists; left; reflexivity|left; exists i; right; exact H|right; exists k; split; [reflexivity|right; exact I]].
        * intros [(i & [H|H])|(k & -> & [H|I])]; [left; congruence|right; left; exists i; exact H|left; exact H|right]. apply (IH Hall' r) in I. exact I. }
  assert (Hcol : forall n i, In (n, i) (flat_map (@sp_indexes L) all) -> ascii_only n /\ forall k, n <> ("reg_" ++ str k)%string).
  { intros n i I. apply in_flat_map in I as (s & Hs & I). destruct (Hall s Hs) as [->|(n0 & i0 & -> & Ni & A & B)]; [destruct I|].
    destruct i0 as [|v i0]; [congruence|]. cbn in I. destruct I as [I|[]]. injection I as <- <-. split; assumption. }
  assert (Inc : incl (map fst indexes) names).
  { intros n I. apply in_map_iff in I as ([n' i] & X & I). cbn in X. subst n'. apply Hn. left. exists i. apply Ei, I. }
  assert (Asc : forall n, In n names -> ascii_only n).
  { intros n I. apply Hn in I as [(i & I)|(k & -> & _)]; [apply (Hcol n i I)|]. intros c Hc. rewrite AnalyzeText_proofs.chars_app in Hc. apply in_app_or in Hc as [Hc|Hc].
    - cbn in Hc. repeat (destruct Hc as [<-|Hc]; [vm_compute; lia|]). destruct Hc.
    - apply (Hstr k c Hc). }
  assert (Raw : exists n, In n names /\ ~ In n (map fst indexes)).
  { assert (R : forall r, In (script_specs L) all -> exists k, In ("reg_" ++ str k)%string (concat (named_from str all r))).
    { clear. induction all as [|s all IH]; [intros r []|]. intros r [->|I]; cbn [named_from].
      - exists (r + 0). cbn. left. reflexivity.
      - destruct (sp_names s); [destruct (IH r I) as (k & H)|destruct (IH (r + sp_number s) I) as (k & H)]; exists k; cbn [concat]; apply in_or_app; right; exact H. }
    destruct (R 0 Hscript) as (k & H). exists ("reg_" ++ str k)%string. split; [rewrite En; exact H|].
    intros I. apply in_map_iff in I as ([n' i] & X & I). cbn in X. subst n'. apply Ei in I. exact (proj2 (Hcol _ _ I) k eq_refl). }
  exact (@without_index L leq plain names indexes Inc Asc Raw f0 l W Fr Nl Hl).
Qed.

(** A regressor asked for twice. *)
Lemma parse_same {V} (m m' raw : list string) idx (ix : list (string * list V)) nf fu nb d :
  (forall s, In s m <-> In s m') ->
  parse_input (mk_h5io m raw idx ix nf fu nb) (InDict d) = parse_input (mk_h5io m' raw idx ix nf fu nb) (InDict d).
Proof.
  intros Hm. unfold parse_input. cbn [h_managed].
  assert (A : subset (map fst d) m = subset (map fst d) m').
  { apply Bool.eq_true_iff_eq. rewrite !subset_incl. split; intros H s Hs; apply Hm, H, Hs. }
  assert (B : subset m (map fst d) = subset m' (map fst d)).
  { apply Bool.eq_true_iff_eq. rewrite !subset_incl. split; intros H s Hs; apply H, Hm, Hs. }
  rewrite A, B. reflexivity.
Qed.

Lemma write_same {V} veq (m m' raw : list string) idx (ix : list (string * list V)) nf fu nb bs : (forall s, In s m <-> In s m') ->
  (forall b, In b bs -> exists d, fst b = InDict d) ->
  forall o, H5io.write_all veq (mk_h5io m raw idx ix nf fu nb) o bs = H5io.write_all veq (mk_h5io m' raw idx ix nf fu nb) o bs.
Proof.
  intros Hm. induction bs as [|[data i] bs IH]; intros Hb o; [reflexivity|]. cbn [H5io.write_all].
  destruct (Hb (data, i) (or_introl eq_refl)) as (d & Ed). cbn in Ed. subst data.
  assert (A : initialize (mk_h5io m raw idx ix nf fu nb) (InDict d) = initialize (mk_h5io m' raw idx ix nf fu nb) (InDict d)).
  { unfold initialize. rewrite (@parse_same V m m' raw idx ix nf fu nb d Hm). reflexivity. }
  assert (B : forall o1, write_data veq (mk_h5io m raw idx ix nf fu nb) o1 (InDict d) i = write_data veq (mk_h5io m' raw idx ix nf fu nb) o1 (InDict d) i).
  { intros o1. unfold write_data. rewrite (@parse_same V m m' raw idx ix nf fu nb d Hm). reflexivity. }
  rewrite A. clear A. destruct o as [o|].
  - cbn [bind]. rewrite B. destruct (write_data _ _ _ _ _) as [o2|]; [|reflexivity]. cbn [bind]. apply IH. intros b H; apply Hb; right; exact H.
  - destruct (initialize _ _) as [o1|]; [|reflexivity]. cbn [bind]. rewrite B. destruct (write_data _ _ _ _ _) as [o2|]; [|reflexivity]. cbn [bind]. apply IH. intros b H; apply Hb; right; exact H.
Qed.

Lemma array_same {A} (ok : A -> bool) (l l' : list A) : (forall s, In s l <-> In s l') ->
  match get_array ok l, get_array ok l' with Ok m, Ok m' => m = l /\ m' = l' | Err e, Err e' => e = e' | _, _ => False end.
Proof.
  intros H. unfold get_array. destruct l as [|x l], l' as [|y l']; [reflexivity| | |].
  - exfalso. apply (proj2 (H y)). left; reflexivity.
  - exfalso. apply (proj1 (H x)). left; reflexivity.
  - assert (E : forallb ok (x :: l) = forallb ok (y :: l')).
    { apply Bool.eq_true_iff_eq. rewrite !forallb_forall. split; intros K s Hs; apply K, H, Hs. }
    rewrite E. destruct (forallb ok (y :: l')); [split; reflexivity|reflexivity].
Qed.

Lemma group_same (L : Type) (leq : forall x y : L, {x = y} + {x <> y}) (plain : L -> bool) names names' indexes blocks :
  (forall s, In s names <-> In s names') -> incl names (map fst indexes) ->
  regressor_group leq plain names indexes blocks = regressor_group leq plain names' indexes blocks.
Proof.
  intros Hn Hi. unfold regressor_group, init, indexed_datasets.
  assert (A : subset (map fst indexes) names = subset (map fst indexes) names').
  { apply Bool.eq_true_iff_eq. rewrite !subset_incl. split; intros H s Hs; apply Hn, H, Hs. }
  rewrite A. destruct (subset (map fst indexes) names'); [|reflexivity]. cbn [bind flat_map]. cbn [subset forallb negb].
  pose proof (array_same plain_text names names' Hn) as B. destruct (get_array plain_text names) as [m|e], (get_array plain_text names') as [m'|e']; try contradiction.
  2:{ rewrite B. reflexivity. }
  destruct B as [-> ->]. cbn [bind]. destruct (mapM _ indexes) as [stored|]; [|reflexivity]. cbn [bind mapM].
  rewrite map_map. cbn [fst]. change (map (fun x : string * list L => fst x) indexes) with (map fst indexes).
  assert (Raw : forall l, incl l (map fst indexes) -> filter (fun s => negb (mem s (map fst indexes))) l = []).
  { intros l I. apply none_left. intros s Hs. apply Bool.negb_false_iff. unfold mem. apply existsb_exists. exists s. split; [apply I, Hs|apply String.eqb_refl]. }
  rewrite (Raw names Hi), (Raw names') by (intros s Hs; apply Hi, Hn, Hs).
  erewrite (write_same leq names names'); [reflexivity|exact Hn|].
  intros b Hb. apply in_map_iff in Hb as (cols & <- & _). eexists. reflexivity.
Qed.

Theorem regressor_twice (L : Type) (leq : forall x y : L, {x = y} + {x <> y}) (plain : L -> bool) (str : nat -> string)
  (by_ oab a b x abx by' oab' a' b' x' abx' l1 l2 : list (specs L)) n i names indexes names' indexes' :
  by_ ++ oab ++ a ++ b ++ x ++ abx = l1 ++ l2 -> by' ++ oab' ++ a' ++ b' ++ x' ++ abx' = l1 ++ column_specs n i :: l2 ->
  In (column_specs n i) l1 -> (forall i', In (n, i') (flat_map (@sp_indexes L) (l1 ++ l2)) -> i' = i) ->
  get_regressor_info str by_ oab a b x abx = (names, indexes) -> get_regressor_info str by' oab' a' b' x' abx' = (names', indexes') ->
  indexes' = indexes /\ (forall s, In s names' <-> In s names) /\
  (incl names (map fst indexes) -> forall blocks, regressor_group leq plain names' indexes blocks = regressor_group leq plain names indexes blocks).
Proof.
  intros E E' I Hi G G'. rewrite info_ok in G, G'. rewrite E in G. rewrite E' in G'. injection G as <- <-. injection G' as <- <-.
  assert (Nm : forall s, In s (concat (named_from str (l1 ++ column_specs n i :: l2) 0)) <-> In s (concat (named_from str (l1 ++ l2) 0))).
  { intros s. rewrite !named_app. cbn [named_from sp_names column_specs]. rewrite !concat_app, !in_app_iff. cbn [concat app In].
    split; [|tauto]. intros [H|[<-|H]]; [tauto| |tauto]. left. clear - I. generalize 0 as r.
    induction l1 as [|f l1 IH]; intros r; [destruct I|]. cbn [named_from]. destruct I as [->|I]; [cbn; left; reflexivity|].
    destruct (sp_names f); cbn [concat]; apply in_or_app; right; apply IH; exact I. }
  split; [|split; [exact Nm|]].
  - unfold stored. rewrite !flat_map_app. cbn [flat_map]. rewrite !fold_left_app. f_equal. cbn [sp_indexes column_specs].
    destruct i as [|v i]; [reflexivity|]. cbn [fold_left fst snd].
    assert (S : forall (d : list (string * list L)) k j, NoDup (map fst d) -> In (k, j) d -> store d k j = d).
    { induction d as [|[k0 j0] d IH]; intros k j N H; [destruct H|]. cbn [store]. inversion N as [|? ? N1 N2]; subst. destruct (String.eqb_spec k k0) as [->|Hk].
      - destruct H as [H|H]; [injection H as ->; reflexivity|]. exfalso. apply N1. apply in_map_iff. exists (k0, j). split; [reflexivity|exact H].
      - destruct H as [H|H]; [congruence|]. rewrite IH by assumption. reflexivity. }
    destruct (@stored_in L (flat_map (@sp_indexes L) l1) [] (NoDup_nil _)) as [H1 H2].
    apply S; [exact H1|]. apply H2. left.
    assert (J : In (n, v :: i) (flat_map (@sp_indexes L) l1)).
    { apply in_flat_map. exists (column_specs n (v :: i)). split; [exact I|left; reflexivity]. }
    assert (K : forall i', In (n, i') (flat_map (@sp_indexes L) l1) -> i' = v :: i).
    { intros i' H. apply Hi. rewrite flat_map_app. apply in_or_app. left. exact H. }
    clear - J K. induction (flat_map (@sp_indexes L) l1) as [|[k j] l IH]; [destruct J|].
    destruct (in_dec string_dec n (map fst l)) as [D|D].
    + apply in_map_iff in D as ([n' j'] & X & D). cbn in X. subst n'. rewrite (K j' (or_intror D)) in D.
      destruct IH as (l3 & l4 & -> & Hn); [exact D|intros; apply K; right; assumption|]. exists ((k, j) :: l3), l4. split; [reflexivity|exact Hn].
    + destruct J as [J|J].
      * injection J as -> ->. exists [], l. split; [reflexivity|exact D].
      * exfalso. apply D. apply in_map_iff. exists (n, v :: i). split; [reflexivity|exact J].
  - intros Inc blocks. symmetry. apply group_same; [intros s; symmetry; apply Nm|exact Inc].
Qed.
