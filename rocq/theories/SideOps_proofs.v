From Coq Require Import Ascii String.
From Verif Require Import Prelude ListFacts Task Tree Tree_spec Tree_proofs SideOps SideOps_spec.
Set Implicit Arguments.
Open Scope string_scope.
Open Scope list_scope.
Local Open Scope nat_scope.

(* ------------------------------------------------------------------ *)
(** ** Names *)

Fixpoint until_underscore (s : string) : string :=
  match s with
  | EmptyString => EmptyString
  | String c s' => if Ascii.eqb c "_"%char then EmptyString else String c (until_underscore s')
  end.

Lemma until_plain : forall c s, plain c -> s = "" \/ (exists s', s = String "_"%char s') -> until_underscore (c ++ s)%string = c.
Proof.
  induction c as [|a c IH]; intros s Hp Hs; cbn.
  - destruct Hs as [->|(s' & ->)]; reflexivity.
  - unfold plain in Hp. cbn in Hp. destruct (Ascii.eqb a "_") eqn:E.
    + apply Ascii.eqb_eq in E. subst. exfalso. apply Hp. left; reflexivity.
    + rewrite IH; auto. intros H. apply Hp. right; exact H.
Qed.

Lemma extension_shape s : extension s -> s = "" \/ exists s', s = String "_"%char s'.
Proof. intros H. unfold extension in H. decompose [or] H; subst; try (left; reflexivity); right; eexists; reflexivity. Qed.

Lemma append_cancel : forall c s s', (c ++ s)%string = (c ++ s')%string -> s = s'.
Proof. induction c as [|a c IH]; intros s s' E; cbn in E; [exact E|]. injection E as E. auto. Qed.

Lemma extended_unique c s c' s' : plain c -> plain c' -> extension s -> extension s' ->
  (c ++ s)%string = (c' ++ s')%string -> c = c' /\ s = s'.
Proof.
  intros Hc Hc' Hs Hs' E. assert (c = c').
  { rewrite <- (until_plain Hc (extension_shape Hs)), <- (until_plain Hc' (extension_shape Hs')). f_equal. exact E. }
  subst c'. split; [reflexivity|]. eapply append_cancel. exact E.
Qed.

Lemma mem_string_In l s : mem_string l s = true <-> In s l.
Proof.
  unfold mem_string. rewrite existsb_exists. split.
  - intros (x & H & E). apply String.eqb_eq in E. subst. exact H.
  - intros H. exists s. split; [exact H|]. apply String.eqb_refl.
Qed.

Lemma mem_string_nIn l s : mem_string l s = false <-> ~ In s l.
Proof. rewrite <- mem_string_In. destruct (mem_string l s); split; congruence. Qed.

Lemma extensions_extension s : In s extensions <-> extension s.
Proof. unfold extension. cbn. intuition. Qed.

Lemma find_unique {A} (f : A -> bool) l a : In a l -> f a = true -> (forall b, In b l -> f b = true -> b = a) -> find f l = Some a.
Proof.
  induction l as [|b l IH]; intros Hin Hf H; [destruct Hin|]. cbn. destruct (f b) eqn:E.
  - f_equal. apply H; [left; reflexivity|exact E].
  - destruct Hin as [->|Hin]; [congruence|]. apply IH; auto. intros; apply H; auto. right; auto.
Qed.

Lemma append_length a b : String.length (a ++ b) = String.length a + String.length b.
Proof. induction a as [|c a IH]; cbn; [reflexivity|]. rewrite IH. reflexivity. Qed.

Lemma prefix_append : forall a b, prefix (String.length a) (a ++ b)%string = a.
Proof. unfold prefix. induction a as [|c a IH]; intros b; [destruct b; reflexivity|]. cbn. rewrite IH. reflexivity. Qed.

Lemma parse_named C c s : Forall plain (all_cols C) -> In c (all_cols C) -> extension s ->
  parse_extended_column C (c ++ s)%string = Ok (c, s).
Proof.
  intros Hp Hc Hs. unfold parse_extended_column. rewrite Forall_forall in Hp.
  rewrite (@find_unique _ _ extensions s).
  - rewrite append_length. replace (String.length c + String.length s - String.length s) with (String.length c) by lia.
    rewrite prefix_append. reflexivity.
  - apply extensions_extension. exact Hs.
  - apply mem_string_In, in_map_iff. eauto.
  - intros s' Hs' H. apply mem_string_In, in_map_iff in H as (c' & E & Hc'). apply extensions_extension in Hs'.
    apply extended_unique in E; auto. destruct E as [_ E]. exact E.
Qed.

Lemma parse_sound C n c s : parse_extended_column C n = Ok (c, s) -> named C n c s.
Proof.
  unfold parse_extended_column. destruct (find _ extensions) as [e|] eqn:E; [|discriminate].
  apply find_some in E as [Hin E]. intros H. injection H as <- <-. apply mem_string_In, in_map_iff in E as (c & <- & Hc).
  rewrite append_length. replace (String.length c + String.length e - String.length e) with (String.length c) by lia.
  rewrite prefix_append. split; [reflexivity|]. split; [exact Hc|]. apply extensions_extension. exact Hin.
Qed.

Lemma parse_reject C n : (forall c s, ~ named C n c s) -> parse_extended_column C n = Err NameError.
Proof.
  intros H. unfold parse_extended_column. destruct (find _ extensions) as [e|] eqn:E; [|reflexivity].
  exfalso. apply find_some in E as [Hin E]. apply mem_string_In, in_map_iff in E as (c & <- & Hc).
  apply (H c e). split; [reflexivity|]. split; [exact Hc|]. apply extensions_extension. exact Hin.
Qed.

(* ------------------------------------------------------------------ *)
(** ** Hierarchy *)

Lemma names_below t c : In c (names t) <-> exists q r, below t q r /\ name r = c.
Proof.
  unfold names. rewrite in_flat_map. split.
  - intros (q & _ & H). destruct (node_at t q) as [r|] eqn:E; [|destruct H]. destruct H as [<-|[]].
    apply node_at_below in E. eauto.
  - intros (q & r & H & <-). exists q. split; [apply (proj2 (pre_order_visits t)); eauto|].
    apply node_at_below in H. rewrite H. left; reflexivity.
Qed.

Lemma below_trans : forall p t s q r, below t p s -> below s q r -> below t (p ++ q) r.
Proof.
  induction p as [|i p IH]; intros t s q r H H'; inversion H; subst; [exact H'|]. cbn. econstructor; eauto.
Qed.

Lemma nodup_app_parts {A} (l l' : list A) : NoDup (l ++ l') -> NoDup l /\ NoDup l' /\ forall a, In a l -> ~ In a l'.
Proof.
  induction l as [|a l IH]; cbn; intros H; [split; [constructor|]; split; [exact H|]; intros a []|].
  inversion_clear H. destruct (IH H1) as (H2 & H3 & H4). rewrite in_app_iff in H0.
  split; [constructor; tauto|]. split; [exact H3|]. intros b [<-|Hb]; [tauto|auto].
Qed.

Lemma nodup_flat_map {A B} (f : A -> list B) : forall l, NoDup (flat_map f l) ->
  forall i x, nth_error l i = Some x -> NoDup (f x) /\
  forall j y b, nth_error l j = Some y -> In b (f x) -> In b (f y) -> i = j.
Proof.
  induction l as [|a l IH]; intros Hnd i x Hi; [destruct i; discriminate|].
  cbn in Hnd. apply nodup_app_parts in Hnd as (Ha & Hl & Hd). destruct i as [|i]; cbn in Hi.
  - injection Hi as ->. split; [exact Ha|]. intros [|j] y b Hj Hb Hb'; [reflexivity|]. exfalso.
    apply (Hd b Hb). apply in_flat_map. exists y. split; [eapply nth_error_In; eauto|exact Hb'].
  - destruct (IH Hl i x Hi) as [H1 H2]. split; [exact H1|]. intros [|j] y b Hj Hb Hb'.
    + exfalso. injection Hj as ->. apply (Hd b Hb'). apply in_flat_map. exists x. split; [eapply nth_error_In; eauto|exact Hb].
    + f_equal. eapply H2; eauto.
Qed.

(** Distinct names: the first node of a name is the only one. *)
Lemma names_nodup_unique t : NoDup (names t) -> forall p q s r, below t p s -> below t q r -> name s = name r -> p = q /\ s = r.
Proof.
  induction t as [n c IH] using tree_ind'. rewrite names_node. intros Hnd p q s r Hp Hq E.
  inversion_clear Hnd as [|? ? Hn Hc].
  assert (Hin : forall i t' p' s', nth_error c i = Some t' -> below t' p' s' -> In (name s') (flat_map names c)).
  { intros i t' p' s' Ht' Hb. apply in_flat_map. exists t'. split; [eapply nth_error_In; eauto|]. apply names_below. eauto. }
  inversion Hp as [|n1 c1 i1 s1 p1 r1 Hi1 Hb1]; subst; inversion Hq as [|n2 c2 i2 s2 p2 r2 Hi2 Hb2]; subst.
  - split; reflexivity.
  - exfalso. apply Hn. cbn in E. rewrite E. eauto.
  - exfalso. apply Hn. cbn in E. rewrite <- E. eauto.
  - destruct (nodup_flat_map _ _ Hc _ Hi1) as [Hnd1 Huniq].
    assert (i1 = i2) as <-.
    { eapply (Huniq i2 s2 (name s)); [exact Hi2|apply names_below; eauto|rewrite E; apply names_below; eauto]. }
    rewrite Hi1 in Hi2. injection Hi2 as <-. destruct (IH i1 s1 Hi1 Hnd1 _ _ _ _ Hb1 Hb2 E) as [-> ->]. split; reflexivity.
Qed.

Lemma descendants_descends : forall forest col l, NoDup (flat_map names forest) -> descendants forest col = Some l ->
  forall c, In c l <-> descends forest col c.
Proof.
  induction forest as [|t forest IH]; intros col l Hnd E c; [discriminate|]. cbn [descendants] in E. cbn in Hnd.
  apply nodup_app_parts in Hnd as (Ht & Hf & Hd).
  pose proof (find_child_first t [fun s => String.eqb (name s) col]) as Hfc.
  destruct (find_child t [fun s => String.eqb (name s) col]) as [p|].
  - destruct Hfc as [(s & Hs & Hsel) _]. specialize (Hsel _ (or_introl eq_refl)). apply String.eqb_eq in Hsel.
    rewrite (proj2 (node_at_below p t s) Hs) in E. injection E as <-. rewrite names_below. split.
    + intros (q & r & Hb & Hn). exists t, p, s, q, r. cbn. auto.
    + intros (t' & p' & s' & q & r & [<-|Hin] & Hb & Hn & Hb' & Hn').
      * destruct (names_nodup_unique Ht Hs Hb) as [_ <-]; [congruence|]. eauto.
      * exfalso. apply (Hd col); [apply names_below; eauto|]. apply in_flat_map. exists t'. split; [exact Hin|]. apply names_below; eauto.
  - rewrite (IH col l Hf E c). split; intros (t' & p' & s' & q & r & Hin & Hb & Hn & Hb' & Hn').
    + exists t', p', s', q, r. cbn. auto.
    + destruct Hin as [<-|Hin]; [|exists t', p', s', q, r; auto]. exfalso. apply (Hfc p'). exists s'. split; [exact Hb|].
      intros f [<-|[]]. apply String.eqb_eq. exact Hn.
Qed.

Lemma descendants_none : forall forest col, descendants forest col = None <-> ~ In col (flat_map names forest).
Proof.
  induction forest as [|t forest IH]; intros col; cbn [descendants flat_map]; [split; [intros _ []|reflexivity]|].
  pose proof (find_child_first t [fun s => String.eqb (name s) col]) as Hfc. rewrite in_app_iff.
  destruct (find_child t [fun s => String.eqb (name s) col]) as [p|].
  - destruct Hfc as [(s & Hs & Hsel) _]. specialize (Hsel _ (or_introl eq_refl)). apply String.eqb_eq in Hsel.
    rewrite (proj2 (node_at_below p t s) Hs). split; [discriminate|]. intros H. exfalso. apply H. left. apply names_below. eauto.
  - rewrite IH. split; [|tauto]. intros H [Hin|Hin]; [|tauto]. apply names_below in Hin as (q & r & Hb & Hn).
    apply (Hfc q). exists r. split; [exact Hb|]. intros f [<-|[]]. apply String.eqb_eq. exact Hn.
Qed.

Lemma descends_in forest col c : descends forest col c -> In col (flat_map names forest).
Proof. intros (t & p & s & q & r & Hin & Hb & Hn & _). apply in_flat_map. exists t. split; [exact Hin|]. apply names_below. eauto. Qed.

Lemma all_descendants_descends forest cols c : NoDup (flat_map names forest) ->
  (In c (all_descendants forest cols) <-> exists col, In col cols /\ descends forest col c).
Proof.
  intros Hnd. unfold all_descendants. rewrite in_flat_map. split; intros (col & Hin & H); exists col; split; auto.
  - destruct (descendants forest col) as [l|] eqn:E; [|destruct H]. apply (descendants_descends _ _ Hnd E). exact H.
  - destruct (descendants forest col) as [l|] eqn:E; [apply (descendants_descends _ _ Hnd E); exact H|].
    apply descendants_none in E. apply E. eapply descends_in; eauto.
Qed.

Lemma init_columns_ok forest on across by_ C : NoDup (flat_map names forest) -> init_columns forest on across by_ = Ok C ->
  all_cols C = flat_map names forest /\
  (forall c, In c (on_cols C) <-> descends forest on c) /\
  (forall c, In c (across_cols C) <-> exists col, In col across /\ descends forest col c) /\
  (forall c, In c (by_cols C) <-> exists col, In col by_ /\ descends forest col c).
Proof.
  intros Hnd E. unfold init_columns in E. destruct (descendants forest on) as [l|] eqn:El; [|discriminate]. injection E as <-. cbn.
  split; [reflexivity|]. split; [intros c; apply (descendants_descends _ _ Hnd El)|].
  split; intros c; apply all_descendants_descends; exact Hnd.
Qed.

(* ------------------------------------------------------------------ *)
(** ** Cascaded filters *)

Lemma gather_map A B (g : A -> B) (l : list A) idx m : gather l idx = Ok m -> gather (map g l) idx = Ok (map g m).
Proof.
  unfold gather. revert m. induction idx as [|i idx IH]; intros m E; cbn in E |- *; [injection E as <-; reflexivity|].
  unfold nth_res in E |- *. rewrite nth_error_map. destruct (nth_error l i) as [a|]; cbn in E |- *; [|discriminate].
  destruct (mapM _ idx) as [m'|] eqn:Em; cbn in E; [|discriminate]. injection E as <-. unfold nth_res in IH. rewrite (IH m' eq_refl). reflexivity.
Qed.

Lemma gather_length A (l : list A) idx m : gather l idx = Ok m -> List.length m = List.length idx.
Proof. intros E. apply mapM_length in E. exact E. Qed.

Lemma gather_any A (l : list A) idx : (forall i, In i idx -> i < List.length l) -> exists m, gather l idx = Ok m.
Proof.
  unfold gather. induction idx as [|i idx IH]; intros H; [exists []; reflexivity|].
  destruct IH as (m & Hm); [intros; apply H; right; auto|].
  destruct (nth_error l i) as [a|] eqn:E; [|apply nth_error_None in E; specialize (H i (or_introl eq_refl)); lia].
  exists (a :: m). cbn. unfold nth_res at 1. rewrite E. cbn. rewrite Hm. reflexivity.
Qed.

Lemma dict_get_In A (d : list (string * A)) n l : dict_get d n = Ok l -> In (n, l) d.
Proof.
  induction d as [|[k v] d IH]; cbn; [discriminate|]. destruct (String.eqb n k) eqn:E; [|auto].
  intros H. injection H as ->. apply String.eqb_eq in E. subst. auto.
Qed.

Lemma mapM_dict_get (g : list Z -> res (list Z)) : forall ctx ctx' n l,
  mapM (fun p => l <- g (snd p) ;; Ok (fst p, l)) ctx = Ok ctx' -> dict_get ctx n = Ok l -> exists l', g l = Ok l' /\ dict_get ctx' n = Ok l'.
Proof.
  induction ctx as [|[k v] ctx IH]; intros ctx' n l E H; [discriminate|]. cbn in E, H.
  destruct (g v) as [v'|] eqn:Ev; [|discriminate]. cbn in E.
  destruct (mapM _ ctx) as [c|] eqn:Ec; [|discriminate]. cbn in E. injection E as <-. cbn.
  destruct (String.eqb n k); [|eauto]. injection H as <-. eauto.
Qed.

Lemma vectorial_loop_ok truthy : forall fs ps, Forall2 elementwise fs ps -> (forall f, In f fs -> input_names f <> []) ->
  forall (q : list (nat * (string -> Z))) ctx, has_columns ctx (flat_map input_names fs) (map snd q) ->
  vectorial_loop truthy fs ctx (map fst q) = Ok (map fst (filter (fun t => forallb (fun p => p (snd t)) ps) q)).
Proof.
  induction 1 as [|f p fs ps Hf _ IH]; intros Hne q ctx [Hcols Hlen]; cbn [vectorial_loop].
  - f_equal. f_equal. clear. induction q as [|t q IHq]; [reflexivity|]. cbn. f_equal. exact IHq.
  - assert (E : evaluate f ctx = Ok (Flat (map p (map snd q)))).
    { apply Hf; [|intros E; exfalso; apply (Hne f (or_introl eq_refl)); exact E].
      intros n Hn. apply Hcols. cbn. apply in_app_iff. auto. }
    rewrite E. cbn [bind where_true]. rewrite map_map.
    assert (Hg : forall B (g : nat * (string -> Z) -> B),
      gather (map g q) (np_where (map (fun t => p (snd t)) q)) = Ok (map g (filter (fun t => p (snd t)) q))).
    { intros B g. apply gather_map. apply (@gather_np_where _ q (fun t => p (snd t))). }
    rewrite Hg. cbn [bind].
    set (still := np_where (map (fun t => p (snd t)) q)) in *.
    assert (Hstill : forall i, In i still -> i < List.length q).
    { intros i Hi. apply np_where_spec in Hi. rewrite <- (map_length (fun t => p (snd t)) q). apply nth_error_Some. congruence. }
    assert (Hctx : exists ctx', mapM (fun p0 => l <- gather (snd p0) still ;; Ok (fst p0, l)) ctx = Ok ctx').
    { clear - Hlen Hstill. induction ctx as [|[n l] ctx IH]; [exists []; reflexivity|].
      destruct IH as (c & Hc); [intros n' l' H; eapply Hlen; right; eauto|]. cbn.
      destruct (gather_any l still) as (m & Hm).
      - intros i Hi. rewrite (Hlen n l (or_introl eq_refl)), map_length. auto.
      - rewrite Hm. cbn. rewrite Hc. cbn. eexists; reflexivity. }
    destruct Hctx as (ctx' & Hctx). rewrite Hctx. cbn [bind].
    assert (Hgoal : vectorial_loop truthy fs ctx' (map fst (filter (fun t => p (snd t)) q)) =
      Ok (map fst (filter (fun t => forallb (fun p0 => p0 (snd t)) (p :: ps)) q))).
    { rewrite IH.
      - f_equal. f_equal. clear. induction q as [|t q IHq]; [reflexivity|]. cbn [filter forallb].
        destruct (p (snd t)); cbn [andb filter]; [|exact IHq]. destruct (forallb _ ps); [f_equal; exact IHq|exact IHq].
      - intros f' Hf'. apply Hne. right; exact Hf'.
      - split.
        + intros n Hn. destruct (@mapM_dict_get (fun l => gather l still) ctx ctx' n _ Hctx (Hcols n ltac:(cbn; apply in_app_iff; auto))) as (l' & Hl' & Hget).
          rewrite Hget. rewrite map_map in Hl'. rewrite Hg in Hl'. injection Hl' as <-. rewrite map_map. reflexivity.
        + intros n l Hin. rewrite map_length. 
          assert (Hl : List.length l = List.length still).
          { clear - Hctx Hin. revert ctx' Hctx Hin. induction ctx as [|[k v] ctx IHc]; intros ctx' E Hin; cbn in E; [injection E as <-; destruct Hin|].
            destruct (gather v still) as [v'|] eqn:Ev; [|discriminate]. cbn in E. destruct (mapM _ ctx) as [c|] eqn:Ec; [|discriminate].
            injection E as <-. destruct Hin as [E|Hin]; [injection E as <- <-; eapply gather_length; eauto|eauto]. }
          rewrite Hl. specialize (Hg _ (fun t => t)). apply gather_length in Hg. rewrite map_length in Hg. symmetry. exact Hg. }
    destruct (map fst (filter (fun t => p (snd t)) q)) as [|k ks] eqn:Ek; [|exact Hgoal].
    apply map_eq_nil in Ek. f_equal. symmetry. clear - Ek.
    assert (G : filter (fun t => forallb (fun p0 => p0 (snd t)) (p :: ps)) q = []).
    { induction q as [|t q IHq]; [reflexivity|]. cbn [filter] in Ek |- *. cbn [forallb]. destruct (p (snd t)); [discriminate|]. cbn [andb]. auto. }
    rewrite G. reflexivity.
Qed.

Lemma combine_seq_filter {A} (g : A -> bool) : forall (l : list A) k,
  map fst (filter (fun t => g (snd t)) (combine (seq k (List.length l)) l)) = map (Nat.add k) (np_where (map g l)).
Proof.
  assert (W : forall mask k, where_from k mask = map (Nat.add k) (np_where mask)).
  { unfold np_where. induction mask as [|b mask IH]; intros k; cbn [where_from]; [reflexivity|].
    rewrite (IH (S k)), (IH 1). destruct b; cbn [map]; rewrite map_map; [replace (k + 0) with k by lia; apply f_equal|]; apply map_ext; intros; lia. }
  induction l as [|a l IH]; intros k; [reflexivity|]. cbn [List.length seq combine map filter snd fst].
  unfold np_where. cbn [where_from]. rewrite (W _ 1). destruct (g a); cbn [map fst]; rewrite IH, map_map; [replace (k + 0) with k by lia; apply f_equal|]; apply map_ext; intros; lia.
Qed.

Lemma vectorial_filter_np_where truthy fs ps lines ctx : Forall2 elementwise fs ps -> (forall f, In f fs -> input_names f <> []) ->
  has_columns ctx (flat_map input_names fs) lines ->
  vectorial_filter truthy fs ctx (List.length lines) = Ok (np_where (map (fun e => forallb (fun p => p e) ps) lines)).
Proof.
  intros HF Hne Hc. unfold vectorial_filter.
  assert (L : List.length (seq 0 (List.length lines)) = List.length lines) by apply seq_length.
  assert (E1 : seq 0 (List.length lines) = map fst (combine (seq 0 (List.length lines)) lines)).
  { clear - L. revert L. generalize (seq 0 (List.length lines)). intros l. revert lines. induction l as [|k l IH]; intros [|e lines] L; cbn in *; try discriminate; [reflexivity|]. f_equal. apply IH. lia. }
  assert (E2 : lines = map snd (combine (seq 0 (List.length lines)) lines)).
  { clear - L. revert L. generalize (seq 0 (List.length lines)). intros l. revert lines. induction l as [|k l IH]; intros [|e lines] L; cbn in *; try discriminate; [reflexivity|]. f_equal. apply IH. lia. }
  rewrite E1 at 1. rewrite (vectorial_loop_ok truthy HF Hne); [|rewrite <- E2; exact Hc].
  f_equal. rewrite (combine_seq_filter (fun e => forallb (fun p => p e) ps) lines 0). apply map_id.
Qed.

Lemma vectorial_filter_conjunction truthy fs ps lines ctx : Forall2 elementwise fs ps -> (forall f, In f fs -> input_names f <> []) ->
  has_columns ctx (flat_map input_names fs) lines ->
  exists kept, vectorial_filter truthy fs ctx (List.length lines) = Ok kept /\ StronglySorted lt kept /\
    forall i, In i kept <-> exists e, nth_error lines i = Some e /\ forall p, In p ps -> p e = true.
Proof.
  intros HF Hne Hc. eexists. split; [apply vectorial_filter_np_where; eauto|]. split; [apply np_where_sorted|].
  intros i. rewrite np_where_spec, nth_error_map. destruct (nth_error lines i) as [e|]; cbn.
  - split.
    + intros E. injection E as E. rewrite forallb_forall in E. exists e. auto.
    + intros (e' & E & H). injection E as <-. f_equal. apply forallb_forall. exact H.
  - split; [discriminate|]. intros (e & E & _). discriminate.
Qed.

Lemma singleton_filter_ok : forall fs ps ctx line, Forall2 elementwise fs ps ->
  (forall n, In n (flat_map input_names fs) -> dict_get ctx n = Ok [line n]) ->
  singleton_filter fs ctx = Ok (forallb (fun p => p line) ps).
Proof.
  intros fs ps ctx line HF. induction HF as [|f p fs ps Hf _ IH]; intros Hc; [reflexivity|]. cbn [singleton_filter].
  rewrite (Hf ctx [line]); [|intros n Hn; apply Hc; cbn; apply in_app_iff; auto|reflexivity].
  cbn. destruct (p line); cbn; [|reflexivity]. apply IH. intros n Hn. apply Hc. cbn. apply in_app_iff. auto.
Qed.
