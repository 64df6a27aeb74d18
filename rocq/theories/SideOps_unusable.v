(** The filters that are accepted and cannot be evaluated. *)
From Coq Require Import Ascii String.
From Verif Require Import Prelude ListFacts Task Task_spec Tree Tree_spec SideOps SideOps_spec SideOps_unusable_spec SideOps_proofs SideOps_stages SideOps_staged SideOps_meaning SideOps_user
  SideOps_legal SideOps_final.
Set Implicit Arguments.
Open Scope string_scope.
Open Scope list_scope.
Local Open Scope nat_scope.

(* ------------------------------------------------------------------ *)
(** ** Names that are not in a context *)

Definition absent (n : string) (ctx : context) : Prop := ~ In n (map fst ctx).

Lemma absent_get n ctx : absent n ctx -> dict_get ctx n = Err KeyError.
Proof.
  induction ctx as [|[k l] ctx IH]; intros H; [reflexivity|]. cbn. destruct (String.eqb_spec n k) as [->|].
  - exfalso. apply H. left. reflexivity.
  - apply IH. intros Hi. apply H. right. exact Hi.
Qed.

Lemma absent_set n ctx k l : n <> k -> absent n ctx -> absent n (dict_set ctx k l).
Proof.
  intros Hk H [E|Hi]; [cbn in E; congruence|]. apply H. apply in_map_iff in Hi as (p & Ep & Hi). apply filter_In in Hi as [Hi _]. rewrite <- Ep. apply in_map. exact Hi.
Qed.

Lemma absent_values n v : forall es ctx, ~ In n (map ext_name es) -> absent n ctx -> absent n (set_values ctx es v).
Proof.
  induction es as [|e es IH]; intros ctx Hn H; [exact H|]. cbn. apply IH; [intros Hi; apply Hn; right; exact Hi|].
  apply absent_set; [intros E; apply Hn; left; auto|exact H].
Qed.

Lemma absent_columns n rows : forall es ctx, ~ In n (map ext_name es) -> absent n ctx -> absent n (set_columns ctx es rows).
Proof.
  induction es as [|e es IH]; intros ctx Hn H; [exact H|]. cbn. apply IH; [intros Hi; apply Hn; right; exact Hi|].
  apply absent_set; [intros E; apply Hn; left; auto|exact H].
Qed.

Lemma absent_repeat n ctx k : absent n ctx -> absent n (repeat_all ctx k).
Proof. unfold absent, repeat_all. rewrite map_map. cbn. intros H. exact H. Qed.

Lemma absent_nil n : absent n [].
Proof. intros []. Qed.

Lemma compute_absent inputs script ctx n : In n inputs -> absent n ctx -> evaluate (DBfun_Compute inputs script) ctx = Err NameError.
Proof.
  intros Hi Ha. cbn [evaluate DBfun_Compute].
  assert (G : mapM (fun n => match dict_get ctx n with Ok l => Ok (n, l) | Err _ => Err NameError end) inputs = Err NameError); [|rewrite G; reflexivity].
  clear script. induction inputs as [|k inputs IH]; [destruct Hi|]. cbn [mapM]. destruct Hi as [<-|Hi].
  - rewrite (absent_get Ha). reflexivity.
  - destruct (dict_get ctx k); [|reflexivity]. cbn [bind]. rewrite IH by exact Hi. reflexivity.
Qed.

Lemma vectorial_absent truthy inputs script ctx n k : In n inputs -> absent n ctx ->
  vectorial_filter truthy [DBfun_Compute inputs script] ctx k = Err NameError.
Proof. intros Hi Ha. unfold vectorial_filter. cbn [vectorial_loop]. rewrite (compute_absent _ _ Hi Ha). reflexivity. Qed.

Lemma singleton_absent inputs script ctx n : In n inputs -> absent n ctx ->
  singleton_filter [DBfun_Compute inputs script] ctx = Err NameError.
Proof. intros Hi Ha. cbn [singleton_filter]. rewrite (compute_absent _ _ Hi Ha). reflexivity. Qed.

(* ------------------------------------------------------------------ *)
(** ** The two kinds *)

Section Unusable.
Variables (forest : list tree) (on : string) (across by_ : list string) (inputs : list string) (script : (string -> Z) -> bool) (m : manager).
Notation f := (DBfun_Compute inputs script).
Hypothesis plain_cols : Forall plain (flat_map names forest).
Hypothesis accepted : filter_manager forest on across by_ [f] = Ok m.

Lemma accepted_add : exists C, init_columns forest on across by_ = Ok C /\ Forall plain (all_cols C) /\ add false (empty_manager C) f = Ok m /\ m_cols m = C.
Proof.
  unfold filter_manager in accepted. destruct (init_columns forest on across by_) as [C|] eqn:EC; [|discriminate]. cbn [bind foldM] in accepted.
  destruct (add false (empty_manager C) f) as [m1|] eqn:E1; [|discriminate]. cbn in accepted. injection accepted as <-.
  exists C. split; [reflexivity|]. split.
  - unfold init_columns in EC. destruct (descendants forest on); [|discriminate]. injection EC as <-. exact plain_cols.
  - split; [exact E1|]. apply (add_cols _ _ E1).
Qed.

Lemma accepted_legal : all_named (m_cols m) f /\ placed (m_cols m) f /\ unmixed (m_cols m) f.
Proof.
  destruct accepted_add as (C & _ & Hp & Ha & ->). pose proof (@add_decision (empty_manager C) Hp f) as (Hd & _). apply Hd. eauto.
Qed.

Lemma named_unique C n c s c' s' : Forall plain (all_cols C) -> named C n c s -> named C n c' s' -> c = c' /\ s = s'.
Proof.
  intros Hp (-> & Hc & Hs) (E & Hc' & Hs'). rewrite Forall_forall in Hp. apply extended_unique; auto.
Qed.

Lemma by_and_plain truthy : some_by (m_cols m) inputs -> some_plain (m_cols m) inputs -> forall v db, generic_filter truthy m v db = Err NameError.
Proof.
  destruct accepted_legal as (Hn & Hpl & Hmx). destruct accepted_add as (C & _ & Hp & Ha & EC). rewrite EC in *. intros (n & c & s & Hin & N & Hb) (n' & c' & Hin' & N' & Hb') v db.
  pose proof (@parse_all (empty_manager C) Hp f Hn) as Hpa. cbn [m_cols empty_manager] in Hpa.
  pose proof (elements_named C f Hpa) as Hel. pose proof (elements_all C f Hpa) as Hal.
  assert (Hr : In (c', "") (rest_of C f)).
  { destruct (Hal n' Hin') as (e & He & Ee). destruct (Hel e He) as [Ne _]. rewrite Ee in Ne. destruct (named_unique Hp N' Ne) as [-> Es]. apply in_rest. rewrite Es, <- surjective_pairing.
    split; [exact He|]. apply mem_string_nIn. exact Hb'. }
  unfold add in Ha. cbn [m_cols empty_manager] in Ha. rewrite Hpa in Ha. cbn [bind] in Ha. destruct (check_extensions C (elements C f)); [|discriminate]. cbn [bind] in Ha.
  change (filter (fun e => negb (mem_string (by_cols C) (fst e))) (elements C f)) with (rest_of C f) in Ha.
  destruct (forallb (fun e => mem_string (by_cols C) (fst e)) (elements C f)) eqn:Eb.
  { exfalso. apply in_rest in Hr as [Hr Hr']. rewrite forallb_forall in Eb. specialize (Eb _ Hr). unfold isby in Hr'. congruence. }
  assert (Ho : only_plain (rest_of C f) = true).
  { apply only_plain_spec. split; [intros E; rewrite E in Hr; destruct Hr|]. pose proof (@mix_ok (empty_manager C) Hp f Hpa) as Hm. cbn [m_cols empty_manager] in Hm.
    apply Hm in Hmx. destruct Hmx as [H|H]; [exact H|]. exfalso. apply (H _ Hr). reflexivity. }
  rewrite Ho in Ha. injection Ha as <-. unfold generic_filter. cbn [m_by m_funs m_generic empty_manager]. unfold upd. cbn [stage_eqb app set_values fold_left].
  rewrite (@vectorial_absent _ _ _ _ n); [reflexivity|exact Hin|]. apply absent_columns; [|apply absent_repeat, absent_nil].
  intros Hi. apply in_map_iff in Hi as (e & Ee & He). apply in_rest in He as [He Hbe]. destruct (Hel e He) as [Ne _]. rewrite Ee in Ne.
  destruct (named_unique Hp N Ne) as [-> _]. apply mem_string_nIn in Hbe. apply Hbe. exact Hb.
Qed.

Lemma located_all fr l : Forall (located fr) l -> exists rows, mapM (loc fr) l = Ok rows.
Proof. induction 1 as [|i l [r Hr] _ [rows IH]]; [exists []; reflexivity|]. cbn. rewrite Hr. cbn. rewrite IH. eexists; reflexivity. Qed.

Lemma located_by {A} fr (g : A -> Z) l : Forall (fun t => located fr (g t)) l -> exists rows, mapM (fun t => loc fr (g t)) l = Ok rows.
Proof. induction 1 as [|i l [r Hr] _ [rows IH]]; [exists []; reflexivity|]. cbn. rewrite Hr. cbn. rewrite IH. eexists; reflexivity. Qed.

Lemma alone_AB truthy : lone_AB (m_cols m) inputs ->
  (forall v, on_across_by_filter m v = Err NameError) \/
  (forall v fr l, Forall (located fr) l -> A_filter truthy m v fr l = Err NameError) \/
  (forall v fr l, Forall (located fr) l -> B_filter truthy m v fr l = Err NameError) \/
  (forall v fr l, Forall (located fr) l -> X_filter truthy m v fr l = Err NameError) \/
  (forall v fr ts, Forall (fun t : triplet => located fr (fst (fst t)) /\ located fr (snd (fst t)) /\ located fr (snd t)) ts ->
     ABX_filter truthy m v fr ts = Err NameError).
Proof.
  destruct accepted_legal as (Hn & _). destruct accepted_add as (C & _ & Hp & Ha & EC). rewrite EC in *. intros (n & c & Hin & N & Hb & Ho & Hac).
  pose proof (@parse_all (empty_manager C) Hp f Hn) as Hpa. cbn [m_cols empty_manager] in Hpa.
  pose proof (elements_named C f Hpa) as Hel. pose proof (elements_all C f Hpa) as Hal.
  assert (Hr : In (c, "_AB") (rest_of C f)).
  { destruct (Hal n Hin) as (e & He & Ee). destruct (Hel e He) as [Ne _]. rewrite Ee in Ne. destruct (named_unique Hp N Ne) as [-> Es]. apply in_rest. rewrite Es, <- surjective_pairing.
    split; [exact He|]. apply mem_string_nIn. exact Hb. }
  assert (Hname : forall (P : element -> bool) (l : list element), (forall e, In e l -> In e (elements C f)) -> P (c, "_AB") = false -> ~ In n (map ext_name (filter P l))).
  { intros P l Hl HP Hi. apply in_map_iff in Hi as (e & Ee & He). apply filter_In in He as [He HPe]. destruct (Hel e (Hl e He)) as [Ne _]. rewrite Ee in Ne.
    destruct (named_unique Hp N Ne) as [E1 E2]. rewrite (surjective_pairing e), <- E1, <- E2 in HPe. congruence. }
  assert (Hsub : forall e, In e (rest_of C f) -> In e (elements C f)) by (intros e He; apply in_rest in He; tauto).
  unfold add in Ha. cbn [m_cols empty_manager] in Ha. rewrite Hpa in Ha. cbn [bind] in Ha. destruct (check_extensions C (elements C f)); [|discriminate]. cbn [bind] in Ha.
  change (filter (fun e => negb (mem_string (by_cols C) (fst e))) (elements C f)) with (rest_of C f) in Ha.
  destruct (forallb (fun e => mem_string (by_cols C) (fst e)) (elements C f)) eqn:Eb.
  { exfalso. apply in_rest in Hr as [Hr Hr']. rewrite forallb_forall in Eb. specialize (Eb _ Hr). unfold isby in Hr'. congruence. }
  destruct (only_plain (rest_of C f)) eqn:Eo.
  { exfalso. apply only_plain_spec in Eo as [_ Eo]. specialize (Eo _ Hr). discriminate. }
  unfold classify_on_across_by in Ha. cbn [m_cols empty_manager] in Ha. destruct (mem_string (map snd (rest_of C f)) ""); [discriminate|].
  set (vby := filter (fun e => mem_string (by_cols C) (fst e)) (elements C f)) in *.
  set (von := filter (fun e => (negb (condition C e) && mem_string (on_cols C) (fst e))%bool) (rest_of C f)) in *.
  set (vac := filter (fun e => (negb (condition C e) && mem_string (across_cols C) (fst e))%bool) (rest_of C f)) in *.
  assert (H1 : ~ In n (map ext_name vby)) by (apply Hname; [auto|cbn; apply mem_string_nIn; exact Hb]).
  assert (H2 : ~ In n (map ext_name von)) by (apply Hname; [exact Hsub|cbn; apply mem_string_nIn; exact Ho]).
  assert (H3 : ~ In n (map ext_name vac)) by (apply Hname; [exact Hsub|cbn; apply mem_string_nIn; exact Hac]).
  assert (Hrest : forall P, ~ In n (map ext_name (filter P (filter (condition C) (rest_of C f))))).
  { intros P Hi. apply in_map_iff in Hi as (e & Ee & He). apply filter_In in He as [He _]. apply (Hname (condition C) (rest_of C f) Hsub); [reflexivity|]. apply in_map_iff. eauto. }
  destruct (filter (condition C) (rest_of C f)) as [|e0 rest] eqn:Er.
  { left. injection Ha as <-. intros v. unfold on_across_by_filter, set_on_across. cbn [m_funs m_by m_on m_across empty_manager]. unfold upd. cbn [stage_eqb app].
    apply (@singleton_absent _ _ _ n); [exact Hin|]. apply absent_values; [exact H3|]. apply absent_values; [exact H2|]. apply absent_values; [exact H1|apply absent_nil]. }
  right. set (els := e0 :: rest) in *. injection Ha as <-. unfold classify_ABX. cbn [m_cols m_funs m_by m_generic m_on m_across m_A m_B m_X empty_manager].
  assert (HB : forall m' st v k, m_by m' st = vby -> m_on m' st = von -> m_across m' st = vac -> absent n (block_context m' st v k)).
  { intros m' st v k E1 E2 E3. unfold block_context, set_on_across. rewrite E1, E2, E3. apply absent_repeat. apply absent_values; [exact H3|]. apply absent_values; [exact H2|]. apply absent_values; [exact H1|apply absent_nil]. }
  assert (HI : forall m' st field v fr l P, m_by m' st = vby -> m_on m' st = von -> m_across m' st = vac -> m_funs m' st = [f] -> field st = filter P els ->
                 Forall (located fr) l -> item_filter truthy m' st field v fr l = Err NameError).
  { intros m' st field v fr l P E1 E2 E3 E4 E5 Hl. unfold item_filter. destruct (located_all Hl) as (rows & ->). cbn [bind]. rewrite E4, E5.
    apply (@vectorial_absent _ _ _ _ n); [exact Hin|]. apply absent_columns; [apply Hrest|]. apply HB; assumption. }
  destruct (only_ext C els "_A"); [left|destruct (only_ext C els "_B"); [right; left|destruct (only_ext C els "_X"); [right; right; left|right; right; right]]].
  - intros v fr l Hl. apply (HI _ _ _ v fr l (fun e => String.eqb (get_ext C e) "_A")); try reflexivity. exact Hl.
  - intros v fr l Hl. apply (HI _ _ _ v fr l (fun e => String.eqb (get_ext C e) "_B")); try reflexivity. exact Hl.
  - intros v fr l Hl. apply (HI _ _ _ v fr l (fun e => String.eqb (get_ext C e) "_X")); try reflexivity. exact Hl.
  - intros v fr ts Hts. unfold ABX_filter.
    destruct (@located_by triplet fr (fun t => fst (fst t)) ts) as (ra & Ea); [eapply Forall_impl; [|exact Hts]; cbn; tauto|].
    destruct (@located_by triplet fr (fun t => snd (fst t)) ts) as (rb & Ebb); [eapply Forall_impl; [|exact Hts]; cbn; tauto|].
    destruct (@located_by triplet fr (fun t => snd t) ts) as (rx & Ex); [eapply Forall_impl; [|exact Hts]; cbn; tauto|].
    rewrite Ea. cbn [bind]. rewrite Ebb. cbn [bind]. rewrite Ex. cbn [bind].
    cbn [m_funs m_A m_B m_X stage_eqb orb]. unfold upd at 1 2 3 4. cbn [stage_eqb app].
    apply (@vectorial_absent _ _ _ _ n); [exact Hin|]. apply absent_columns; [apply Hrest|]. apply absent_columns; [apply Hrest|]. apply absent_columns; [apply Hrest|].
    apply HB; reflexivity.
Qed.

Lemma others_usable : NoDup inputs -> ~ (some_by (m_cols m) inputs /\ some_plain (m_cols m) inputs) -> ~ lone_AB (m_cols m) inputs -> usable (m_cols m) f.
Proof.
  intros Hnd Hbp Hab. destruct accepted_legal as (Hn & Hpl & Hmx). destruct accepted_add as (C & _ & Hp & Ha & EC). rewrite EC in *.
  split; [exact Hnd|]. split; [exact Hn|].
  pose proof (@parse_all (empty_manager C) Hp f Hn) as Hpa. cbn [m_cols empty_manager] in Hpa.
  pose proof (elements_named C f Hpa) as Hel. pose proof (elements_all C f Hpa) as Hal.
  assert (U : forall n c s, In n inputs -> named C n c s -> In (c, s) (elements C f)).
  { intros n c s Hin N. destruct (Hal n Hin) as (e & He & Ee). destruct (Hel e He) as [Ne _]. rewrite Ee in Ne. destruct (named_unique Hp N Ne) as [-> ->]. rewrite <- surjective_pairing. exact He. }
  destruct (forallb (fun e => mem_string (by_cols C) (fst e)) (elements C f)) eqn:Eb.
  { left. intros n c s Hin N. rewrite forallb_forall in Eb. apply mem_string_In. apply (Eb (c, s)). eauto. }
  right. assert (Hex : exists e, In e (rest_of C f)).
  { unfold rest_of. clear - Eb. induction (elements C f) as [|e l IH]; [discriminate|]. cbn in *. unfold isby. destruct (mem_string (by_cols C) (fst e)); [|eexists; left; reflexivity].
    cbn in *. destruct (IH Eb) as (e' & H). exists e'. exact H. }
  destruct Hex as (e0 & He0). pose proof (@mix_ok (empty_manager C) Hp f Hpa) as Hm. cbn [m_cols empty_manager] in Hm. apply Hm in Hmx. apply in_rest in He0 as [He0 Hb0]. apply mem_string_nIn in Hb0.
  destruct (Hel e0 He0) as [N0 I0]. destruct Hmx as [Hmx|Hmx].
  - left. assert (Hs : some_plain C inputs).
    { exists (ext_name e0), (fst e0). split; [exact I0|]. split; [|exact Hb0]. rewrite <- (Hmx e0); [exact N0|]. apply in_rest. split; [exact He0|]. apply mem_string_nIn. exact Hb0. }
    split; [intros E; cbn in E; rewrite E in I0; destruct I0|]. intros n Hin. destruct (Hn n Hin) as (c & s & N).
    assert (Hnb : ~ In c (by_cols C)) by (intros Hb; apply Hbp; split; [exists n, c, s; auto|exact Hs]).
    exists c. split; [|exact Hnb]. assert (E : s = ""); [|rewrite <- E; exact N]. apply (Hmx (c, s)). apply in_rest. split; [eauto|]. apply mem_string_nIn. exact Hnb.
  - right. intros n c s Hin N. destruct (mem_string (by_cols C) c) eqn:Ebc; [left; apply mem_string_In; exact Ebc|]. right.
    assert (Hr : In (c, s) (rest_of C f)) by (apply in_rest; split; [eauto|exact Ebc]). split; [apply (Hmx _ Hr)|].
    apply mem_string_nIn in Ebc. intros [-> | ->].
    + destruct (mem_string (on_cols C) c) eqn:E1; [left; apply mem_string_In; exact E1|]. destruct (mem_string (across_cols C) c) eqn:E2; [right; apply mem_string_In; exact E2|].
      exfalso. apply Hab. exists n, c. apply mem_string_nIn in E1, E2. auto.
    + right. destruct (Hpl n c "_AX" Hin N) as [_ H]. apply H. reflexivity.
Qed.

Lemma others_evaluated truthy : NoDup inputs -> (forall e e', (forall n, In n inputs -> e n = e' n) -> script e = script e') ->
  ~ (some_by (m_cols m) inputs /\ some_plain (m_cols m) inputs) -> ~ lone_AB (m_cols m) inputs ->
  (forall v, exists b, by_filter m v = Ok b) /\ (forall v db, exists kept, generic_filter truthy m v db = Ok kept) /\
  (forall v, exists b, on_across_by_filter m v = Ok b) /\
  (forall v fr l, Forall (located fr) l -> exists kept, A_filter truthy m v fr l = Ok kept) /\
  (forall v fr l, Forall (located fr) l -> exists kept, B_filter truthy m v fr l = Ok kept) /\
  (forall v fr l, Forall (located fr) l -> exists kept, X_filter truthy m v fr l = Ok kept) /\
  (forall v fr ts, Forall (fun t : triplet => located fr (fst (fst t)) /\ located fr (snd (fst t)) /\ located fr (snd t)) ts ->
     exists kept, ABX_filter truthy m v fr ts = Ok kept).
Proof.
  intros Hnd Hs Hbp Hab. pose proof (others_usable Hnd Hbp Hab) as Hu.
  destruct (@runs_staged forest truthy [(f, script)] on across by_ m plain_cols accepted) as (R1 & R2 & R3 & R4 & R5 & R6 & R7).
  { intros g p [E|[]]. injection E as <- <-. split; [apply compute_elementwise; exact Hs|exact Hu]. }
  assert (HI : forall st field v fr l, m_funs m st = [] -> Forall (located fr) l -> exists kept, item_filter truthy m st field v fr l = Ok kept).
  { intros st field v fr l E Hl. unfold item_filter. destruct (located_all Hl) as (rows & ->). cbn [bind]. rewrite E. eexists; reflexivity. }
  assert (HS : forall g v fr l, Forall (located fr) l -> exists kept, single_filter g v fr l = Ok kept).
  { intros g v fr l Hl. unfold single_filter. destruct (located_all Hl) as (rows & ->). eexists; reflexivity. }
  split; [eauto|]. split; [eauto|]. split; [eauto|]. repeat split.
  - intros v fr l Hl. destruct (f_A (staged truthy m)) as [g|] eqn:E; [rewrite (R4 g) by reflexivity; auto|]. apply HI; [|exact Hl]. cbn in E. destruct (m_funs m StA); [reflexivity|discriminate].
  - intros v fr l Hl. destruct (f_B (staged truthy m)) as [g|] eqn:E; [rewrite (R5 g) by reflexivity; auto|]. apply HI; [|exact Hl]. cbn in E. destruct (m_funs m StB); [reflexivity|discriminate].
  - intros v fr l Hl. destruct (f_X (staged truthy m)) as [g|] eqn:E; [rewrite (R6 g) by reflexivity; auto|]. apply HI; [|exact Hl]. cbn in E. destruct (m_funs m StX); [reflexivity|discriminate].
  - intros v fr ts Hts. destruct (f_ABX (staged truthy m)) as [g|] eqn:E.
    + assert (Hk : exists mask, mapM (fun t : triplet => let '(a, b, x) := t in ra <- loc fr a ;; rb <- loc fr b ;; rx <- loc fr x ;; Ok (g v ra rb rx)) ts = Ok mask).
      { clear - Hts. induction Hts as [|[[a b] x] ts ((ra & Ea) & (rb & Eb) & (rx & Ex)) _ (mask & IH)]; [exists []; reflexivity|]. cbn in *. rewrite Ea. cbn. rewrite Eb. cbn. rewrite Ex. cbn. rewrite IH. eexists; reflexivity. }
      destruct Hk as (mask & Hk). exists (np_where mask). apply (R7 g v fr ts _ eq_refl). unfold Task.ABX_filter. rewrite Hk. reflexivity.
    + assert (E' : m_funs m StABX = []) by (cbn in E; destruct (m_funs m StABX); [reflexivity|discriminate]). unfold ABX_filter.
      destruct (@located_by triplet fr (fun t => fst (fst t)) ts) as (ra & Ea); [eapply Forall_impl; [|exact Hts]; cbn; tauto|].
      destruct (@located_by triplet fr (fun t => snd (fst t)) ts) as (rb & Ebb); [eapply Forall_impl; [|exact Hts]; cbn; tauto|].
      destruct (@located_by triplet fr (fun t => snd t) ts) as (rx & Ex); [eapply Forall_impl; [|exact Hts]; cbn; tauto|].
      rewrite Ea. cbn [bind]. rewrite Ebb. cbn [bind]. rewrite Ex. cbn [bind]. rewrite E'. eexists; reflexivity.
Qed.

End Unusable.
