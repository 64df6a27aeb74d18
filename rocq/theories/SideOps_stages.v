From Coq Require Import Ascii String.
From Verif Require Import Prelude ListFacts Task Tree Tree_spec Tree_proofs SideOps SideOps_spec SideOps_proofs.
Set Implicit Arguments.
Open Scope string_scope.
Open Scope list_scope.
Local Open Scope nat_scope.

Definition pred := (string -> Z) -> bool.

(* ------------------------------------------------------------------ *)
(** ** Contexts *)

Definition sound (ctx : context) (lines : list (string -> Z)) : Prop :=
  forall n l, In (n, l) ctx -> l = map (fun e => e n) lines.

Definition constant (ctx : context) (lines : list (string -> Z)) : Prop :=
  forall n l, In (n, l) ctx -> exists z, l = [z] /\ forall e, In e lines -> e n = z.

Lemma in_dict_set A (d : list (string * A)) k v n l : In (n, l) (dict_set d k v) -> (n, l) = (k, v) \/ In (n, l) d.
Proof. unfold dict_set. intros [E|H]; [left; congruence|]. apply filter_In in H. tauto. Qed.

Lemma keys_dict_set A (d : list (string * A)) k v n : In n (map fst (dict_set d k v)) <-> n = k \/ In n (map fst d).
Proof.
  unfold dict_set. cbn [map In fst]. split.
  - intros [<-|H]; [auto|]. right. apply in_map_iff in H as (p & <- & Hp). apply filter_In in Hp as [Hp _]. apply in_map. exact Hp.
  - intros [<-|H]; [auto|]. destruct (String.eqb k n) eqn:E; [apply String.eqb_eq in E; auto|]. right.
    apply in_map_iff in H as (p & <- & Hp). apply in_map. apply filter_In. split; [exact Hp|]. rewrite E. reflexivity.
Qed.

Lemma sound_get ctx lines n : sound ctx lines -> In n (map fst ctx) -> dict_get ctx n = Ok (map (fun e => e n) lines).
Proof.
  intros Hs Hin. assert (H : exists l, dict_get ctx n = Ok l).
  { clear Hs. induction ctx as [|[k v] ctx IH]; [destruct Hin|]. cbn in *. destruct (String.eqb n k) eqn:E; [eauto|].
    destruct Hin as [->|Hin]; [rewrite String.eqb_refl in E; discriminate|auto]. }
  destruct H as (l & H). rewrite H. f_equal. apply Hs. apply dict_get_In. exact H.
Qed.

Lemma sound_columns ctx lines names : sound ctx lines -> (forall n, In n names -> In n (map fst ctx)) -> has_columns ctx names lines.
Proof.
  intros Hs Hn. split; [intros n H; apply sound_get; auto|].
  intros n l H. rewrite (Hs n l H), map_length. reflexivity.
Qed.

Lemma set_values_constant lines v : forall es ctx, constant ctx lines ->
  (forall e, In e es -> forall line, In line lines -> line (ext_name e) = v (fst e)) -> constant (set_values ctx es v) lines.
Proof.
  induction es as [|e es IH]; intros ctx Hc He; [exact Hc|]. cbn [set_values fold_left]. apply IH; [|intros; apply He; auto; right; auto].
  intros n l H. apply in_dict_set in H as [E|H]; [|eauto]. injection E as -> ->. eexists. split; [reflexivity|]. intros line Hl. apply He; [left; reflexivity|exact Hl].
Qed.

Lemma keys_set_values v : forall es ctx n, In n (map fst (set_values ctx es v)) <-> In n (map fst ctx) \/ In n (map ext_name es).
Proof.
  induction es as [|e es IH]; intros ctx n; cbn [set_values fold_left map In]; [tauto|].
  change (In n (map fst (set_values (dict_set ctx (ext_name e) [v (fst e)]) es v)) <-> In n (map fst ctx) \/ ext_name e = n \/ In n (map ext_name es)).
  rewrite IH, keys_dict_set. intuition.
Qed.

Lemma constant_single ctx line : constant ctx [line] -> sound ctx [line].
Proof. intros H n l Hin. destruct (H n l Hin) as (z & -> & Hz). cbn. rewrite Hz by (left; reflexivity). reflexivity. Qed.

Lemma repeat_all_sound ctx lines : constant ctx lines -> sound (repeat_all ctx (List.length lines)) lines.
Proof.
  intros H n l Hin. unfold repeat_all in Hin. apply in_map_iff in Hin as ([k l0] & E & Hin). injection E as -> <-.
  destruct (H n l0 Hin) as (z & -> & Hz). clear - Hz. cbn. induction lines as [|e lines IH]; [reflexivity|]. cbn.
  rewrite (Hz e) by (left; reflexivity). f_equal. apply IH. intros; apply Hz; right; auto.
Qed.

Lemma keys_repeat_all ctx n k : In k (map fst (repeat_all ctx n)) <-> In k (map fst ctx).
Proof. unfold repeat_all. rewrite map_map. reflexivity. Qed.

Lemma set_columns_sound lines rows : forall es ctx, sound ctx lines ->
  (forall e, In e es -> map (fun r => r (fst e)) rows = map (fun l => l (ext_name e)) lines) -> sound (set_columns ctx es rows) lines.
Proof.
  induction es as [|e es IH]; intros ctx Hc He; [exact Hc|]. cbn [set_columns fold_left]. apply IH; [|intros; apply He; auto; right; auto].
  intros n l H. apply in_dict_set in H as [E|H]; [|eauto]. injection E as -> ->. apply He. left; reflexivity.
Qed.

Lemma keys_set_columns (rows : list row) : forall es ctx n, In n (map fst (set_columns ctx es rows)) <-> In n (map fst ctx) \/ In n (map ext_name es).
Proof.
  induction es as [|e es IH]; intros ctx n; cbn [set_columns fold_left map In]; [tauto|].
  change (In n (map fst (set_columns (dict_set ctx (ext_name e) (map (fun r => r (fst e)) rows)) es rows)) <-> In n (map fst ctx) \/ ext_name e = n \/ In n (map ext_name es)).
  rewrite IH, keys_dict_set. intuition.
Qed.

(* ------------------------------------------------------------------ *)
(** ** Classification *)

Section Classify.
Variable C : columns.
Hypothesis plain_cols : Forall plain (all_cols C).

Definition isby (e : element) : bool := mem_string (by_cols C) (fst e).

Definition elements (f : dbfun) : list element :=
  match mapM (parse_extended_column C) (input_names f) with Ok l => l | Err _ => [] end.

Definition rest_of (f : dbfun) : list element := filter (fun e => negb (isby e)) (elements f).

Definition stage_of (f : dbfun) : stage :=
  if forallb isby (elements f) then By
  else if only_plain (rest_of f) then Generic
  else match filter (condition C) (rest_of f) with
       | [] => Oab
       | rest => if only_ext C rest "_A" then StA else if only_ext C rest "_B" then StB else if only_ext C rest "_X" then StX else StABX
       end.

(** What the context lists of a stage can contain. *)
Record list_ok (m : manager) : Prop := mk_list_ok {
  ok_by : forall st e, In e (m_by m st) -> named C (ext_name e) (fst e) (snd e) /\ isby e = true /\ st <> Generic;
  ok_generic : forall st e, In e (m_generic m st) -> named C (ext_name e) (fst e) (snd e) /\ isby e = false /\ snd e = "" /\ st = Generic;
  ok_on : forall st e, In e (m_on m st) -> named C (ext_name e) (fst e) (snd e) /\ isby e = false /\ condition C e = false /\ In (fst e) (on_cols C);
  ok_across : forall st e, In e (m_across m st) -> named C (ext_name e) (fst e) (snd e) /\ isby e = false /\ condition C e = false /\ In (fst e) (across_cols C);
  ok_A : forall st e, In e (m_A m st) -> named C (ext_name e) (fst e) (snd e) /\ isby e = false /\ condition C e = true /\ get_ext C e = "_A";
  ok_B : forall st e, In e (m_B m st) -> named C (ext_name e) (fst e) (snd e) /\ isby e = false /\ condition C e = true /\ get_ext C e = "_B";
  ok_X : forall st e, In e (m_X m st) -> named C (ext_name e) (fst e) (snd e) /\ isby e = false /\ condition C e = true /\ get_ext C e = "_X"
}.

(** What they must contain for [f]. *)
Record covers (m : manager) (f : dbfun) : Prop := mk_covers {
  cv_by : forall e, In e (elements f) -> isby e = true -> stage_of f <> Generic -> In e (m_by m (stage_of f));
  cv_generic : forall e, In e (elements f) -> isby e = false -> stage_of f = Generic -> In e (m_generic m Generic);
  cv_on : forall e, In e (elements f) -> isby e = false -> stage_of f <> Generic -> condition C e = false -> In (fst e) (on_cols C) ->
            In e (m_on m (stage_of f));
  cv_across : forall e, In e (elements f) -> isby e = false -> stage_of f <> Generic -> condition C e = false -> In (fst e) (across_cols C) ->
            In e (m_across m (stage_of f));
  cv_A : forall e, In e (elements f) -> isby e = false -> stage_of f <> Generic -> condition C e = true -> get_ext C e = "_A" ->
            In e (m_A m (stage_of f)) /\ (stage_of f = StA \/ stage_of f = StABX);
  cv_B : forall e, In e (elements f) -> isby e = false -> stage_of f <> Generic -> condition C e = true -> get_ext C e = "_B" ->
            In e (m_B m (stage_of f)) /\ (stage_of f = StB \/ stage_of f = StABX);
  cv_X : forall e, In e (elements f) -> isby e = false -> stage_of f <> Generic -> condition C e = true -> get_ext C e = "_X" ->
            In e (m_X m (stage_of f)) /\ (stage_of f = StX \/ stage_of f = StABX)
}.

(** What [add] accepted. *)
Record accepted_fun (f : dbfun) : Prop := mk_accepted {
  ac_parsed : mapM (parse_extended_column C) (input_names f) = Ok (elements f);
  ac_checked : forall e, In e (elements f) -> check_element C e = Ok tt;
  ac_plain : stage_of f <> By -> stage_of f <> Generic -> forall e, In e (rest_of f) -> snd e <> ""
}.

Record invariant (fs : list dbfun) (m : manager) : Prop := mk_inv {
  iv_cols : m_cols m = C;
  iv_funs : forall st, m_funs m st = filter (fun f => stage_eqb (stage_of f) st) fs;
  iv_lists : list_ok m;
  iv_covers : forall f, In f fs -> covers m f;
  iv_accepted : forall f, In f fs -> accepted_fun f
}.

Lemma stage_eqb_eq s t : stage_eqb s t = true <-> s = t.
Proof. destruct s, t; cbn; split; congruence. Qed.

Lemma stage_eqb_neq s t : stage_eqb s t = false <-> s <> t.
Proof. rewrite <- stage_eqb_eq. destruct (stage_eqb s t); split; congruence. Qed.

Lemma upd_in A (f : stage -> list A) st l st' a : In a (upd f st l st') <-> In a (f st') \/ st = st' /\ In a l.
Proof.
  unfold upd. destruct (stage_eqb st st') eqn:E.
  - apply stage_eqb_eq in E. rewrite in_app_iff. tauto.
  - apply stage_eqb_neq in E. tauto.
Qed.

(** More in the lists of a manager. *)
Definition grows (m m' : manager) : Prop := forall st,
  incl (m_by m st) (m_by m' st) /\ incl (m_generic m st) (m_generic m' st) /\ incl (m_on m st) (m_on m' st) /\
  incl (m_across m st) (m_across m' st) /\ incl (m_A m st) (m_A m' st) /\ incl (m_B m st) (m_B m' st) /\ incl (m_X m st) (m_X m' st).

Lemma covers_grows m m' f : grows m m' -> covers m f -> covers m' f.
Proof.
  intros G [H1 H2 H3 H4 H5 H6 H7]. constructor; intros e He Hb; intros; destruct (G (stage_of f)) as (G1 & G2 & G3 & G4 & G5 & G6 & G7).
  - apply G1; auto.
  - destruct (G Generic) as (_ & G2' & _). apply G2'; auto.
  - apply G3; auto.
  - apply G4; auto.
  - destruct (H5 e He Hb) as [? ?]; auto.
  - destruct (H6 e He Hb) as [? ?]; auto.
  - destruct (H7 e He Hb) as [? ?]; auto.
Qed.

Lemma incl_upd A (f : stage -> list A) st l st' : incl (f st') (upd f st l st').
Proof. intros a Ha. apply upd_in. auto. Qed.

Lemma elements_named f : mapM (parse_extended_column C) (input_names f) = Ok (elements f) ->
  forall e, In e (elements f) -> named C (ext_name e) (fst e) (snd e) /\ In (ext_name e) (input_names f).
Proof.
  intros E e He. apply mapM_forall2 in E. apply (Forall2_flip _ _ _ _ _) in E.
  destruct (Forall2_in_l _ _ _ _ _ _ E He) as (n & Hn & Hp). destruct e as [c s]. apply parse_sound in Hp.
  pose proof Hp as (-> & _). split; [exact Hp|exact Hn].
Qed.

Lemma elements_all f : mapM (parse_extended_column C) (input_names f) = Ok (elements f) ->
  forall n, In n (input_names f) -> exists e, In e (elements f) /\ ext_name e = n.
Proof.
  intros E n Hn. apply mapM_forall2 in E. destruct (Forall2_in_l _ _ _ _ _ _ E Hn) as ([c s] & He & Hp).
  exists (c, s). split; [exact He|]. apply parse_sound in Hp. destruct Hp as (-> & _). reflexivity.
Qed.

Lemma check_all els : check_extensions C els = Ok tt -> forall e, In e els -> check_element C e = Ok tt.
Proof.
  unfold check_extensions. intros E e He. destruct (mapM (check_element C) els) as [us|] eqn:Em; [|discriminate].
  apply mapM_forall2 in Em. destruct (Forall2_in_l _ _ _ _ _ _ Em He) as ([] & _ & H). exact H.
Qed.

Lemma check_extensions_tt els r : check_extensions C els = Ok r -> r = tt.
Proof. destruct r. reflexivity. Qed.

Lemma only_ext_spec els s : only_ext C els s = true <-> els <> [] /\ forall e, In e els -> get_ext C e = s.
Proof.
  unfold only_ext. destruct els as [|e els]; [split; [discriminate|intros [H _]; congruence]|]. rewrite forallb_forall. split.
  - intros H. split; [discriminate|]. intros e' He. apply String.eqb_eq, H, He.
  - intros [_ H] e' He. apply String.eqb_eq, H, He.
Qed.

Lemma only_plain_spec els : only_plain els = true <-> els <> [] /\ forall e, In e els -> snd e = "".
Proof.
  unfold only_plain. destruct els as [|e els]; [split; [discriminate|intros [H _]; congruence]|]. rewrite forallb_forall. split.
  - intros H. split; [discriminate|]. intros e' He. apply String.eqb_eq, H, He.
  - intros [_ H] e' He. apply String.eqb_eq, H, He.
Qed.

Lemma empty_invariant : invariant [] (empty_manager C).
Proof. constructor; cbn; try reflexivity; try (intros f []). constructor; cbn; intros st e []. Qed.

Lemma in_rest f e : In e (rest_of f) <-> In e (elements f) /\ isby e = false.
Proof. unfold rest_of. rewrite filter_In. destruct (isby e); cbn; intuition congruence. Qed.

Lemma filter_snoc A (p : A -> bool) l a : filter p (l ++ [a]) = filter p l ++ (if p a then [a] else []).
Proof. rewrite filter_app. reflexivity. Qed.

Lemma funs_step (funs : stage -> list dbfun) fs f st0 : (forall st, funs st = filter (fun g => stage_eqb (stage_of g) st) fs) -> stage_of f = st0 ->
  forall st, upd funs st0 [f] st = filter (fun g => stage_eqb (stage_of g) st) (fs ++ [f]).
Proof.
  intros H E st. rewrite filter_snoc, E. unfold upd. rewrite <- H. destruct (stage_eqb st0 st); [reflexivity|]. symmetry. apply app_nil_r.
Qed.

Ltac prj := cbn [m_cols m_funs m_by m_generic m_on m_across m_A m_B m_X].
Ltac grow := intros st; prj; repeat split; try apply incl_refl; try apply incl_upd.

Lemma add_invariant fs m f m' : invariant fs m -> add false m f = Ok m' -> invariant (fs ++ [f]) m'.
Proof.
  intros [HC Hf Hl Hcov Hacc] E. unfold add in E. rewrite HC in E.
  destruct (mapM (parse_extended_column C) (input_names f)) as [els|] eqn:Em; [|discriminate]. cbn [bind] in E.
  assert (Eel : elements f = els) by (unfold elements; rewrite Em; reflexivity).
  destruct (check_extensions C els) as [u|] eqn:Ec; [|discriminate]. destruct u. cbn [bind] in E.
  rewrite <- Eel in *.
  assert (E' : (if forallb isby (elements f) then
    Ok (mk_manager C (upd (m_funs m) By [f]) (upd (m_by m) By (filter isby (elements f))) (m_generic m) (m_on m) (m_across m) (m_A m) (m_B m) (m_X m))
    else if only_plain (rest_of f) then
      Ok (mk_manager C (upd (m_funs m) Generic [f]) (m_by m) (upd (m_generic m) Generic (rest_of f)) (m_on m) (m_across m) (m_A m) (m_B m) (m_X m))
    else classify_on_across_by m f (filter isby (elements f)) (rest_of f)) = Ok m') by exact E.
  clear E. rename E' into E.
  pose proof (elements_named f Em) as Hnamed. pose proof (check_all _ Ec) as Hchk.
  destruct (forallb isby (elements f)) eqn:Eby.
  { (* by *)
    assert (Est : stage_of f = By) by (unfold stage_of; rewrite Eby; reflexivity).
    rewrite forallb_forall in Eby. injection E as <-.
    assert (G : grows m (mk_manager C (upd (m_funs m) By [f]) (upd (m_by m) By (filter isby (elements f))) (m_generic m) (m_on m) (m_across m) (m_A m) (m_B m) (m_X m))) by grow.
    constructor; prj; auto.
    - apply funs_step; auto.
    - destruct Hl as [H1 H2 H3 H4 H5 H6 H7]. constructor; prj; auto. intros st e He. apply upd_in in He as [He|[<- He]]; [eauto|].
      apply filter_In in He as [He Hb]. split; [apply Hnamed; exact He|]. split; [exact Hb|discriminate].
    - intros g Hg. apply in_app_iff in Hg as [Hg|[<-|[]]]; [eapply covers_grows; [exact G|auto]|].
      constructor; rewrite Est; intros e He Hb; try (rewrite Eby in Hb by exact He; discriminate); intros; try congruence.
      prj. apply upd_in. right. split; [reflexivity|]. apply filter_In. auto.
    - intros g Hg. apply in_app_iff in Hg as [Hg|[<-|[]]]; [auto|]. constructor; auto; intros H; congruence. }
  destruct (only_plain (rest_of f)) eqn:Eop.
  { (* generic *)
    assert (Est : stage_of f = Generic) by (unfold stage_of; rewrite Eby, Eop; reflexivity).
    apply only_plain_spec in Eop as [Hne Hpl]. injection E as <-.
    assert (G : grows m (mk_manager C (upd (m_funs m) Generic [f]) (m_by m) (upd (m_generic m) Generic (rest_of f)) (m_on m) (m_across m) (m_A m) (m_B m) (m_X m))) by grow.
    constructor; prj; auto.
    - apply funs_step; auto.
    - destruct Hl as [H1 H2 H3 H4 H5 H6 H7]. constructor; prj; auto. intros st e He. apply upd_in in He as [He|[<- He]]; [eauto|].
      pose proof He as Hr. apply in_rest in He as [He Hb]. split; [apply Hnamed; exact He|]. auto.
    - intros g Hg. apply in_app_iff in Hg as [Hg|[<-|[]]]; [eapply covers_grows; [exact G|auto]|].
      constructor; rewrite Est; intros e He Hb; intros; try congruence.
      prj. apply upd_in. right. split; [reflexivity|]. apply in_rest. auto.
    - intros g Hg. apply in_app_iff in Hg as [Hg|[<-|[]]]; [auto|]. constructor; auto; intros _ H; congruence. }
  unfold classify_on_across_by in E. rewrite HC in E.
  destruct (mem_string (map snd (rest_of f)) "") eqn:Eplain; [discriminate|].
  assert (Hnp : forall e, In e (rest_of f) -> snd e <> "").
  { intros e He Hs. apply mem_string_nIn in Eplain. apply Eplain. rewrite <- Hs. apply in_map. exact He. }
  set (von := filter (fun e => (negb (condition C e) && mem_string (on_cols C) (fst e))%bool) (rest_of f)) in *.
  set (vac := filter (fun e => (negb (condition C e) && mem_string (across_cols C) (fst e))%bool) (rest_of f)) in *.
  assert (Hvon : forall e, In e von <-> In e (elements f) /\ isby e = false /\ condition C e = false /\ In (fst e) (on_cols C)).
  { intros e. unfold von. rewrite filter_In, in_rest, andb_true_iff, negb_true_iff, mem_string_In. tauto. }
  assert (Hvac : forall e, In e vac <-> In e (elements f) /\ isby e = false /\ condition C e = false /\ In (fst e) (across_cols C)).
  { intros e. unfold vac. rewrite filter_In, in_rest, andb_true_iff, negb_true_iff, mem_string_In. tauto. }
  assert (Hcond : forall e, In e (filter (condition C) (rest_of f)) <-> In e (elements f) /\ isby e = false /\ condition C e = true).
  { intros e. rewrite filter_In, in_rest. tauto. }
  destruct (filter (condition C) (rest_of f)) as [|e0 rest] eqn:Erest.
  { (* on/across/by *)
    assert (Est : stage_of f = Oab) by (unfold stage_of; rewrite Eby, Eop, Erest; reflexivity).
    injection E as <-.
    assert (G : grows m (mk_manager C (upd (m_funs m) Oab [f]) (upd (m_by m) Oab (filter isby (elements f))) (m_generic m)
       (upd (m_on m) Oab von) (upd (m_across m) Oab vac) (m_A m) (m_B m) (m_X m))) by grow.
    constructor; prj; auto.
    - apply funs_step; auto.
    - destruct Hl as [H1 H2 H3 H4 H5 H6 H7]. constructor; prj; auto; intros st e He; apply upd_in in He as [He|[<- He]]; eauto.
      + apply filter_In in He as [He Hb]. split; [apply Hnamed; exact He|]. split; [exact Hb|discriminate].
      + apply Hvon in He as (He & Hb & Hc & Hin). split; [apply Hnamed; exact He|]. auto.
      + apply Hvac in He as (He & Hb & Hc & Hin). split; [apply Hnamed; exact He|]. auto.
    - intros g Hg. apply in_app_iff in Hg as [Hg|[<-|[]]]; [eapply covers_grows; [exact G|auto]|].
      constructor; rewrite Est; intros e He Hb; intros; try congruence.
      + prj. apply upd_in. right. split; [reflexivity|]. apply filter_In. auto.
      + prj. apply upd_in. right. split; [reflexivity|]. apply Hvon. auto.
      + prj. apply upd_in. right. split; [reflexivity|]. apply Hvac. auto.
      + exfalso. apply (proj2 (Hcond e)). auto.
      + exfalso. apply (proj2 (Hcond e)). auto.
      + exfalso. apply (proj2 (Hcond e)). auto.
    - intros g Hg. apply in_app_iff in Hg as [Hg|[<-|[]]]; [auto|]. constructor; auto. }
  (* items *)
  rewrite <- Erest in E.
  assert (Est : stage_of f = (if only_ext C (e0 :: rest) "_A" then StA else if only_ext C (e0 :: rest) "_B" then StB else if only_ext C (e0 :: rest) "_X" then StX else StABX))
    by (unfold stage_of; rewrite Eby, Eop, Erest; reflexivity).
  rewrite Erest in E. injection E as <-. unfold classify_ABX. rewrite HC.
  set (els0 := e0 :: rest) in *. rewrite <- Est. set (st0 := stage_of f) in *.
  assert (Hng : st0 <> Generic /\ st0 <> By).
  { rewrite Est. destruct (only_ext C els0 "_A"), (only_ext C els0 "_B"), (only_ext C els0 "_X"); split; discriminate. }
  assert (HA : only_ext C els0 "_A" = true -> st0 = StA) by (intros H; rewrite Est, H; reflexivity).
  assert (HsA : forall e, In e els0 -> get_ext C e = "_A" -> st0 = StA \/ st0 = StABX).
  { intros e He Hg. rewrite Est. destruct (only_ext C els0 "_A"); [auto|]. destruct (only_ext C els0 "_B") eqn:EB.
    - apply only_ext_spec in EB as [_ EB]. rewrite (EB e He) in Hg. discriminate.
    - destruct (only_ext C els0 "_X") eqn:EX; [|auto]. apply only_ext_spec in EX as [_ EX]. rewrite (EX e He) in Hg. discriminate. }
  assert (HsB : forall e, In e els0 -> get_ext C e = "_B" -> st0 = StB \/ st0 = StABX).
  { intros e He Hg. rewrite Est. destruct (only_ext C els0 "_A") eqn:EA; [apply only_ext_spec in EA as [_ EA]; rewrite (EA e He) in Hg; discriminate|].
    destruct (only_ext C els0 "_B") eqn:EB; [auto|].
    destruct (only_ext C els0 "_X") eqn:EX; [|auto]. apply only_ext_spec in EX as [_ EX]. rewrite (EX e He) in Hg. discriminate. }
  assert (HsX : forall e, In e els0 -> get_ext C e = "_X" -> st0 = StX \/ st0 = StABX).
  { intros e He Hg. rewrite Est. destruct (only_ext C els0 "_A") eqn:EA; [apply only_ext_spec in EA as [_ EA]; rewrite (EA e He) in Hg; discriminate|].
    destruct (only_ext C els0 "_B") eqn:EB; [apply only_ext_spec in EB as [_ EB]; rewrite (EB e He) in Hg; discriminate|].
    destruct (only_ext C els0 "_X") eqn:EX; auto. }
  match goal with |- invariant _ ?m' => assert (G : grows m m') end.
  { intros st. prj. repeat split; try apply incl_refl; try apply incl_upd;
    match goal with |- incl _ ((if ?b then _ else _) _) => destruct b; [apply incl_upd|apply incl_refl] end. }
  constructor; prj; auto.
  - apply funs_step; auto.
  - destruct Hl as [H1 H2 H3 H4 H5 H6 H7]. constructor; prj; auto.
    + intros st e He. apply upd_in in He as [He|[<- He]]; eauto. apply filter_In in He as [He Hb]. split; [apply Hnamed; exact He|]. split; [exact Hb|apply Hng].
    + intros st e He. apply upd_in in He as [He|[<- He]]; eauto. apply Hvon in He as (He & Hb & Hc & Hin). split; [apply Hnamed; exact He|]. auto.
    + intros st e He. apply upd_in in He as [He|[<- He]]; eauto. apply Hvac in He as (He & Hb & Hc & Hin). split; [apply Hnamed; exact He|]. auto.
    + intros st e He. assert (He' : In e (m_A m st) \/ In e (filter (fun e => String.eqb (get_ext C e) "_A") els0)).
      { destruct (stage_eqb st0 StA || stage_eqb st0 StABX)%bool; [apply upd_in in He; tauto|auto]. }
      destruct He' as [He'|He']; [eauto|]. apply filter_In in He' as [He' Hg]. apply String.eqb_eq in Hg.
      apply Hcond in He' as (H & Hb & Hc). split; [apply Hnamed; exact H|]. auto.
    + intros st e He. assert (He' : In e (m_B m st) \/ In e (filter (fun e => String.eqb (get_ext C e) "_B") els0)).
      { destruct (stage_eqb st0 StB || stage_eqb st0 StABX)%bool; [apply upd_in in He; tauto|auto]. }
      destruct He' as [He'|He']; [eauto|]. apply filter_In in He' as [He' Hg]. apply String.eqb_eq in Hg.
      apply Hcond in He' as (H & Hb & Hc). split; [apply Hnamed; exact H|]. auto.
    + intros st e He. assert (He' : In e (m_X m st) \/ In e (filter (fun e => String.eqb (get_ext C e) "_X") els0)).
      { destruct (stage_eqb st0 StX || stage_eqb st0 StABX)%bool; [apply upd_in in He; tauto|auto]. }
      destruct He' as [He'|He']; [eauto|]. apply filter_In in He' as [He' Hg]. apply String.eqb_eq in Hg.
      apply Hcond in He' as (H & Hb & Hc). split; [apply Hnamed; exact H|]. auto.
  - intros g Hg. apply in_app_iff in Hg as [Hg|[<-|[]]]; [eapply covers_grows; [exact G|auto]|].
    constructor; fold st0; intros e He Hb; intros; try (exfalso; apply Hng; assumption).
    + prj. apply upd_in. right. split; [reflexivity|]. apply filter_In. auto.
    + exfalso. apply (proj1 Hng). assumption.
    + prj. apply upd_in. right. split; [reflexivity|]. apply Hvon. auto.
    + prj. apply upd_in. right. split; [reflexivity|]. apply Hvac. auto.
    + assert (Hin : In e els0) by (apply Hcond; auto). pose proof (HsA e Hin H1) as Hs. split; [|exact Hs]. prj.
      replace (stage_eqb st0 StA || stage_eqb st0 StABX)%bool with true by (destruct Hs as [-> | ->]; reflexivity).
      apply upd_in. right. split; [reflexivity|]. apply filter_In. split; [exact Hin|]. apply String.eqb_eq. exact H1.
    + assert (Hin : In e els0) by (apply Hcond; auto). pose proof (HsB e Hin H1) as Hs. split; [|exact Hs]. prj.
      replace (stage_eqb st0 StB || stage_eqb st0 StABX)%bool with true by (destruct Hs as [-> | ->]; reflexivity).
      apply upd_in. right. split; [reflexivity|]. apply filter_In. split; [exact Hin|]. apply String.eqb_eq. exact H1.
    + assert (Hin : In e els0) by (apply Hcond; auto). pose proof (HsX e Hin H1) as Hs. split; [|exact Hs]. prj.
      replace (stage_eqb st0 StX || stage_eqb st0 StABX)%bool with true by (destruct Hs as [-> | ->]; reflexivity).
      apply upd_in. right. split; [reflexivity|]. apply filter_In. split; [exact Hin|]. apply String.eqb_eq. exact H1.
  - intros g Hg. apply in_app_iff in Hg as [Hg|[<-|[]]]; [auto|]. constructor; auto.
Qed.

Lemma foldM_add_invariant : forall fs' fs m m', invariant fs m -> foldM (add false) fs' m = Ok m' -> invariant (fs ++ fs') m'.
Proof.
  induction fs' as [|f fs' IH]; intros fs m m' H E; cbn in E.
  - injection E as <-. rewrite app_nil_r. exact H.
  - destruct (add false m f) as [m1|] eqn:E1; [|discriminate]. cbn in E.
    replace (fs ++ f :: fs') with ((fs ++ [f]) ++ fs') by (rewrite <- app_assoc; reflexivity).
    eapply IH; [|exact E]. eapply add_invariant; eauto.
Qed.

End Classify.
