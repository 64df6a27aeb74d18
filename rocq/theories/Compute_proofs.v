(** Proofs about scripts. *)
From Coq Require Import Ascii String List Bool ZArith Lia Permutation.
From Verif Require Import Prelude Compute Compute_spec.
Import ListNotations.
Local Open Scope string_scope.

Section Python.
Context {V : Type}.
Variable mk_list : list V -> V.
Variable items : V -> res (list V).
Variable truth : V -> res bool.
Variable prim : string -> list V -> res V.
Variable builtin : string -> option V.
Variable import_ : string -> res V.
Variable inlined : bool.

Local Notation eval := (eval mk_list items truth prim builtin inlined).
Local Notation value_of := (value_of mk_list items truth prim).
Local Notation lookup := (lookup_name builtin inlined).
Local Notation exec := (exec mk_list items truth prim builtin import_ inlined).
Local Notation evaluate := (evaluate mk_list items truth prim builtin import_ inlined).
Local Notation script_value := (script_value mk_list items truth prim import_).

Lemma expr_ind' (P : expr V -> Prop) :
  (forall v, P (Const v)) -> (forall x, P (Name V x)) ->
  (forall op args, Forall P args -> P (Prim op args)) ->
  (forall c a b, P c -> P a -> P b -> P (IfExp c a b)) ->
  (forall w a b, P a -> P b -> P (BoolOp w a b)) ->
  (forall elt ts it cs, P elt -> P it -> Forall P cs -> P (Comp elt ts it cs)) ->
  forall e, P e.
Proof.
  intros H1 H2 H3 H4 H5 H6. fix IH 1. intros [v|x|op args|c a b|w a b|elt ts it cs].
  - apply H1.
  - apply H2.
  - apply H3. induction args; constructor; auto.
  - apply H4; apply IH.
  - apply H5; apply IH.
  - apply H6; [apply IH|apply IH|]. induction cs; constructor; auto.
Qed.

(** A name has the same value in a scope and in an environment. *)
Definition agrees (s : scope V) (E : env V) (x : string) : Prop :=
  lookup s x = match E x with Some v => Ok v | None => Err NameError end.

Definition enter (s : scope V) : scope V := mk_scope (sc_local s) (sc_comp s) true.

Lemma captured_free (e : expr V) : forall x, In x (captured e) -> In x (free e).
Proof.
  induction e as [v|z|op args IH|c a b IH1 IH2 IH3|w a b IH1 IH2|elt ts it cs IH1 IH2 IH3] using expr_ind'; cbn; intros x Hx; auto.
  - apply in_flat_map in Hx. destruct Hx as (a & Ha & Hx). apply in_flat_map. exists a. split; [exact Ha|].
    rewrite Forall_forall in IH. apply (IH a Ha x Hx).
  - rewrite !in_app_iff in *. intuition.
  - rewrite !in_app_iff in *. intuition.
  - rewrite !in_app_iff in *. intuition.
Qed.

Lemma assoc_app (d d' : names_dict V) x : assoc (d ++ d')%list x = match assoc d x with Some v => Some v | None => assoc d' x end.
Proof. induction d as [|[y v] d IH]; cbn; [reflexivity|]. destruct (String.eqb x y); [reflexivity|exact IH]. Qed.

Lemma bind_all_eq (xs : list string) : forall vs (E : env V) x, List.length vs = List.length xs ->
  bind_all E xs vs x = match assoc (rev (combine xs vs)) x with Some v => Some v | None => E x end.
Proof.
  induction xs as [|y xs IH]; intros [|v vs] E x L; cbn in *; try discriminate; [reflexivity|].
  rewrite IH by congruence. rewrite assoc_app. destruct (assoc (rev (combine xs vs)) x); [reflexivity|].
  unfold bind1. cbn. destruct (String.eqb x y); reflexivity.
Qed.

Lemma assoc_in (d : names_dict V) x : assoc d x <> None <-> In x (map fst d).
Proof.
  induction d as [|[y v] d IH]; cbn; [split; [intros H; apply H; reflexivity|contradiction]|]. destruct (String.eqb_spec x y) as [->|N].
  - split; [auto|discriminate].
  - rewrite IH. split; [auto|intros [E|H]; [congruence|exact H]].
Qed.

Lemma combine_fst {A B} (xs : list A) : forall vs : list B, List.length vs = List.length xs -> map fst (combine xs vs) = xs.
Proof. induction xs as [|x xs IH]; intros [|v vs] L; cbn in *; try discriminate; [reflexivity|]. rewrite IH by congruence. reflexivity. Qed.

(** The assignment of the targets and the environment of a turn. *)
Lemma assign_turn targets v E :
  match assign items targets v, turn items E targets v with
  | Ok d, Ok E' => (forall x, E' x = match assoc d x with Some v => Some v | None => E x end) /\
                   (forall x, ~ In x targets -> assoc d x = None) /\ (forall x, In x targets -> assoc d x <> None)
  | Err a, Err b => a = b
  | _, _ => False
  end.
Proof.
  unfold assign, turn. 
  assert (G : match (l <- items v ;; if Nat.eqb (List.length l) (List.length targets) then Ok (rev (combine targets l)) else Err ValueError),
                    (l <- items v ;; if Nat.eqb (List.length l) (List.length targets) then Ok (bind_all E targets l) else Err ValueError) with
              | Ok d, Ok E' => (forall x, E' x = match assoc d x with Some v => Some v | None => E x end) /\
                               (forall x, ~ In x targets -> assoc d x = None) /\ (forall x, In x targets -> assoc d x <> None)
              | Err a, Err b => a = b
              | _, _ => False
              end).
  { destruct (items v) as [l|e]; cbn; [|reflexivity]. destruct (Nat.eqb_spec (List.length l) (List.length targets)) as [L|]; [|reflexivity].
    split; [intros x; apply bind_all_eq, L|].
    assert (M : forall x, In x (map fst (rev (combine targets l))) <-> In x targets).
    { intros x. rewrite map_rev, <- in_rev, combine_fst by exact L. reflexivity. }
    split; intros x Hx.
    - destruct (assoc _ x) eqn:A; [|reflexivity]. exfalso. apply Hx, M, assoc_in. rewrite A. discriminate.
    - apply assoc_in, M, Hx. }
  destruct targets as [|x [|y ts]]; [exact G| |exact G].
  split; [|split].
  - intros y. unfold bind1. cbn. destruct (String.eqb y x); reflexivity.
  - intros y N. cbn. destruct (String.eqb_spec y x) as [->|]; [|reflexivity]. exfalso. apply N. left. reflexivity.
  - intros y [<-|[]]. cbn. rewrite String.eqb_refl. discriminate.
Qed.

Lemma lookup_inner (s : scope V) (d : names_dict V) (E E' : env V) x :
  (forall x, E' x = match assoc d x with Some v => Some v | None => E x end) ->
  (assoc d x = None -> agrees (enter s) E x) -> agrees (mk_scope (sc_local s) (d ++ sc_comp s)%list true) E' x.
Proof.
  intros HE H. unfold agrees, lookup_name in *. rewrite HE. cbn [sc_comp sc_local sc_inside enter] in *. rewrite assoc_app.
  destruct (assoc d x) eqn:A; [reflexivity|]. apply H. reflexivity.
Qed.

Lemma eval_value (e : expr V) : forall s E,
  (forall x, In x (free e) -> agrees s E x) -> (forall x, In x (captured e) -> agrees (enter s) E x) ->
  eval e s = value_of E e.
Proof.
  induction e as [v|x|op args IH|c a b IH1 IH2 IH3|w a b IH1 IH2|elt ts it cs IH1 IH2 IH3] using expr_ind'; intros s E H1 H2.
  - reflexivity.
  - cbn. apply H1. left. reflexivity.
  - cbn [Compute.eval Compute_spec.value_of]. f_equal. cbn [free captured] in H1, H2.
    induction IH as [|a args Ha _ IHl]; cbn; [reflexivity|].
    rewrite (Ha s E). 2: { intros x Hx. apply H1. cbn. apply in_or_app. auto. }
    2: { intros x Hx. apply H2. cbn. apply in_or_app. auto. }
    destruct (value_of E a); cbn; [|reflexivity]. rewrite IHl; [reflexivity| |].
    + intros x Hx. apply H1. cbn. apply in_or_app. auto.
    + intros x Hx. apply H2. cbn. apply in_or_app. auto.
  - cbn in *. rewrite (IH1 s E), (IH2 s E), (IH3 s E); [reflexivity|..]; intros x Hx; (apply H1 || apply H2); rewrite !in_app_iff; auto.
  - cbn in *. rewrite (IH1 s E), (IH2 s E); [|intros x Hx; (apply H1 || apply H2); rewrite !in_app_iff; auto ..].
    destruct w; destruct (value_of E a) as [v|]; cbn; [|reflexivity| |reflexivity]; destruct (truth v) as [[]|]; reflexivity.
  - cbn [Compute.eval Compute_spec.value_of]. cbn [free captured] in H1, H2.
    rewrite (IH2 s E); [|intros x Hx; (apply H1 || apply H2); rewrite !in_app_iff; auto ..].
    destruct (value_of E it) as [iv|]; cbn [bind]; [|reflexivity]. destruct (items iv) as [l|]; cbn [bind]; [|reflexivity].
    f_equal. clear iv. induction l as [|v l IHl]; cbn [collect]; [reflexivity|].
    pose proof (assign_turn ts v E) as T. destruct (assign items ts v) as [d|], (turn items E ts v) as [E'|]; cbn [bind]; try contradiction; [|congruence].
    destruct T as (T1 & T2 & T3).
    assert (A : forall x, In x (free elt ++ flat_map free cs) -> agrees (mk_scope (sc_local s) (d ++ sc_comp s)%list true) E' x).
    { intros x Hx. apply lookup_inner with (1 := T1). intros N. apply H2. apply in_or_app. right. apply filter_In. split; [exact Hx|].
      destruct (existsb (String.eqb x) ts) eqn:X; [|reflexivity]. exfalso. apply existsb_exists in X. destruct X as (y & Hy & Q).
      apply String.eqb_eq in Q. subst y. apply (T3 x Hy N). }
    set (s' := mk_scope (sc_local s) (d ++ sc_comp s)%list true) in *.
    assert (B : forall a, eval a s' = value_of E' a -> eval a s' = value_of E' a) by auto.
    assert (CS : eval_conds truth (fun c => eval c s') cs =
      (fix all (cs : list (expr V)) : res bool :=
          match cs with
          | [] => Ok true
          | c :: cs' => v <- value_of E' c ;; t <- truth v ;; if t : bool then all cs' else Ok false
          end) cs).
    { clear IHl B H1 H2 IH1 IH2. assert (A' : forall x, In x (flat_map free cs) -> agrees s' E' x) by (intros x Hx; apply A, in_or_app; auto).
      clear A. induction IH3 as [|c cs Hc _ IHc]; cbn; [reflexivity|]. rewrite (Hc s' E').
      2: { intros x Hx. apply A'. cbn. apply in_or_app. auto. }
      2: { intros x Hx. apply (A' x). cbn. apply in_or_app. left. apply captured_free, Hx. }
      destruct (value_of E' c) as [cv|]; cbn; [|reflexivity]. destruct (truth cv) as [[]|]; cbn; try reflexivity. apply IHc.
      intros x Hx. apply A'. cbn. apply in_or_app. auto. }
    rewrite CS. destruct (_ cs) as [[]|]; cbn [bind]; try reflexivity.
    + rewrite (IH1 s' E').
      * destruct (value_of E' elt); cbn [bind]; [|reflexivity]. rewrite IHl. destruct (_ l); reflexivity.
      * intros x Hx. apply A, in_or_app. auto.
      * intros x Hx. apply (A x), in_or_app. left. apply captured_free, Hx.
    + rewrite IHl. cbn. destruct (_ l); reflexivity.
Qed.

(** ** Scripts *)
Lemma assoc_find (d : names_dict V) x : assoc d x = match find (fun p => String.eqb x (fst p)) d with Some p => Some (snd p) | None => None end.
Proof. induction d as [|[y v] d IH]; cbn; [reflexivity|]. destruct (String.eqb x y); [reflexivity|exact IH]. Qed.

Lemma env_assoc (d : names_dict V) x : env_of builtin d x = match assoc d x with Some v => Some v | None => builtin x end.
Proof. unfold env_of. rewrite assoc_find. destruct (find _ d); reflexivity. Qed.

Lemma agrees_top d x : agrees (mk_scope d [] false) (env_of builtin d) x.
Proof.
  unfold agrees, lookup_name. cbn. rewrite env_assoc. unfold orelse. destruct (assoc d x); [reflexivity|]. destruct (builtin x); reflexivity.
Qed.

Lemma agrees_inside d x : inlined = true \/ assoc d x = None -> agrees (enter (mk_scope d [] false)) (env_of builtin d) x.
Proof.
  intros H. unfold agrees, lookup_name. cbn. rewrite env_assoc. unfold orelse. destruct H as [-> | H].
  - cbn. destruct (assoc d x); [reflexivity|]. destruct (builtin x); reflexivity.
  - rewrite H. destruct (negb inlined); destruct (builtin x); reflexivity.
Qed.

(** Two environments with the same values. *)
Lemma value_ext (e : expr V) : forall E E', (forall x, E x = E' x) -> value_of E e = value_of E' e.
Proof.
  induction e as [v|z|op args IH|c a b IH1 IH2 IH3|w a b IH1 IH2|elt ts it cs IH1 IH2 IH3] using expr_ind'; intros E E' H.
  - reflexivity.
  - cbn. rewrite H. reflexivity.
  - cbn. f_equal. induction IH as [|a args Ha _ IHl]; [reflexivity|]. rewrite (Ha E E' H), IHl. reflexivity.
  - cbn. rewrite (IH1 E E' H), (IH2 E E' H), (IH3 E E' H). reflexivity.
  - cbn. rewrite (IH1 E E' H), (IH2 E E' H). reflexivity.
  - cbn [Compute_spec.value_of]. rewrite (IH2 E E' H). destruct (value_of E' it) as [iv|]; cbn [bind]; [|reflexivity].
    destruct (items iv) as [l|]; cbn [bind]; [|reflexivity]. f_equal. clear iv. induction l as [|v l IHl]; [reflexivity|].
    assert (T : match turn items E ts v, turn items E' ts v with
                | Ok F, Ok F' => forall x, F x = F' x | Err a, Err b => a = b | _, _ => False end).
    { pose proof (assign_turn ts v E) as T1. pose proof (assign_turn ts v E') as T2. destruct (assign items ts v) as [d|].
      - destruct (turn items E ts v), (turn items E' ts v); try contradiction. intros x.
        destruct T1 as (T1 & _), T2 as (T2 & _). rewrite T1, T2, H. reflexivity.
      - destruct (turn items E ts v), (turn items E' ts v); try contradiction. congruence. }
    destruct (turn items E ts v) as [F|], (turn items E' ts v) as [F'|]; cbn [bind]; try contradiction; [|congruence].
    assert (CS : (fix all (cs : list (expr V)) : res bool :=
          match cs with
          | [] => Ok true
          | c :: cs' => v <- value_of F c ;; t <- truth v ;; if t : bool then all cs' else Ok false
          end) cs = (fix all (cs : list (expr V)) : res bool :=
          match cs with
          | [] => Ok true
          | c :: cs' => v <- value_of F' c ;; t <- truth v ;; if t : bool then all cs' else Ok false
          end) cs).
    { clear IHl. induction IH3 as [|c cs Hc _ IHc]; [reflexivity|]. rewrite (Hc F F' T). destruct (value_of F' c) as [cv|]; cbn [bind]; [|reflexivity].
      destruct (truth cv) as [[]|]; cbn [bind]; try reflexivity. exact IHc. }
    rewrite CS. rewrite (IH1 F F' T), IHl. reflexivity.
Qed.

Lemma script_ext script : forall E E', (forall x, E x = E' x) -> script_value E script = script_value E' script.
Proof.
  assert (B : forall E E' x v, (forall y, E y = E' y) -> forall y, @bind1 V E x v y = @bind1 V E' x v y).
  { intros E E' x v H y. unfold bind1. rewrite H. reflexivity. }
  induction script as [|[x m|x e|e|b] l IH]; intros E E' H; cbn.
  - reflexivity.
  - destruct (import_ m); cbn; [|reflexivity]. apply IH, B, H.
  - rewrite (value_ext e E E' H). destruct (value_of E' e); cbn; [|reflexivity]. apply IH, B, H.
  - rewrite (value_ext e E E' H). rewrite (IH E E' H). destruct l; reflexivity.
  - reflexivity.
Qed.

(** The names bound before and during a script. *)
Definition closed_from (d : names_dict V) (l : list (stmt V)) (e : expr V) : Prop :=
  forall st e' x, In st (l ++ [Expr e])%list -> expr_of st = Some e' -> In x (captured e') ->
  assoc d x = None /\ forall st', In st' l -> bound_by st' <> Some x.

Lemma env_cons x v d y : env_of builtin ((x, v) :: d) y = bind1 (env_of builtin d) x v y.
Proof. unfold env_of, bind1. cbn. destruct (String.eqb y x); reflexivity. Qed.

Lemma closed_tail d st l e : closed_from d (st :: l) e -> forall x v, bound_by st = Some x -> closed_from ((x, v) :: d) l e.
Proof.
  intros H x v Hb st' e' y H1 H2 H3. destruct (H st' e' y (or_intror H1) H2 H3) as [A B]. split.
  - cbn. destruct (String.eqb_spec y x) as [->|]; [|exact A]. exfalso. apply (B st); [left; reflexivity|exact Hb].
  - intros s Hs. apply B. right. exact Hs.
Qed.

Lemma script_cons st l E : l <> [] -> script_value E (st :: l) =
  match st with
  | Import _ x m => v <- import_ m ;; script_value (bind1 E x v) l
  | Assign x e => v <- value_of E e ;; script_value (bind1 E x v) l
  | Expr e => _ <- value_of E e ;; script_value E l
  | With _ => Err ValueError
  end.
Proof. intros N. destruct st; try reflexivity. destruct l; [contradiction|reflexivity]. Qed.

Lemma exec_value l : forall d e, Forall (fun st => match st with With _ => False | _ => True end) l ->
  inlined = true \/ closed_from d l e ->
  (d' <- exec l d ;; eval e (mk_scope d' [] false)) = script_value (env_of builtin d) (l ++ [Expr e])%list.
Proof.
  assert (EV : forall d st l e0 e, In st (l ++ [Expr e])%list -> expr_of st = Some e0 -> inlined = true \/ closed_from d l e ->
    eval e0 (mk_scope d [] false) = value_of (env_of builtin d) e0).
  { intros d st k e0 e I X C. apply eval_value; [intros; apply agrees_top|]. intros x Hx. apply agrees_inside.
    destruct C as [C | C]; [left; exact C|]. right. apply (C st e0 x I X Hx). }
  induction l as [|st l IH]; intros d e W C.
  - cbn. apply (EV d (Expr e) [] e e); auto. left. reflexivity.
  - inversion_clear W as [|? ? W1 W2]. cbn [app]. rewrite script_cons by (destruct l; discriminate). destruct st as [x m|x e0|e0|b]; cbn [Compute.exec].
    + destruct (import_ m) as [v|]; cbn [bind]; [|reflexivity]. rewrite (IH ((x, v) :: d) e W2).
      * apply script_ext. intros y. apply env_cons.
      * destruct C as [C | C]; [left; exact C|right]. apply (closed_tail _ _ _ _ C). reflexivity.
    + rewrite (EV d (Assign x e0) (Assign x e0 :: l) e0 e) by (auto; left; reflexivity).
      destruct (value_of (env_of builtin d) e0) as [v|]; cbn [bind]; [|reflexivity]. rewrite (IH ((x, v) :: d) e W2).
      * apply script_ext. intros y. apply env_cons.
      * destruct C as [C | C]; [left; exact C|right]. apply (closed_tail _ _ _ _ C). reflexivity.
    + rewrite (EV d (Expr e0) (Expr e0 :: l) e0 e) by (auto; left; reflexivity).
      destruct (value_of (env_of builtin d) e0) as [v|]; cbn [bind]; [|reflexivity]. rewrite (IH d e W2); [reflexivity|].
      destruct C as [C | C]; [left; exact C|right]. intros st' e' y H1 H2 H3. destruct (C st' e' y (or_intror H1) H2 H3) as [A B].
      split; [exact A|]. intros s Hs. apply B. right. exact Hs.
    + contradiction.
Qed.

Lemma exec_app l : forall l' d, exec (l ++ l')%list d = (d' <- exec l d ;; exec l' d').
Proof.
  induction l as [|st l IH]; intros l' d; [reflexivity|]. cbn [app Compute.exec].
  match goal with |- (_ <- ?X ;; _) = _ => destruct X; cbn [bind]; [apply IH|reflexivity] end.
Qed.

Lemma filter_all {A} (p : A -> bool) l : (forall x, In x l -> p x = true) -> filter p l = l.
Proof. induction l as [|a l IH]; intros H; [reflexivity|]. cbn. rewrite H by (left; reflexivity). f_equal. apply IH. intros x Hx. apply H. right. exact Hx. Qed.
Lemma filter_none {A} (p : A -> bool) l : (forall x, In x l -> p x = false) -> filter p l = [].
Proof. induction l as [|a l IH]; intros H; [reflexivity|]. cbn. rewrite H by (left; reflexivity). apply IH. intros x Hx. apply H. right. exact Hx. Qed.

Lemma parse_well order columns imports main (e : expr V) : Forall import imports -> Forall plain main ->
  parse order columns (imports ++ main ++ [Expr e])%list
  = Ok (mk_function imports main e (inputs_of order columns (flat_map (@visit_stmt V) (main ++ [Expr e])%list))).
Proof.
  intros HI HM. rewrite Forall_forall in HI, HM.
  assert (F1 : filter (@is_import V) (imports ++ main ++ [Expr e])%list = imports).
  { rewrite filter_app, filter_all, filter_none, app_nil_r; [reflexivity| |].
    - intros st Hs. apply in_app_or in Hs. destruct Hs as [Hs | [<-|[]]]; [|reflexivity]. specialize (HM st Hs). destruct st; (reflexivity || contradiction).
    - intros st Hs. specialize (HI st Hs). destruct st; (reflexivity || contradiction). }
  assert (F2 : filter (fun st : stmt V => negb (is_import st)) (imports ++ main ++ [Expr e])%list = (main ++ [Expr e])%list).
  { rewrite filter_app, filter_none, filter_all; [reflexivity| |].
    - intros st Hs. apply in_app_or in Hs. destruct Hs as [Hs | [<-|[]]]; [|reflexivity]. specialize (HM st Hs). destruct st; (reflexivity || contradiction).
    - intros st Hs. specialize (HI st Hs). destruct st; (reflexivity || contradiction). }
  unfold parse. rewrite F1, F2.
  assert (W : existsb (@is_with V) (main ++ [Expr e])%list = false).
  { destruct (existsb _ _) eqn:X; [|reflexivity]. apply existsb_exists in X. destruct X as (st & Hs & Q).
    apply in_app_or in Hs. destruct Hs as [Hs | [<-|[]]]; [|discriminate]. specialize (HM st Hs). destruct st; (discriminate || contradiction). }
  rewrite W, rev_app_distr. cbn. rewrite rev_involutive. reflexivity.
Qed.

Lemma script_runs order columns script ctx : well_formed script -> inlined = true \/ closed_comprehensions ctx script ->
  exists f, parse order columns script = Ok f /\ evaluate f ctx = script_value (env_of builtin ctx) script.
Proof.
  intros (imports & main & e & -> & HI & HM) C. eexists. split; [apply parse_well; assumption|].
  unfold Compute.evaluate. cbn [f_imports f_main f_final].
  transitivity (d' <- exec (imports ++ main)%list ctx ;; eval e (mk_scope d' [] false)).
  - rewrite exec_app. destruct (exec imports ctx); reflexivity.
  - rewrite exec_value.
    + now rewrite <- app_assoc.
    + apply Forall_app. split; [revert HI|revert HM]; apply Forall_impl; intros []; cbn; tauto.
    + destruct C as [C | C]; [left; exact C|right]. intros st e' x H1 H2 H3. rewrite <- app_assoc in H1. pose proof (C st e' x H1 H2 H3) as N. split.
      * destruct (assoc ctx x) eqn:A; [|reflexivity]. exfalso. apply N. left. apply assoc_in. rewrite A. discriminate.
      * intros st' Hs B. apply N. right. exists st'. split; [|exact B]. rewrite app_assoc. apply in_or_app. left. exact Hs.
Qed.

(** ** Inputs *)
Lemma visit_occurs x (e : expr V) : In x (visit e) <-> occurs x e.
Proof.
  induction e as [v|z|op args IH|c a b IH1 IH2 IH3|w a b IH1 IH2|elt ts it cs IH1 IH2 IH3] using expr_ind'; cbn.
  - split; [contradiction|]. intros H. inversion H.
  - split; [intros [->|[]]; constructor|]. intros H. inversion H. left. reflexivity.
  - rewrite Forall_forall in IH. rewrite in_flat_map. split.
    + intros (a & Ha & Hx). apply Occ_prim with a; [exact Ha|]. apply IH; assumption.
    + intros H. inversion H as [|? ? a Ha Hx| | | | | | | | | ]; subst. exists a. split; [exact Ha|]. apply IH; assumption.
  - rewrite !in_app_iff, IH1, IH2, IH3. split.
    + intros [H|[H|H]]; [apply Occ_if1|apply Occ_if2|apply Occ_if3]; exact H.
    + intros H. inversion H; auto.
  - rewrite !in_app_iff, IH1, IH2. split.
    + intros [H|H]; [apply Occ_bool1|apply Occ_bool2]; exact H.
    + intros H. inversion H; auto.
  - rewrite !in_app_iff, IH1, IH2, in_flat_map. rewrite Forall_forall in IH3. split.
    + intros [H|[H|[H|(c & Hc & H)]]]; [apply Occ_elt|apply Occ_target|apply Occ_iter|apply Occ_cond with c]; auto. apply IH3; assumption.
    + intros H. inversion H as [| | | | | | |? ? ? ? H0|? ? ? ? H0|? ? ? ? H0|? ? ? ? c H0 H1]; subst; auto.
      right. right. right. exists c. split; [exact H0|]. apply IH3; assumption.
Qed.

Lemma inputs_ok order columns (script : list (stmt V)) f : (forall l, Permutation (order l) l) ->
  parse order columns script = Ok f ->
  NoDup (f_inputs f) /\ forall x, In x (f_inputs f) <-> In x columns /\ occurs_in x script.
Proof.
  intros HO P.
  assert (Q : f_inputs f = inputs_of order columns (flat_map (@visit_stmt V) (filter (fun st => negb (is_import st)) script))).
  { unfold parse in P. destruct (existsb _ _); [discriminate|]. destruct (rev _) as [|[] ?]; try discriminate. injection P as <-. reflexivity. }
  unfold inputs_of in Q. split.
  - rewrite Q. apply (Permutation_NoDup (Permutation_sym (HO _))). apply NoDup_filter, NoDup_nodup.
  - intros x. rewrite Q. split.
    + intros H. apply (Permutation_in _ (HO _)) in H. apply filter_In in H. destruct H as [H E]. apply existsb_exists in E.
      destruct E as (y & Hy & E). apply String.eqb_eq in E. subst y. split; [exact Hy|]. apply nodup_In, in_flat_map in H.
      destruct H as (st & Hs & H). apply filter_In in Hs. destruct Hs as [Hs _]. exists st. split; [exact Hs|].
      destruct st; cbn in H; try contradiction.
      * rewrite visit_occurs in H. destruct H as [H|H]; [left; congruence|right; exact H].
      * apply visit_occurs, H.
    + intros [Hc (st & Hs & H)]. apply (Permutation_in _ (Permutation_sym (HO _))). apply filter_In. split.
      * apply nodup_In, in_flat_map. exists st. split.
        -- apply filter_In. split; [exact Hs|]. destruct st; (reflexivity || contradiction).
        -- destruct st; cbn; try contradiction.
           ++ rewrite visit_occurs. destruct H as [H|H]; [left; congruence|right; exact H].
           ++ apply visit_occurs, H.
      * apply existsb_exists. exists x. split; [exact Hc|apply String.eqb_refl].
Qed.

(** ** Dependence *)
Lemma eval_depends (e : expr V) : forall d d' c i, (forall x, In x (visit e) -> assoc d x = assoc d' x) ->
  eval e (mk_scope d c i) = eval e (mk_scope d' c i).
Proof.
  induction e as [v|z|op args IH|c a b IH1 IH2 IH3|w a b IH1 IH2|elt ts it cs IH1 IH2 IH3] using expr_ind'; intros d d' cc i H; cbn [visit] in H.
  - reflexivity.
  - cbn. unfold lookup_name. cbn. rewrite (H z) by (left; reflexivity). reflexivity.
  - cbn [Compute.eval]. f_equal. induction IH as [|a args Ha _ IHl]; [reflexivity|]. cbn.
    rewrite (Ha d d' cc i) by (intros; apply H; cbn; apply in_or_app; auto). rewrite IHl by (intros; apply H; cbn; apply in_or_app; auto). reflexivity.
  - cbn. rewrite (IH1 d d'), (IH2 d d'), (IH3 d d'); [reflexivity|..]; intros; apply H; rewrite !in_app_iff; auto.
  - cbn. rewrite (IH1 d d'), (IH2 d d'); [reflexivity|..]; intros; apply H; rewrite !in_app_iff; auto.
  - cbn [Compute.eval sc_local sc_comp]. rewrite (IH2 d d') by (intros; apply H; rewrite !in_app_iff; auto).
    destruct (eval it (mk_scope d' cc i)) as [iv|]; cbn [bind]; [|reflexivity]. destruct (items iv) as [l|]; cbn [bind]; [|reflexivity].
    f_equal. clear iv. induction l as [|v l IHl]; cbn [collect]; [reflexivity|]. destruct (assign items ts v) as [b|]; cbn [bind]; [|reflexivity].
    rewrite IHl. rewrite (IH1 d d') by (intros; apply H; rewrite !in_app_iff; auto).
    assert (CS : eval_conds truth (fun c => eval c (mk_scope d (b ++ cc)%list true)) cs = eval_conds truth (fun c => eval c (mk_scope d' (b ++ cc)%list true)) cs).
    { assert (H' : forall x, In x (flat_map (@visit V) cs) -> assoc d x = assoc d' x) by (intros; apply H; rewrite !in_app_iff; auto).
      clear H IHl. induction IH3 as [|c cs Hc _ IHc]; [reflexivity|]. cbn. rewrite (Hc d d') by (intros; apply H'; cbn; apply in_or_app; auto).
      rewrite IHc by (intros; apply H'; cbn; apply in_or_app; auto). reflexivity. }
    rewrite CS. reflexivity.
Qed.

Lemma exec_depends l : forall d d' (N : string -> Prop),
  (forall x, N x -> assoc d x = assoc d' x) -> (forall st x, In st l -> In x (visit_stmt st) -> N x) ->
  match exec l d, exec l d' with
  | Ok a, Ok b => forall x, N x -> assoc a x = assoc b x
  | Err a, Err b => a = b
  | _, _ => False
  end.
Proof.
  induction l as [|st l IH]; intros d d' N H HN; [exact H|]. cbn [Compute.exec].
  assert (B : forall v x, forall y, N y -> assoc ((x, v) :: d) y = assoc ((x, v) :: d') y).
  { intros v x y Hy. cbn. destruct (String.eqb y x); [reflexivity|apply H, Hy]. }
  assert (HN' : forall st x, In st l -> In x (visit_stmt st) -> N x) by (intros s x Hs; apply HN; right; exact Hs).
  assert (HH : forall x, In x (visit_stmt st) -> N x) by (intros x; apply HN; left; reflexivity).
  destruct st as [x m|x e|e|b]; cbn [visit_stmt] in HH.
  - destruct (import_ m) as [v|]; cbn [bind]; [|reflexivity]. apply IH; auto.
  - rewrite (eval_depends e d d' [] false) by (intros; apply H, HH; right; assumption).
    destruct (eval e _) as [v|]; cbn [bind]; [|reflexivity]. apply IH; auto.
  - rewrite (eval_depends e d d' [] false) by (intros; apply H, HH; assumption).
    destruct (eval e _) as [v|]; cbn [bind]; [|reflexivity]. apply IH; auto.
  - reflexivity.
Qed.

Lemma depends order columns (script : list (stmt V)) f ctx ctx' : (forall l, Permutation (order l) l) ->
  parse order columns script = Ok f -> incl (map fst ctx) columns -> incl (map fst ctx') columns ->
  (forall x, In x (f_inputs f) -> env_of (fun _ => None) ctx x = env_of (fun _ => None) ctx' x) ->
  evaluate f ctx = evaluate f ctx'.
Proof.
  intros HO P I1 I2 H. destruct (inputs_ok _ _ _ _ HO P) as [_ HI].
  set (N := fun x => occurs_in x script).
  assert (EQ : forall (d : names_dict V) x, env_of (fun _ => None) d x = assoc d x).
  { intros d x. unfold env_of. rewrite assoc_find. reflexivity. }
  assert (A : forall x, N x -> assoc ctx x = assoc ctx' x).
  { intros x Hx. destruct (in_dec string_dec x columns) as [C|C].
    - rewrite <- !EQ. apply H, HI. split; assumption.
    - assert (Z : forall d : names_dict V, incl (map fst d) columns -> assoc d x = None).
      { intros d Hd. destruct (assoc d x) eqn:Y; [|reflexivity]. exfalso. apply C, Hd, assoc_in. rewrite Y. discriminate. }
      rewrite !Z by assumption. reflexivity. }
  assert (NV : forall st x, In st script -> In x (visit_stmt st) -> N x).
  { intros st x Hs Hx. exists st. split; [exact Hs|]. destruct st; cbn in Hx; try contradiction.
    - rewrite visit_occurs in Hx. destruct Hx as [Hx|Hx]; [left; congruence|right; exact Hx].
    - apply visit_occurs, Hx. }
  unfold parse in P. destruct (existsb _ _); [discriminate|]. destruct (rev _) as [|[] main] eqn:R; try discriminate. injection P as <-.
  assert (SUB : forall st, In st (rev main ++ [Expr e])%list -> In st script).
  { intros st Hs. apply (f_equal (@rev _)) in R. rewrite rev_involutive in R. cbn in R. rewrite <- R in Hs. apply filter_In in Hs. apply Hs. }
  unfold Compute.evaluate. cbn [f_imports f_main f_final].
  assert (D1 := exec_depends (filter (@is_import V) script) ctx ctx' N A).
  assert (S1 : forall st x, In st (filter (@is_import V) script) -> In x (visit_stmt st) -> N x).
  { intros st x Hs. apply NV. apply filter_In in Hs. apply Hs. }
  specialize (D1 S1). destruct (exec (filter _ script) ctx) as [d1|], (exec (filter _ script) ctx') as [d2|]; cbn [bind]; try contradiction; [|congruence].
  assert (D2 := exec_depends (rev main) d1 d2 N D1).
  assert (S2 : forall st x, In st (rev main) -> In x (visit_stmt st) -> N x).
  { intros st x Hs. apply NV, SUB, in_or_app. left. exact Hs. }
  specialize (D2 S2). destruct (exec (rev main) d1) as [d3|], (exec (rev main) d2) as [d4|]; cbn [bind]; try contradiction; [|congruence].
  apply eval_depends. intros x Hx. apply D2, (NV (Expr e)); [apply SUB, in_or_app; right; left; reflexivity|exact Hx].
Qed.

(** ** Refused scripts *)
Lemma with_refused order columns (script : list (stmt V)) body : In (With body) script -> parse order columns script = Err AttributeError.
Proof.
  intros H. unfold parse. replace (existsb _ _) with true; [reflexivity|]. symmetry. apply existsb_exists. exists (With body).
  split; [|reflexivity]. apply filter_In. split; [exact H|reflexivity].
Qed.

Lemma empty_refused order columns (script : list (stmt V)) : Forall import script -> parse order columns script = Err IndexError.
Proof.
  intros H. unfold parse. rewrite (filter_none (fun st => negb (is_import st))); [reflexivity|]. intros st Hs.
  rewrite Forall_forall in H. specialize (H st Hs). destruct st; (reflexivity || contradiction).
Qed.

Lemma no_value_refused order columns (l imports : list (stmt V)) x e : (forall st, In st l -> is_with st = false) -> Forall import imports ->
  parse order columns (l ++ Assign x e :: imports)%list = Err ValueError.
Proof.
  intros HW HI. unfold parse. rewrite filter_app. cbn [filter is_import negb].
  rewrite (filter_none _ imports).
  2: { intros st Hs. rewrite Forall_forall in HI. specialize (HI st Hs). destruct st; (reflexivity || contradiction). }
  replace (existsb _ _) with false; [rewrite rev_app_distr; reflexivity|]. symmetry.
  destruct (existsb _ _) eqn:X; [|reflexivity]. apply existsb_exists in X. destruct X as (st & Hs & Q).
  apply in_app_or in Hs. destruct Hs as [Hs|[<-|[]]]; [|discriminate]. apply filter_In in Hs. destruct Hs as [Hs _].
  rewrite (HW st Hs) in Q. discriminate.
Qed.

End Python.

(** ** Texts *)
Lemma substring_all s : substring 0 (String.length s) s = s.
Proof. induction s as [|a s IH]; cbn; [reflexivity|]. now rewrite IH. Qed.

Lemma substring_split : forall n s, (n <= String.length s)%nat -> s = substring 0 n s ++ substring n (String.length s - n) s.
Proof.
  induction n as [|n IH]; intros s L.
  - rewrite Nat.sub_0_r, substring_all. destruct s; reflexivity.
  - destruct s as [|a s]; cbn in L; [lia|]. cbn. f_equal. apply IH. lia.
Qed.

Lemma length_app_s s t : String.length (s ++ t) = (String.length s + String.length t)%nat.
Proof. induction s; cbn; auto. Qed.

Lemma substring_after p s : substring (String.length p) (String.length s) (p ++ s) = s.
Proof. induction p as [|a p IH]; cbn; [apply substring_all|exact IH]. Qed.

Lemma ends_with_iff suffix d : ends_with suffix d = true <-> exists p, d = p ++ suffix.
Proof.
  unfold ends_with. rewrite andb_true_iff, Nat.leb_le, String.eqb_eq. split.
  - intros [L Q]. exists (substring 0 (String.length d - String.length suffix) d).
    pose proof (substring_split (String.length d - String.length suffix) d ltac:(lia)) as E.
    replace (String.length d - (String.length d - String.length suffix))%nat with (String.length suffix) in E by lia.
    rewrite Q in E. exact E.
  - intros (p & ->). rewrite length_app_s. split; [lia|].
    replace (String.length p + String.length suffix - String.length suffix)%nat with (String.length p) by lia. apply substring_after.
Qed.

Lemma kinds extended filt :
  (In filt extended -> kind_of extended filt = Column) /\
  (~ In filt extended -> (exists p, filt = p ++ ".dbfun") -> kind_of extended filt = Table) /\
  (~ In filt extended -> ~ (exists p, filt = p ++ ".dbfun") -> kind_of extended filt = Computed).
Proof.
  unfold kind_of.
  assert (Q : existsb (String.eqb filt) extended = true <-> In filt extended).
  { rewrite existsb_exists. split; [intros (y & Hy & E); apply String.eqb_eq in E; congruence|].
    intros H. exists filt. split; [exact H|apply String.eqb_refl]. }
  rewrite <- Q, <- ends_with_iff. destruct (existsb _ _), (ends_with ".dbfun" filt); repeat split; intros; congruence || contradiction || reflexivity.
Qed.

Lemma script_file {V} (read : string -> res string) (ast_parse : string -> res (list (stmt V))) order definition columns :
  ((exists p, definition = p ++ ".py") ->
   DBfun_Compute read ast_parse order definition columns
   = (text <- read definition ;; script <- ast_parse text ;; parse order columns script)) /\
  (~ (exists p, definition = p ++ ".py") ->
   DBfun_Compute read ast_parse order definition columns = (script <- ast_parse definition ;; parse order columns script)).
Proof.
  unfold DBfun_Compute. rewrite <- ends_with_iff. destruct (ends_with ".py" definition); split; intros; congruence || contradiction || reflexivity.
Qed.

(** ** Names inside comprehensions *)
Section Captured.
Context {V : Type}.
Variable mk_list : list V -> V.
Variable items : V -> res (list V).
Variable truth : V -> res bool.
Variable prim : string -> list V -> res V.
Variable builtin : string -> option V.
Local Notation eval := (eval mk_list items truth prim builtin false).

Lemma first_raises (e : expr V) y : reads_first y e -> forall s, sc_inside s = true -> assoc (sc_comp s) y = None -> builtin y = None ->
  eval e s = Err NameError.
Proof.
  induction 1 as [|op a args _ IH|c a b _ IH|w a b _ IH|elt ts it cs _ IH]; intros s I A B; cbn; try (rewrite (IH s I A B); reflexivity).
  unfold lookup_name. rewrite A, I. cbn. rewrite B. reflexivity.
Qed.

Lemma captured_raises elt y xs iter (d : names_dict V) v w l :
  reads_first y elt -> ~ In y xs -> builtin y = None ->
  eval iter (mk_scope d [] false) = Ok v -> items v = Ok (w :: l) -> List.length xs = 1%nat \/ (exists us, items w = Ok us /\ List.length us = List.length xs) ->
  eval (Comp elt xs iter []) (mk_scope d [] false) = Err NameError.
Proof.
  intros R N B E I T. cbn [Compute.eval]. rewrite E. cbn [bind]. rewrite I. cbn [bind collect].
  pose proof (assign_turn items xs w (fun _ => None)) as A.
  destruct (assign items xs w) as [b|err] eqn:Q.
  - cbn [bind eval_conds sc_local sc_comp]. rewrite (first_raises elt y R); [reflexivity|reflexivity| |exact B]. cbn.
    rewrite app_nil_r. destruct (turn items (fun _ => None) xs w); [|contradiction]. apply A, N.
  - exfalso. unfold assign in Q. destruct T as [T|(us & U & L)].
    + destruct xs as [|x [|]]; discriminate.
    + destruct xs as [|x [|x' xs]]; [|discriminate|]; rewrite U in Q; cbn [bind] in Q; rewrite L, Nat.eqb_refl in Q; discriminate.
Qed.

End Captured.
