(** A table whose columns have a hierarchy, and filters at every stage, used by the examples of
    Props_SideOps.v. *)
From Coq Require Import Ascii String.
From Verif Require Import Prelude Sampler Task Task_spec Task_sort Task_ex Tree Tree_spec SideOps SideOps_spec SideOps_proofs SideOps_stages SideOps_final.
Open Scope string_scope.
Open Scope list_scope.
Local Open Scope nat_scope.

Definition hx_forest : list tree :=
  [Node "n" []; Node "phone" [Node "place" []]; Node "talker" [Node "sex" [Node "old" []]]; Node "lang" []].

Definition hx_cols : list string := ["n"; "phone"; "place"; "talker"; "sex"; "old"; "lang"].

(** The lines of [ex_db], with the place of the phone and the sex of the talker. *)
Definition hx (r : row) : row := fun c =>
  if string_dec c "place" then (r "phone" / 2)%Z else if string_dec c "sex" then (r "talker" mod 2)%Z
  else if string_dec c "old" then 1%Z else r c.

Definition hx_db : list row := map hx ex_db.

Definition compute (inputs : list string) (script : (string -> Z) -> bool) : dbfun * pred := (DBfun_Compute inputs script, script).

(** The filters of [ex_task]: [[lang != 5 for lang in lang]], ... *)
Definition hx_fps : list (dbfun * pred) :=
  [compute ["lang"] (fun e => negb (e "lang" =? 5)%Z);
   compute ["n"; "place"] (fun e => (e "n" <? 50)%Z && (e "place" <? 7)%Z)%bool;
   compute ["talker_AB"; "old_1"] (fun e => (e "talker_AB" <? 3)%Z && (e "old_1" =? 1)%Z)%bool;
   compute ["n_A"; "lang"; "phone_A"] (fun e => negb ((e "n_A" =? 8)%Z && (e "lang" =? 7)%Z && (e "phone_A" =? 1)%Z)%bool);
   compute ["n_X"] (fun e => (e "n_X" <? 100)%Z);
   compute ["phone_2"] (fun e => (e "phone_2" <? 100)%Z);
   compute ["n_A"; "n_X"; "sex_2"] (fun e => negb (e "n_X" =? e "n_A" + 1)%Z && (e "sex_2" <? 2)%Z)%bool].

Definition truthyZ (z : Z) : bool := negb (z =? 0)%Z.

Definition hx_task0 : task := mk_task "phone" ["talker"] ["lang"] ex_filters no_regressors.

Definition is_ok {A} (r : res A) : bool := match r with Ok _ => true | Err _ => false end.

Definition get_or {A} (r : res A) (d : A) : A := match r with Ok a => a | Err _ => d end.

Lemma get_ok {A} (r : res A) (d : A) : is_ok r = true -> r = Ok (get_or r d).
Proof. destruct r; [reflexivity|discriminate]. Qed.

Definition hx_manager : manager :=
  get_or (task_manager hx_forest hx_task0 (map fst hx_fps)) (empty_manager (mk_columns [] [] [] [])).

Definition hx_task : task := mk_task "phone" ["talker"] ["lang"] (staged truthyZ hx_manager) no_regressors.

Lemma hx_manager_ok : task_manager hx_forest hx_task (map fst hx_fps) = Ok hx_manager.
Proof.
  assert (E : is_ok (task_manager hx_forest hx_task0 (map fst hx_fps)) = true) by (vm_compute; reflexivity).
  assert (E' : task_manager hx_forest hx_task (map fst hx_fps) = task_manager hx_forest hx_task0 (map fst hx_fps))
    by (unfold task_manager; cbn [t_on t_across t_by hx_task hx_task0]; reflexivity).
  rewrite E'. unfold hx_manager. apply get_ok. exact E.
Qed.

Fixpoint nodup_b (l : list string) : bool :=
  match l with [] => true | a :: l' => (negb (mem_string l' a) && nodup_b l')%bool end.

Lemma nodup_dec_true (l : list string) : nodup_b l = true -> NoDup l.
Proof.
  induction l as [|a l IH]; cbn; intros H; [constructor|]. apply andb_true_iff in H as [H1 H2]. constructor; [|auto].
  apply mem_string_nIn. apply negb_true_iff. exact H1.
Qed.

Lemma plain_check (l : list string) : forallb (fun c => negb (has_char "_"%char c)) l = true -> Forall plain l.
Proof.
  intros H. rewrite forallb_forall in H. apply Forall_forall. intros c Hc Hin. specialize (H c Hc). apply negb_true_iff in H.
  apply SideOps_legal.has_char_In in Hin. congruence.
Qed.

Lemma hx_names : NoDup (flat_map names hx_forest).
Proof. apply nodup_dec_true. vm_compute. reflexivity. Qed.

Lemma hx_incl : incl (flat_map names hx_forest) hx_cols.
Proof. intros c. cbn. tauto. Qed.

Lemma hx_hierarchical : hierarchical hx_forest hx_db.
Proof. apply hierarchical_check; [exact hx_names|]. vm_compute. reflexivity. Qed.

Lemma hx_well_named : well_named hx_forest.
Proof. apply (@well_named_cols hx_forest hx_cols "phone" ["talker"] ["lang"] tt); [exact hx_names|exact hx_incl|reflexivity]. Qed.

Lemma hx_fps_ok f p : In (f, p) hx_fps -> elementwise f p /\ usable (m_cols hx_manager) f.
Proof.
  intros H.
  assert (Hp : Forall plain (all_cols (m_cols hx_manager))) by (apply plain_check; vm_compute; reflexivity).
  repeat (destruct H as [E|H]; [injection E as <- <-; split;
    [apply compute_elementwise; intros e e' He; rewrite !He by (cbn; tauto); reflexivity|
     apply usable_by_parse; [exact Hp|apply nodup_dec_true; vm_compute; reflexivity|vm_compute; reflexivity]]|]). destruct H.
Qed.

Lemma hx_kept_first : kept_first hx_task hx_db.
Proof. apply (@kept_first_split hx_task (firstn 14 hx_db) (skipn 14 hx_db)); vm_compute; reflexivity. Qed.

Lemma hx_accepted_first : accepted_first hx_task hx_db (m_cols hx_manager) hx_fps.
Proof.
  apply (@accepted_first_kept hx_forest truthyZ hx_fps hx_task hx_manager hx_db hx_well_named hx_manager_ok); auto.
  - intros f p H. apply (hx_fps_ok f p H).
  - intros f p H. apply (hx_fps_ok f p H).
  - exact hx_kept_first.
Qed.

(** A manager with one column-name filter. *)
Definition column_manager (c : string) : manager :=
  get_or (filter_manager hx_forest "phone" ["talker"] ["lang"] [DBfun_Column c]) (empty_manager (mk_columns [] [] [] [])).

Lemma column_filter_by_refuted :
  ~ (forall forest on across by_ c m v, Forall plain (flat_map names forest) ->
       filter_manager forest on across by_ [DBfun_Column c] = Ok m -> In c by_ ->
       by_filter m v = Ok (truthyZ (v c))).
Proof.
  intros H. specialize (H hx_forest "phone" ["talker"] ["lang"] "lang" (column_manager "lang") (fun _ => 0%Z)).
  assert (Hp : Forall plain (flat_map names hx_forest)) by apply hx_well_named.
  assert (Hm : filter_manager hx_forest "phone" ["talker"] ["lang"] [DBfun_Column "lang"] = Ok (column_manager "lang"))
    by (unfold column_manager; apply get_ok; vm_compute; reflexivity).
  specialize (H Hp Hm (or_introl eq_refl)). vm_compute in H. discriminate.
Qed.

Lemma column_filter_item_refuted :
  exists v fr l kept, A_filter truthyZ (column_manager "n_A") v fr l = Ok kept /\
    map snd fr = [ln 0 0 0 0; ln 0 0 0 1; ln 0 0 0 2] /\ l = [0; 1; 2]%Z /\ kept = [0; 0].
Proof.
  exists (ln 0 0 0 0), (combine [0; 1; 2]%Z [ln 0 0 0 0; ln 0 0 0 1; ln 0 0 0 2]), [0; 1; 2]%Z, [0; 0].
  split; [vm_compute; reflexivity|]. auto.
Qed.

Lemma extensions_refuted :
  let manager names := filter_manager hx_forest "phone" ["talker"] ["lang"] [DBfun_Compute names (fun _ => true)] in
  manager ["phone_AX"] = Err ValueError /\ is_ok (manager ["talker_AX"]) = true /\
  (m <- manager ["n_AB"] ;; on_across_by_filter m (ln 1 1 1 1)) = Err NameError.
Proof. vm_compute. auto. Qed.
