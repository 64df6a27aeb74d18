(** Lookup tables: the whole use. *)
From Coq Require Import String.
From Coq Require Import List ZArith Lia Permutation Sorted.
From Verif Require Import Prelude ListFacts TypeFitting TypeFitting_proofs Distances H5io H5io_keys H5io_proofs LookupTable LookupTable_spec LookupTable_keys LookupTable_proofs.
Import ListNotations.
Local Open Scope Z_scope.
Local Open Scope list_scope.

Section Main.
Variables V C : Type.
Variable veq : forall x y : V, {x = y} + {x <> y}.
Variable c0 : C.
Variable as_int : C -> Z.
Variable argsort : list Z -> list nat.
Hypothesis Hsort : argsort_spec argsort.
Variable t0 : table V C.
Hypothesis N : new_table t0.
Variable ws : list nat.
Hypothesis Hws : length (t_out_names t0) = length ws.
Variable b0 : inputs V * list (arr C) * list (entry V C).
Variable batches : list (inputs V * list (arr C) * list (entry V C)).
Hypothesis Hb0 : batch_ok as_int t0 ws b0.
Hypothesis Hbs : Forall (batch_ok as_int t0 ws) batches.
Hypothesis Hne : snd b0 <> [].

Lemma type_exists : exists ty, fit_integer_type (maxZ (map (fun o => Z.of_nat (length (index V C t0 o))) (t_iouts t0))) false = Ok ty.
Proof.
  apply fit_ok_unsigned.
  assert (forall o, In o (t_iouts t0) -> Z.of_nat (length (index V C t0 o)) < 2 ^ 64).
  { intros o Io. destruct (n_known N o (or_intror Io)) as (ix & I & L). unfold index. rewrite (lookup_In _ _ _ _ (n_indexes N) I). exact L. }
  clear - H. induction (t_iouts t0) as [|o os IH]; [reflexivity|]. cbn [map]. unfold maxZ in *. cbn [fold_right]. apply Z.max_lub_lt.
  - apply H. now left.
  - apply IH. intros; apply H; now right.
Qed.

Definition entries : list (entry V C) := flat_map (@snd _ _) (b0 :: batches).

Lemma fold_fill ty : fit_integer_type (maxZ (map (fun o => Z.of_nat (length (index V C t0 o))) (t_iouts t0))) false = Ok ty ->
  forall bs es s, Forall (batch_ok as_int t0 ws) bs ->
  fold_left (fun o b => andthen o (fun t => fill veq c0 as_int true t (fst b) (snd b) true)) (map (@arguments V C) bs) (state V C veq as_int t0 ws ty s es, None)
  = (state V C veq as_int t0 ws ty (match bs with [] => s | _ => false end) (es ++ flat_map (@snd _ _) bs), None).
Proof.
  intros Hty. induction bs as [|b bs IH]; intros es s F.
  - cbn. rewrite app_nil_r. reflexivity.
  - inversion F as [|? ? (B1 & B2 & B3) F']; subst. cbn [map fold_left andthen arguments fst snd].
    rewrite (fill_next V C veq c0 as_int t0 N ws ty Hty (snd (fst b)) (snd b) B2 B3 s es (fst (fst b)) B1).
    rewrite (IH _ _ F'). cbn [flat_map]. rewrite app_assoc. destruct bs; reflexivity.
Qed.

Lemma fill_all_state ty : fit_integer_type (maxZ (map (fun o => Z.of_nat (length (index V C t0 o))) (t_iouts t0))) false = Ok ty ->
  fill_all veq c0 as_int t0 (map (@arguments V C) (b0 :: batches)) = (state V C veq as_int t0 ws ty false entries, None).
Proof.
  intros Hty. unfold fill_all. cbn [map fold_left andthen arguments fst snd]. destruct Hb0 as (B1 & B2 & B3).
  rewrite (fill_first V C veq c0 as_int t0 N ws ty Hty (snd (fst b0)) (snd b0) B2 B3 (fst (fst b0)) true B1 Hne).
  rewrite (fold_fill ty Hty batches (snd b0) false Hbs). unfold entries. cbn [flat_map]. destruct batches; reflexivity.
Qed.

Lemma entries_ok : Forall (entry_ok as_int t0 ws) entries.
Proof.
  apply Forall_forall. intros e He. unfold entries in He. apply in_flat_map in He. destruct He as (b & Ib & Ie).
  assert (B : batch_ok as_int t0 ws b) by (destruct Ib as [<-|Ib]; [exact Hb0|exact (proj1 (Forall_forall _ _) Hbs b Ib)]).
  exact (proj1 (Forall_forall _ _) (proj2 (proj2 B)) e Ie).
Qed.

Lemma entries_wk : Forall (fun e => wk V C t0 (e_in e)) entries.
Proof.
  apply Forall_forall. intros e He. split; [|exact (proj1 (proj1 (Forall_forall _ _) entries_ok e He))].
  unfold entries in He. apply in_flat_map in He. destruct He as (b & Ib & Ie).
  assert (B : batch_ok as_int t0 ws b) by (destruct Ib as [<-|Ib]; [exact Hb0|exact (proj1 (Forall_forall _ _) Hbs b Ib)]).
  exact (proj1 (Forall_forall _ _) (proj1 (proj1 B)) (e_in e) (in_map _ _ _ Ie)).
Qed.

Lemma fills_succeed : exists t1 t2, fill_all veq c0 as_int t0 (map (@arguments V C) (b0 :: batches)) = (t1, None) /\ pack argsort t1 = (t2, None).
Proof.
  destruct type_exists as [ty Hty]. destruct (pack_ok V C veq c0 as_int argsort Hsort t0 N ws ty false entries) as (es' & E & _).
  eexists _, _. split; [apply fill_all_state, Hty|exact E].
Qed.

Lemma lookup_unpacked t : fill_all veq c0 as_int t0 (map (@arguments V C) (b0 :: batches)) = (t, None) ->
  forall ctx, evaluate veq t ctx = Err IOError.
Proof.
  intros H ctx. destruct type_exists as [ty Hty]. rewrite (fill_all_state ty Hty) in H. injection H as <-. reflexivity.
Qed.

Lemma misfit_rejected t o names ins qs w m l :
  fill_all veq c0 as_int t0 (map (@arguments V C) (b0 :: batches)) = (t, None) ->
  t_out_names t0 = o :: names -> ~ In o (t_iouts t0) -> holds_inputs t0 ins qs -> Forall (known t0) qs ->
  (length m <> length qs /\ length m <> 1%nat) \/ (w <> nth 0 ws 0%nat /\ w <> 1%nat) ->
  exists t', fill veq c0 as_int true t ins (OutCols (Mat w m :: l)) true = (t', Some TypeError).
Proof.
  intros H Eo Io Hin K Hm. destruct type_exists as [ty Hty]. rewrite (fill_all_state ty Hty) in H. injection H as <-.
  unfold fill. change (t_empty (state V C veq as_int t0 ws ty false entries)) with false. cbn [negb andb andthen].
  change (set_flags false false (state V C veq as_int t0 ws ty false entries)) with (state V C veq as_int t0 ws ty false entries).
  assert (W : Forall (wk V C t0) qs).
  { apply Forall_forall. intros q Hq. split; [exact (proj1 (Forall_forall _ _) (proj1 Hin) q Hq)|exact (proj1 (Forall_forall _ _) K q Hq)]. }
  unfold write. rewrite (get_keys_state V C veq as_int t0 N ws ty false entries ins qs Hin W). cbn [compute].
  change (t_out_names (state V C veq as_int t0 ws ty false entries)) with (t_out_names t0). rewrite Eo. cbn [combine write_raw].
  cbn [state set_keys t_iouts t_data t_keys].
  assert (M : mem o (t_iouts t0) = false).
  { destruct (mem o (t_iouts t0)) eqn:E; [|reflexivity]. exfalso. apply Io. apply mem_In in E. exact E. }
  rewrite M.
  assert (E1 : raws V C t0 = o :: filter (fun o => negb (mem o (t_iouts t0))) names) by (unfold raws; rewrite Eo; cbn [filter]; rewrite M; reflexivity).
  rewrite E1. cbn [map lookup fst snd]. unfold lookup at 1. cbn [find fst]. rewrite String.eqb_refl. cbn [compute andthen snd].
  assert (E2 : wd V C t0 ws o = nth 0 ws 0%nat).
  { unfold wd, pos. rewrite Eo. cbn [name_index]. rewrite String.eqb_refl. reflexivity. }
  rewrite E2, !map_length.
  replace (broadcast (length qs) (nth 0 ws 0%nat) w m c0) with (@Err (list (list C)) TypeError).
  - eexists. reflexivity.
  - unfold broadcast. destruct Hm as [[A B]|[A B]].
    + apply Nat.eqb_neq in A, B. rewrite A, B, andb_false_r. reflexivity.
    + apply Nat.eqb_neq in A, B. rewrite A, B. reflexivity.
Qed.

Variables t1 t2 : table V C.
Hypothesis H1 : fill_all veq c0 as_int t0 (map (@arguments V C) (b0 :: batches)) = (t1, None).
Hypothesis H2 : pack argsort t1 = (t2, None).

Lemma packed : exists ty es', fit_integer_type (maxZ (map (fun o => Z.of_nat (length (index V C t0 o))) (t_iouts t0))) false = Ok ty /\
  t2 = state V C veq as_int t0 ws ty true es' /\ (forall e, In e es' <-> In e entries) /\
  StronglySorted Z.le (map (ekey V C veq t0) es') /\ es' <> [].
Proof.
  destruct type_exists as [ty Hty]. destruct (pack_ok V C veq c0 as_int argsort Hsort t0 N ws ty false entries) as (es' & E & P & S).
  rewrite (fill_all_state ty Hty) in H1. injection H1 as <-. rewrite E in H2. injection H2 as <-. exists ty, es'.
  split; [exact Hty|]. split; [reflexivity|]. split; [|split; [exact S|]].
  - intros e. split; apply Permutation_in; [exact P|apply Permutation_sym, P].
  - intros ->. apply Permutation_nil in P. unfold entries in P. cbn [flat_map] in P. apply app_eq_nil in P. destruct P as [P _]. contradiction.
Qed.

Lemma lookup_answers ctx qs : holds_inputs t0 ctx qs -> qs <> [] -> (forall q, In q qs -> exists e, In e entries /\ e_in e = q) ->
  exists es l, evaluate veq t2 ctx = Ok l /\ Forall2 (fun q e => In e entries /\ e_in e = q) qs es /\
    length l = length (t_out_names t0) /\
    forall i o a, nth_error (t_out_names t0) i = Some o -> nth_error l i = Some a -> answers as_int t0 i o es a.
Proof.
  intros Hin Hq Hp. destruct packed as (ty & es' & Hty & -> & I & S & _).
  destruct (evaluate_ok V C veq c0 as_int t0 N ws ty es' S) with (ctx := ctx) (qs := qs) as (es & l & E & F & L & A); try assumption.
  - apply Forall_forall. intros e He. exact (proj1 (Forall_forall _ _) entries_ok e (proj1 (I e) He)).
  - apply Forall_forall. intros e He. exact (proj1 (Forall_forall _ _) entries_wk e (proj1 (I e) He)).
  - intros q Iq. destruct (Hp q Iq) as (e & He & Eq). exists e. split; [apply I, He|exact Eq].
  - exists es, l. split; [exact E|]. split; [|split; [exact L|exact A]]. clear - F I. induction F as [|q e qs es [A B] F IH]; constructor; [|exact IH].
    split; [apply I, A|exact B].
Qed.

Lemma lookup_unknown ctx qs q : holds_inputs t0 ctx qs -> In q qs -> ~ known t0 q -> evaluate veq t2 ctx = Err ValueError.
Proof.
  intros Hin Hq K. destruct packed as (ty & es' & Hty & -> & _). unfold evaluate. change (t_sorted (state V C veq as_int t0 ws ty true es')) with true. cbn [negb].
  assert (G : get_keys veq (state V C veq as_int t0 ws ty true es') ctx = Err ValueError).
  { apply get_keys_unknown with (qs := qs) (q := q).
    - exact (n_types N).
    - exact (n_indexes N).
    - exact (n_labels N).
    - intros x Hx. exact (n_known N x (or_introl Hx)).
    - exact Hin.
    - exact Hq.
    - exact K. }
  rewrite G. reflexivity.
Qed.

Lemma wk_queries ctx qs : holds_inputs t0 ctx qs -> Forall (known t0) qs -> Forall (wk V C t0) qs.
Proof.
  intros [L _] K. apply Forall_forall. intros q Hq. split; [exact (proj1 (Forall_forall _ _) L q Hq)|exact (proj1 (Forall_forall _ _) K q Hq)].
Qed.

Lemma lookup_after ctx qs q : holds_inputs t0 ctx qs -> Forall (known t0) qs -> In q qs -> after_all t0 entries q ->
  evaluate veq t2 ctx = Err IndexError.
Proof.
  intros Hin K Hq A. destruct packed as (ty & es' & Hty & -> & I & S & Ne). apply evaluate_after with (qs := qs) (q := q); try assumption.
  - apply Forall_forall. intros e He. exact (proj1 (Forall_forall _ _) entries_ok e (proj1 (I e) He)).
  - apply Forall_forall. intros e He. exact (proj1 (Forall_forall _ _) entries_wk e (proj1 (I e) He)).
  - exact (wk_queries ctx qs Hin K).
  - intros e He. apply A, I, He.
Qed.

Lemma lookup_missing ctx qs q : holds_inputs t0 ctx qs -> Forall (known t0) qs -> (forall q', In q' qs -> ~ after_all t0 entries q') ->
  In q qs -> (forall e, In e entries -> e_in e <> q) -> evaluate veq t2 ctx = Err RuntimeError.
Proof.
  intros Hin K Ha Hq M. destruct packed as (ty & es' & Hty & -> & I & S & Ne). apply evaluate_missing with (qs := qs) (q := q); try assumption.
  - apply Forall_forall. intros e He. exact (proj1 (Forall_forall _ _) entries_ok e (proj1 (I e) He)).
  - apply Forall_forall. intros e He. exact (proj1 (Forall_forall _ _) entries_wk e (proj1 (I e) He)).
  - exact (wk_queries ctx qs Hin K).
  - intros q' Hq' A. apply (Ha q' Hq'). intros e He. apply A, I, He.
  - intros e He. apply M, I, He.
Qed.

Lemma lookup_refill ins outs : fill veq c0 as_int true t2 ins outs false = (t2, Some IOError).
Proof. destruct packed as (ty & es' & Hty & -> & _). reflexivity. Qed.

Lemma lookup_specs : exists indexes, output_specs t2 = Ok (length (t_out_names t0), t_out_names t0, indexes) /\
  (t_indexed t0 = true -> map fst indexes = t_iouts t0 /\ forall o ix, In (o, ix) indexes -> In (o, ix) (t_indexes t0)) /\
  (t_indexed t0 = false -> indexes = []).
Proof.
  destruct packed as (ty & es' & Hty & -> & _). unfold output_specs. cbn [state t_indexed t_iouts t_indexes t_out_names].
  destruct (t_indexed t0) eqn:Ex.
  - rewrite (@mapM_ok_map _ _ _ (fun o => (o, index V C t0 o))).
    + cbn [bind]. eexists. split; [reflexivity|]. split; [|discriminate]. intros _. split; [rewrite map_map; apply map_id|].
      intros o ix Hi. apply in_map_iff in Hi. destruct Hi as (o' & E & Io). injection E as <- <-. exact (proj1 (index_ok V C t0 N o' Io)).
    + intros o Io. rewrite (proj2 (index_ok V C t0 N o Io)). reflexivity.
  - cbn [bind]. eexists. split; [reflexivity|]. split; [discriminate|reflexivity].
Qed.
End Main.

(** ** Writing keeps the flags *)
Section Flags.
Variables V C : Type.
Variable veq : forall x y : V, {x = y} + {x <> y}.
Variable c0 : C.
Variable as_int : C -> Z.

Definition flagged (e s : bool) (o : outcome V C) : outcome V C := (set_flags e s (fst o), snd o).

Lemma write_raw_flags e s old n l : forall t : table V C, write_raw c0 old n (set_flags e s t) l = flagged e s (write_raw c0 old n t l).
Proof.
  induction l as [|[o a] l IH]; intros t; [reflexivity|]. cbn [write_raw]. change (t_iouts (set_flags e s t)) with (t_iouts t).
  change (t_data (set_flags e s t)) with (t_data t). destruct (mem o (t_iouts t)); [apply IH|].
  destruct (lookup (t_data t) o) as [[d m]|x]; [|reflexivity]. cbn [compute].
  match goal with |- context [compute ?t1 ?v ?k] => destruct v as [v'|x] end; [|reflexivity]. cbn [compute]. rewrite <- IH. reflexivity.
Qed.

Lemma write_flags e s (t : table V C) ins outs : write veq c0 as_int (set_flags e s t) ins outs = flagged e s (write veq c0 as_int t ins outs).
Proof.
  unfold write. change (get_keys veq (set_flags e s t) ins) with (get_keys veq t ins). destruct (get_keys veq t ins) as [keys|x]; [|reflexivity].
  cbn [compute]. destruct outs as [d|l]; [reflexivity|].
  change (t_keys (set_flags e s t)) with (t_keys t). change (set_keys (t_keys t ++ keys) (set_flags e s t)) with (set_flags e s (set_keys (t_keys t ++ keys) t)).
  change (t_out_names (set_flags e s t)) with (t_out_names t). rewrite write_raw_flags.
  destruct (write_raw c0 (length (t_keys t)) (length keys) (set_keys (t_keys t ++ keys) t) (combine (t_out_names t) l)) as [t1 [x|]]; [reflexivity|].
  unfold flagged. cbn [fst snd andthen]. unfold write_indexed. change (t_out_names (set_flags e s t1)) with (t_out_names t1).
  change (t_iouts (set_flags e s t1)) with (t_iouts t1). change (t_idata (set_flags e s t1)) with (t_idata t1).
  destruct (mapM _ _) as [vs|x]; [|reflexivity]. cbn [compute]. destruct (hcat vs) as [wm|x]; [|reflexivity]. cbn [compute].
  destruct (t_idata t1) as [[[ty d] m]|]; [|reflexivity]. destruct (broadcast _ _ _ _ _) as [v|x]; reflexivity.
Qed.

Variable t0 : table V C.
Hypothesis N : new_table t0.
Variable ws : list nat.
Hypothesis Hws : length (t_out_names t0) = length ws.
Variable b0 : inputs V * list (arr C) * list (entry V C).
Variable batches : list (inputs V * list (arr C) * list (entry V C)).
Hypothesis Hb0 : batch_ok as_int t0 ws b0.
Hypothesis Hbs : Forall (batch_ok as_int t0 ws) batches.
Hypothesis Hne : snd b0 <> [].

Lemma fold_write ty : fit_integer_type (maxZ (map (fun o => Z.of_nat (length (index V C t0 o))) (t_iouts t0))) false = Ok ty ->
  forall bs es, Forall (batch_ok as_int t0 ws) bs ->
  fold_left (fun o b => andthen o (fun t => write veq c0 as_int t (fst b) (snd b))) (map (@arguments V C) bs) (state V C veq as_int t0 ws ty false es, None)
  = (state V C veq as_int t0 ws ty false (es ++ flat_map (@snd _ _) bs), None).
Proof.
  intros Hty. induction bs as [|b bs IH]; intros es F.
  - cbn. rewrite app_nil_r. reflexivity.
  - inversion F as [|? ? (B1 & B2 & B3) F']; subst. cbn [map fold_left andthen arguments fst snd].
    rewrite (write_ok V C veq c0 as_int t0 N ws ty Hty (snd (fst b)) (snd b) B2 B3 es (fst (fst b)) B1).
    rewrite (IH _ F'). cbn [flat_map]. rewrite app_assoc. reflexivity.
Qed.

Lemma iterate_same append : fill_iterate veq c0 as_int true t0 (map (@arguments V C) (b0 :: batches)) append
  = fill_all veq c0 as_int t0 (map (@arguments V C) (b0 :: batches)).
Proof.
  destruct (type_exists V C t0 N) as [ty Hty]. rewrite (fill_all_state V C veq c0 as_int t0 N ws b0 batches Hb0 Hbs Hne ty Hty).
  unfold fill_iterate. rewrite (n_empty N). cbn [negb andb map arguments]. destruct Hb0 as (B1 & B2 & B3).
  rewrite (initialize_ok V C veq as_int t0 N ws ty Hty (snd (fst b0)) (snd b0) B2 B3 Hne). cbn [andthen]. rewrite write_flags.
  rewrite (write_ok V C veq c0 as_int t0 N ws ty Hty (snd (fst b0)) (snd b0) B2 B3 [] (fst (fst b0)) B1). unfold flagged. cbn [fst snd andthen app].
  change (set_flags false false (set_flags true false (state V C veq as_int t0 ws ty false (snd b0)))) with (state V C veq as_int t0 ws ty false (snd b0)).
  rewrite (fold_write ty Hty batches (snd b0) Hbs). reflexivity.
Qed.
End Flags.

Lemma no_creation V C py2 columns in_types (t : table V C) : construct py2 None columns in_types <> Ok t.
Proof.
  unfold construct, create. destruct py2; cbn [negb]; [|discriminate]. destruct in_types as [tys|]; [|discriminate].
  destruct (negb _); [discriminate|]. destruct (mapM _ _) as [ls|e]; [|discriminate]. cbn [bind]. destruct (existsb _ _); [discriminate|].
  destruct (_ <=? _); discriminate.
Qed.

Lemma no_fill3 V C veq c0 as_int (t : table V C) ins l append : t_empty t = true -> l <> [] ->
  fill veq c0 as_int false t ins (OutCols l) append = (t, Some NameError).
Proof. intros E L. unfold fill. rewrite E. cbn. destruct l; [congruence|reflexivity]. Qed.

(** Which exception creation raises. *)
Lemma creation_raises V C (columns : list (string * Z)) in_types : NoDup (map fst columns) ->
  (@construct V C false None columns in_types = Err NameError) /\
  (@construct V C true None columns None = Err TypeError) /\
  (forall tys, in_types = Some tys ->
    ((exists ty, In ty tys /\ ~ In ty (map fst columns)) -> @construct V C true None columns in_types = Err ValueError) /\
    (forall levels, Forall2 (fun ty n => In (ty, n) columns) tys levels ->
      (In 0 levels -> @construct V C true None columns in_types = Err IndexError) /\
      (~ In 0 levels -> 2 ^ 64 < prodZ levels -> @construct V C true None columns in_types = Err ValueError) /\
      (~ In 0 levels -> prodZ levels <= 2 ^ 64 -> @construct V C true None columns in_types = Err TypeError))).
Proof.
  intros N. split; [reflexivity|]. split; [reflexivity|]. intros tys ->. split.
  - intros (ty & H & H'). unfold construct, create. cbn [negb].
    destruct (subset tys (map fst columns)) eqn:E; [|reflexivity]. exfalso. apply H'. apply subset_incl in E. apply E, H.
  - intros levels F.
    assert (S : subset tys (map fst columns) = true).
    { apply subset_incl. intros ty Hty. clear -F Hty. induction F as [|a b la lb Hab F IH]; [destruct Hty|].
      destruct Hty as [<-|Hty]; [apply in_map_iff; exists (a, b); auto|auto]. }
    assert (M : mapM (lookup columns) tys = Ok levels).
    { clear S. induction F as [|a b la lb Hab F IH]; [reflexivity|]. cbn [mapM]. rewrite (lookup_In _ _ _ _ N Hab). cbn [bind].
      rewrite IH. reflexivity. }
    unfold construct, create. cbn [negb]. rewrite S, M. cbn [negb bind].
    destruct (existsb (Z.eqb 0) levels) eqn:E.
    + apply existsb_exists in E as (z & Hz & E). apply Z.eqb_eq in E. subst z. split; [reflexivity|]. split; intros; contradiction.
    + assert (Hn : ~ In 0 levels).
      { intros H. assert (E' : existsb (Z.eqb 0) levels = true) by (apply existsb_exists; exists 0; auto). congruence. }
      split; [contradiction|]. destruct (Z.leb_spec (2 ^ 64) (prodZ levels - 1)); split; intros; try reflexivity; exfalso; lia.
Qed.
