(** The threshold favours no selection of the triplets of a task. *)
From Coq Require Import Reals Lra Ascii String.
From Verif Require Import Prelude ListFacts TypeFitting TypeFitting_proofs Sampler Sampler_spec Sampler_proofs Sampler_uniform
  Chance_spec Chance_count Chance_law Chance_sample Chance_runs Chance_core
  Task Task_spec Task_blocks Task_sort Task_regs Task_gen Task_file
  Task_proofs Task_main Task_total Task_reg_spec Task_align TaskIndex_spec Task_thr_total Task_thr_spec Task_thr_ends Chance_block.
Open Scope Z_scope.

Definition outss_dec : forall a b : list (list block_out), {a = b} + {a <> b} := list_eq_dec outs_dec.

Lemma multiple_ex M : exists L, multiple M L.
Proof.
  assert (H : forall n : nat, exists L, 0 < L /\ forall r, 0 < r <= Z.of_nat n -> (r | L)).
  { induction n as [|n (L & H0 & H)]; [exists 1; split; [lia|intros r Hr; lia]|].
    exists (L * Z.of_nat (S n)). split; [apply Z.mul_pos_pos; lia|]. intros r Hr. destruct (Z.eq_dec r (Z.of_nat (S n))) as [->|E].
    - apply Z.divide_factor_r.
    - apply Z.divide_mul_l. apply H. lia. }
  destruct (H (Z.to_nat M)) as (L & H0 & H1). exists L. split; [exact H0|]. intros r Hr. apply H1. lia.
Qed.

Lemma evenly_of_laws {A} (eqA : forall a b : A, {a = b} + {a <> b}) M (f : program A) (c : comp A) :
  (forall fuel R a, f fuel R = Ok a <-> exists c', c fuel R 0%nat = Ok (a, c')) ->
  (forall L, multiple M L -> exists l, law L eqA c l) -> evenly eqA M f.
Proof.
  intros E H. set (g := fun fuel R => match c fuel R 0%nat with Ok (b, _) => Ok b | Err e => Err e end).
  assert (Eg : forall fuel R a, f fuel R = Ok a <-> g fuel R = Ok a).
  { intros fuel R a. rewrite E. unfold g. destruct (c fuel R 0%nat) as [[b c']|e]; split; try (intros (? & ?)); try discriminate; try congruence.
    intros H0. injection H0 as ->. eauto. }
  destruct (multiple_ex M) as (L0 & HL0). destruct (H L0 HL0) as (l & Hl).
  assert (Hp : forall a, In a l <-> possible f a).
  { intros a. rewrite (law_possible L0 (proj1 HL0) eqA c l Hl a). fold g. unfold possible. split; intros (fuel & R & HR & H0); exists fuel, R; (split; [exact HR|apply Eg; exact H0]). }
  exists l. split; [exact (law_nonempty _ _ _ _ Hl)|]. split; [exact (law_NoDup _ _ _ _ Hl)|]. split; [exact Hp|].
  intros L HL a Ha. destruct (H L HL) as (l' & Hl').
  assert (Hp' : forall a, In a l' <-> In a l).
  { intros x. rewrite Hp, (law_possible L (proj1 HL) eqA c l' Hl' x). fold g. unfold possible. split; intros (fuel & R & HR & H0); exists fuel, R; (split; [exact HR|apply Eg; exact H0]). }
  assert (El : List.length l = List.length l').
  { apply Permutation_length, NoDup_Permutation; [exact (law_NoDup _ _ _ _ Hl)|exact (law_NoDup _ _ _ _ Hl')|]. intros x. symmetry. apply Hp'. }
  rewrite El. apply (cv_ext (share eqA L g a) _ _ 0); [|apply (law_share L (proj1 HL) eqA c l' Hl' a); apply Hp'; exact Ha].
  intros n _. unfold share. f_equal. f_equal. f_equal. apply filter_ext. intros v. specialize (Eg (S n) (drawn L v)).
  destruct (g (S n) (drawn L v)) as [x|e]; [rewrite (proj2 (Eg x) eq_refl); reflexivity|].
  destruct (f (S n) (drawn L v)) as [x|e']; [discriminate (proj1 (Eg x) eq_refl)|reflexivity].
Qed.

(** The loop over the by, apart from what it writes. *)
Section Loop.
Variable korder : list key -> list key.
Variable enum : list Z -> list Z.
Variable argsort : list Z -> list nat.
Variable T' : task.
Variable t : Z.

Definition comput (b : by_block) : comp (list block_out) := fun fuel R c => compute_triplets korder enum argsort R fuel T' (Some t) b c.

Fixpoint chainc (bs : list by_block) : comp (list (list block_out)) := fun fuel R c =>
  match bs with
  | [] => Ok ([], c)
  | b :: bs' => match comput b fuel R c with
                | Ok (o, c1) => match chainc bs' fuel R c1 with Ok (os, c2) => x <- Ok (o :: os) ;; Ok (x, c2) | Err e => Err e end
                | Err e => Err e
                end
  end.

Definition put (g : gen_state) (b : by_block) (outs : list block_out) : gen_state :=
  let ts := g_triplets g ++ concat (map o_triplets outs) in
  let idx := g_index g ++ concat (map o_index outs) in
  let regs := g_regs g ++ [(b_key b, map o_regressors outs)] in
  if Zlen ts =? hd 0 (g_bounds g)
  then mk_gen ts idx regs (g_bounds g) (g_bys g) (g_empty g ++ [b_key b]) (g_rng g)
  else mk_gen ts idx regs (Zlen ts :: g_bounds g) (b_key b :: g_bys g) (g_empty g) (g_rng g).

Definition at_draw (c : nat) (g : gen_state) : gen_state :=
  mk_gen (g_triplets g) (g_index g) (g_regs g) (g_bounds g) (g_bys g) (g_empty g) c.

Fixpoint final (bs : list by_block) (outss : list (list block_out)) (g : gen_state) : gen_state :=
  match bs, outss with
  | b :: bs', outs :: outss' => final bs' outss' (put g b outs)
  | _, _ => g
  end.

Lemma put_draw c g b outs : put (at_draw c g) b outs = at_draw c (put g b outs).
Proof. unfold put, at_draw. cbn. destruct (_ =? _); reflexivity. Qed.

Lemma final_draw c bs : forall outss g, final bs outss (at_draw c g) = at_draw c (final bs outss g).
Proof. induction bs as [|b bs IH]; intros [|o outss] g; cbn [final]; try reflexivity. rewrite put_draw. apply IH. Qed.

Lemma loop_chain fuel R bs : forall g,
  foldM (by_step korder enum argsort R fuel T' (Some t)) bs g =
  match chainc bs fuel R (g_rng g) with Ok (outss, c) => Ok (at_draw c (final bs outss g)) | Err e => Err e end.
Proof.
  induction bs as [|b bs IH]; intros g; cbn [foldM chainc].
  - cbn [final]. destruct g; reflexivity.
  - unfold comput at 1. unfold by_step at 1. destruct (compute_triplets _ _ _ _ _ _ _ _ _) as [[o c1]|e]; cbn [bind]; [|reflexivity]. cbv zeta.
    assert (E : forall x : res gen_state, x = (if Zlen (g_triplets g ++ concat (map o_triplets o)) =? hd 0 (g_bounds g)
       then Ok (mk_gen (g_triplets g ++ concat (map o_triplets o)) (g_index g ++ concat (map o_index o)) (g_regs g ++ [(b_key b, map o_regressors o)]) (g_bounds g) (g_bys g) (g_empty g ++ [b_key b]) c1)
       else Ok (mk_gen (g_triplets g ++ concat (map o_triplets o)) (g_index g ++ concat (map o_index o)) (g_regs g ++ [(b_key b, map o_regressors o)]) (Zlen (g_triplets g ++ concat (map o_triplets o)) :: g_bounds g) (b_key b :: g_bys g) (g_empty g) c1)) ->
       x = Ok (at_draw c1 (put g b o))).
    { intros x ->. unfold put, at_draw. cbv zeta. destruct (_ =? _); reflexivity. }
    erewrite (E _ eq_refl). cbn [bind]. rewrite IH. cbn [at_draw g_rng].
    destruct (chainc bs fuel R c1) as [[os c2]|e]; [|reflexivity]. cbn [bind final]. rewrite final_draw. reflexivity.
Qed.

Lemma final_triplets bs : forall outss g, List.length outss = List.length bs ->
  g_triplets (final bs outss g) = g_triplets g ++ concat (map all_triplets outss).
Proof.
  induction bs as [|b bs IH]; intros [|o outss] g Hl; try discriminate; [cbn; rewrite app_nil_r; reflexivity|].
  cbn [final map concat]. rewrite IH by (cbn in Hl; lia). unfold put. cbv zeta. rewrite app_assoc. unfold all_triplets at 2.
  destruct (_ =? _); reflexivity.
Qed.

Lemma chain_chainc fuel R bs : forall c outss c', chainc bs fuel R c = Ok (outss, c') <-> chain_by korder enum argsort R fuel T' (Some t) bs c outss c'.
Proof.
  induction bs as [|b bs IH]; intros c outss c'; cbn [chainc chain_by].
  - destruct outss; split; intros H; try discriminate; try contradiction; [injection H; auto|subst; reflexivity].
  - unfold comput. split.
    + destruct (compute_triplets _ _ _ _ _ _ _ _ _) as [[o c1]|e]; [|discriminate]. destruct (chainc bs fuel R c1) as [[os c2]|e] eqn:E; [|discriminate].
      cbn [bind]. intros H. injection H as <- <-. exists c1. split; [reflexivity|]. apply IH. exact E.
    + destruct outss as [|o os]; [contradiction|]. intros (c1 & -> & H). apply IH in H. rewrite H. reflexivity.
Qed.

(** The file, given what the by give. *)
Definition file_of (st : stats) (bs : list by_block) (outss : list (list block_out)) : res (option task_file) :=
  if s_nb_triplets st =? 0 then Ok None
  else
    data_type <- fit_integer_type (s_nb_triplets st) true ;;
    index_type <- fit_integer_type (s_nb_blocks st) true ;;
    let g := final bs outss (mk_gen [] [] [] [0] [] [] 0) in
    bound_type <- fit_integer_type (hd 0 (g_bounds g)) true ;;
    let bounds := map (cast bound_type) (rev (g_bounds g)) in
    Ok (Some (mk_file (map (cast3 data_type) (g_triplets g))
                      (pairs_of_bounds bounds)
                      (rev (g_bys g))
                      (map (fun i => cast index_type (Z.of_nat i)) (g_index g))
                      (g_regs g))).

Definition generated (st : stats) (bs : list by_block) : comp (option task_file) := fun fuel R c =>
  match chainc bs fuel R c with Ok (outss, c') => f <- file_of st bs outss ;; Ok (f, c') | Err e => Err e end.

Lemma generated_ok fuel R st bs c of : s_nb_triplets st <> 0 ->
  ((exists c', generated st bs fuel R c = Ok (of, c')) <-> exists bs', generate_triplets korder enum argsort R fuel T' (Some t) bs st c = Ok (bs', of)).
Proof.
  intros Hn. unfold generated, generate_triplets, file_of. rewrite (proj2 (Z.eqb_neq _ _) Hn), loop_chain. cbn [g_rng].
  change (mk_gen [] [] [] [0] [] [] c) with (at_draw c (mk_gen [] [] [] [0] [] [] 0)).
  destruct (fit_integer_type (s_nb_triplets st) true) as [ty|e]; cbn [bind].
  2:{ split; [|intros (? & H); discriminate]. destruct (chainc bs fuel R c) as [[os c']|e']; intros (? & H); discriminate. }
  destruct (fit_integer_type (s_nb_blocks st) true) as [ty2|e]; cbn [bind].
  2:{ split; [|intros (? & H); discriminate]. destruct (chainc bs fuel R c) as [[os c']|e']; intros (? & H); discriminate. }
  destruct (chainc bs fuel R c) as [[os c']|e']; [|split; intros (? & H); discriminate]. cbn [bind]. rewrite final_draw. cbn [at_draw g_bounds g_triplets g_bys g_index g_regs g_empty].
  destruct (fit_integer_type _ true) as [ty3|e]; cbn [bind]; [|split; intros (? & H); discriminate]. cbv zeta.
  split; intros (x & H); [assert (E := f_equal (fun r => match r with Ok (f, _) => f | Err _ => None end) H)|assert (E := f_equal (fun r => match r with Ok (_, f) => f | Err _ => None end) H)];
    cbn beta iota in E; rewrite <- E; eexists; reflexivity.
Qed.
End Loop.

Section Main.
Variable korder : list key -> list key.
Variable enum : list Z -> list Z.
Variable argsort : list Z -> list nat.
Hypothesis korder_ok : lists_keys korder.
Hypothesis enum_ok : lists_set enum.
Hypothesis argsort_ok : argsort_spec argsort.
Variable T : task.
Variable cols : list string.
Variable db : list row.
Variable T' : task.
Variable bs : list by_block.
Variable st : stats.
Hypothesis rd : reads cols (t_filters T).
Hypothesis dt : determined T db.
Hypothesis kf : kept_first T db.
Hypothesis rr : reg_reads cols (t_regressors T).
Hypothesis rt : reg_determined T db.
Hypothesis init : task_init korder enum T cols db = Ok (T', bs, st).
Hypothesis rm : room T db.
Hypothesis Hsz : Zlen db * Zlen db * Zlen db < 2 ^ 63.
Hypothesis HG : r_ABX (t_regressors T) = false.
Hypothesis Hst : storable T db (capacity (s_nb_triplets st)).
Variable t : Z.
Hypothesis Ht : 0 < t.
Local Notation G := (t_regressors T).
Local Notation rows k := (by_rows T db k).
Local Notation M := (s_nb_triplets st).
Local Notation blist b := (by_list korder enum T' b).
Local Notation gen fuel R := (generate_triplets korder enum argsort R fuel T' (Some t) bs st 0).

Definition goods (l : list (list (list block_out))) (bl : list by_block) : Prop :=
  (forall x y, In x l -> In y l -> Forall2 (Forall2 same_shape) x y) /\
  (forall x, In x l -> Forall2 (fun b outs => incl (all_triplets outs) (blist b)) bl x) /\
  (forall x y, In x l -> In y l -> Forall2 (fun o o' => forall s, In s (all_triplets o) <-> In s (all_triplets o')) x y -> x = y) /\
  forall keep : key -> triplet -> bool, of_BX G <> [] -> (forall b, In b bl -> chosen T db t b (keep (b_key b))) ->
    exists x, In x l /\ Forall2 (fun b outs => forall s, In s (all_triplets outs) <-> In s (blist b) /\ keep (b_key b) s = true) bl x.

Lemma blist_le b : In b bs -> Zlen (blist b) <= M.
Proof.
  intros Hb. rewrite (nb_triplets_sum korder_ok enum_ok _ _ _ init). clear -Hb. induction bs as [|b0 l IH]; [destruct Hb|].
  cbn [map]. change (sumZ (?a :: ?c)) with (a + sumZ c). assert (0 <= sumZ (map (fun b => Zlen (blist b)) l)).
  { clear. induction l as [|b0 l IH]; [cbn; lia|]. cbn [map]. change (sumZ (?a :: ?c)) with (a + sumZ c). pose proof (Zlen_nonneg (blist b0)). lia. }
  destruct Hb as [->|Hb]; [lia|]. specialize (IH Hb). pose proof (Zlen_nonneg (blist b0)). lia.
Qed.

Section WithL.
Variable L : Z.
Hypothesis HL : multiple M L.

Lemma chain_law bl : incl bl bs -> exists l, law L outss_dec (chainc korder enum argsort T' t bl) l /\ goods l bl.
Proof.
  destruct HL as [HL0 Hdiv]. induction bl as [|b bl IH]; intros Hi.
  - exists [[]]. split; [|split; [|split; [|split]]].
    + eapply law_ext; [|apply (law_ret L HL0 outss_dec [])]. reflexivity.
    + intros x y [<-|[]] [<-|[]]. constructor.
    + intros x [<-|[]]. constructor.
    + intros x y [<-|[]] [<-|[]] _. reflexivity.
    + intros keep _ _. exists []. split; [left; reflexivity|constructor].
  - destruct IH as (m & Hm & G1 & G2 & Gu & G3); [intros x Hx; apply Hi; right; exact Hx|].
    assert (Hb : In b bs) by (apply Hi; left; reflexivity).
    destruct (sizes_small korder_ok enum_ok rd dt kf init Hsz) as (Hfl & _).
    destruct (compute_law L HL0 M Hdiv korder enum argsort korder_ok enum_ok argsort_ok T cols db T' bs st rd dt kf rr rt init rm t Ht b Hb) as (l & Hl & A1 & A2 & Au & A3).
    { pose proof (cube_le (conj (Zlen_nonneg (b_frame b)) (Hfl b Hb))). lia. }
    { destruct (init_inv _ _ _ _ _ init) as (_ & -> & _). exact HG. }
    { intros k Hk. etransitivity; [|apply (blist_le b Hb)]. unfold by_list, Zlen. apply inj_le.
      assert (Hk' : In k (korder (keys (t_on T' :: t_across T') (map snd (b_frame b))))) by (revert Hk; apply Permutation_in, Permutation_sym, korder_ok).
      revert Hk'. generalize (korder (keys (t_on T' :: t_across T') (map snd (b_frame b)))). clear. intros ks Hk.
      induction ks as [|k0 ks IH]; [destruct Hk|]. cbn [flat_map]. rewrite app_length. destruct Hk as [->|Hk]; [lia|]. specialize (IH Hk). lia. }
    exists (flat_map (fun a => map (cons a) m) l). split; [|split; [|split; [|split]]].
    + apply (law_pair L HL0 outs_dec outss_dec outss_dec (comput korder enum argsort T' t b) (chainc korder enum argsort T' t bl) (fun o os => Ok (o :: os)) cons l m Hl Hm); [reflexivity|].
      intros a a' x x' _ _ _ _ E. injection E as -> ->. auto.
    + intros x y Hx Hy. apply in_flat_map in Hx as (o & Ho & Hx). apply in_map_iff in Hx as (r & <- & Hr).
      apply in_flat_map in Hy as (o' & Ho' & Hy). apply in_map_iff in Hy as (r' & <- & Hr'). constructor; auto.
    + intros x Hx. apply in_flat_map in Hx as (o & Ho & Hx). apply in_map_iff in Hx as (r & <- & Hr). constructor; auto.
    + intros x y Hx Hy. apply in_flat_map in Hx as (o & Ho & Hx). apply in_map_iff in Hx as (r & <- & Hr).
      apply in_flat_map in Hy as (o' & Ho' & Hy). apply in_map_iff in Hy as (r' & <- & Hr'). intros E. inversion E; subst. f_equal; [apply Au|apply Gu]; auto.
    + intros keep Hne Hch. destruct (A3 (keep (b_key b)) Hne) as (o & Ho & E); [apply Hch; left; reflexivity|].
      destruct (G3 keep Hne) as (r & Hr & F); [intros b0 Hb0; apply Hch; right; exact Hb0|].
      exists (o :: r). split; [|constructor; assumption]. apply in_flat_map. exists o. split; [exact Ho|]. apply in_map. exact Hr.
Qed.

Lemma stored_same ty b s : fit_integer_type M true = Ok ty -> In b bs -> In s (blist b) -> cast3 ty s = s.
Proof.
  intros Hty Hb H. destruct s as [[a b'] x]. apply (blist_In korder_ok enum_ok rd dt kf init _ _ _ _ Hb) in H.
  destruct (Hst _ _ _ _ H) as (S1 & S2 & S3). destruct H as (ra & rb & rx & Ia & Ib & Ix & H). destruct Ia as [Pa Ia], Ib as [Pb Ib], Ix as [Px Ix].
  cbn [cast3]. rewrite !(fit_capacity _ Hty) by lia. reflexivity.
Qed.

Lemma shapes2_inj x y : Forall2 (Forall2 same_shape) x y -> concat (map all_triplets x) = concat (map all_triplets y) -> x = y.
Proof.
  induction 1 as [|a b x y H F IH]; [reflexivity|]. cbn [map concat]. intros E.
  apply app_inj_length in E as [E1 E2]; [|apply shapes_total; exact H]. rewrite (shapes_inj _ _ H E1), (IH E2). reflexivity.
Qed.

Lemma generated_law : M <> 0 -> exists l, law L file_dec (generated korder enum argsort T' t st bs) l /\
  forall keep : key -> triplet -> bool, of_BX G <> [] -> (forall b, In b bs -> chosen T db t b (keep (b_key b))) ->
    exists f x fuel R c, rng_ok R /\ chainc korder enum argsort T' t bs fuel R 0%nat = Ok (x, c) /\ file_of st bs x = Ok f /\
      Forall2 (fun b outs => forall s, In s (all_triplets outs) <-> In s (blist b) /\ keep (b_key b) s = true) bs x.
Proof.
  intros HM. destruct (chain_law bs (incl_refl _)) as (l & Hl & G1 & G2 & Gu & G3).
  set (file := fun x => match file_of st bs x with Ok f => f | Err _ => None end).
  assert (Hok : forall x, In x l -> file_of st bs x = Ok (file x)).
  { intros x Hx. unfold file. destruct (file_of st bs x) as [f|e] eqn:E; [reflexivity|exfalso].
    destruct (law_attained L (proj1 HL) outss_dec _ l x Hl Hx) as (fuel & R & c & HR & Ec).
    pose proof (@generate_fine korder enum argsort R fuel korder_ok enum_ok argsort_ok HR t Ht T cols db rd dt kf T' bs st init 0 Hsz HG) as Hf.
    unfold file_of in E. unfold generate_triplets in Hf. destruct (Z.eqb_spec M 0) as [|_]; [contradiction|]. rewrite loop_chain in Hf. cbn [g_rng] in Hf. rewrite Ec in Hf.
    destruct (fit_integer_type M true) as [t1|e1] eqn:E1; cbn [bind] in *; [|apply fit_err in E1; cbn in Hf; congruence].
    destruct (fit_integer_type (s_nb_blocks st) true) as [t2|e2] eqn:E2; cbn [bind] in *; [|apply fit_err in E2; cbn in Hf; congruence].
    cbv zeta in E. cbn [at_draw g_bounds] in Hf.
    destruct (fit_integer_type (hd 0 _) true) as [t3|e3] eqn:E3; cbn [bind] in *; [discriminate|]. apply fit_err in E3. cbn in Hf. congruence. }
  exists (map file l). split.
  - apply (law_map L (proj1 HL) outss_dec file_dec (chainc korder enum argsort T' t bs) (file_of st bs) file l Hl Hok).
    intros x y Hx Hy E. apply shapes2_inj; [apply G1; assumption|].
    assert (HF : forall z, In z l -> exists f, file z = Some f /\ fl_triplets f = concat (map all_triplets z)).
    { intros z Hz. pose proof (Hok z Hz) as Hf. unfold file_of in Hf. destruct (Z.eqb_spec M 0) as [|_]; [contradiction|].
      apply bind_ok in Hf as (t1 & E1 & Hf). apply bind_ok in Hf as (t2 & _ & Hf). cbv zeta in Hf. apply bind_ok in Hf as (t3 & _ & Hf).
      injection Hf as Hf. rewrite <- Hf. eexists. split; [reflexivity|]. cbn [fl_triplets].
      pose proof (G2 z Hz) as F. rewrite final_triplets by (symmetry; apply (Forall2_len F)). cbn [g_triplets app].
      etransitivity; [|apply map_id]. apply map_ext_in. intros s Hs. apply in_concat in Hs as (ts & Hts & Hs). apply in_map_iff in Hts as (outs & <- & Ho).
      assert (exists b, In b bs /\ incl (all_triplets outs) (blist b)) as (b & Hb & Hi).
      { clear -F Ho. induction F as [|b o bl x H F IH]; [destruct Ho|]. destruct Ho as [->|Ho]; [exists b; split; [left; reflexivity|exact H]|].
        destruct (IH Ho) as (b' & Hb & Hi). exists b'. split; [right; exact Hb|exact Hi]. }
      apply (stored_same t1 b s E1 Hb (Hi s Hs)). }
    destruct (HF x Hx) as (f & E1 & <-). destruct (HF y Hy) as (f' & E2 & <-). congruence.
  - intros keep Hne Hch. destruct (G3 keep Hne Hch) as (x & Hx & F). destruct (law_attained L (proj1 HL) outss_dec _ l x Hl Hx) as (fuel & R & c & HR & Ec).
    exists (file x), x, fuel, R, c. split; [exact HR|]. split; [exact Ec|]. split; [apply Hok; exact Hx|exact F].
Qed.
End WithL.

Definition prog : program (option task_file) := fun fuel R => match gen fuel R with Ok (_, of) => Ok of | Err e => Err e end.

Lemma prog_generated fuel R of : M <> 0 -> (prog fuel R = Ok of <-> exists c', generated korder enum argsort T' t st bs fuel R 0%nat = Ok (of, c')).
Proof.
  intros HM. rewrite (generated_ok korder enum argsort T' t fuel R st bs 0%nat of HM). unfold prog.
  destruct (gen fuel R) as [[bs' of']|e]; split; try (intros (? & ?)); try discriminate; try congruence. intros H. injection H as ->. eauto.
Qed.

Lemma prog_even : evenly file_dec M prog.
Proof.
  destruct (Z.eq_dec M 0) as [HM|HM].
  - apply (evenly_of_laws file_dec M prog (fun _ _ c => Ok (None, c))).
    + intros fuel R a. unfold prog, generate_triplets. rewrite (proj2 (Z.eqb_eq _ _) HM). split; [intros H; injection H as <-; eauto|intros (c' & H); injection H as <- _; reflexivity].
    + intros L HL. exists [None]. apply law_ret. exact (proj1 HL).
  - apply (evenly_of_laws file_dec M prog (generated korder enum argsort T' t st bs)).
    + intros fuel R a. apply prog_generated. exact HM.
    + intros L HL. destruct (generated_law L HL HM) as (l & Hl & _). exists l. exact Hl.
Qed.

Lemma prog_choice (keep : key -> triplet -> bool) : of_BX G <> [] -> (exists k s, is_wanted T db k s) ->
  (forall k t0 all, is_wanted T db k t0 -> lists_that (fun s => is_wanted T db k s /\ same_group T (rows k) s t0) all ->
     Zlen (filter (keep k) all) = Z.min t (Zlen all)) ->
  exists f, possible prog (Some f) /\
    forall k s, (exists ij, In (k, ij) (combine (fl_bys f) (fl_by_index f)) /\ In s (rows_of ij (fl_triplets f))) <-> is_wanted T db k s /\ keep k s = true.
Proof.
  intros Hne (k1 & s1 & Hw1) Hch. destruct (multiple_ex M) as (L & HL).
  assert (HM : M <> 0).
  { destruct s1 as [[a b'] x]. cbn in Hw1. destruct (wanted_key _ korder_ok rd dt kf init Hw1) as (b & Hb & E). subst k1.
    apply (blist_In korder_ok enum_ok rd dt kf init _ _ _ _ Hb) in Hw1. pose proof (blist_le b Hb). unfold Zlen in H. destruct (blist b); [destruct Hw1|]. cbn [List.length] in H. lia. }
  destruct (generated_law L HL HM) as (l & Hl & Hk). destruct (Hk keep Hne) as (of & x & fuel & R & c & HR & Ec & Ef & F).
  { intros b _ t0 all. apply Hch. }
  assert (Hp : prog fuel R = Ok of) by (apply prog_generated; [exact HM|]; unfold generated; rewrite Ec, Ef; cbn [bind]; eauto).
  assert (Hof : exists f, of = Some f).
  { unfold file_of in Ef. destruct (Z.eqb_spec M 0) as [|_]; [contradiction|]. apply bind_ok in Ef as (? & _ & Ef). apply bind_ok in Ef as (? & _ & Ef).
    apply bind_ok in Ef as (? & _ & Ef). injection Ef as <-. eauto. }
  destruct Hof as (f & ->). exists f. split; [exists fuel, R; auto|].
  assert (Hgen : exists bs', gen fuel R = Ok (bs', Some f)).
  { unfold prog in Hp. destruct (gen fuel R) as [[bs' of']|e]; [|discriminate]. injection Hp as ->. eauto. }
  destruct Hgen as (bs' & Hgen).
  destruct (file_inv _ _ _ _ korder_ok _ _ _ init _ _ Hgen) as (outss & c2 & ty & Hc2 & Hty & _ & _ & F2 & Hall).
  apply chain_chainc in Hc2. rewrite Ec in Hc2. injection Hc2 as <- <-.
  assert (FF : forall b outs, In (b, outs) (combine bs x) -> In b bs /\ forall s, In s (all_triplets outs) <-> In s (blist b) /\ keep (b_key b) s = true).
  { clear -F. induction F as [|b0 o0 bl y H F IH]; intros b outs Hin; [destruct Hin|]. destruct Hin as [E|Hin]; [injection E as <- <-; split; [left; reflexivity|exact H]|].
    destruct (IH b outs Hin) as [Hb H']. split; [right; exact Hb|exact H']. }
  assert (Hwt : forall b s, In b bs -> (In s (blist b) <-> is_wanted T db (b_key b) s)).
  { intros b [[a b'] z] Hb. apply (blist_In korder_ok enum_ok rd dt kf init _ _ _ _ Hb). }
  assert (Em : forall b outs, In (b, outs) (combine bs x) -> map (cast3 ty) (all_triplets outs) = all_triplets outs).
  { intros b outs Hin. destruct (FF b outs Hin) as [Hb Hs]. etransitivity; [|apply map_id]. apply map_ext_in. intros s H.
    apply (stored_same ty b s Hty Hb). apply Hs. exact H. }
  pose proof F2 as F3. apply Forall2_combine in F3 as [HLn F3]. intros k s. split.
  - intros (ij & Hij & Hs). destruct (F3 _ _ Hij) as (b & outs & Hin & E & _ & Er). subst k. rewrite Er, (Em b outs Hin) in Hs.
    destruct (FF b outs Hin) as [Hb H]. apply H in Hs as [H1 H2]. split; [apply (Hwt b s Hb); exact H1|exact H2].
  - intros [Hw Hks]. destruct s as [[a b'] z]. pose proof Hw as Hw'. cbn in Hw'. destruct (wanted_key _ korder_ok rd dt kf init Hw') as (b & Hb & E). subst k.
    assert (exists outs, In (b, outs) (combine bs x)) as (outs & Hin).
    { clear -F Hb. induction F as [|b0 o0 bl y H F IH]; [destruct Hb|]. destruct Hb as [->|Hb]; [exists o0; left; reflexivity|].
      destruct (IH Hb) as (outs & Hin). exists outs. right. exact Hin. }
    destruct (FF b outs Hin) as [_ H]. assert (Hso : In (a, b', z) (all_triplets outs)) by (apply H; split; [apply (Hwt b _ Hb); exact Hw|exact Hks]).
    assert (Hby : In (b_key b) (fl_bys f)) by (apply (Hall b outs Hin); intros E; rewrite E in Hso; destruct Hso).
    assert (exists ij, In (b_key b, ij) (combine (fl_bys f) (fl_by_index f))) as (ij & Hij).
    { clear -HLn Hby. revert HLn. generalize (fl_by_index f). induction (fl_bys f) as [|k0 ks IH]; intros [|i is] HLn; try discriminate; try (destruct Hby; fail).
      destruct Hby as [->|Hby]; [exists i; left; reflexivity|]. destruct (IH Hby is) as (ij & Hij); [cbn in HLn; lia|]. exists ij. right. exact Hij. }
    destruct (F3 _ _ Hij) as (b2 & outs2 & Hin2 & E2 & _ & Er). exists ij. split; [exact Hij|].
    rewrite Er, (Em b2 outs2 Hin2). destruct (FF b2 outs2 Hin2) as [Hb2 H2]. apply H2. rewrite E2. split; [|exact Hks].
    apply (Hwt b2 _ Hb2). rewrite E2. exact Hw.
Qed.

End Main.

Lemma sample_even n N dtype : 0 <= n <= N -> N - 1 <= tmax dtype ->
  evenly zlist_dec N (fun fuel R => match sample_without_replacement R fuel 0 n N dtype with Ok (l, _) => Ok l | Err e => Err e end) /\
  forall l, possible (fun fuel R => match sample_without_replacement R fuel 0 n N dtype with Ok (l, _) => Ok l | Err e => Err e end) l <-> is_sample n N l.
Proof.
  intros Hn HT. assert (Hlaw : forall L, multiple N L -> law L zlist_dec (swr n N dtype) (samples n N)).
  { intros L [HL Hd]. apply swr_law; assumption. }
  split.
  - apply (evenly_of_laws zlist_dec N _ (swr n N dtype)).
    + intros fuel R a. unfold swr. destruct (sample_without_replacement R fuel 0 n N dtype) as [[l c]|e]; split; try (intros (? & ?)); try discriminate; try congruence.
      intros H. injection H as ->. eauto.
    + intros L HL. exists (samples n N). apply Hlaw. exact HL.
  - intros l. destruct (multiple_ex N) as (L & HL). rewrite <- (samples_In n N l) by lia. symmetry.
    apply (law_possible L (proj1 HL) zlist_dec (swr n N dtype) (samples n N) (Hlaw L HL)).
Qed.

Theorem files_even :
  forall korder enum argsort, lists_keys korder -> lists_set enum -> argsort_spec argsort ->
  forall T cols db T' bs st,
    reads cols (t_filters T) -> determined T db -> kept_first T db ->
    reg_reads cols (t_regressors T) -> reg_determined T db ->
    task_init korder enum T cols db = Ok (T', bs, st) -> room T db ->
    Zlen db * Zlen db * Zlen db < 2 ^ 63 -> r_ABX (t_regressors T) = false -> storable T db (capacity (s_nb_triplets st)) ->
  forall t, 0 < t ->
    evenly file_dec (s_nb_triplets st)
      (fun fuel R => match generate_triplets korder enum argsort R fuel T' (Some t) bs st 0 with Ok (_, of) => Ok of | Err e => Err e end).
Proof. intros. eapply prog_even; eauto. Qed.

Theorem every_choice :
  forall korder enum argsort, lists_keys korder -> lists_set enum -> argsort_spec argsort ->
  forall T cols db T' bs st,
    reads cols (t_filters T) -> determined T db -> kept_first T db ->
    reg_reads cols (t_regressors T) -> reg_determined T db ->
    task_init korder enum T cols db = Ok (T', bs, st) -> room T db ->
    Zlen db * Zlen db * Zlen db < 2 ^ 63 -> r_ABX (t_regressors T) = false -> storable T db (capacity (s_nb_triplets st)) ->
  forall t, 0 < t -> of_BX (t_regressors T) <> [] ->
  forall keep : key -> triplet -> bool,
    (exists k s, is_wanted T db k s) ->
    (forall k t0 all, is_wanted T db k t0 ->
       lists_that (fun s => is_wanted T db k s /\ same_group T (by_rows T db k) s t0) all ->
       Zlen (filter (keep k) all) = Z.min t (Zlen all)) ->
    exists f,
      possible (fun fuel R => match generate_triplets korder enum argsort R fuel T' (Some t) bs st 0 with Ok (_, of) => Ok of | Err e => Err e end) (Some f) /\
      forall k s, (exists ij, In (k, ij) (combine (fl_bys f) (fl_by_index f)) /\ In s (rows_of ij (fl_triplets f))) <->
        is_wanted T db k s /\ keep k s = true.
Proof. intros. eapply prog_choice; eauto. Qed.
