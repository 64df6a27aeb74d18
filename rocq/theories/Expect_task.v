(** With a threshold, the triplets of a group are kept with the same probability. *)
From Coq Require Import Reals Lra Ascii String.
From Verif Require Import Prelude ListFacts TypeFitting TypeFitting_proofs Sampler Sampler_spec Sampler_proofs Sampler_uniform
  Chance_spec Chance_count Chance_law Chance_sample Chance_runs Chance_core
  Task Task_spec Task_blocks Task_sort Task_regs Task_gen Task_file
  Task_proofs Task_main Task_total Task_reg_spec Task_align TaskIndex_spec Task_thr_total Task_thr_spec Task_thr_ends Chance_block Chance_task
  Expect_spec Expect.
Open Scope Z_scope.

Lemma equal3_iff s u : equal3 s u = true <-> s = u.
Proof.
  destruct s as [[a b] c], u as [[a' b'] c']. cbn. rewrite !andb_true_iff, !Z.eqb_eq. split; [intros [[-> ->] ->]; reflexivity|intros E; injection E; auto].
Qed.

Lemma listed_iff f k s : listed (Some f) k s = true <-> exists ij, In (k, ij) (combine (fl_bys f) (fl_by_index f)) /\ In s (rows_of ij (fl_triplets f)).
Proof.
  unfold listed. rewrite existsb_exists. split.
  - intros ([k' ij] & Hin & H). apply andb_true_iff in H as [H1 H2]. cbn [fst snd] in *. destruct (list_eq_dec Z.eq_dec k' k) as [->|]; [|discriminate].
    apply existsb_exists in H2 as (u & Hu & E). apply equal3_iff in E. subst u. eauto.
  - intros (ij & Hin & Hs). exists (k, ij). split; [exact Hin|]. cbn [fst snd]. destruct (list_eq_dec Z.eq_dec k k); [|congruence].
    apply existsb_exists. exists s. split; [exact Hs|]. apply equal3_iff. reflexivity.
Qed.

Lemma combine_fun {A B} (g : A -> key) (l : list A) : forall (m : list B) a b a' b', NoDup (map g l) ->
  In (a, b) (combine l m) -> In (a', b') (combine l m) -> g a = g a' -> a = a' /\ b = b'.
Proof.
  induction l as [|x l IH]; intros [|y m] a b a' b' Hn H H' E; try (destruct H; fail). cbn in Hn. apply NoDup_cons_iff in Hn as [Hx Hn].
  assert (Hc : forall c d, In (c, d) (combine l m) -> In (g c) (map g l)) by (intros c d Hcd; apply in_map; apply in_combine_l in Hcd; exact Hcd).
  destruct H as [H|H], H' as [H'|H'].
  - split; congruence.
  - injection H as <- <-. exfalso. apply Hx. rewrite E. exact (Hc _ _ H').
  - injection H' as <- <-. exfalso. apply Hx. rewrite <- E. exact (Hc _ _ H).
  - apply (IH m); assumption.
Qed.

Lemma same_group_sym T rows s u : same_group T rows s u -> same_group T rows u s.
Proof.
  intros [H1 H2]. split; [|intros ng Hn; symmetry; apply H2; exact Hn]. unfold same_block_of in *. destruct (t_across T); [congruence|].
  intros c Hc. symmetry. apply H1. exact Hc.
Qed.

Lemma same_group_trans T rows s u v : same_group T rows s u -> same_group T rows u v -> same_group T rows s v.
Proof.
  intros [H1 H2] [H3 H4]. split; [|intros ng Hn; rewrite H2 by exact Hn; apply H4; exact Hn]. unfold same_block_of in *. destruct (t_across T); [congruence|].
  intros c Hc. rewrite H1 by exact Hc. apply H3. exact Hc.
Qed.

(** The exchange of two triplets. *)
Definition sw (s s' u : triplet) : triplet := if equal3 u s then s' else if equal3 u s' then s else u.

Lemma sw_l s s' : sw s s' s = s'.
Proof. unfold sw. rewrite (proj2 (equal3_iff s s) eq_refl). reflexivity. Qed.

Lemma sw_r s s' : sw s s' s' = s.
Proof. unfold sw. destruct (equal3 s' s) eqn:E; [apply equal3_iff in E; exact E|]. rewrite (proj2 (equal3_iff s' s') eq_refl). reflexivity. Qed.

Lemma sw_other s s' u : u <> s -> u <> s' -> sw s s' u = u.
Proof.
  intros H H'. unfold sw. destruct (equal3 u s) eqn:E; [apply equal3_iff in E; contradiction|].
  destruct (equal3 u s') eqn:E'; [apply equal3_iff in E'; contradiction|reflexivity].
Qed.

Lemma sw_sw s s' u : sw s s' (sw s s' u) = u.
Proof.
  destruct (triplet_dec u s) as [->|H]; [rewrite sw_l; apply sw_r|]. destruct (triplet_dec u s') as [->|H']; [rewrite sw_r; apply sw_l|].
  rewrite (sw_other s s' u) by assumption. apply sw_other; assumption.
Qed.

Lemma sw_perm s s' l : NoDup l -> (In s l <-> In s' l) -> Permutation (map (sw s s') l) l.
Proof.
  intros Hn Hi. assert (Hs : forall u, In u l -> In (sw s s' u) l).
  { intros u Hu. destruct (triplet_dec u s) as [->|H]; [rewrite sw_l; tauto|]. destruct (triplet_dec u s') as [->|H']; [rewrite sw_r; tauto|].
    rewrite sw_other; auto. }
  apply NoDup_Permutation; [|exact Hn|].
  - apply FinFun.Injective_map_NoDup; [|exact Hn]. intros u v E. rewrite <- (sw_sw s s' u), E, sw_sw. reflexivity.
  - intros u. rewrite in_map_iff. split; [intros (v & <- & Hv); auto|]. intros Hu. exists (sw s s' u). split; [apply sw_sw|auto].
Qed.

Lemma sw_filter s s' (p : triplet -> bool) l : NoDup l -> (In s l <-> In s' l) ->
  List.length (filter (fun u => p (sw s s' u)) l) = List.length (filter p l).
Proof.
  intros Hn Hi. transitivity (List.length (filter p (map (sw s s') l))).
  - clear. induction l as [|u l IH]; [reflexivity|]. cbn. destruct (p (sw s s' u)); cbn; congruence.
  - apply Permutation_length, Permutation_filter, sw_perm; assumption.
Qed.

Section Main.
Variable korder : list key -> list key.
Variable enum : list Z -> list Z.
Variable argsort : list Z -> list nat.
Hypothesis korder_ok : lists_keys korder.
Hypothesis enum_ok : lists_set enum.
Hypothesis argsort_ok : argsort_spec argsort.
Variable T : task.
Variable cols : list string.
Variable db : list row.
Variable T' : task.
Variable bs : list by_block.
Variable st : stats.
Hypothesis rd : reads cols (t_filters T).
Hypothesis dt : determined T db.
Hypothesis kf : kept_first T db.
Hypothesis rr : reg_reads cols (t_regressors T).
Hypothesis rt : reg_determined T db.
Hypothesis init : task_init korder enum T cols db = Ok (T', bs, st).
Hypothesis rm : room T db.
Hypothesis Hsz : Zlen db * Zlen db * Zlen db < 2 ^ 63.
Hypothesis HG : r_ABX (t_regressors T) = false.
Hypothesis Hst : storable T db (capacity (s_nb_triplets st)).
Variable t : Z.
Hypothesis Ht : 0 < t.
Local Notation G := (t_regressors T).
Local Notation rows k := (by_rows T db k).
Local Notation M := (s_nb_triplets st).
Local Notation blist b := (by_list korder enum T' b).
Local Notation gen fuel R := (generate_triplets korder enum argsort R fuel T' (Some t) bs st 0).
Local Notation pr := (prog korder enum argsort T' bs st t).

Lemma file_lists f fuel R : rng_ok R -> pr fuel R = Ok (Some f) ->
  exists x c, chainc korder enum argsort T' t bs fuel R 0%nat = Ok (x, c) /\ file_of st bs x = Ok (Some f) /\
    Forall2 (fun b outs => incl (all_triplets outs) (blist b) /\ forall s, listed (Some f) (b_key b) s = true <-> In s (all_triplets outs)) bs x.
Proof.
  intros HR Hp.
  assert (HM : M <> 0).
  { intros HM. unfold prog, generate_triplets in Hp. rewrite (proj2 (Z.eqb_eq _ _) HM) in Hp. discriminate. }
  destruct (multiple_ex M) as (L & HL).
  destruct (chain_law korder enum argsort korder_ok enum_ok argsort_ok T cols db T' bs st rd dt kf rr rt init rm Hsz HG t Ht L HL bs (incl_refl _)) as (l & Hl & _ & G2 & _ & _).
  pose proof Hp as Hp'. apply prog_generated in Hp' as (c' & Hg); [|exact HM]. unfold generated in Hg.
  destruct (chainc korder enum argsort T' t bs fuel R 0%nat) as [[x c]|e] eqn:Ec; [|discriminate].
  apply bind_ok in Hg as (of & Ef & Hg). injection Hg as -> ->. exists x, c'. split; [reflexivity|]. split; [exact Ef|].
  assert (Hx : In x l). { apply (law_possible L (proj1 HL) outss_dec _ l Hl x). exists fuel, R. split; [exact HR|]. rewrite Ec. reflexivity. }
  specialize (G2 x Hx).
  assert (Hgen : exists bs', gen fuel R = Ok (bs', Some f)).
  { unfold prog in Hp. destruct (gen fuel R) as [[bs' of']|e]; [|discriminate]. injection Hp as ->. eauto. }
  destruct Hgen as (bs' & Hgen).
  destruct (file_inv _ _ _ _ korder_ok _ _ _ init _ _ Hgen) as (outss & c2 & ty & Hc2 & Hty & _ & _ & F2 & Hall).
  apply chain_chainc in Hc2. rewrite Ec in Hc2. injection Hc2 as <- <-.
  apply Forall2_combine in F2 as [HLn F3]. pose proof (keys_NoDup enum korder_ok _ _ _ init) as Nk.
  apply Forall2_combine. split; [apply (Forall2_len G2)|]. apply Forall2_combine in G2 as [_ G2]. intros b outs Hin. split; [apply (G2 _ _ Hin)|].
  assert (Hb : In b bs) by (apply in_combine_l in Hin; exact Hin).
  assert (Em : map (cast3 ty) (all_triplets outs) = all_triplets outs).
  { etransitivity; [|apply map_id]. apply map_ext_in. intros s H.
    apply (stored_same korder enum korder_ok enum_ok T cols db T' bs st rd dt kf init HG Hst ty b s Hty Hb). apply (G2 _ _ Hin). exact H. }
  intros s. rewrite listed_iff. split.
  - intros (ij & Hij & Hs). destruct (F3 _ _ Hij) as (b2 & outs2 & Hin2 & E & _ & Er).
    destruct (combine_fun b_key bs x _ _ _ _ Nk Hin2 Hin E) as [-> ->]. rewrite Er, Em in Hs. exact Hs.
  - intros Hso. assert (Hby : In (b_key b) (fl_bys f)) by (apply (Hall b outs Hin); intros E; rewrite E in Hso; destruct Hso).
    assert (exists ij, In (b_key b, ij) (combine (fl_bys f) (fl_by_index f))) as (ij & Hij).
    { clear -HLn Hby. revert HLn. generalize (fl_by_index f). induction (fl_bys f) as [|k0 ks IH]; intros [|i is] HLn; try discriminate; try (destruct Hby; fail).
      destruct Hby as [->|Hby]; [exists i; left; reflexivity|]. destruct (IH Hby is) as (ij & Hij); [cbn in HLn; lia|]. exists ij. right. exact Hij. }
    exists ij. split; [exact Hij|]. destruct (F3 _ _ Hij) as (b2 & outs2 & Hin2 & E & _ & Er).
    destruct (combine_fun b_key bs x _ _ _ _ Nk Hin2 Hin E) as [-> ->]. rewrite Er, Em. exact Hso.
Qed.

(** A file that can be written is known by the triplets it lists. *)
Lemma files_known f g : possible pr (Some f) -> possible pr (Some g) -> (forall k s, listed (Some f) k s = listed (Some g) k s) -> f = g.
Proof.
  intros (fu & R & HR & Hf) (gu & S & HS & Hg) E.
  destruct (file_lists f fu R HR Hf) as (x & c & Ex & Fx & Lx). destruct (file_lists g gu S HS Hg) as (y & d & Ey & Fy & Ly).
  destruct (multiple_ex M) as (L & HL).
  destruct (chain_law korder enum argsort korder_ok enum_ok argsort_ok T cols db T' bs st rd dt kf rr rt init rm Hsz HG t Ht L HL bs (incl_refl _)) as (l & Hl & _ & _ & Gu & _).
  assert (Hx : In x l). { apply (law_possible L (proj1 HL) outss_dec _ l Hl x). exists fu, R. split; [exact HR|]. rewrite Ex. reflexivity. }
  assert (Hy : In y l). { apply (law_possible L (proj1 HL) outss_dec _ l Hl y). exists gu, S. split; [exact HS|]. rewrite Ey. reflexivity. }
  assert (x = y).
  { apply Gu; auto. clear -Lx Ly E. revert y Ly. induction Lx as [|b o bl x H F IH]; intros y Ly; inversion Ly as [|? o' ? y' H' F']; subst; constructor.
    - intros s. destruct H as [_ H], H' as [_ H']. rewrite <- H, <- H', E. tauto.
    - apply IH. exact F'. }
  subst y. rewrite Fx in Fy. congruence.
Qed.

Lemma listed_wanted of k s : possible pr of -> listed of k s = true -> is_wanted T db k s.
Proof.
  intros (fu & R & HR & Hf) Hl. destruct of as [f|]; [|discriminate]. pose proof Hl as Hl'. apply listed_iff in Hl as (ij & Hij & Hs).
  destruct (file_lists f fu R HR Hf) as (x & c & Ex & Fx & Lx).
  assert (Hgen : exists bs', gen fu R = Ok (bs', Some f)).
  { unfold prog in Hf. destruct (gen fu R) as [[bs' of']|e]; [|discriminate]. injection Hf as ->. eauto. }
  destruct Hgen as (bs' & Hgen).
  destruct (file_inv _ _ _ _ korder_ok _ _ _ init _ _ Hgen) as (outss & c2 & ty & Hc2 & Hty & _ & _ & F2 & Hall).
  apply Forall2_combine in F2 as [_ F3]. destruct (F3 _ _ Hij) as (b2 & outs2 & Hin2 & E & _ & _). subst k.
  apply in_combine_l in Hin2. assert (exists outs, In (b2, outs) (combine bs x)) as (outs & Hin).
  { clear -Lx Hin2. induction Lx as [|b0 o0 bl y H F IH]; [destruct Hin2|]. destruct Hin2 as [->|Hb]; [exists o0; left; reflexivity|].
    destruct (IH Hb) as (outs & Hin). exists outs. right. exact Hin. }
  apply Forall2_combine in Lx as [_ Lx]. destruct (Lx _ _ Hin) as [Hi Hs']. destruct s as [[a b'] z].
  apply (blist_In korder_ok enum_ok rd dt kf init _ _ _ _ Hin2). apply Hi, Hs'. exact Hl'.
Qed.

Hypothesis Hne : of_BX G <> [].

Lemma listed_count f k t0 all : possible pr (Some f) -> is_wanted T db k t0 ->
  lists_that (fun s => is_wanted T db k s /\ same_group T (rows k) s t0) all ->
  Zlen (filter (listed (Some f) k) all) = Z.min t (Zlen all).
Proof.
  intros Hpos Hw Hall. pose proof Hpos as (fu & R & HR & Hf).
  assert (Hgen : exists bs', gen fu R = Ok (bs', Some f)).
  { unfold prog in Hf. destruct (gen fu R) as [[bs' of']|e]; [|discriminate]. injection Hf as ->. eauto. }
  destruct Hgen as (bs' & Hgen).
  destruct (threshold_kept fu korder_ok enum_ok argsort_ok rd dt kf rr rt init 0 Hgen HR rm Hst Ht Hne eq_refl) as [H1 H2].
  destruct (file_inv _ _ _ _ korder_ok _ _ _ init _ _ Hgen) as (outss & c2 & ty & Hc2 & Hty & _ & Nb & F2 & _).
  apply Forall2_combine in F2 as [HLn _].
  assert (Hby : In k (fl_bys f)) by (apply H1; eauto).
  assert (exists ij, In (k, ij) (combine (fl_bys f) (fl_by_index f))) as (ij & Hij).
  { clear -HLn Hby. revert HLn. generalize (fl_by_index f). induction (fl_bys f) as [|k0 ks IH]; intros [|i is] HLn; try discriminate; try (destruct Hby; fail).
    destruct Hby as [->|Hby]; [exists i; left; reflexivity|]. destruct (IH Hby is) as (ij & Hij); [cbn in HLn; lia|]. exists ij. right. exact Hij. }
  destruct (H2 _ _ Hij) as [_ H3]. apply (H3 t0 all _ Hw Hall). destruct Hall as [N1 N2]. split; [apply NoDup_filter; exact N1|].
  intros s. rewrite filter_In, N2. split.
  - intros [[_ Hg] Hl]. split; [|exact Hg]. apply listed_iff in Hl as (ij' & Hij' & Hs).
    assert (ij' = ij). { apply (combine_fun (fun k => k) (fl_bys f) (fl_by_index f) k ij' k ij); auto. rewrite map_id. exact Nb. }
    subst ij'. exact Hs.
  - intros [Hs Hg]. assert (Hl : listed (Some f) k s = true) by (apply listed_iff; eauto). split; [split; [|exact Hg]|exact Hl].
    apply (listed_wanted _ _ _ Hpos Hl).
Qed.

Section Group.
Variable k : key.
Variable t0 : triplet.
Variable all : list triplet.
Hypothesis Hw : is_wanted T db k t0.
Hypothesis Hall : lists_that (fun s => is_wanted T db k s /\ same_group T (rows k) s t0) all.

Lemma nb_pos : M <> 0.
Proof.
  destruct t0 as [[a b'] x]. pose proof Hw as H. cbn in H. destruct (wanted_key _ korder_ok rd dt kf init H) as (b & Hb & E).
  subst k. apply (blist_In korder_ok enum_ok rd dt kf init _ _ _ _ Hb) in H. pose proof (blist_le korder enum korder_ok enum_ok T cols db T' bs st init b Hb) as Hle.
  unfold Zlen in Hle. destruct (blist b); [destruct H|]. cbn [List.length] in Hle. lia.
Qed.

Lemma some_file of : possible pr of -> exists f, of = Some f.
Proof.
  intros (fu & R & HR & Hf). apply prog_generated in Hf as (c & Hg); [|exact nb_pos]. unfold generated in Hg.
  destruct (chainc korder enum argsort T' t bs fu R 0%nat) as [[x c1]|e]; [|discriminate]. apply bind_ok in Hg as (of' & Ef & Hg). injection Hg as -> ->.
  unfold file_of in Ef. destruct (Z.eqb_spec M 0) as [|_]; [destruct nb_pos; assumption|]. apply bind_ok in Ef as (? & _ & Ef). apply bind_ok in Ef as (? & _ & Ef).
  apply bind_ok in Ef as (? & _ & Ef). injection Ef as <-. eauto.
Qed.

Definition swk (s s' : triplet) (k' : key) (u : triplet) : triplet := if list_eq_dec Z.eq_dec k' k then sw s s' u else u.

Lemma swk_swk s s' k' u : swk s s' k' (swk s s' k' u) = u.
Proof. unfold swk. destruct (list_eq_dec Z.eq_dec k' k); [apply sw_sw|reflexivity]. Qed.

Lemma swapped f s s' : possible pr (Some f) -> In s all -> In s' all ->
  exists f', possible pr (Some f') /\ forall k' u, listed (Some f') k' u = listed (Some f) k' (swk s s' k' u).
Proof.
  intros Hp Hs Hs'. destruct Hall as [N1 N2]. apply N2 in Hs as [Ws Gs]. apply N2 in Hs' as [Ws' Gs'].
  destruct (prog_choice korder enum argsort korder_ok enum_ok argsort_ok T cols db T' bs st rd dt kf rr rt init rm Hsz HG Hst t Ht
    (fun k' u => listed (Some f) k' (swk s s' k' u)) Hne) as (f' & Hp' & E).
  - eauto.
  - intros k' t1 all' Hw' Hall'. rewrite <- (listed_count f k' t1 all' Hp Hw' Hall'). unfold Zlen. f_equal. unfold swk.
    destruct (list_eq_dec Z.eq_dec k' k) as [->|]; [|reflexivity]. destruct Hall' as [N1' N2']. apply sw_filter; [exact N1'|]. rewrite !N2'.
    split; intros [_ Hg]; (split; [assumption|]).
    + eapply same_group_trans; [exact Gs'|]. eapply same_group_trans; [apply same_group_sym; exact Gs|exact Hg].
    + eapply same_group_trans; [exact Gs|]. eapply same_group_trans; [apply same_group_sym; exact Gs'|exact Hg].
  - exists f'. split; [exact Hp'|]. intros k' u. apply Bool.eq_iff_eq_true. rewrite listed_iff, E. split; [tauto|]. intros Hl. split; [|exact Hl].
    apply (listed_wanted _ _ _ Hp) in Hl. unfold swk in Hl. destruct (list_eq_dec Z.eq_dec k' k) as [->|]; [|exact Hl].
    destruct (triplet_dec u s) as [->|H]; [exact Ws|]. destruct (triplet_dec u s') as [->|H']; [exact Ws'|]. rewrite sw_other in Hl; assumption.
Qed.

Lemma kept_share s : In s all ->
  expects M pr (fun of => if listed of k s then 1 else 0)%R (IZR (Z.min t (Zlen all)) / IZR (Zlen all))%R.
Proof.
  intros Hs. destruct (even_expects file_dec M pr) as (l & H1 & H2 & H3 & H4).
  { eapply prog_even; eauto. }
  specialize (H4 (fun of => if listed of k s then 1 else 0)%R). rewrite Rsum_count in H4.
  assert (Hc : (List.length all * List.length (filter (fun of => listed of k s) l) = List.length l * Z.to_nat (Z.min t (Zlen all)))%nat).
  { apply (exchange_count (fun of => listed of k) l all); auto.
    - intros of Ho. apply H3 in Ho. destruct (some_file of Ho) as (f & ->). rewrite <- (listed_count f k t0 all Ho Hw Hall). unfold Zlen. lia.
    - intros u u' Hu Hu'. apply (injection_le (fun of of' => possible pr of /\ forall k' v, listed of' k' v = listed of k' (swk u u' k' v))).
      + apply NoDup_filter. exact H2.
      + intros of Ho. apply filter_In in Ho as [Ho Hl]. apply H3 in Ho. destruct (some_file of Ho) as (f & ->).
        destruct (swapped f u u' Ho Hu Hu') as (f' & Hp' & E). exists (Some f'). split; [|split; [exact Ho|exact E]].
        apply filter_In. split; [apply H3; exact Hp'|]. rewrite E. unfold swk. destruct (list_eq_dec Z.eq_dec k k); [|congruence]. rewrite sw_r. exact Hl.
      + intros a a' b [Ha Ea] [Ha' Ea']. destruct (some_file a Ha) as (f & ->). destruct (some_file a' Ha') as (f' & ->). f_equal.
        apply files_known; auto. intros k' v. rewrite <- (swk_swk u u' k' v), <- Ea, <- Ea'. reflexivity. }
  assert (Hn : (0 < INR (List.length all))%R) by (apply lt_0_INR; destruct all; [destruct Hs|cbn; lia]).
  assert (Hl : (0 < INR (List.length l))%R) by (apply lt_0_INR; destruct l; [congruence|cbn; lia]).
  replace (IZR (Z.min t (Zlen all)) / IZR (Zlen all))%R with (INR (List.length (filter (fun of => listed of k s) l)) / INR (List.length l))%R; [exact H4|].
  unfold Zlen. rewrite <- !INR_IZR_INZ. replace (IZR (Z.min t (Z.of_nat (List.length all)))) with (INR (Z.to_nat (Z.min t (Zlen all)))).
  2:{ rewrite INR_IZR_INZ. f_equal. unfold Zlen. lia. }
  apply (f_equal INR) in Hc. rewrite !mult_INR in Hc. apply (Rmult_eq_reg_l (INR (List.length all) * INR (List.length l))%R); [|apply Rgt_not_eq, Rmult_lt_0_compat; assumption].
  field_simplify; [|lra|lra]. rewrite Hc. ring.
Qed.

Lemma mean_kept (v : triplet -> R) :
  expects M pr (fun of => Rsum (map v (filter (listed of k) all)) / IZR (Z.min t (Zlen all)))%R (Rsum (map v all) / IZR (Zlen all))%R.
Proof.
  assert (Hin : In t0 all).
  { apply (proj2 Hall). split; [exact Hw|]. split; [unfold same_block_of; destruct (t_across T); [reflexivity|]; intros c _; reflexivity|reflexivity]. }
  assert (Hn : 0 < Zlen all) by (unfold Zlen; destruct all; [destruct Hin|cbn [List.length]; lia]).
  assert (H := expects_scal M pr _ _ (/ IZR (Z.min t (Zlen all)))
    (expects_sum M pr (fun s of => v s * (if listed of k s then 1 else 0))%R (fun s => v s * (IZR (Z.min t (Zlen all)) / IZR (Zlen all)))%R all
      (fun s Hs => expects_scal M pr _ _ (v s) (kept_share s Hs)))).
  assert (Hm : (0 < IZR (Z.min t (Zlen all)))%R) by (apply IZR_lt; lia). assert (Hn' : (0 < IZR (Zlen all))%R) by (apply IZR_lt; lia).
  replace (Rsum (map v all) / IZR (Zlen all))%R with (/ IZR (Z.min t (Zlen all)) * Rsum (map (fun s => v s * (IZR (Z.min t (Zlen all)) / IZR (Zlen all))) all))%R.
  - eapply expects_ext; [|exact H]. intros of. cbn beta. unfold Rdiv. rewrite Rmult_comm. f_equal. clear.
    induction all as [|s l IH]; [reflexivity|]. cbn [map filter]. rewrite Rsum_cons, IH. destruct (listed of k s); [cbn [map]; rewrite Rsum_cons; lra|lra].
  - rewrite (map_ext _ (fun s => (IZR (Z.min t (Zlen all)) / IZR (Zlen all)) * v s)%R) by (intros; lra). rewrite Rsum_scal. field. lra.
Qed.
End Group.
End Main.

Theorem files_by_triplets :
  forall korder enum argsort, lists_keys korder -> lists_set enum -> argsort_spec argsort ->
  forall T cols db T' bs st,
    reads cols (t_filters T) -> determined T db -> kept_first T db ->
    reg_reads cols (t_regressors T) -> reg_determined T db ->
    task_init korder enum T cols db = Ok (T', bs, st) -> room T db ->
    Zlen db * Zlen db * Zlen db < 2 ^ 63 -> r_ABX (t_regressors T) = false -> storable T db (capacity (s_nb_triplets st)) ->
  forall t, 0 < t ->
  forall f g,
    possible (fun fuel R => match generate_triplets korder enum argsort R fuel T' (Some t) bs st 0 with Ok (_, of) => Ok of | Err e => Err e end) (Some f) ->
    possible (fun fuel R => match generate_triplets korder enum argsort R fuel T' (Some t) bs st 0 with Ok (_, of) => Ok of | Err e => Err e end) (Some g) ->
    (forall k s, listed (Some f) k s = listed (Some g) k s) -> f = g.
Proof. intros. eapply files_known; eauto. Qed.

Theorem kept_probability :
  forall korder enum argsort, lists_keys korder -> lists_set enum -> argsort_spec argsort ->
  forall T cols db T' bs st,
    reads cols (t_filters T) -> determined T db -> kept_first T db ->
    reg_reads cols (t_regressors T) -> reg_determined T db ->
    task_init korder enum T cols db = Ok (T', bs, st) -> room T db ->
    Zlen db * Zlen db * Zlen db < 2 ^ 63 -> r_ABX (t_regressors T) = false -> storable T db (capacity (s_nb_triplets st)) ->
  forall t, 0 < t -> of_BX (t_regressors T) <> [] ->
  forall k t0 all, is_wanted T db k t0 ->
    lists_that (fun s => is_wanted T db k s /\ same_group T (by_rows T db k) s t0) all ->
  forall s, In s all ->
    expects (s_nb_triplets st)
      (fun fuel R => match generate_triplets korder enum argsort R fuel T' (Some t) bs st 0 with Ok (_, of) => Ok of | Err e => Err e end)
      (fun of => if listed of k s then 1 else 0)%R
      (IZR (Z.min t (Zlen all)) / IZR (Zlen all))%R.
Proof. intros. eapply kept_share; eauto. Qed.

Theorem kept_mean :
  forall korder enum argsort, lists_keys korder -> lists_set enum -> argsort_spec argsort ->
  forall T cols db T' bs st,
    reads cols (t_filters T) -> determined T db -> kept_first T db ->
    reg_reads cols (t_regressors T) -> reg_determined T db ->
    task_init korder enum T cols db = Ok (T', bs, st) -> room T db ->
    Zlen db * Zlen db * Zlen db < 2 ^ 63 -> r_ABX (t_regressors T) = false -> storable T db (capacity (s_nb_triplets st)) ->
  forall t, 0 < t -> of_BX (t_regressors T) <> [] ->
  forall k t0 all, is_wanted T db k t0 ->
    lists_that (fun s => is_wanted T db k s /\ same_group T (by_rows T db k) s t0) all ->
  forall v : triplet -> R,
    expects (s_nb_triplets st)
      (fun fuel R => match generate_triplets korder enum argsort R fuel T' (Some t) bs st 0 with Ok (_, of) => Ok of | Err e => Err e end)
      (fun of => Rsum (map v (filter (listed of k) all)) / IZR (Z.min t (Zlen all)))%R
      (Rsum (map v all) / IZR (Zlen all))%R.
Proof. intros. eapply mean_kept; eauto. Qed.
