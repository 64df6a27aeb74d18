(** The number of levels. *)
From Coq Require Import String.
From Verif Require Import Prelude ListFacts TypeFitting TypeFitting_proofs
  Sampler Sampler_spec Sampler_proofs Task Task_spec Task_blocks Task_sort Task_regs Task_gen Task_file
  Task_proofs Task_main Task_stats_spec Task_stats Levels Levels_spec.
Set Implicit Arguments.
Open Scope Z_scope.

Lemma map_count {A B} (f : A -> B) (l : list A) (m : list B) :
  NoDup l -> NoDup m -> (forall x y, In x l -> In y l -> f x = f y -> x = y) ->
  (forall y, In y m <-> exists x, In x l /\ f x = y) -> Zlen l = Zlen m.
Proof.
  intros Hl Hm Hi H. unfold Zlen. f_equal. rewrite <- (map_length f). apply Permutation_length, NoDup_Permutation; [|exact Hm|].
  - clear -Hl Hi. induction Hl as [|x l Hx Hl IH]; cbn; constructor.
    + intros H. apply in_map_iff in H as (y & E & Hy). apply Hx. rewrite (Hi x y); [exact Hy|left; reflexivity|right; exact Hy|congruence].
    + apply IH. intros a b Ha Hb. apply Hi; right; assumption.
  - intros y. rewrite H, in_map_iff. split; intros (x & H1 & H2); exists x; auto.
Qed.

Section Stats.
Variable korder : list key -> list key.
Variable enum : list Z -> list Z.
Hypothesis korder_ok : lists_keys korder.
Hypothesis enum_ok : lists_set enum.

Section By.
Variable T : task.
Hypothesis Hac : t_across T <> [].
Variable b : by_block.
Hypothesis wf : wf_block b.
Hypothesis al : aligned (b_frame b).
Hypothesis det : block_det T b.
Local Notation fr := (b_frame b).
Local Notation cols := (t_on T :: t_across T).
Local Notation by_keys := (korder (keys cols (map snd fr))).

Definition grouping : list string := if no_across T then [t_on T] else cols.
Definition KB (k : key) : list key := keys grouping (map (rowof b) (Bs T b k)).
Definition KX (k : key) : list key := keys grouping (map (rowof b) (Xs T b k)).
Definition lvl (k : key) : list (key * (key * key)) :=
  if kept_block T b k then map (pair k) (list_prod (KB k) (KX k)) else [].

Lemma Bs_labels k : incl (Bs T b k) (labels fr).
Proof.
  intros l. unfold Bs. destruct (no_across T); rewrite In_set_diff; [tauto|]. intros [H _]. apply (In_group_label b) in H. exact H.
Qed.

Lemma Xs_labels k : incl (Xs T b k) (labels fr).
Proof. intros l. unfold Xs. rewrite In_set_diff. intros [H _]. apply (In_group_label b) in H. exact H. Qed.

Lemma nb_groups_ok l : incl l (labels fr) -> nb_groups grouping fr (enum l) = Ok (Zlen (keys grouping (map (rowof b) l))).
Proof.
  intros H. unfold nb_groups.
  rewrite (@mapM_ok_map _ _ (iloc fr) (rowof b)).
  - cbn [bind]. f_equal. apply same_len; [apply NoDup_keys|apply NoDup_keys|]. intros k. rewrite !In_keys.
    split; intros (r & Hr & E); exists r; (split; [|exact E]); apply in_map_iff in Hr as (i & Ei & Hi); apply in_map_iff;
      exists i; (split; [exact Ei|]); rewrite (In_enum enum enum_ok) in *; exact Hi.
  - intros i Hi. rewrite (In_enum enum enum_ok) in Hi. apply al, (In_rowof wf), H, Hi.
Qed.

Lemma level_items_ok k : level_items enum T b k (group cols fr k) = (enum (Bs T b k), enum (Xs T b k)).
Proof.
  unfold level_items.
  assert (C : forall l, incl l (labels fr) -> map (cast (b_type b)) l = l).
  { intros l Hl. apply map_cast_id. intros x Hx. apply (wf_cast wf), Hl, Hx. }
  assert (CE : forall l, incl l (labels fr) -> map (cast (b_type b)) (enum l) = enum l).
  { intros l Hl. apply C. intros x Hx. apply Hl, (In_enum enum enum_ok), Hx. }
  rewrite (C (group cols fr k)) by (intros l; apply (In_group_label b)).
  pose proof (Bs_labels k) as HB. pose proof (Xs_labels k) as HX. unfold Bs, Xs in *.
  destruct (no_across T); rewrite !CE by assumption; reflexivity.
Qed.

Lemma Zlen_enum l : Zlen (enum l) = Zlen l.
Proof. unfold Zlen. f_equal. apply Permutation_length, enum_ok. Qed.

Lemma levels_fold ks n : incl ks (keys cols (map snd fr)) ->
  foldM (levels_step enum true T b) (map (fun k => (k, group cols fr k)) ks) n = Ok (n + Zlen (flat_map lvl ks)).
Proof.
  revert n. induction ks as [|k ks IH]; intros n Hk; cbn [map foldM].
  - cbn. unfold Zlen. cbn. f_equal. lia.
  - destruct (block_val_ok _ _ al k (Hk k (or_introl eq_refl))) as (lv & v & Hv & Hvin & Ev).
    assert (Hks : incl ks (keys cols (map snd fr))) by (intros x Hx; apply Hk; right; exact Hx).
    assert (S : levels_step enum true T b n (k, group cols fr k) = Ok (n + Zlen (lvl k))).
    { unfold levels_step. unfold block_val in Hv.
      destruct (nth_res (group cols fr k) 0) as [l0|] eqn:El; [|discriminate Hv]. cbn [bind] in *.
      assert (Hl0 : In l0 (labels fr)).
      { unfold nth_res in El. destruct (nth_error (group cols fr k) 0) eqn:EE; [injection El as <-|discriminate El].
        apply (In_group_label b cols k), (nth_error_In _ _ EE). }
      assert (Elo : loc fr l0 = Ok v).
      { rewrite (loc_rowof wf _ Hl0). rewrite (al _ _ (In_rowof wf _ Hl0)) in Hv. exact Hv. }
      unfold ix. rewrite Elo. cbn [bind]. unfold lvl, kept_block, block_val. rewrite El. cbn [bind]. rewrite Hv.
      destruct (f_oab (t_filters T) v); [|cbn; f_equal; unfold Zlen; cbn; lia].
      rewrite level_items_ok, !Zlen_enum.
      assert (EP : Zlen (map (pair k) (list_prod (KB k) (KX k))) = Zlen (KB k) * Zlen (KX k)).
      { unfold Zlen at 1. rewrite map_length. apply Zlen_list_prod. }
      rewrite EP. destruct ((0 <? Zlen (Bs T b k)) && (0 <? Zlen (Xs T b k))) eqn:E0.
      - change (if no_across T then [t_on T] else cols) with grouping. rewrite !nb_groups_ok by (apply Bs_labels || apply Xs_labels).
        reflexivity.
      - f_equal. apply andb_false_iff in E0. unfold KB, KX.
        assert (Z0 : forall l : list Z, (0 <? Zlen l) = false -> Zlen (keys grouping (map (rowof b) l)) = 0).
        { intros [|? ?] Hz; [reflexivity|]. unfold Zlen in Hz. apply Z.ltb_ge in Hz. cbn [length] in Hz. lia. }
        destruct E0 as [E0|E0]; apply Z0 in E0; rewrite E0; lia. }
    rewrite S. cbn [bind]. rewrite IH by exact Hks. cbn [flat_map]. rewrite Zlen_app'. f_equal. lia.
Qed.

Lemma levels_by_ok : levels_by korder enum true T b = Ok (Zlen (flat_map lvl by_keys)).
Proof.
  unfold levels_by, groups. rewrite levels_fold; [f_equal; lia|]. intros k. apply (Permutation_in _ (korder_ok _)).
Qed.

Lemma NoDup_lvl : NoDup (flat_map lvl by_keys).
Proof.
  apply NoDup_flat_map_inj with (g := fst).
  - apply (Permutation_NoDup (Permutation_sym (korder_ok _))), NoDup_keys.
  - intros k _. unfold lvl. destruct (kept_block T b k); [|constructor].
    apply FinFun.Injective_map_NoDup; [intros x y E; congruence|]. apply NoDup_list_prod; apply NoDup_keys.
  - intros k y. unfold lvl. destruct (kept_block T b k); [|intros []]. intros H. apply in_map_iff in H as (p & <- & _). reflexivity.
Qed.

Lemma In_lvl k kb kx : In (k, (kb, kx)) (flat_map lvl by_keys) <->
  exists a b' x ra rb rx, In (a, ra) fr /\ In (b', rb) fr /\ In (x, rx) fr /\
    f_oab (t_filters T) ra = true /\
    rb (t_on T) <> ra (t_on T) /\ (no_across T = false -> proj (t_across T) rb = proj (t_across T) ra) /\
    rx (t_on T) = ra (t_on T) /\ proj (t_across T) rx <> proj (t_across T) ra /\
    k = proj cols ra /\ kb = proj grouping rb /\ kx = proj grouping rx.
Proof.
  assert (HK : forall (k0 : key) l kb0, incl l (labels fr) -> (In kb0 (keys grouping (map (rowof b) l)) <->
     exists b' rb, In b' l /\ In (b', rb) fr /\ kb0 = proj grouping rb)).
  { intros k0 l k1 Hl. rewrite In_keys. split.
    - intros (r & Hr & E). apply in_map_iff in Hr as (i & Ei & Hi). exists i, r. split; [exact Hi|].
      split; [|auto]. rewrite <- Ei. apply (In_rowof wf), Hl, Hi.
    - intros (i & r & Hi & Hr & ->). exists r. split; [|reflexivity]. apply in_map_iff. exists i.
      split; [apply (rowof_In wf _ _ Hr)|exact Hi]. }
  rewrite in_flat_map. split.
  - intros (k0 & Hk & H). apply (Permutation_in _ (korder_ok _)) in Hk. unfold lvl in H.
    destruct (kept_block T b k0) eqn:Ek; [|destruct H]. apply in_map_iff in H as (p & E & H). inversion E; subst k0 p. clear E.
    apply in_prod_iff in H as [H1 H2]. apply (HK k) in H1; [|apply Bs_labels]. apply (HK k) in H2; [|apply Xs_labels].
    destruct H1 as (b' & rb & Hb' & Hrb & ->). destruct H2 as (x & rx & Hx & Hrx & ->).
    pose proof Hk as Hk'. apply In_keys in Hk' as (ra & Hra & Ea). apply in_map_iff in Hra as ([a ra'] & E & Hra). cbn in E. subst ra'.
    assert (Ia : In a (group cols fr k)) by (apply In_group; eauto).
    assert (P1 : In (a, b') (apairs T b k)) by (unfold apairs; rewrite Ek; apply in_prod_iff; auto).
    assert (P2 : In (a, x) (opairs T b k)) by (unfold opairs; rewrite Ek; apply in_prod_iff; auto).
    apply (In_apairs wf al det _ _ _ Hk) in P1 as (r1 & r2 & A1 & A2 & A3 & A4 & A5 & A6).
    apply (In_opairs wf al det _ _ _ Hk) in P2 as (r3 & r4 & B1 & B2 & B3 & B4 & B5 & B6).
    pose proof (wf_nodup wf) as Hn.
    rewrite (label_unique _ _ _ _ Hn A1 Hra) in *. rewrite (label_unique _ _ _ _ Hn A2 Hrb) in *.
    rewrite (label_unique _ _ _ _ Hn B1 Hra) in *. rewrite (label_unique _ _ _ _ Hn B2 Hrx) in *.
    exists a, b', x, ra, rb, rx. auto 20.
  - intros (a & b' & x & ra & rb & rx & Ha & Hb' & Hx & F & D1 & D2 & D3 & D4 & -> & -> & ->).
    assert (Hk : In (proj cols ra) (keys cols (map snd fr))).
    { apply In_keys. exists ra. split; [|reflexivity]. apply in_map_iff. exists (a, ra). auto. }
    exists (proj cols ra). split; [apply (Permutation_in _ (Permutation_sym (korder_ok _))), Hk|].
    assert (P1 : In (a, b') (apairs T b (proj cols ra))) by (apply (In_apairs wf al det _ _ _ Hk); exists ra, rb; auto 10).
    assert (P2 : In (a, x) (opairs T b (proj cols ra))) by (apply (In_opairs wf al det _ _ _ Hk); exists ra, rx; auto 10).
    unfold apairs, opairs, lvl in *. destruct (kept_block T b (proj cols ra)); [|destruct P1].
    apply in_prod_iff in P1 as [_ P1]. apply in_prod_iff in P2 as [_ P2].
    apply in_map. apply in_prod_iff. split.
    + apply (HK (proj cols ra)); [apply Bs_labels|]. eauto.
    + apply (HK (proj cols ra)); [apply Xs_labels|]. eauto.
Qed.

End By.
(* ------------------------------------------------------------------ *)
(** ** On the table of the user *)

Variable T : task.
Variable cs : list string.
Variable db : list row.
Variable T' : task.
Variable bs : list by_block.
Variable st : stats.
Hypothesis rd : reads cs (t_filters T).
Hypothesis dt : determined T db.
Hypothesis kf : kept_first T db.
Hypothesis init : task_init korder enum T cs db = Ok (T', bs, st).

Section Key.
Variable b : by_block.
Hypothesis Hb : In b bs.
Local Notation k := (b_key b).

Lemma chk : check_database cs (t_on T) (t_across T) (t_by T) = Ok tt.
Proof. apply (init_inv _ _ _ _ _ init). Qed.

Lemma T'_eqs : t_on T' = t_on T /\ t_filters T' = t_filters T /\
  t_across T' = match t_across T with [] => ["#across"%string] | a => a end /\
  no_across T' = match t_across T with [] => true | _ => false end.
Proof.
  destruct (init_inv _ _ _ _ _ init) as (_ & ET & _). rewrite ET.
  split; [reflexivity|]. split; [reflexivity|]. split; [apply T'_across|].
  rewrite (no_across_T' _ _ _ chk). reflexivity.
Qed.

(** The conditions on lines, on the table of the user. *)
Definition rows_ok (a b' x : Z) (ra rb rx : row) : Prop :=
  kept_item T db k a ra /\ kept_item T db k b' rb /\ kept_item T db k x rx /\
  f_oab (t_filters T) ra = true /\
  rb (t_on T) <> ra (t_on T) /\ (forall c, In c (t_across T) -> rb c = ra c) /\
  rx (t_on T) = ra (t_on T) /\
  match t_across T with [] => x <> a | _ => exists c, In c (t_across T) /\ rx c <> ra c end.

Lemma item_unique i r r' : item (by_rows T db k) i r -> item (by_rows T db k) i r' -> r = r'.
Proof. intros [_ H1] [_ H2]. congruence. Qed.

Lemma rows_pairs a b' x ra rb rx : three T db k a b' x ra rb rx ->
  (rows_ok a b' x ra rb rx <-> across_pair T db k a b' /\ on_pair T db k a x).
Proof.
  intros (I1 & I2 & I3). split.
  - intros (K1 & K2 & K3 & F & D1 & D2 & D3 & D4). split; [exists ra, rb|exists ra, rx]; do 4 (split; [assumption|]); assumption.
  - intros [(r1 & r2 & K1 & K2 & F & D1 & D2) (r3 & r4 & K3 & K4 & _ & D3 & D4)].
    assert (E1 : r1 = ra) by (apply (item_unique (proj1 K1) I1)). assert (E2 : r2 = rb) by (apply (item_unique (proj1 K2) I2)).
    assert (E3 : r3 = ra) by (apply (item_unique (proj1 K3) I1)). assert (E4 : r4 = rx) by (apply (item_unique (proj1 K4) I3)).
    subst r1 r2 r3 r4.
    unfold rows_ok. do 7 (split; [assumption|]). assumption.
Qed.

Lemma differ_dec (rx ra : row) cc : (exists c, In c cc /\ rx c <> ra c) \/ (forall c, In c cc -> rx c = ra c).
Proof.
  induction cc as [|c cc [(c' & I' & D')|D']]; [right; intros c []|left; exists c'; split; [right; exact I'|exact D']|].
  destruct (Z.eq_dec (rx c) (ra c)) as [Ec|Ec].
  - right. intros c' [<-|Hc']; auto.
  - left. exists c. split; [left; reflexivity|exact Ec].
Qed.

Lemma levels_rows v : In v (flat_map (lvl T' b) (korder (keys (t_on T' :: t_across T') (map snd (b_frame b))))) <->
  exists a b' x ra rb rx ga gb gx, rows_ok a b' x ra rb rx /\
    nth_error (ig T db k) (Z.to_nat a) = Some (ga, ra) /\
    v = (proj (t_on T' :: t_across T') (ext T (ga, ra)),
         (proj (grouping T') (ext T (gb, rb)), proj (grouping T') (ext T (gx, rx)))).
Proof.
  destruct (proj2 (bs_inv enum korder_ok rd dt kf init) b Hb) as (Hw & Ha & _ & Ef & _ & Hd).
  pose proof chk as Hc. destruct (check_inv _ _ Hc) as (C1 & C2 & _).
  destruct T'_eqs as (EO & EF & EA & EN). destruct v as [v0 [vb vx]].
  rewrite (In_lvl Hw Ha Hd), EF, EO, EN, EA.
  assert (EC : forall p c, In c cs -> ext T p c = snd p c) by (intros p c; apply (ext_agree _ _ Hc p)).
  split.
  - intros (a & b' & x & ra' & rb' & rx' & H1 & H2 & H3 & F & D1 & D2 & D3 & D4 & -> & -> & ->).
    apply (frame_kept enum korder_ok rd dt kf init _ Hb) in H1 as (ga & ra & -> & K1 & M1).
    apply (frame_kept enum korder_ok rd dt kf init _ Hb) in H2 as (gb & rb & -> & K2 & M2).
    apply (frame_kept enum korder_ok rd dt kf init _ Hb) in H3 as (gx & rx & -> & K3 & M3).
    exists a, b', x, ra, rb, rx, ga, gb, gx. rewrite !EC in D1, D3 by exact C1. cbn [snd] in *.
    rewrite (rd_oab rd (ext_agree _ _ Hc (ga, ra))) in F. split; [|auto].
    split; [exact K1|]. split; [exact K2|]. split; [exact K3|]. split; [exact F|]. split; [exact D1|].
    destruct (t_across T) as [|c0 ac] eqn:E.
    + split; [intros c []|]. split; [exact D3|]. intros ->. rewrite M1 in M3. inversion M3; subst. apply D4. reflexivity.
    + rewrite <- E in *. specialize (D2 eq_refl). split.
      * intros c Hcc. assert (G := proj1 (proj_ext _ _ _) D2 c Hcc). rewrite !EC in G by (apply C2; exact Hcc). exact G.
      * split; [exact D3|]. destruct (differ_dec rx ra (t_across T)) as [G|G]; [exact G|]. exfalso. apply D4, proj_ext.
        intros c Hcc. rewrite !EC by (apply C2; exact Hcc). apply G, Hcc.
  - intros (a & b' & x & ra & rb & rx & ga & gb & gx & (K1 & K2 & K3 & F & D1 & D2 & D3 & D4) & M1 & EQ). injection EQ as -> -> ->.
    destruct (kept_in_frame enum korder_ok rd dt kf init _ Hb K1) as (g1 & F1 & M1').
    destruct (kept_in_frame enum korder_ok rd dt kf init _ Hb K2) as (g2 & F2 & M2).
    destruct (kept_in_frame enum korder_ok rd dt kf init _ Hb K3) as (g3 & F3 & M3).
    rewrite M1 in M1'. inversion M1'; subst g1.
    exists a, b', x, (ext T (ga, ra)), (ext T (g2, rb)), (ext T (g3, rx)).
    split; [exact F1|]. split; [exact F2|]. split; [exact F3|].
    rewrite (rd_oab rd (ext_agree _ _ Hc (ga, ra))). split; [exact F|].
    rewrite !EC by exact C1. cbn [snd]. split; [exact D1|].
    assert (EG : forall g g' r, proj (grouping T') (ext T (g, r)) = proj (grouping T') (ext T (g', r))).
    { intros g g' r. unfold grouping. rewrite EN, EO, EA. destruct (t_across T) as [|c0 ac] eqn:E.
      - apply proj_ext. intros c [<-|[]]. rewrite !EC by exact C1. reflexivity.
      - rewrite <- E in *. apply proj_ext. intros c [<-|Hcc]; rewrite !EC by (exact C1 || apply C2; exact Hcc); reflexivity. }
    split; [|split; [exact D3|split]].
    + destruct (t_across T) as [|c0 ac] eqn:E; [discriminate|]. rewrite <- E in *. intros _. apply proj_ext.
      intros c Hcc. rewrite !EC by (apply C2; exact Hcc). apply D2, Hcc.
    + destruct (t_across T) as [|c0 ac] eqn:E.
      * intros EE. assert (G := proj1 (proj_ext _ _ _) EE _ (or_introl eq_refl)).
        rewrite !ext_across in G by exact E. cbn in G. subst g3.
        destruct (ig_fst_inj _ _ _ _ _ M1 M3) as [Ei _]. destruct K1 as [[I1' _] _], K3 as [[I2' _] _]. apply D4. lia.
      * rewrite <- E in *. destruct D4 as (c & Hcc & D4). intros EE. apply D4.
        assert (G := proj1 (proj_ext _ _ _) EE c Hcc). rewrite !EC in G by (apply C2; exact Hcc). exact G.
    + split; [cbn [proj map]; rewrite !EC by exact C1; reflexivity|]. split; apply EG.
Qed.

(** With across columns: the types of pairs. *)
Lemma levels_across L : t_across T <> [] -> lists_pair_types T db k L ->
  levels_by korder enum true T' b = Ok (Zlen L).
Proof.
  intros Hne [NL IL].
  destruct (proj2 (bs_inv enum korder_ok rd dt kf init) b Hb) as (Hw & Ha & _ & Ef & _ & Hd).
  pose proof chk as Hc. destruct (check_inv _ _ Hc) as (C1 & C2 & _).
  destruct T'_eqs as (EO & EF & EA & EN).
  rewrite (levels_by_ok _ Hw Ha). f_equal.
  assert (EA' : t_across T' = t_across T) by (rewrite EA; destruct (t_across T); [congruence|reflexivity]).
  assert (EN' : no_across T' = false) by (rewrite EN; destruct (t_across T); [congruence|reflexivity]).
  assert (EP : forall p, proj (t_on T :: t_across T) (ext T p) = map (snd p) (t_on T :: t_across T)).
  { intros p. unfold proj. apply map_ext_in. intros c [<-|Hcc]; apply (ext_agree _ _ Hc p); [exact C1|apply C2, Hcc]. }
  apply map_count with (f := fun v : key * (key * key) => (fst v, hd 0 (fst (snd v)), tl (snd (snd v)))).
  - apply NoDup_lvl.
  - exact NL.
  - intros v w Hv Hw'. apply levels_rows in Hv as (a & b' & x & ra & rb & rx & ga & gb & gx & R1 & M1 & ->).
    apply levels_rows in Hw' as (a2 & b2 & x2 & ra2 & rb2 & rx2 & ga2 & gb2 & gx2 & R2 & M2 & ->).
    unfold grouping. rewrite EN', EO, EA'. rewrite !EP. cbn [fst snd hd tl map]. intros EQ.
    injection EQ as E1 E2 E3 E4.
    destruct R1 as (_ & _ & _ & _ & _ & D2 & D3 & _). destruct R2 as (_ & _ & _ & _ & _ & D2' & D3' & _).
    assert (EB : map rb (t_across T) = map rb2 (t_across T)).
    { transitivity (map ra (t_across T)); [apply map_ext_in; exact D2|]. rewrite E2. symmetry. apply map_ext_in. exact D2'. }
    rewrite E1, E2, E3, E4, EB, D3, D3', E1. reflexivity.
  - intros v. rewrite IL. split.
    + intros (a & b' & x & ra & rb & rx & H3 & P1 & P2 & ->).
      pose proof H3 as (I1 & I2 & I3).
      apply (item_ig _ _ _ Hc) in I1 as (_ & ga & N1). apply (item_ig _ _ _ Hc) in I2 as (_ & gb & N2). apply (item_ig _ _ _ Hc) in I3 as (_ & gx & N3).
      exists (proj (t_on T' :: t_across T') (ext T (ga, ra)),
         (proj (grouping T') (ext T (gb, rb)), proj (grouping T') (ext T (gx, rx)))). split.
      * apply levels_rows. exists a, b', x, ra, rb, rx, ga, gb, gx. split; [apply (rows_pairs H3); auto|auto].
      * unfold grouping. rewrite EN', EO, EA'. rewrite !EP. reflexivity.
    + intros (w & Hw' & <-). apply levels_rows in Hw' as (a & b' & x & ra & rb & rx & ga & gb & gx & R1 & M1 & ->).
      exists a, b', x, ra, rb, rx.
      assert (H3 : three T db k a b' x ra rb rx) by (destruct R1 as (K1 & K2 & K3 & _); split; [apply K1|split; [apply K2|apply K3]]).
      split; [exact H3|]. apply (rows_pairs H3) in R1 as [P1 P2]. split; [exact P1|]. split; [exact P2|].
      unfold grouping. rewrite EN', EO, EA'. rewrite !EP. reflexivity.
Qed.

(** Triplets without item filters. *)
Lemma item_db i r : item (by_rows T db k) i r -> In r db.
Proof.
  intros [_ H]. apply nth_error_In in H. unfold by_rows in H. destruct (t_by T).
  - destruct (key_dec k [0]); [exact H|destruct H].
  - apply filter_In in H. apply H.
Qed.

Lemma item_agree i j r r' : item (by_rows T db k) i r -> item (by_rows T db k) j r' -> agree (t_by T) r r'.
Proof.
  intros [_ H1] [_ H2]. apply nth_error_In in H1. apply nth_error_In in H2. unfold by_rows in H1, H2.
  destruct (t_by T) as [|c l] eqn:E; [intros ? []|]. rewrite <- E in *. apply filter_In in H1 as [_ H1]. apply filter_In in H2 as [_ H2].
  destruct (key_dec (map r (t_by T)) k) as [E1|]; [|discriminate]. destruct (key_dec (map r' (t_by T)) k) as [E2|]; [|discriminate].
  intros c' Hc'. apply (proj1 (proj_ext (t_by T) r r')); [unfold proj; congruence|exact Hc'].
Qed.

Lemma group_by_kept i r : item (by_rows T db k) i r -> f_by (t_filters T) r = true.
Proof.
  intros Hi.
  assert (Hk : In k (map b_key bs)) by (apply in_map; exact Hb).
  apply (proj1 (proj2 (proj2 (proj2 (by_counts enum korder_ok rd dt kf init)))) k) in Hk as (j & r' & Hj & F).
  rewrite <- F. apply (dt_by dt); [apply (item_db Hi)|apply (item_db Hj)|apply (item_agree Hi Hj)].
Qed.

Lemma rows_wanted a b' x ra rb rx : (length (t_across T) <= 1)%nat -> has_item_filters (t_filters T) = false ->
  three T db k a b' x ra rb rx -> (rows_ok a b' x ra rb rx <-> wanted T db k a b' x).
Proof.
  intros Hl HF (I1 & I2 & I3).
  assert (FN : f_A (t_filters T) = None /\ f_B (t_filters T) = None /\ f_X (t_filters T) = None /\ f_ABX (t_filters T) = None).
  { unfold has_item_filters in HF. destruct (f_A (t_filters T)), (f_B (t_filters T)), (f_X (t_filters T)), (f_ABX (t_filters T)); try discriminate. auto. }
  destruct FN as (FA & FB & FX & FABX).
  assert (EX : match t_across T with [] => x <> a | _ => exists c, In c (t_across T) /\ rx c <> ra c end <->
               match t_across T with [] => x <> a | _ => forall c, In c (t_across T) -> rx c <> ra c end).
  { destruct (t_across T) as [|c [|c' l]]; [tauto| |cbn in Hl; lia]. split.
    - intros (c' & [<-|[]] & D) c'' [<-|[]]. exact D.
    - intros D. exists c. split; [left; reflexivity|]. apply D. left. reflexivity. }
  assert (G : forall j r, item (by_rows T db k) j r -> f_generic (t_filters T) ra r = f_generic (t_filters T) r r).
  { intros j r Hj. apply (dt_generic dt); [apply (item_db I1)|apply (item_db Hj)|apply (item_db Hj)|apply (item_agree I1 Hj)]. }
  unfold rows_ok, wanted, kept_item, abx, passes. split.
  - intros ([_ G1] & [_ G2] & [_ G3] & F & D1 & D2 & D3 & D4). exists ra, rb, rx.
    do 3 (split; [assumption|]). split; [split; [exact D3|split; [exact D1|split; [exact D2|apply EX, D4]]]|].
    split; [apply (group_by_kept I1)|]. rewrite (G _ _ I2), (G _ _ I3), FA, FB, FX, FABX. cbn. auto 10.
  - intros (r1 & r2 & r3 & J1 & J2 & J3 & (D3 & D1 & D2 & D4) & _ & (G1 & G2 & G3) & F & _).
    assert (E1 : r1 = ra) by (apply (item_unique J1 I1)). assert (E2 : r2 = rb) by (apply (item_unique J2 I2)).
    assert (E3 : r3 = rx) by (apply (item_unique J3 I3)). subst r1 r2 r3.
    rewrite (G _ _ I2) in G2. rewrite (G _ _ I3) in G3. apply EX in D4. do 7 (split; [auto|]). exact D4.
Qed.

(** With one across column: the types of triplets. *)
Lemma levels_one L : length (t_across T) = 1%nat -> has_item_filters (t_filters T) = false -> lists_types T db k L ->
  levels_by korder enum true T' b = Ok (Zlen L).
Proof.
  intros Hl HF [NL IL]. apply levels_across; [intros E; rewrite E in Hl; discriminate|]. split; [exact NL|].
  intros v. rewrite IL.
  split; intros (a & b' & x & ra & rb & rx & H3 & H); exists a, b', x, ra, rb, rx; (split; [exact H3|]).
  - destruct H as [Hw ->]. apply (rows_wanted ltac:(lia) HF H3), (rows_pairs H3) in Hw as [P1 P2]. auto.
  - destruct H as (P1 & P2 & ->). split; [|reflexivity]. apply (rows_wanted ltac:(lia) HF H3), (rows_pairs H3). auto.
Qed.

(** Without across column: the item A and the on value of B. *)
Lemma levels_none L : t_across T = [] -> has_item_filters (t_filters T) = false -> lists_item_types T db k L ->
  levels_by korder enum true T' b = Ok (Zlen L).
Proof.
  intros Hne HF [NL IL].
  destruct (proj2 (bs_inv enum korder_ok rd dt kf init) b Hb) as (Hw & Ha & _ & Ef & _ & Hd).
  pose proof chk as Hc. destruct (check_inv _ _ Hc) as (C1 & C2 & _).
  destruct T'_eqs as (EO & EF & EA & EN).
  rewrite (levels_by_ok _ Hw Ha). f_equal. rewrite Hne in EA, EN.
  assert (EP : forall p, proj [t_on T] (ext T p) = [snd p (t_on T)]).
  { intros p. cbn. rewrite (ext_agree _ _ Hc p) by exact C1. reflexivity. }
  assert (EK : forall p, proj (t_on T :: t_across T') (ext T p) = [snd p (t_on T); fst p]).
  { intros p. rewrite EA. cbn. rewrite (ext_agree _ _ Hc p) by exact C1. rewrite ext_across by exact Hne. reflexivity. }
  assert (HD : forall a ra ga, kept_item T db k a ra -> nth_error (ig T db k) (Z.to_nat a) = Some (ga, ra) ->
     hd 0 (group (t_on T :: t_across T') (b_frame b) [ra (t_on T); ga]) = a).
  { intros a ra ga K1 M1.
    destruct (kept_in_frame enum korder_ok rd dt kf init _ Hb K1) as (g1 & F1 & M1'). rewrite M1 in M1'. injection M1' as <-.
    assert (I : In a (group (t_on T :: t_across T') (b_frame b) [ra (t_on T); ga])).
    { apply In_group. exists (ext T (ga, ra)). split; [exact F1|]. apply EK. }
    destruct (group (t_on T :: t_across T') (b_frame b) [ra (t_on T); ga]) as [|a0 l] eqn:EG; [destruct I|]. cbn [hd].
    assert (I0 : In a0 (group (t_on T :: t_across T') (b_frame b) [ra (t_on T); ga])) by (rewrite EG; left; reflexivity).
    apply In_group in I0 as (r0 & F0 & E0). apply (frame_kept enum korder_ok rd dt kf init _ Hb) in F0 as (g0 & r1 & -> & K0 & M0).
    rewrite EK in E0. cbn [fst snd] in E0. injection E0 as _ ->.
    destruct (ig_fst_inj _ _ _ _ _ M0 M1) as [Ei _]. destruct K1 as [[I1' _] _], K0 as [[I2' _] _]. lia. }
  apply map_count with (f := fun v : key * (key * key) => (hd 0 (group (t_on T :: t_across T') (b_frame b) (fst v)), hd 0 (fst (snd v)))).
  - apply NoDup_lvl.
  - exact NL.
  - intros v w Hv Hw'. apply levels_rows in Hv as (a & b' & x & ra & rb & rx & ga & gb & gx & R1 & M1 & ->).
    apply levels_rows in Hw' as (a2 & b2 & x2 & ra2 & rb2 & rx2 & ga2 & gb2 & gx2 & R2 & M2 & ->).
    unfold grouping. rewrite EN, EO, !EK, !EP. cbn [fst snd hd]. destruct R1 as (K1 & _ & _ & _ & _ & _ & D3 & _). destruct R2 as (K2 & _ & _ & _ & _ & _ & D3' & _).
    rewrite (HD _ _ _ K1 M1), (HD _ _ _ K2 M2). intros EQ. injection EQ as E1 E2. subst a2. rewrite M1 in M2. injection M2 as -> ->.
    rewrite E2, D3, D3'. reflexivity.
  - intros v. rewrite IL. split.
    + intros (a & b' & x & ra & rb & rx & H3 & W & ->).
      pose proof H3 as (I1 & I2 & I3).
      apply (item_ig _ _ _ Hc) in I1 as (_ & ga & N1). apply (item_ig _ _ _ Hc) in I2 as (_ & gb & N2). apply (item_ig _ _ _ Hc) in I3 as (_ & gx & N3).
      assert (R : rows_ok a b' x ra rb rx) by (apply (rows_wanted ltac:(rewrite Hne; cbn; lia) HF H3), W).
      exists (proj (t_on T' :: t_across T') (ext T (ga, ra)),
         (proj (grouping T') (ext T (gb, rb)), proj (grouping T') (ext T (gx, rx)))). split.
      * apply levels_rows. exists a, b', x, ra, rb, rx, ga, gb, gx. auto.
      * unfold grouping. rewrite EN, EO, EK, EP. cbn [fst snd hd]. rewrite (HD _ _ _ (proj1 R) N1). reflexivity.
    + intros (w & Hw' & <-). apply levels_rows in Hw' as (a & b' & x & ra & rb & rx & ga & gb & gx & R1 & M1 & ->).
      exists a, b', x, ra, rb, rx.
      assert (H3 : three T db k a b' x ra rb rx) by (destruct R1 as (K1 & K2 & K3 & _); split; [apply K1|split; [apply K2|apply K3]]).
      split; [exact H3|]. split; [apply (rows_wanted ltac:(rewrite Hne; cbn; lia) HF H3), R1|].
      unfold grouping. rewrite EN, EO, EK, EP. cbn [fst snd hd]. rewrite (HD _ _ _ (proj1 R1) M1). reflexivity.
Qed.

End Key.

(** All by groups. *)
Lemma loop_ok (ns : list Z) bs0 lv : Forall2 (fun b n => levels_by korder enum true T' b = Ok n) bs0 ns -> length lv = length bs0 ->
  levels_loop korder enum true T' bs0 lv = (map Some ns, Ok tt).
Proof.
  intros F. revert lv. induction F as [|b n bs0 ns H F IH]; intros lv Hl; cbn.
  - destruct lv; [reflexivity|discriminate].
  - rewrite H. destruct lv as [|o lv]; [discriminate|]. cbn [tl]. rewrite IH by (cbn in Hl; lia). reflexivity.
Qed.

Lemma somes_map_Some {A} (l : list A) : somes (map Some l) = l.
Proof. induction l; cbn; congruence. Qed.

Lemma compute_levels_ok ns lv : has_item_filters (t_filters T) = false -> length (lv_by lv) = length bs ->
  Forall2 (fun b n => levels_by korder enum true T' b = Ok n) bs ns ->
  compute_nb_levels korder enum true T' bs lv = (mk_levels (map Some ns) (Some (sumZ ns)), Ok tt).
Proof.
  intros HF Hl F. unfold compute_nb_levels. destruct T'_eqs as (_ & EF & _). rewrite EF, HF.
  rewrite (loop_ok _ F Hl). rewrite somes_map_Some. reflexivity.
Qed.

Lemma forall2_lists {A B} (P : A -> B -> Prop) (l : list A) (m : list B) (R : A -> Z -> Prop) (g : B -> Z) :
  Forall2 P l m -> (forall a b, In a l -> P a b -> R a (g b)) -> Forall2 R l (map g m).
Proof.
  intros F. induction F as [|a b l m H F IH]; intros H0; cbn; constructor; [apply H0; [left; reflexivity|exact H]|].
  apply IH. intros a' b' Ha. apply H0. right. exact Ha.
Qed.

Theorem nb_levels_one Ls lv : length (t_across T) = 1%nat -> has_item_filters (t_filters T) = false -> length (lv_by lv) = length bs ->
  Forall2 (fun b L => lists_types T db (b_key b) L) bs Ls ->
  compute_nb_levels korder enum true T' bs lv = (mk_levels (map Some (map Zlen Ls)) (Some (sumZ (map Zlen Ls))), Ok tt).
Proof.
  intros H1 HF Hl F. apply compute_levels_ok; [exact HF|exact Hl|]. apply (forall2_lists _ _ F). intros b L Hb HL.
  apply (levels_one b Hb H1 HF HL).
Qed.

Theorem nb_levels_none Ls lv : t_across T = [] -> has_item_filters (t_filters T) = false -> length (lv_by lv) = length bs ->
  Forall2 (fun b L => lists_item_types T db (b_key b) L) bs Ls ->
  compute_nb_levels korder enum true T' bs lv = (mk_levels (map Some (map Zlen Ls)) (Some (sumZ (map Zlen Ls))), Ok tt).
Proof.
  intros H1 HF Hl F. apply compute_levels_ok; [exact HF|exact Hl|]. apply (forall2_lists _ _ F). intros b L Hb HL.
  apply (levels_none b Hb H1 HF HL).
Qed.

Theorem nb_levels_several Ls lv : t_across T <> [] -> has_item_filters (t_filters T) = false -> length (lv_by lv) = length bs ->
  Forall2 (fun b L => lists_pair_types T db (b_key b) L) bs Ls ->
  compute_nb_levels korder enum true T' bs lv = (mk_levels (map Some (map Zlen Ls)) (Some (sumZ (map Zlen Ls))), Ok tt).
Proof.
  intros H1 HF Hl F. apply compute_levels_ok; [exact HF|exact Hl|]. apply (forall2_lists _ _ F). intros b L Hb HL.
  apply (levels_across b Hb H1 HL).
Qed.

(** With a pandas without [ix]. *)
Theorem no_ix lv : has_item_filters (t_filters T) = false -> bs <> [] -> 
  compute_nb_levels korder enum false T' bs lv = (lv, Err AttributeError).
Proof.
  intros HF Hne. unfold compute_nb_levels. destruct T'_eqs as (_ & EF & _). rewrite EF, HF.
  destruct bs as [|b bs0] eqn:E; [congruence|]. rewrite <- E in *.
  assert (Hb : In b bs) by (rewrite E; left; reflexivity).
  destruct (proj2 (bs_inv enum korder_ok rd dt kf init) b Hb) as (Hw & Ha & Hnf & _).
  assert (EL : levels_by korder enum false T' b = Err AttributeError).
  { unfold levels_by, groups. set (cols := t_on T' :: t_across T').
    destruct (korder (keys cols (map snd (b_frame b)))) as [|k0 ks] eqn:EK.
    - exfalso. pose proof (korder_ok (keys cols (map snd (b_frame b)))) as P. rewrite EK in P. apply Permutation_nil in P.
      destruct (b_frame b) as [|[l r] f]; [congruence|].
      assert (I : In (proj cols r) (keys cols (map snd ((l, r) :: f)))) by (apply In_keys; exists r; split; [left; reflexivity|reflexivity]).
      rewrite P in I. destruct I.
    - assert (Hk : In k0 (keys cols (map snd (b_frame b)))).
      { apply (Permutation_in _ (korder_ok _)). rewrite EK. left. reflexivity. }
      cbn [map foldM]. unfold levels_step at 1.
      destruct (block_val_ok _ _ Ha _ Hk) as (l & v & Hv & _). unfold block_val in Hv. fold cols in Hv.
      destruct (nth_res (group cols (b_frame b) k0) 0) as [l0|]; [|discriminate Hv]. reflexivity. }
  rewrite E. cbn [levels_loop]. rewrite EL. destruct lv. reflexivity.
Qed.

(** What is printed. *)
Lemma entries_ok : forall (A : Type) (f : key * by_stats * option Z -> list A) (ks : list key) (ss : list by_stats) (os : list (option Z)),
  length ss = length ks -> length os = length ks ->
  exists parts, flat_map f (combine (combine ks ss) os) = concat parts /\ length parts = length ks /\
    forall i k s o, nth_error ks i = Some k -> nth_error ss i = Some s -> nth_error os i = Some o -> nth_error parts i = Some (f (k, s, o)).
Proof.
  intros A f ks. induction ks as [|k ks IH]; intros ss os H1 H2.
  - exists []. split; [reflexivity|]. split; [reflexivity|]. intros [|i]; discriminate.
  - destruct ss as [|s ss]; [discriminate|]. destruct os as [|o os]; [discriminate|]. cbn in H1, H2.
    destruct (IH ss os) as (parts & E & L & N); [lia|lia|]. exists (f (k, s, o) :: parts). cbn. rewrite E, L.
    split; [reflexivity|]. split; [reflexivity|]. intros [|i] k' s' o'; cbn; [|apply N].
    intros E1 E2 E3. congruence.
Qed.

Lemma stats_len : length (s_by st) = length bs.
Proof. symmetry. apply (Forall2_len (sts_inv _ _ _ _ _ init)). Qed.

(** The lines about a by group. *)
Theorem print_summary hix lv lv' r o : compute_nb_levels korder enum hix T' bs lv = (lv', r) -> length (lv_by lv') = length bs ->
  r = Ok tt \/ r = Err ValueError ->
  print_stats korder enum hix T' bs st lv true = o ->
  exists parts, o = (Global st (lv_total lv) :: ByBlocks :: concat parts, lv', Ok tt) /\ length parts = length bs /\
  forall i b s n, nth_error bs i = Some b -> nth_error (s_by st) i = Some s -> nth_error (lv_by lv') i = Some n ->
    nth_error parts i = Some
      ([ByLevel (b_key b); Number "nb_triplets" (st_nb_triplets s)] ++
       match n with Some m => [Number "nb_levels" m] | None => [] end ++
       [Number "nb_across_pairs" (st_nb_across_pairs s); Number "nb_on_pairs" (st_nb_on_pairs s);
        Number "nb_on_levels" (st_nb_on_levels s); Number "nb_across_levels" (st_nb_across_levels s);
        Number "nb_on_across_levels" (st_nb_on_across_levels s)]).
Proof.
  intros HC Hl Hr <-. unfold print_stats. cbn [negb]. rewrite HC.
  destruct (@entries_ok _ (fun e => summary (fst (fst e)) (snd (fst e)) (snd e)) (map b_key bs) (s_by st) (lv_by lv')) as (parts & E & L & N).
  { rewrite map_length. apply stats_len. } { rewrite map_length. exact Hl. }
  exists parts. split; [|split].
  - unfold by_entries. rewrite E. destruct Hr as [-> | ->]; reflexivity.
  - rewrite L. apply map_length.
  - intros i b s n H1 H2 H3. rewrite (N i (b_key b) s n); [|rewrite nth_error_map, H1; reflexivity|exact H2|exact H3].
    unfold summary. cbn [fst snd]. destruct n; reflexivity.
Qed.

Theorem print_full hix lv o : length (lv_by lv) = length bs ->
  print_stats korder enum hix T' bs st lv false = o ->
  exists parts, o = (Global st (lv_total lv) :: ByBlocks :: concat parts, lv, Ok tt) /\ length parts = length bs /\
  forall i b s n, nth_error bs i = Some b -> nth_error (s_by st) i = Some s -> nth_error (lv_by lv) i = Some n ->
    nth_error parts i = Some [ByLevel (b_key b); AllOf s n].
Proof.
  intros Hl <-. unfold print_stats. cbn [negb].
  destruct (@entries_ok _ (fun e => [ByLevel (fst (fst e)); AllOf (snd (fst e)) (snd e)]) (map b_key bs) (s_by st) (lv_by lv)) as (parts & E & L & N).
  { rewrite map_length. apply stats_len. } { rewrite map_length. exact Hl. }
  exists parts. split; [|split].
  - unfold by_entries. rewrite E. reflexivity.
  - rewrite L. apply map_length.
  - intros i b s n H1 H2 H3. rewrite (N i (b_key b) s n); [|rewrite nth_error_map, H1; reflexivity|exact H2|exact H3]. reflexivity.
Qed.

Theorem item_filters_refused hix lv : has_item_filters (t_filters T) = true ->
  compute_nb_levels korder enum hix T' bs lv = (lv, Err ValueError).
Proof. intros HF. unfold compute_nb_levels. destruct T'_eqs as (_ & EF & _). rewrite EF, HF. reflexivity. Qed.

(** With a pandas without [ix] only the first lines are printed. *)
Theorem print_no_ix lv : has_item_filters (t_filters T) = false -> bs <> [] ->
  print_stats korder enum false T' bs st lv true = ([Global st (lv_total lv); ByBlocks], lv, Err AttributeError).
Proof. intros HF Hne. unfold print_stats. cbn [negb]. rewrite (no_ix _ HF Hne). reflexivity. Qed.

End Stats.
