(** From the prepared table back to the table of the user. *)
From Coq Require Import Ascii String.
From Verif Require Import Prelude ListFacts TypeFitting TypeFitting_proofs
  Sampler Sampler_spec Sampler_proofs Task Task_spec Task_blocks Task_sort Task_regs Task_gen Task_file.
Set Implicit Arguments.
Open Scope Z_scope.

Lemma filter_map_comm {A B} (f : B -> bool) (g : A -> B) l :
  filter f (map g l) = map g (filter (fun a => f (g a)) l).
Proof. induction l as [|a l IH]; [reflexivity|]. cbn. destruct (f (g a)); cbn; rewrite IH; reflexivity. Qed.

Lemma map_snd_reset_index rows : map snd (reset_index rows) = rows.
Proof.
  unfold reset_index. generalize 0%nat. induction rows as [|r rows IH]; intros s; [reflexivity|].
  cbn. f_equal. apply IH.
Qed.

Lemma reset_index_map f rows : reset_index (map f rows) = map (fun p => (fst p, f (snd p))) (reset_index rows).
Proof.
  unfold reset_index. rewrite map_length. generalize 0%nat.
  induction rows as [|r rows IH]; intros s; [reflexivity|]. cbn. f_equal. apply IH.
Qed.

Section Dummies.
Variable T : task.
Variable cols : list string.
Variable db : list row.
Hypothesis checked : check_database cols (t_on T) (t_across T) (t_by T) = Ok tt.

Local Notation T' := (fst (with_dummies T db)).
Local Notation db' := (snd (with_dummies T db)).

Lemma check_inv :
  In (t_on T) cols /\ incl (t_across T) cols /\ incl (t_by T) cols /\
  ~ In "#by"%string cols /\ ~ In "#across"%string cols.
Proof.
  unfold check_database in checked.
  destruct (mem_string cols (t_on T)) eqn:E1; [|discriminate].
  destruct (forallb (mem_string cols) (t_across T)) eqn:E2; [|discriminate].
  destruct (forallb (mem_string cols) (t_by T)) eqn:E3; [|discriminate].
  destruct (forallb (fun c => negb (has_char "_"%char c) && negb (has_char "#"%char c)) cols) eqn:E4; [|discriminate].
  assert (Hm : forall s, mem_string cols s = true -> In s cols).
  { intros s H. unfold mem_string in H. apply existsb_exists in H as (x & Hx & E). apply String.eqb_eq in E. subst. exact Hx. }
  rewrite forallb_forall in E2, E3, E4.
  split; [auto|]. split; [intros c Hc; auto|]. split; [intros c Hc; auto|].
  split; intros H; apply E4 in H; discriminate H.
Qed.

Definition ext (p : Z * row) : row :=
  let r1 := match t_by T with [] => set_cell (snd p) "#by" 0 | _ => snd p end in
  match t_across T with [] => set_cell r1 "#across" (fst p) | _ => r1 end.

Lemma dummies_db : db' = map ext (reset_index db).
Proof.
  unfold with_dummies, ext. cbn [snd]. destruct (t_across T) as [|c ac].
  - destruct (t_by T).
    + rewrite reset_index_map, map_map. reflexivity.
    + apply map_ext. intros p. reflexivity.
  - destruct (t_by T).
    + transitivity (map (fun r => set_cell r "#by" 0) (map snd (reset_index db))); [|apply map_map].
      rewrite map_snd_reset_index. reflexivity.
    + symmetry. apply map_snd_reset_index.
Qed.

Lemma ext_agree p : agree cols (ext p) (snd p).
Proof.
  destruct check_inv as (_ & _ & _ & H1 & H2). intros c Hc. unfold ext, set_cell.
  destruct (t_across T), (t_by T); repeat destruct (string_dec c _); subst; tauto.
Qed.

Lemma ext_across p : t_across T = [] -> ext p "#across"%string = fst p.
Proof. intros E. unfold ext. rewrite E. unfold set_cell at 1. destruct (string_dec _ _); congruence. Qed.

Definition by_match (r : row) (k : key) : bool :=
  match t_by T with
  | [] => if key_dec k [0] then true else false
  | cs => if key_dec (map r cs) k then true else false
  end.

Definition ig (k : key) : list (Z * row) := filter (fun p => by_match (snd p) k) (reset_index db).

Lemma ext_by p k : key_eqb (proj (t_by T') (ext p)) k = by_match (snd p) k.
Proof.
  pose proof (ext_agree p) as Ha. destruct check_inv as (_ & _ & H3 & _ & _).
  unfold by_match. cbn [with_dummies fst t_by]. destruct (t_by T) as [|c cs] eqn:E.
  - unfold proj. cbn [map].
    assert (Eb : ext p "#by"%string = 0).
    { unfold ext. rewrite E. unfold set_cell. destruct (t_across T); reflexivity. }
    rewrite Eb. unfold key_eqb. destruct (key_dec [0] k), (key_dec k [0]); congruence.
  - unfold proj.
    assert (Em : map (ext p) (c :: cs) = map (snd p) (c :: cs)).
    { apply map_ext_in. intros x Hx. apply Ha, H3. exact Hx. }
    rewrite Em. reflexivity.
Qed.

Lemma grp_ig k : grp T' db' k = map ext (ig k).
Proof.
  unfold grp. rewrite dummies_db, filter_map_comm. f_equal. apply filter_ext. intros p. apply ext_by.
Qed.

Lemma by_rows_ig k : by_rows T db k = map snd (ig k).
Proof.
  unfold by_rows, ig, by_match. destruct (t_by T) as [|c cs].
  - destruct (key_dec k [0]).
    + rewrite filter_all by reflexivity. symmetry. apply map_snd_reset_index.
    + rewrite filter_none by reflexivity. reflexivity.
  - rewrite <- filter_map_comm with (g := snd) (f := fun r => if key_dec (map r (c :: cs)) k then true else false).
    rewrite map_snd_reset_index. reflexivity.
Qed.

Lemma item_ig k i r : item (by_rows T db k) i r <-> 0 <= i /\ exists g, nth_error (ig k) (Z.to_nat i) = Some (g, r).
Proof.
  unfold item. rewrite by_rows_ig, nth_error_map.
  destruct (nth_error (ig k) (Z.to_nat i)) as [[g r']|]; cbn.
  - split; intros [H1 H2]; (split; [exact H1|]).
    + inversion H2; subst. eauto.
    + destruct H2 as (g' & H2). inversion H2; subst. reflexivity.
  - split; intros [H1 H2]; [discriminate|]. destruct H2 as (g & H2). discriminate.
Qed.

Lemma ig_fst_inj k i j g r r' :
  nth_error (ig k) i = Some (g, r) -> nth_error (ig k) j = Some (g, r') -> i = j /\ r = r'.
Proof.
  intros H1 H2.
  assert (Hn : NoDup (labels (ig k))) by (apply NoDup_labels_filter, NoDup_reset_index).
  split.
  - apply (proj1 (NoDup_nth_error (labels (ig k))) Hn).
    + unfold labels. rewrite map_length. apply nth_error_Some. congruence.
    + unfold labels. rewrite !nth_error_map, H1, H2. reflexivity.
  - eapply label_unique; [exact Hn| |]; eapply nth_error_In; eassumption.
Qed.

Lemma ig_in_db k i p : nth_error (ig k) i = Some p -> In (snd p) db.
Proof.
  intros H. apply nth_error_In in H. apply filter_In in H as [H _].
  rewrite <- (map_snd_reset_index db). apply in_map. exact H.
Qed.

Lemma ig_by k i j p q : nth_error (ig k) i = Some p -> nth_error (ig k) j = Some q ->
  agree (t_by T) (snd p) (snd q).
Proof.
  intros H1 H2. apply nth_error_In in H1, H2. apply filter_In in H1 as [_ H1]. apply filter_In in H2 as [_ H2].
  unfold by_match in *. destruct (t_by T) as [|c cs] eqn:E; [intros x []|].
  destruct (key_dec (map (snd p) (c :: cs)) k) as [E1|]; [|discriminate].
  destruct (key_dec (map (snd q) (c :: cs)) k) as [E2|]; [|discriminate].
  refine (proj1 (proj_ext (c :: cs) (snd p) (snd q)) _). unfold proj. congruence.
Qed.

Lemma T'_filters : t_filters T' = t_filters T.
Proof. reflexivity. Qed.
Lemma T'_on : t_on T' = t_on T.
Proof. reflexivity. Qed.
Lemma T'_across : t_across T' = match t_across T with [] => ["#across"%string] | a => a end.
Proof. reflexivity. Qed.
Lemma T'_across_ne : t_across T' <> [].
Proof. rewrite T'_across. destruct (t_across T); discriminate. Qed.

Lemma no_across_T' : no_across T' = match t_across T with [] => true | _ => false end.
Proof.
  unfold no_across. rewrite T'_across. destruct check_inv as (_ & H1 & _ & _ & H2).
  destruct (t_across T) as [|c [|c' ac]]; [reflexivity| |reflexivity].
  destruct (string_dec c "#across"); [|reflexivity]. subst. exfalso. apply H2, H1. left. reflexivity.
Qed.

Hypothesis rd : reads cols (t_filters T).
Hypothesis dt : determined T db.

Section Key.
Variable k : key.

(** The line of item [i]. *)
Lemma kept_frame_In i r' :
  In (i, r') (kept_frame T' db' k) <->
  exists g r, 0 <= i /\ nth_error (ig k) (Z.to_nat i) = Some (g, r) /\ r' = ext (g, r) /\
    f_generic (t_filters T) r r = true.
Proof.
  unfold kept_frame. rewrite grp_ig. destruct (ig k) as [|p0 l] eqn:E.
  - cbn. split; [intros []|]. intros (g & r & _ & H & _). destruct (Z.to_nat i); discriminate.
  - cbn [map]. change (ext p0 :: map ext l) with (map ext (p0 :: l)). rewrite filter_In, reset_index_In, nth_error_map.
    assert (H0 : nth_error (ig k) 0 = Some p0) by (rewrite E; reflexivity).
    assert (G : forall g r, nth_error (p0 :: l) (Z.to_nat i) = Some (g, r) ->
                f_generic (t_filters T') (ext p0) (ext (g, r)) = f_generic (t_filters T) r r).
    { intros g r H. rewrite <- E in H. rewrite T'_filters.
      rewrite (rd_generic rd (ext_agree p0) (ext_agree (g, r))). cbn [snd].
      apply (dt_generic dt).
      - apply (ig_in_db _ _ H0).
      - apply (ig_in_db _ _ H).
      - apply (ig_in_db _ _ H).
      - apply (ig_by _ _ _ H0 H). }
    split.
    + intros [[H1 H2] H3]. destruct (nth_error (p0 :: l) (Z.to_nat i)) as [[g r]|] eqn:E2; [|discriminate].
      inversion H2; subst r'. exists g, r. split; [exact H1|]. split; [reflexivity|]. split; [reflexivity|].
      cbn [snd] in H3. rewrite <- H3. symmetry. apply G. reflexivity.
    + intros (g & r & H1 & H2 & -> & H3). rewrite H2. split; [split; [exact H1|reflexivity]|].
      cbn [snd]. rewrite (G _ _ H2). exact H3.
Qed.

Lemma by_kept_iff i g r :
  nth_error (ig k) i = Some (g, r) -> by_kept T' db' k = f_by (t_filters T) r.
Proof.
  intros H. unfold by_kept. rewrite grp_ig. destruct (ig k) as [|p0 l] eqn:E; [destruct i; discriminate|].
  cbn [map]. rewrite T'_filters, (rd_by rd (ext_agree p0)).
  assert (H0 : nth_error (ig k) 0 = Some p0) by (rewrite E; reflexivity). rewrite <- E in H.
  apply (dt_by dt).
  - apply (ig_in_db _ _ H0).
  - apply (ig_in_db _ _ H).
  - apply (ig_by _ _ _ H0 H).
Qed.

Lemma key_in i p : nth_error (ig k) i = Some p -> In k (keys (t_by T') db').
Proof.
  intros H. apply nth_error_In in H. apply filter_In in H as [H1 H2].
  apply In_keys. exists (ext p). split.
  - rewrite dummies_db. apply in_map. exact H1.
  - apply key_eqb_spec. rewrite ext_by. exact H2.
Qed.

Variable b : by_block.
Hypothesis Hfr : b_frame b = kept_frame T' db' k.

Lemma frame_In i r' : In (i, r') (b_frame b) <->
  exists g r, 0 <= i /\ nth_error (ig k) (Z.to_nat i) = Some (g, r) /\ r' = ext (g, r) /\
    f_generic (t_filters T) r r = true.
Proof. rewrite Hfr. apply kept_frame_In. Qed.

(** Two items of a block agree on what the filters read of it. *)
Lemma same_block_agree l l' g g' r r' :
  nth_error (ig k) (Z.to_nat l) = Some (g, r) -> nth_error (ig k) (Z.to_nat l') = Some (g', r') ->
  same_block T' (ext (g, r)) (ext (g', r')) ->
  r = r' \/ (t_across T <> [] /\ agree (t_on T :: t_across T ++ t_by T) r r').
Proof.
  intros H1 H2 Hs. unfold same_block in Hs. rewrite proj_ext in Hs. rewrite T'_on, T'_across in Hs.
  destruct check_inv as (C1 & C2 & C3 & _ & _). destruct (t_across T) as [|c ac] eqn:E.
  - left. specialize (Hs "#across"%string (or_intror (or_introl eq_refl))).
    rewrite !ext_across in Hs by exact E. cbn in Hs. subst g'.
    destruct (ig_fst_inj _ _ _ H1 H2) as [_ ->]. reflexivity.
  - right. split; [discriminate|]. rewrite <- E in *. intros x Hx.
    assert (Hb := ig_by _ _ _ H1 H2). cbn [snd] in Hb.
    assert (Hc : In x cols -> In x (t_on T :: t_across T) -> r x = r' x).
    { intros Hx1 Hx2. specialize (Hs x Hx2). rewrite (ext_agree (g, r) x Hx1), (ext_agree (g', r') x Hx1) in Hs. exact Hs. }
    cbn [app] in Hx. destruct Hx as [<-|Hx]; [apply Hc; [exact C1|left; reflexivity]|].
    apply in_app_or in Hx as [Hx|Hx]; [apply Hc; [apply C2; exact Hx|right; exact Hx]|].
    apply Hb. exact Hx.
Qed.

Lemma det : block_det T' b.
Proof.
  assert (A : forall i r', In (i, r') (b_frame b) -> exists g r, nth_error (ig k) (Z.to_nat i) = Some (g, r) /\
     r' = ext (g, r) /\ In r db /\ agree cols r' r).
  { intros i r' H. apply frame_In in H as (g & r & _ & H & -> & _). exists g, r.
    split; [exact H|]. split; [reflexivity|]. split; [exact (ig_in_db _ _ H)|exact (ext_agree (g, r))]. }
  constructor; rewrite T'_filters.
  - intros l l' r r' H1 H2 Hs.
    apply A in H1 as (g1 & r1 & N1 & -> & D1 & A1). apply A in H2 as (g2 & r2 & N2 & -> & D2 & A2).
    rewrite (rd_oab rd A1), (rd_oab rd A2).
    destruct (same_block_agree _ _ N1 N2 Hs) as [->|[Hne Ha]]; [reflexivity|]. apply (dt_oab dt); assumption.
  - intros f l l' m r r' x Hf H1 H2 H3 Hs.
    apply A in H1 as (g1 & r1 & N1 & -> & D1 & A1). apply A in H2 as (g2 & r2 & N2 & -> & D2 & A2).
    apply A in H3 as (g3 & r3 & N3 & -> & D3 & A3).
    rewrite (rd_A rd Hf A1 A3), (rd_A rd Hf A2 A3).
    destruct (same_block_agree _ _ N1 N2 Hs) as [->|[Hne Ha]]; [reflexivity|]. apply (dt_A dt _ Hf); assumption.
  - intros f l l' m r r' x Hf H1 H2 H3 Hs.
    apply A in H1 as (g1 & r1 & N1 & -> & D1 & A1). apply A in H2 as (g2 & r2 & N2 & -> & D2 & A2).
    apply A in H3 as (g3 & r3 & N3 & -> & D3 & A3).
    rewrite (rd_B rd Hf A1 A3), (rd_B rd Hf A2 A3).
    destruct (same_block_agree _ _ N1 N2 Hs) as [->|[Hne Ha]]; [reflexivity|]. apply (dt_B dt _ Hf); assumption.
  - intros f l l' m r r' x Hf H1 H2 H3 Hs.
    apply A in H1 as (g1 & r1 & N1 & -> & D1 & A1). apply A in H2 as (g2 & r2 & N2 & -> & D2 & A2).
    apply A in H3 as (g3 & r3 & N3 & -> & D3 & A3).
    rewrite (rd_X rd Hf A1 A3), (rd_X rd Hf A2 A3).
    destruct (same_block_agree _ _ N1 N2 Hs) as [->|[Hne Ha]]; [reflexivity|]. apply (dt_X dt _ Hf); assumption.
  - intros f l l' m1 m2 m3 r r' x y z Hf H1 H2 H3 H4 H5 Hs.
    apply A in H1 as (g1 & r1 & N1 & -> & D1 & A1). apply A in H2 as (g2 & r2 & N2 & -> & D2 & A2).
    apply A in H3 as (g3 & r3 & N3 & -> & D3 & A3). apply A in H4 as (g4 & r4 & N4 & -> & D4 & A4).
    apply A in H5 as (g5 & r5 & N5 & -> & D5 & A5).
    rewrite (rd_ABX rd Hf A1 A3 A4 A5), (rd_ABX rd Hf A2 A3 A4 A5).
    destruct (same_block_agree _ _ N1 N2 Hs) as [->|[Hne Ha]]; [reflexivity|]. apply (dt_ABX dt _ _ _ Hf); assumption.
Qed.

Lemma wanted_in_iff a b' x : by_kept T' db' k = true -> (wanted_in T' b a b' x <-> wanted T db k a b' x).
Proof.
  intros Hby. destruct check_inv as (C1 & C2 & C3 & C4 & C5).
  unfold wanted_in, wanted. rewrite T'_filters, T'_on, no_across_T'. split.
  - intros (ra' & rb' & rx' & Ha & Hb & Hx & (B1 & B2) & (X1 & X2) & Fo & FA & FB & FX & FABX).
    apply frame_In in Ha as (ga & ra & La & Na & -> & Ga).
    apply frame_In in Hb as (gb & rb & Lb & Nb & -> & Gb).
    apply frame_In in Hx as (gx & rx & Lx & Nx & -> & Gx).
    pose proof (ext_agree (ga, ra)) as Aa. pose proof (ext_agree (gb, rb)) as Ab. pose proof (ext_agree (gx, rx)) as Ax.
    cbn [snd] in Aa, Ab, Ax.
    exists ra, rb, rx.
    split; [apply item_ig; eauto|]. split; [apply item_ig; eauto|]. split; [apply item_ig; eauto|].
    rewrite (Aa _ C1) in B1, X1. rewrite (Ab _ C1) in B1. rewrite (Ax _ C1) in X1.
    split.
    + unfold abx. split; [exact X1|]. split; [exact B1|]. rewrite T'_across in B2, X2.
      destruct (t_across T) as [|c ac] eqn:E.
      * split; [intros c []|]. intros Ex. subst x. rewrite Nx in Na. inversion Na; subst.
        apply (X2 "#across"%string); [left; reflexivity|]. reflexivity.
      * rewrite <- E in *. split.
        -- intros c' Hc. specialize (B2 eq_refl c' Hc). rewrite (Aa _ (C2 _ Hc)), (Ab _ (C2 _ Hc)) in B2. exact B2.
        -- intros c' Hc. specialize (X2 c' Hc). rewrite (Aa _ (C2 _ Hc)), (Ax _ (C2 _ Hc)) in X2. exact X2.
    + unfold passes. split; [rewrite <- (by_kept_iff _ Na); exact Hby|].
      rewrite (rd_oab rd Aa) in Fo.
      assert (Gab : f_generic (t_filters T) ra rb = true).
      { rewrite <- Gb. apply (dt_generic dt).
        - exact (ig_in_db _ _ Na). - exact (ig_in_db _ _ Nb). - exact (ig_in_db _ _ Nb). - exact (ig_by _ _ _ Na Nb). }
      assert (Gax : f_generic (t_filters T) ra rx = true).
      { rewrite <- Gx. apply (dt_generic dt).
        - exact (ig_in_db _ _ Na). - exact (ig_in_db _ _ Nx). - exact (ig_in_db _ _ Nx). - exact (ig_by _ _ _ Na Nx). }
      split; [auto|]. split; [exact Fo|]. unfold holds2, holds4 in *. split; [|split; [|split]].
      * destruct (f_A (t_filters T)) eqn:E; [|exact I]. rewrite (rd_A rd E Aa Aa) in FA. exact FA.
      * destruct (f_B (t_filters T)) eqn:E; [|exact I]. rewrite (rd_B rd E Aa Ab) in FB. exact FB.
      * destruct (f_X (t_filters T)) eqn:E; [|exact I]. rewrite (rd_X rd E Aa Ax) in FX. exact FX.
      * destruct (f_ABX (t_filters T)) eqn:E; [|exact I]. rewrite (rd_ABX rd E Aa Aa Ab Ax) in FABX. exact FABX.
  - intros (ra & rb & rx & Ha & Hb & Hx & (X1 & B1 & B2 & X2) & Fby & (Ga & Gb & Gx) & Fo & FA & FB & FX & FABX).
    apply item_ig in Ha as (La & ga & Na). apply item_ig in Hb as (Lb & gb & Nb). apply item_ig in Hx as (Lx & gx & Nx).
    assert (Gbb : f_generic (t_filters T) rb rb = true).
    { rewrite <- Gb. apply (dt_generic dt).
      - exact (ig_in_db _ _ Nb). - exact (ig_in_db _ _ Na). - exact (ig_in_db _ _ Nb). - exact (ig_by _ _ _ Nb Na). }
    assert (Gxx : f_generic (t_filters T) rx rx = true).
    { rewrite <- Gx. apply (dt_generic dt).
      - exact (ig_in_db _ _ Nx). - exact (ig_in_db _ _ Na). - exact (ig_in_db _ _ Nx). - exact (ig_by _ _ _ Nx Na). }
    pose proof (ext_agree (ga, ra)) as Aa. pose proof (ext_agree (gb, rb)) as Ab. pose proof (ext_agree (gx, rx)) as Ax.
    cbn [snd] in Aa, Ab, Ax.
    exists (ext (ga, ra)), (ext (gb, rb)), (ext (gx, rx)).
    split; [apply frame_In; exists ga, ra; auto|]. split; [apply frame_In; exists gb, rb; auto|].
    split; [apply frame_In; exists gx, rx; auto|].
    rewrite (Aa _ C1), (Ab _ C1), (Ax _ C1), T'_across.
    split; [|split].
    + split; [exact B1|]. destruct (t_across T) as [|c ac] eqn:E; [discriminate|]. rewrite <- E in *.
      intros _ c' Hc. rewrite (Aa _ (C2 _ Hc)), (Ab _ (C2 _ Hc)). auto.
    + split; [exact X1|]. destruct (t_across T) as [|c ac] eqn:E.
      * intros c' [<-|[]]. rewrite !ext_across by exact E. cbn. intros Eg. subst gx.
        destruct (ig_fst_inj _ _ _ Nx Na) as [Ei _]. apply X2. lia.
      * rewrite <- E in *. intros c' Hc. rewrite (Aa _ (C2 _ Hc)), (Ax _ (C2 _ Hc)). auto.
    + unfold holds2, holds4 in *. split; [rewrite (rd_oab rd Aa); exact Fo|]. split; [|split; [|split]].
      * destruct (f_A (t_filters T)) eqn:E; [|exact I]. rewrite (rd_A rd E Aa Aa). exact FA.
      * destruct (f_B (t_filters T)) eqn:E; [|exact I]. rewrite (rd_B rd E Aa Ab). exact FB.
      * destruct (f_X (t_filters T)) eqn:E; [|exact I]. rewrite (rd_X rd E Aa Ax). exact FX.
      * destruct (f_ABX (t_filters T)) eqn:E; [|exact I]. rewrite (rd_ABX rd E Aa Aa Ab Ax). exact FABX.
Qed.

Lemma frame_aligned : kept_first T db -> aligned (b_frame b).
Proof.
  intros Hk. rewrite Hfr. unfold kept_frame. destruct (grp T' db' k) as [|r0 g] eqn:E; [intros l r []|].
  rewrite <- E. apply aligned_prefix. intros i j ri rj Hij Hi Hj Hg.
  assert (Hi' : exists gi ri0, nth_error (ig k) i = Some (gi, ri0) /\ ri = ext (gi, ri0)).
  { rewrite grp_ig, nth_error_map in Hi. destruct (nth_error (ig k) i) as [[gi ri0]|]; [|discriminate].
    inversion Hi. eauto. }
  assert (Hj' : exists gj rj0, nth_error (ig k) j = Some (gj, rj0) /\ rj = ext (gj, rj0)).
  { rewrite grp_ig, nth_error_map in Hj. destruct (nth_error (ig k) j) as [[gj rj0]|]; [|discriminate].
    inversion Hj. eauto. }
  destruct Hi' as (gi & ri0 & Ni & Ei). destruct Hj' as (gj & rj0 & Nj & Ej).
  assert (G : forall n gn rn, nth_error (ig k) n = Some (gn, rn) ->
     f_generic (t_filters T') r0 (ext (gn, rn)) = f_generic (t_filters T) rn rn).
  { intros n gn rn Nn. rewrite T'_filters.
    assert (H0 : nth_error (grp T' db' k) 0 = Some r0) by (rewrite E; reflexivity).
    rewrite grp_ig, nth_error_map in H0. destruct (nth_error (ig k) 0) as [p0|] eqn:N0; [|discriminate].
    inversion H0; subst r0. rewrite (rd_generic rd (ext_agree p0) (ext_agree (gn, rn))). cbn [snd].
    apply (dt_generic dt).
    - exact (ig_in_db _ _ N0). - exact (ig_in_db _ _ Nn). - exact (ig_in_db _ _ Nn). - exact (ig_by _ _ _ N0 Nn). }
  rewrite Ei, (G _ _ _ Ni). rewrite Ej, (G _ _ _ Nj) in Hg.
  apply (Hk k (Z.of_nat i) (Z.of_nat j) ri0 rj0); [lia| | |exact Hg]; apply item_ig; rewrite Nat2Z.id; (split; [lia|eauto]).
Qed.

End Key.
End Dummies.
