From Verif Require Import Prelude Np2h5 Np2h5_spec.

Section Proofs.
Variable A : Type.
Variable zero : A.
Notation wbuf := (wbuf A).

(* ---------------------------------------------------------------- *)
(** Lists *)

Lemma skipn_repeat (z : A) n m : skipn n (repeat z m) = repeat z (m - n).
Proof.
  revert m. induction n as [|n IH]; intros m; [now rewrite Nat.sub_0_r|].
  destruct m; cbn; [reflexivity|]. apply IH.
Qed.

Lemma firstn_repeat (z : A) n m : firstn n (repeat z m) = repeat z (Nat.min n m).
Proof.
  revert m. induction n as [|n IH]; intros m; [reflexivity|].
  destruct m; cbn; [reflexivity|]. f_equal. apply IH.
Qed.

Lemma firstn_splice_end (l new : list A) i :
  i + length new <= length l -> firstn (i + length new) (splice i new l) = firstn i l ++ new.
Proof.
  intros H. unfold splice. rewrite app_assoc, firstn_app.
  rewrite app_length, firstn_length_le by lia.
  rewrite Nat.sub_diag. cbn [firstn]. rewrite app_nil_r.
  apply firstn_all2. rewrite app_length, firstn_length_le; lia.
Qed.

Lemma splice_app_l (l1 l2 new : list A) :
  length new <= length l2 -> splice (length l1) new (l1 ++ l2) = l1 ++ new ++ skipn (length new) l2.
Proof.
  intros H. unfold splice. rewrite firstn_app, Nat.sub_diag, firstn_all. cbn [firstn].
  rewrite app_nil_r. f_equal. f_equal.
  rewrite skipn_app. rewrite skipn_all2 by lia. cbn. f_equal. lia.
Qed.

(* ---------------------------------------------------------------- *)
(** The write loop when the dataset has room. *)

Lemma write_loop_room fuel (s : wbuf) data :
  let target := w_bufix s + length data in
  let k := target / w_buflen s in
  let all := firstn (w_bufix s) (w_buf s) ++ data in
  0 < w_buflen s -> length (w_buf s) = w_buflen s -> w_bufix s <= w_buflen s ->
  w_dsetix s + w_buflen s * k <= length (w_dset s) ->
  k < fuel ->
  exists buf',
    write_loop fuel s data target
    = Ok {| w_fixed := w_fixed s; w_buflen := w_buflen s; w_buf := buf';
            w_bufix := target - w_buflen s * k;
            w_dset := splice (w_dsetix s) (firstn (w_buflen s * k) all) (w_dset s);
            w_dsetix := w_dsetix s + w_buflen s * k; w_nrows := w_nrows s |}
    /\ length buf' = w_buflen s
    /\ firstn (target - w_buflen s * k) buf' = skipn (w_buflen s * k) all.
Proof.
  revert s data. induction fuel as [|fuel IH]; intros s data target k all Hpos Hbuf Hix Hroom Hfuel.
  { lia. }
  assert (Hall : length all = target).
  { unfold all. rewrite app_length, firstn_length_le; [reflexivity|lia]. }
  cbn [write_loop].
  destruct (Nat.leb_spec (w_buflen s) target) as [Hle|Hlt].
  - (* dump one full buffer *)
    set (space := w_buflen s - w_bufix s).
    assert (Hfst : length (firstn space data) = space).
    { rewrite firstn_length_le; [reflexivity|]. unfold space, target in *. lia. }
    set (buf1 := splice (w_bufix s) (firstn space data) (w_buf s)).
    assert (Hbuf1 : buf1 = firstn (w_buflen s) all).
    { unfold buf1, all, splice. rewrite Hfst.
      rewrite skipn_all2 by (unfold space; lia). rewrite app_nil_r.
      rewrite firstn_app, firstn_length_le by lia. f_equal.
      symmetry. apply firstn_all2. rewrite firstn_length_le; lia. }
    assert (Hl1 : length buf1 = w_buflen s).
    { rewrite Hbuf1, firstn_length_le; lia. }
    assert (Hk : exists k', k = S k').
    { destruct k eqn:Ek; [|eauto]. unfold k in Ek. apply Nat.div_small_iff in Ek; lia. }
    destruct Hk as [k' Hk].
    assert (Hsk : all = firstn (w_buflen s) all ++ skipn space data).
    { unfold all at 2. rewrite firstn_app, firstn_length_le by lia.
      rewrite (firstn_all2 (firstn _ _)) by (rewrite firstn_length_le; lia).
      rewrite <- app_assoc. unfold all. f_equal. fold space. symmetry. apply firstn_skipn. }
    assert (Hroom1 : w_dsetix s + length buf1 <= length (w_dset s)) by (rewrite Hl1; nia).
    unfold h5_assign. destruct (Nat.leb_spec (w_dsetix s + length buf1) (length (w_dset s))); [|lia].
    cbn [bind].
    set (s1 := {| w_fixed := w_fixed s; w_buflen := w_buflen s; w_buf := buf1; w_bufix := 0;
                  w_dset := splice (w_dsetix s) buf1 (w_dset s);
                  w_dsetix := w_dsetix s + w_buflen s; w_nrows := w_nrows s |}).
    specialize (IH s1 (skipn space data)). cbn zeta in IH.
    assert (Ht1 : w_bufix s1 + length (skipn space data) = target - w_buflen s).
    { unfold s1; cbn. rewrite skipn_length. unfold space, target. lia. }
    rewrite Ht1 in IH.
    assert (Hk1 : (target - w_buflen s) / w_buflen s1 = k').
    { unfold s1; cbn [w_buflen].
      assert (target = (target - w_buflen s) + 1 * w_buflen s) as Et by lia.
      unfold k in Hk. rewrite Et in Hk. rewrite Nat.div_add in Hk by lia. lia. }
    rewrite Hk1 in IH. unfold s1 in IH.
    cbn [w_fixed w_buflen w_buf w_bufix w_dset w_dsetix w_nrows firstn app] in IH.
    destruct IH as (buf' & E & L & F).
    + lia.
    + exact Hl1.
    + lia.
    + rewrite splice_length by lia. nia.
    + lia.
    + exists buf'. unfold s1. rewrite E.
      assert (Hm : w_buflen s * k = w_buflen s + w_buflen s * k') by (rewrite Hk; lia).
      assert (Hlen2 : w_buflen s * k <= target).
      { unfold k. apply Nat.mul_div_le. lia. }
      split; [|split].
      * f_equal. f_equal.
        -- lia.
        -- rewrite <- Hl1 at 1. rewrite splice_app.
           ++ f_equal.
              transitivity (firstn (w_buflen s * k) (firstn (w_buflen s) all ++ skipn space data));
                [|now rewrite <- Hsk].
              rewrite firstn_app. rewrite <- Hbuf1, Hl1. rewrite (firstn_all2 buf1) by lia.
              f_equal. f_equal. lia.
           ++ rewrite Hl1. rewrite firstn_length_le by (rewrite skipn_length; unfold space, target in *; lia).
              nia.
        -- lia.
      * exact L.
      * replace (target - w_buflen s * k) with (target - w_buflen s - w_buflen s * k') by lia.
        rewrite F.
        transitivity (skipn (w_buflen s * k) (firstn (w_buflen s) all ++ skipn space data));
          [|now rewrite <- Hsk].
        rewrite <- Hbuf1, skipn_app, Hl1, (skipn_all2 buf1) by lia. cbn [app]. f_equal. lia.
  - (* keep the data in the buffer *)
    assert (Hk : k = 0) by (apply Nat.div_small; exact Hlt).
    rewrite Hk, Nat.mul_0_r, Nat.add_0_r, Nat.sub_0_r. cbn [firstn skipn].
    exists (splice (w_bufix s) data (w_buf s)). split; [|split].
    + f_equal. f_equal. unfold splice. cbn [app length]. rewrite Nat.add_0_r.
      symmetry. apply firstn_skipn.
    + rewrite splice_length; [exact Hbuf|]. unfold target in *. lia.
    + unfold target. rewrite firstn_splice_end; [reflexivity|]. unfold target in *. lia.
Qed.

(** Whatever the room, a successful write accounts for all its rows. *)
Lemma write_loop_count fuel (s s' : wbuf) data target :
  write_loop fuel s data target = Ok s' ->
  w_dsetix s' + w_bufix s' = w_dsetix s + target
  /\ w_fixed s' = w_fixed s /\ w_nrows s' = w_nrows s.
Proof.
  revert s data target. induction fuel as [|fuel IH]; intros s data target H; [discriminate|].
  cbn [write_loop] in H. destruct (Nat.leb_spec (w_buflen s) target) as [Hle|Hlt].
  - apply bind_ok in H as (d & Hd & H). apply IH in H as (H1 & H2 & H3).
    cbn in H1, H2, H3. split; [lia|split; assumption].
  - inversion H; subst; cbn. auto.
Qed.

(* ---------------------------------------------------------------- *)
(** The invariant: [data] is everything written so far, [d0] the initial dataset. *)

Record winv (n0 : nat) (d0 : list A) (s : wbuf) (data : list A) : Prop := {
  wi_len : length (w_buf s) = w_buflen s;
  wi_pos : 0 < w_buflen s;
  wi_ix : w_bufix s < w_buflen s;
  wi_count : length data = w_dsetix s + w_bufix s;
  wi_buf : firstn (w_bufix s) (w_buf s) = skipn (w_dsetix s) data;
  wi_dset : w_dset s = firstn (w_dsetix s) data ++ skipn (w_dsetix s) d0;
  wi_d0 : length d0 = n0;
  wi_fixed : w_fixed s = true -> w_nrows s = n0;
  wi_grow : w_fixed s = false ->
            d0 = repeat zero n0 /\ n0 <= w_nrows s <= Nat.max n0 (w_dsetix s) /\
            (w_nrows s = Nat.max n0 (w_dsetix s) \/ w_nrows s < w_dsetix s)
}.

Lemma winv_new fixed overwrite buflen chunk n0 existing s :
  0 < buflen ->
  wbuf_new zero fixed overwrite buflen chunk n0 existing = Ok s ->
  exists d0, winv n0 d0 s [] /\ w_fixed s = fixed /\ w_buflen s = buflen /\
             (existing = None -> d0 = repeat zero n0) /\
             (forall d, existing = Some d -> d0 = d).
Proof.
  intros Hpos H. unfold wbuf_new in H.
  destruct ((n0 =? 0) && fixed) eqn:E1; [discriminate|].
  destruct (overwrite && negb fixed) eqn:E2; [discriminate|].
  apply bind_ok in H as (d & Hd & H). inversion H; subst; clear H.
  exists d.
  assert (Hlen : length d = n0 /\ (fixed = false -> d = repeat zero n0)).
  { destruct existing as [d'|].
    - destruct overwrite; [|discriminate].
      destruct (Nat.eqb_spec (length d') n0); [|discriminate]. inversion Hd; subst.
      split; [reflexivity|]. destruct fixed; [discriminate|discriminate].
    - destruct (negb fixed && (chunk =? 0)); [discriminate|]. inversion Hd; subst.
      split; [apply repeat_length|reflexivity]. }
  destruct Hlen as [Hlen Hz].
  split; [|split; [reflexivity|split; [reflexivity|split]]].
  - constructor; cbn; try (rewrite repeat_length); auto.
    intros Hf. split; [apply Hz; exact Hf|]. rewrite Nat.max_0_r. lia.
  - intros ->. destruct (negb fixed && (chunk =? 0)); [discriminate|]. now inversion Hd.
  - intros d' ->. destruct overwrite; [|discriminate].
    destruct (length d' =? n0); [|discriminate]. now inversion Hd.
Qed.

Lemma resize_winv_dset n0 (data : list A) dix m :
  dix <= length data -> Nat.max n0 dix <= m ->
  h5_resize zero m (firstn dix data ++ skipn dix (repeat zero n0))
  = firstn dix data ++ repeat zero (m - dix).
Proof.
  intros H1 H2. unfold h5_resize. rewrite skipn_repeat.
  assert (Hl : length (firstn dix data ++ repeat zero (n0 - dix)) = Nat.max n0 dix).
  { rewrite app_length, firstn_length_le, repeat_length by lia. lia. }
  rewrite Hl. rewrite firstn_all2 by (rewrite Hl; lia).
  rewrite <- app_assoc, <- repeat_app. f_equal. f_equal. lia.
Qed.

Lemma winv_write n0 d0 s data new :
  winv n0 d0 s data ->
  (w_fixed s = true -> length data + length new <= n0) ->
  exists s', wbuf_write zero s new = Ok s' /\ winv n0 d0 s' (data ++ new)
             /\ w_fixed s' = w_fixed s /\ w_buflen s' = w_buflen s.
Proof.
  intros [Hlen Hpos Hix Hcount Hbuf Hdset Hd0 Hfix Hgrow] Hroom.
  unfold wbuf_write, wbuf_write_fuel.
  set (target := w_bufix s + length new).
  set (k := target / w_buflen s).
  assert (Hk : w_buflen s * k <= target) by (apply Nat.mul_div_le; lia).
  assert (Hk2 : target < w_buflen s * k + w_buflen s).
  { unfold k. pose proof (Nat.mod_upper_bound target (w_buflen s) ltac:(lia)).
    pose proof (Nat.div_mod target (w_buflen s) ltac:(lia)). lia. }
  assert (Hkf : k < S target).
  { assert (k <= target); [|lia]. apply Nat.div_le_upper_bound; nia. }
  assert (Hdl : length (w_dset s) = Nat.max n0 (w_dsetix s)).
  { rewrite Hdset, app_length, firstn_length_le, skipn_length by lia. lia. }
  (* common end of the proof: [s1] is [s] with enough room *)
  assert (Main : forall s1 : wbuf,
    w_fixed s1 = w_fixed s -> w_buflen s1 = w_buflen s -> w_buf s1 = w_buf s ->
    w_bufix s1 = w_bufix s -> w_dsetix s1 = w_dsetix s ->
    w_dsetix s + w_buflen s * k <= length (w_dset s1) ->
    (exists tail, w_dset s1 = firstn (w_dsetix s) data ++ tail /\
                  skipn (w_buflen s * k) tail = skipn (w_dsetix s + w_buflen s * k) d0) ->
    (w_fixed s = true -> w_nrows s1 = n0) ->
    (w_fixed s = false ->
       d0 = repeat zero n0 /\
       n0 <= w_nrows s1 <= Nat.max n0 (w_dsetix s + w_buflen s * k) /\
       (w_nrows s1 = Nat.max n0 (w_dsetix s + w_buflen s * k) \/
        w_nrows s1 < w_dsetix s + w_buflen s * k)) ->
    exists s', write_loop (S target) s1 new target = Ok s' /\ winv n0 d0 s' (data ++ new)
               /\ w_fixed s' = w_fixed s /\ w_buflen s' = w_buflen s).
  { intros s1 E1 E2 E3 E4 E5 Hr (tail & Ht1 & Ht2) Hf Hg.
    pose proof (write_loop_room (S target) s1 new) as W. cbn zeta in W.
    rewrite E2, E3, E4, E5 in W. fold target k in W.
    destruct W as (buf' & W & L & F); try assumption; try lia.
    rewrite W. eexists. split; [reflexivity|]. cbn [w_fixed w_buflen].
    split; [|split; [exact E1|reflexivity]].
    set (all := firstn (w_bufix s) (w_buf s) ++ new) in *.
    assert (Hall : all = skipn (w_dsetix s) (data ++ new)).
    { unfold all. rewrite Hbuf, skipn_app. f_equal.
      replace (w_dsetix s - length data) with 0 by lia. reflexivity. }
    assert (Hall_len : length all = target).
    { rewrite Hall, skipn_length, app_length. unfold target. lia. }
    constructor; cbn [w_fixed w_buflen w_buf w_bufix w_dset w_dsetix w_nrows].
    - exact L.
    - exact Hpos.
    - lia.
    - rewrite app_length. unfold target in *. lia.
    - rewrite F, Hall, skipn_skipn. f_equal. lia.
    - rewrite Ht1. rewrite <- (firstn_length_le data (n := w_dsetix s)) at 1 by lia.
      rewrite splice_app_l.
      + rewrite firstn_length_le by lia. rewrite Ht2. rewrite app_assoc. f_equal.
        rewrite Hall.
        rewrite <- (firstn_skipn (w_dsetix s) (firstn (w_dsetix s + w_buflen s * k) (data ++ new))).
        f_equal.
        * rewrite firstn_firstn, Nat.min_l by lia. rewrite firstn_app.
          replace (w_dsetix s - length data) with 0 by lia. cbn [firstn]. now rewrite app_nil_r.
        * rewrite skipn_firstn_comm. f_equal. lia.
      + rewrite firstn_length_le by lia.
        assert (length (w_dset s1) = w_dsetix s + length tail).
        { rewrite Ht1, app_length, firstn_length_le by lia. reflexivity. }
        lia.
    - exact Hd0.
    - intros Hfx. rewrite E1 in Hfx. apply Hf. exact Hfx.
    - intros Hfx. rewrite E1 in Hfx. apply Hg. exact Hfx. }
  destruct (w_fixed s) eqn:Ef; cbn [negb].
  - (* fixed size *)
    specialize (Hfix eq_refl). specialize (Hroom eq_refl). unfold target in *.
    apply Main; try reflexivity; try assumption.
    + rewrite Hdl. lia.
    + exists (skipn (w_dsetix s) d0). split; [exact Hdset|]. rewrite skipn_skipn. f_equal. lia.
    + intros _. exact Hfix.
    + discriminate.
  - (* growable *)
    destruct (Nat.eqb_spec (w_buflen s) 0); [lia|].
    destruct (Hgrow eq_refl) as (Hz & Hg1 & Hg2). fold target k.
    destruct (Nat.ltb_spec (w_nrows s) (w_dsetix s + w_buflen s * k)) as [Hn|Hn].
    + apply Main; cbn [w_fixed w_buflen w_buf w_bufix w_dset w_dsetix w_nrows];
        try reflexivity; try assumption.
      * unfold h5_resize. rewrite app_length, firstn_length, repeat_length. lia.
      * exists (repeat zero (w_buflen s * k)). split.
        -- rewrite Hdset, Hz, resize_winv_dset by lia. f_equal. f_equal. lia.
        -- rewrite Hz, !skipn_repeat. f_equal. lia.
      * discriminate.
      * intros _. split; [exact Hz|]. split; [lia|]. left. lia.
    + apply Main; try reflexivity; try assumption.
      * rewrite Hdl. lia.
      * exists (skipn (w_dsetix s) d0). split; [exact Hdset|]. rewrite skipn_skipn. f_equal. lia.
      * intros _. split; [exact Hz|]. lia.
Qed.

Lemma winv_flush n0 d0 s data :
  winv n0 d0 s data ->
  (w_fixed s = true -> length data <= n0) ->
  exists s', wbuf_flush zero s = Ok s' /\ winv n0 d0 s' data /\ w_bufix s' = 0
             /\ w_fixed s' = w_fixed s /\ w_buflen s' = w_buflen s.
Proof.
  intros I Hroom. pose proof I as [Hlen Hpos Hix Hcount Hbuf Hdset Hd0 Hfix Hgrow].
  unfold wbuf_flush. destruct (Nat.ltb_spec 0 (w_bufix s)) as [Hb|Hb].
  2:{ exists s. split; [reflexivity|]. split; [exact I|]. split; [lia|auto]. }
  assert (Hdl : length (w_dset s) = Nat.max n0 (w_dsetix s)).
  { rewrite Hdset, app_length, firstn_length_le, skipn_length by lia. lia. }
  assert (Hfl : length (firstn (w_bufix s) (w_buf s)) = w_bufix s) by (rewrite firstn_length_le; lia).
  set (ix_end := w_dsetix s + w_bufix s).
  set (dA := if negb (w_fixed s) && (w_nrows s <? ix_end)
             then h5_resize zero ix_end (w_dset s) else w_dset s).
  assert (HdA : exists tail, dA = firstn (w_dsetix s) data ++ tail /\
                w_bufix s <= length tail /\
                skipn (w_bufix s) tail = skipn ix_end d0).
  { unfold dA. destruct (w_fixed s) eqn:Ef; cbn [negb andb].
    - specialize (Hroom eq_refl). exists (skipn (w_dsetix s) d0). split; [exact Hdset|].
      rewrite skipn_length, skipn_skipn. split; [lia|]. f_equal. unfold ix_end. lia.
    - destruct (Hgrow eq_refl) as (Hz & Hg1 & Hg2).
      destruct (Nat.ltb_spec (w_nrows s) ix_end) as [Hn|Hn].
      + exists (repeat zero (w_bufix s)). split.
        * rewrite Hdset, Hz, resize_winv_dset by (unfold ix_end in *; lia). f_equal. f_equal.
          unfold ix_end. lia.
        * rewrite repeat_length. split; [lia|]. rewrite Hz, !skipn_repeat. f_equal.
          unfold ix_end in *. lia.
      + exists (skipn (w_dsetix s) d0). split; [exact Hdset|].
        rewrite skipn_length, skipn_skipn. unfold ix_end in *. split; [lia|]. f_equal. lia. }
  destruct HdA as (tail & Ht1 & Ht2 & Ht3).
  assert (HlA : length dA = w_dsetix s + length tail).
  { rewrite Ht1, app_length, firstn_length_le by lia. reflexivity. }
  unfold h5_assign. rewrite Hfl.
  destruct (Nat.leb_spec (w_dsetix s + w_bufix s) (length dA)); [|lia].
  cbn [bind]. eexists. split; [reflexivity|]. cbn [w_bufix w_fixed w_buflen].
  split; [|auto].
  constructor; cbn [w_fixed w_buflen w_buf w_bufix w_dset w_dsetix w_nrows]; try assumption.
  - fold ix_end in Hcount. lia.
  - cbn [firstn]. rewrite skipn_all2; [reflexivity|]. unfold ix_end in *; lia.
  - rewrite Ht1. rewrite <- (firstn_length_le data (n := w_dsetix s)) at 1 by lia.
    rewrite splice_app_l by lia. rewrite Hfl, Ht3, Hbuf, app_assoc, firstn_skipn.
    f_equal. symmetry. apply firstn_all2. unfold ix_end. lia.
  - intros Hf. destruct (Hgrow Hf) as (Hz & Hg1 & Hg2). split; [exact Hz|].
    unfold ix_end in *. lia.
Qed.

Lemma winv_complete n0 d0 s data :
  winv n0 d0 s data -> w_bufix s = 0 ->
  w_dset s = data ++ skipn (length data) d0 /\ w_dsetix s = length data.
Proof.
  intros [Hlen Hpos Hix Hcount Hbuf Hdset Hd0 Hfix Hgrow] Hb.
  assert (w_dsetix s = length data) as E by lia. rewrite Hdset, E, firstn_all. auto.
Qed.

Lemma run_ops_winv n0 d0 ops s data :
  winv n0 d0 s data -> forallb plain ops = true ->
  (w_fixed s = true -> length data + length (written ops) <= n0) ->
  exists s', run_ops zero ops s = (s', None) /\ winv n0 d0 s' (data ++ written ops)
             /\ w_fixed s' = w_fixed s /\ w_buflen s' = w_buflen s.
Proof.
  revert s data. induction ops as [|o ops IH]; intros s data I Hp Hroom.
  { exists s. cbn. rewrite app_nil_r. auto. }
  cbn [forallb] in Hp. apply andb_true_iff in Hp as [Ho Hp].
  destruct o as [new| |m|e]; try discriminate; cbn [run_ops wbuf_step].
  - cbn [written] in Hroom. rewrite app_length in Hroom.
    destruct (winv_write n0 d0 s data new I) as (s1 & E & I1 & Ef & El).
    { intros Hf. specialize (Hroom Hf). lia. }
    rewrite E. destruct (IH s1 (data ++ new) I1 Hp) as (s2 & E2 & I2 & Ef2 & El2).
    { rewrite Ef, app_length. intros Hf. specialize (Hroom Hf). lia. }
    exists s2. rewrite E2. cbn [written]. rewrite app_assoc.
    split; [reflexivity|split; [exact I2|split; congruence]].
  - destruct (winv_flush n0 d0 s data I) as (s1 & E & I1 & _ & Ef & El).
    { intros Hf. specialize (Hroom Hf). lia. }
    rewrite E. destruct (IH s1 data I1 Hp) as (s2 & E2 & I2 & Ef2 & El2).
    { rewrite Ef. exact Hroom. }
    exists s2. cbn [written]. split; [exact E2|split; [exact I2|split; congruence]].
Qed.

(** Growable datasets: leaving the context normally stores everything. *)
Lemma session_growable buflen chunk n0 ops :
  0 < buflen -> 0 < chunk -> forallb plain ops = true ->
  session zero false false buflen chunk n0 None ops
  = (None, Some (written ops ++ repeat zero (n0 - length (written ops)))).
Proof.
  intros Hb Hc Hp. unfold session.
  destruct (wbuf_new zero false false buflen chunk n0 None) as [s0|e] eqn:E.
  2:{ unfold wbuf_new in E. cbn in E. rewrite andb_false_r in E.
      destruct (Nat.eqb_spec chunk 0); [lia|]. discriminate. }
  apply winv_new in E as (d0 & I & Ef & El & Hz & _); [|exact Hb].
  destruct (run_ops_winv n0 d0 ops s0 [] I Hp) as (s1 & E1 & I1 & Ef1 & El1).
  { congruence. }
  rewrite E1. cbn [app] in I1.
  destruct (winv_flush n0 d0 s1 _ I1) as (s2 & E2 & I2 & Hz2 & Ef2 & El2).
  { congruence. }
  unfold exit_normal. cbn [mapM]. rewrite E2. cbn [bind forallb].
  unfold wbuf_iscomplete. rewrite Ef2, Ef1, Ef. cbn.
  destruct (winv_complete _ _ _ _ I2 Hz2) as [Hd _]. rewrite Hd, (Hz eq_refl), skipn_repeat.
  reflexivity.
Qed.

(** Fixed-size datasets: success exactly when all announced rows were written. *)
Lemma session_fixed_ok buflen overwrite chunk n0 existing ops :
  0 < buflen -> 0 < n0 ->
  (existing = None \/ exists d, existing = Some d /\ overwrite = true /\ length d = n0) ->
  forallb plain ops = true -> length (written ops) = n0 ->
  session zero true overwrite buflen chunk n0 existing ops = (None, Some (written ops)).
Proof.
  intros Hb Hn Hex Hp Hw. unfold session.
  destruct (wbuf_new zero true overwrite buflen chunk n0 existing) as [s0|e] eqn:E.
  2:{ unfold wbuf_new in E. cbn in E. rewrite andb_false_r, andb_true_r in E.
      destruct (Nat.eqb_spec n0 0); [lia|].
      destruct Hex as [->|(d & -> & -> & Hd)]; [discriminate|].
      destruct (Nat.eqb_spec (length d) n0); [discriminate|lia]. }
  apply winv_new in E as (d0 & I & Ef & El & Hz & _); [|exact Hb].
  destruct (run_ops_winv n0 d0 ops s0 [] I Hp) as (s1 & E1 & I1 & Ef1 & El1).
  { intros _. cbn. lia. }
  rewrite E1. cbn [app] in I1.
  destruct (winv_flush n0 d0 s1 _ I1) as (s2 & E2 & I2 & Hz2 & Ef2 & El2).
  { intros _. lia. }
  unfold exit_normal. cbn [mapM]. rewrite E2. cbn [bind forallb].
  destruct (winv_complete _ _ _ _ I2 Hz2) as [Hd Hi].
  unfold wbuf_iscomplete. rewrite Ef2, Ef1, Ef.
  rewrite (wi_fixed _ _ _ _ I2) by congruence. rewrite Hi, Hw, Nat.eqb_refl. cbn.
  rewrite Hd, skipn_all2, app_nil_r; [reflexivity|]. rewrite (wi_d0 _ _ _ _ I2). lia.
Qed.

Lemma write_count (s s' : wbuf) new :
  wbuf_write zero s new = Ok s' ->
  w_dsetix s' + w_bufix s' = w_dsetix s + w_bufix s + length new
  /\ w_fixed s' = w_fixed s /\ (w_fixed s = true -> w_nrows s' = w_nrows s).
Proof.
  unfold wbuf_write, wbuf_write_fuel. destruct (w_fixed s) eqn:Ef; cbn [negb].
  - intros H. apply write_loop_count in H as (H1 & H2 & H3). split; [lia|]. split; congruence.
  - destruct (w_buflen s =? 0); [discriminate|].
    destruct (w_nrows s <? _); intros H; apply write_loop_count in H as (H1 & H2 & H3);
      cbn in H1, H2, H3; (split; [lia|split; [congruence|discriminate]]).
Qed.

Lemma flush_count (s s' : wbuf) :
  wbuf_flush zero s = Ok s' ->
  w_dsetix s' = w_dsetix s + w_bufix s /\ w_bufix s' = 0
  /\ w_fixed s' = w_fixed s /\ w_nrows s' = w_nrows s.
Proof.
  unfold wbuf_flush. destruct (Nat.ltb_spec 0 (w_bufix s)) as [H|H].
  - intros E. apply bind_ok in E as (d & _ & E). inversion E; subst; cbn. auto.
  - intros E. inversion E; subst. repeat split; lia.
Qed.

Lemma run_ops_count ops (s s' : wbuf) :
  forallb plain ops = true -> w_fixed s = true ->
  run_ops zero ops s = (s', None) ->
  w_dsetix s' + w_bufix s' = w_dsetix s + w_bufix s + length (written ops)
  /\ w_fixed s' = true /\ w_nrows s' = w_nrows s.
Proof.
  revert s. induction ops as [|o ops IH]; intros s Hp Hf H.
  { cbn in *. inversion H; subst. rewrite Nat.add_0_r. auto. }
  cbn [forallb] in Hp. apply andb_true_iff in Hp as [Ho Hp].
  destruct o as [new| |m|e]; try discriminate; cbn [run_ops wbuf_step] in H.
  - destruct (wbuf_write zero s new) as [s1|] eqn:E; [|discriminate].
    apply write_count in E as (E1 & E2 & E3). apply IH in H as (H1 & H2 & H3); [|assumption|congruence].
    cbn [written]. rewrite app_length. split; [lia|]. split; [assumption|].
    rewrite H3. apply E3. exact Hf.
  - destruct (wbuf_flush zero s) as [s1|] eqn:E; [|discriminate].
    apply flush_count in E as (E1 & E2 & E3 & E4). apply IH in H as (H1 & H2 & H3); [|assumption|congruence].
    cbn [written]. split; [lia|]. split; [assumption|congruence].
Qed.

Lemma session_fixed_fail buflen overwrite chunk n0 existing ops :
  forallb plain ops = true -> length (written ops) <> n0 ->
  exists e, fst (session zero true overwrite buflen chunk n0 existing ops) = Some e.
Proof.
  intros Hp Hw. unfold session.
  destruct (wbuf_new zero true overwrite buflen chunk n0 existing) as [s0|e] eqn:E; [|cbn; eauto].
  assert (Hs0 : w_fixed s0 = true /\ w_nrows s0 = n0 /\ w_dsetix s0 = 0 /\ w_bufix s0 = 0).
  { unfold wbuf_new in E.
    destruct ((n0 =? 0) && true); [discriminate|]. destruct (overwrite && negb true); [discriminate|].
    apply bind_ok in E as (d & _ & E). inversion E; subst; cbn. auto. }
  destruct Hs0 as (F0 & N0 & D0 & B0).
  destruct (run_ops zero ops s0) as [s1 [e|]] eqn:E1; [cbn; eauto|].
  apply run_ops_count in E1 as (C1 & F1 & N1); [|assumption|assumption].
  unfold exit_normal. cbn [mapM].
  destruct (wbuf_flush zero s1) as [s2|e] eqn:E2; cbn [bind]; [|cbn; eauto].
  apply flush_count in E2 as (D2 & B2 & F2 & N2).
  cbn [forallb]. unfold wbuf_iscomplete. rewrite F2, F1.
  destruct (Nat.eqb_spec (w_dsetix s2) (w_nrows s2)); [lia|]. cbn. eauto.
Qed.

(** The use made by task.py: growable dataset, writes, then a resize to the number of
    rows written, then exit (whose flush comes after the resize). *)
Lemma run_ops_app ops1 ops2 (s s1 : wbuf) :
  run_ops zero ops1 s = (s1, None) -> run_ops zero (ops1 ++ ops2) s = run_ops zero ops2 s1.
Proof.
  revert s. induction ops1 as [|o ops1 IH]; intros s H; cbn in *; [now inversion H|].
  destruct (wbuf_step zero s o) as [s'|e]; [apply IH; exact H|discriminate].
Qed.

Lemma session_resized buflen chunk n0 ops :
  0 < buflen -> 0 < chunk -> forallb plain ops = true ->
  session zero false false buflen chunk n0 None (ops ++ [WResize (length (written ops))])
  = (None, Some (written ops)).
Proof.
  intros Hb Hc Hp. unfold session.
  destruct (wbuf_new zero false false buflen chunk n0 None) as [s0|e] eqn:E.
  2:{ unfold wbuf_new in E. cbn in E. rewrite andb_false_r in E.
      destruct (Nat.eqb_spec chunk 0); [lia|]. discriminate. }
  apply winv_new in E as (d0 & I & Ef & El & Hz & _); [|exact Hb].
  destruct (run_ops_winv n0 d0 ops s0 [] I Hp) as (s1 & E1 & I1 & Ef1 & El1).
  { congruence. }
  cbn [app] in I1. rewrite (run_ops_app ops _ s0 s1 E1). cbn [run_ops wbuf_step].
  set (data := written ops) in *.
  pose proof I1 as [Hlen Hpos Hix Hcount Hbuf Hdset Hd0 _ Hgrow].
  destruct Hgrow as (Hz0 & Hg1 & Hg2); [congruence|].
  assert (Hres : h5_resize zero (length data) (w_dset s1)
                 = firstn (w_dsetix s1) data ++ repeat zero (w_bufix s1)).
  { rewrite Hdset, Hz0. unfold h5_resize. rewrite skipn_repeat, firstn_app.
    rewrite firstn_length_le by lia.
    rewrite (firstn_all2 (firstn _ _)) by (rewrite firstn_length_le; lia).
    rewrite app_length, firstn_length_le, repeat_length by lia.
    rewrite firstn_repeat, <- app_assoc, <- repeat_app. f_equal. f_equal. lia. }
  unfold exit_normal. cbn [mapM]. unfold wbuf_flush. cbn [w_bufix w_dsetix w_fixed w_nrows w_dset w_buf w_buflen].
  rewrite Hres.
  destruct (Nat.ltb_spec 0 (w_bufix s1)) as [Hbi|Hbi].
  - rewrite Ef1, Ef. cbn [negb andb].
    assert (Hd : (if w_nrows s1 <? w_dsetix s1 + w_bufix s1
                  then h5_resize zero (w_dsetix s1 + w_bufix s1)
                         (firstn (w_dsetix s1) data ++ repeat zero (w_bufix s1))
                  else firstn (w_dsetix s1) data ++ repeat zero (w_bufix s1))
                 = firstn (w_dsetix s1) data ++ repeat zero (w_bufix s1)).
    { destruct (_ <? _); [|reflexivity]. unfold h5_resize.
      rewrite firstn_all2 by (rewrite app_length, firstn_length_le, repeat_length; lia).
      rewrite app_length, firstn_length_le, repeat_length by lia.
      rewrite Nat.sub_diag. cbn. apply app_nil_r. }
    rewrite Hd. unfold h5_assign.
    rewrite firstn_length_le by lia. rewrite app_length, firstn_length_le, repeat_length by lia.
    rewrite Nat.leb_refl. cbn [bind forallb wbuf_iscomplete w_fixed andb w_dset].
    f_equal. f_equal.
    rewrite <- (firstn_length_le data (n := w_dsetix s1)) at 1 by lia.
    rewrite splice_app_l by (rewrite firstn_length_le, repeat_length; lia).
    rewrite firstn_length_le, skipn_repeat, Nat.sub_diag by lia. cbn [repeat].
    rewrite app_nil_r, Hbuf. apply firstn_skipn.
  - assert (w_bufix s1 = 0) as Eb by lia. cbn [bind forallb wbuf_iscomplete w_fixed].
    rewrite Ef1, Ef. cbn [w_dset]. rewrite Eb. cbn [repeat]. rewrite app_nil_r.
    rewrite firstn_all2 by lia. reflexivity.
Qed.

(** The dataset survives an error exit. *)
Lemma session_error_keeps buflen chunk n0 ops e :
  0 < buflen -> 0 < chunk -> forallb plain ops = true ->
  session zero false false buflen chunk n0 None (ops ++ [WRaise e])
  = (Some e, Some (written ops ++ repeat zero (n0 - length (written ops)))).
Proof.
  intros Hb Hc Hp. unfold session.
  destruct (wbuf_new zero false false buflen chunk n0 None) as [s0|e'] eqn:E.
  2:{ unfold wbuf_new in E. cbn in E. rewrite andb_false_r in E.
      destruct (Nat.eqb_spec chunk 0); [lia|]. discriminate. }
  apply winv_new in E as (d0 & I & Ef & El & Hz & _); [|exact Hb].
  destruct (run_ops_winv n0 d0 ops s0 [] I Hp) as (s1 & E1 & I1 & Ef1 & El1).
  { congruence. }
  cbn [app] in I1. rewrite (run_ops_app ops _ s0 s1 E1). cbn [run_ops wbuf_step].
  destruct (winv_flush n0 d0 s1 _ I1) as (s2 & E2 & I2 & Hz2 & Ef2 & El2).
  { congruence. }
  unfold exit_error. rewrite E2. unfold wbuf_delete.
  destruct (winv_complete _ _ _ _ I2 Hz2) as [Hd _]. rewrite Hd, (Hz eq_refl), skipn_repeat.
  reflexivity.
Qed.

(** A fixed-size dataset with an empty buffer: [write] never returns. *)
Lemma write_loop_empty_buffer fuel (s : wbuf) data target :
  w_buflen s = 0 -> w_dsetix s <= length (w_dset s) -> w_bufix s = 0 -> w_buf s = [] ->
  write_loop fuel s data target = Err OutOfFuel.
Proof.
  revert s data target. induction fuel as [|fuel IH]; intros s data target H0 H1 H2 H3; [reflexivity|].
  cbn [write_loop]. rewrite H0, H2, H3. cbn [Nat.leb].
  cbn [Nat.sub firstn]. unfold splice. cbn. unfold h5_assign. cbn [length].
  destruct (Nat.leb_spec (w_dsetix s + 0) (length (w_dset s))); [|lia].
  cbn [bind]. apply IH; cbn; try reflexivity.
  rewrite splice_length by (cbn; lia). lia.
Qed.

Lemma write_empty_buffer n0 fuel data :
  wbuf_write_fuel zero fuel
    {| w_fixed := true; w_buflen := 0; w_buf := []; w_bufix := 0;
       w_dset := repeat zero n0; w_dsetix := 0; w_nrows := n0 |} data = Err OutOfFuel.
Proof.
  unfold wbuf_write_fuel. cbn [w_fixed negb]. apply write_loop_empty_buffer; cbn; auto with arith.
Qed.

(** Fuel: the loop never runs out of the fuel [wbuf_write] gives it. *)
Lemma write_loop_fuel (s : wbuf) data target fuel :
  0 < w_buflen s -> target < fuel -> write_loop fuel s data target <> Err OutOfFuel.
Proof.
  revert s data target. induction fuel as [|fuel IH]; intros s data target Hp Hf; [lia|].
  cbn [write_loop]. destruct (Nat.leb_spec (w_buflen s) target); [|discriminate].
  unfold h5_assign.
  destruct (_ <=? _); [|destruct (_ <=? _); [|discriminate]];
    cbn [bind]; apply IH; cbn; lia.
Qed.

End Proofs.

(** Rounding of the buffer sizes. *)
Lemma nb_lines_spec item cols mem n :
  (0 < item)%Z -> (0 < cols)%Z -> (0 <= mem)%Z -> nb_lines item cols mem = Ok n ->
  (2 * (mem * 1000) - item * cols <= 2 * (item * cols) * Z.of_nat n
   <= 2 * (mem * 1000) + item * cols)%Z.
Proof.
  intros Hi Hc Hm. unfold nb_lines. destruct (Z.eqb_spec (item * cols) 0) as [E|E]; [nia|].
  intros H. inversion H; subst. 
  assert (Hb : (0 < item * cols)%Z) by nia.
  pose proof (@round_div_bounds (mem * 1000)%Z (item * cols)%Z Hb) as B.
  rewrite Z2Nat.id by nia. lia.
Qed.

Lemma nb_lines_zero item cols mem :
  (item * cols = 0)%Z -> nb_lines item cols mem = Err ZeroDivisionError.
Proof. intros H. unfold nb_lines. now rewrite H. Qed.
