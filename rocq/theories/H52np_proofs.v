From Verif Require Import Prelude H52np H52np_spec.

Section Proofs.
Variable A : Type.
Variable zero : A.
Variables occ_num occ_den : nat.
Hypothesis occ_pos : 0 < occ_num.
Hypothesis occ_le : occ_num <= occ_den.
Notation rbuf := (rbuf A).

(** The rows still to be delivered. *)
Definition rem (s : rbuf) : list A :=
  skipn (r_bufix s) (r_buf s) ++ slice (r_dsetix s) (r_nrows s) (r_dset s).

Record rinv0 (s : rbuf) : Prop := {
  ri_len : length (r_buf s) = r_buflen s;
  ri_pos : 0 < r_buflen s;
  ri_ix : r_bufix s <= r_buflen s;
  ri_dix : r_dsetix s <= r_nrows s;
  ri_rows : r_nrows s <= length (r_dset s)
}.

Record rinv (s : rbuf) : Prop := {
  ri_0 : rinv0 s;
  ri_occ : r_dsetix s = r_nrows s \/
           occ_num * r_buflen s <= occ_den * (r_buflen s - r_bufix s)
}.

Definition same_src (s s' : rbuf) : Prop :=
  r_dset s' = r_dset s /\ r_nrows s' = r_nrows s /\ r_buflen s' = r_buflen s.

Lemma skipn_splice (l new : list A) i :
  i <= length l -> skipn i (splice i new l) = new ++ skipn (i + length new) l.
Proof.
  intros H. unfold splice. rewrite skipn_app, firstn_length_le, Nat.sub_diag by lia.
  rewrite skipn_all2 by (rewrite firstn_length_le; lia). reflexivity.
Qed.

Lemma refill_spec (s : rbuf) :
  rinv0 s ->
  exists s', refill_buffer occ_num occ_den s = Ok s' /\ rinv s' /\ rem s' = rem s /\ same_src s s'.
Proof.
  intros [Hlen Hpos Hix Hd Hr]. unfold refill_buffer.
  destruct (Nat.eqb_spec (r_dsetix s) (r_nrows s)) as [He|He]; cbn [negb].
  { exists s. split; [reflexivity|]. split; [constructor; [constructor; assumption|now left]|].
    split; [reflexivity|]. repeat split. }
  destruct (Nat.eqb_spec (r_buflen s) 0); [lia|].
  destruct (Nat.ltb_spec (occ_den * (r_buflen s - r_bufix s)) (occ_num * r_buflen s)) as [Ho|Ho].
  2:{ exists s. split; [reflexivity|]. split; [constructor; [constructor; assumption|now right]|].
      split; [reflexivity|]. repeat split. }
  set (nbi := r_dsetix s + r_bufix s - r_nrows s).
  set (aib := r_buflen s - r_bufix s).
  set (nix := Nat.min (r_dsetix s + r_bufix s) (r_nrows s)).
  set (new := slice (r_dsetix s) nix (r_dset s)).
  assert (Hnew : length new = nix - r_dsetix s).
  { unfold new. rewrite slice_length. unfold nix. lia. }
  assert (Haib : length (skipn (r_bufix s) (r_buf s)) = aib).
  { rewrite skipn_length. unfold aib. lia. }
  destruct (Nat.eqb_spec (length new) (r_buflen s - (nbi + aib))) as [Hn|Hn].
  2:{ exfalso. apply Hn. rewrite Hnew. unfold nbi, aib, nix. lia. }
  eexists. split; [reflexivity|].
  assert (Htot : nbi + aib + length new = r_buflen s).
  { rewrite Hnew. unfold nbi, aib, nix. lia. }
  assert (Hspl : splice (nbi + aib) new (splice nbi (skipn (r_bufix s) (r_buf s)) (r_buf s))
                 = splice nbi (skipn (r_bufix s) (r_buf s) ++ new) (r_buf s)).
  { rewrite <- Haib. apply splice_app. rewrite Haib. lia. }
  rewrite Hspl.
  split; [|split].
  - constructor; [constructor|]; cbn.
    + rewrite splice_length; [exact Hlen|]. rewrite app_length, Haib. lia.
    + exact Hpos.
    + lia.
    + unfold nix. lia.
    + exact Hr.
    + destruct (Nat.le_gt_cases (r_nrows s) (r_dsetix s + r_bufix s)) as [Hc|Hc].
      * left. unfold nix. lia.
      * right. replace nbi with 0 by (unfold nbi; lia). rewrite Nat.sub_0_r.
        apply Nat.mul_le_mono_r. exact occ_le.
  - unfold rem. cbn. rewrite skipn_splice by (rewrite Hlen; lia).
    rewrite app_length, Haib. rewrite (skipn_all2 (r_buf s) (n := nbi + (aib + length new))) by lia. rewrite app_nil_r, <- app_assoc.
    f_equal. unfold new. apply slice_app. unfold nix. lia.
  - repeat split.
Qed.

Lemma open_spec buflen range (d : list A) :
  0 < buflen ->
  (forall i0 i1, range = Some (i0, i1) -> i0 <= i1 <= length d) ->
  exists s, rbuf_open zero occ_num occ_den buflen range d = Ok s /\ rinv s /\
            rem s = rows_of range d /\
            r_dset s = d /\ r_buflen s = buflen /\
            r_nrows s = match range with Some (_, i1) => i1 | None => length d end.
Proof.
  intros Hb Hr. unfold rbuf_open.
  set (p := match range with Some r => r | None => (0, length d) end).
  destruct p as [i0 i1] eqn:Ep.
  assert (Hi : i0 <= i1 <= length d).
  { unfold p in Ep. destruct range as [[a b]|]; inversion Ep; subst; [apply Hr; reflexivity|lia]. }
  destruct (refill_spec {| r_dset := d; r_nrows := i1; r_dsetix := i0; r_buflen := buflen;
                           r_bufix := buflen; r_buf := repeat zero buflen |})
    as (s & E & I & R & (S1 & S2 & S3)).
  { constructor; cbn; try rewrite repeat_length; lia. }
  exists s. split; [exact E|]. split; [exact I|]. cbn in S1, S2, S3. split.
  - rewrite R. unfold rem. cbn. rewrite skipn_all2 by (rewrite repeat_length; lia). cbn.
    unfold p in Ep. destruct range as [[a b]|]; inversion Ep; subst; [reflexivity|apply slice_full].
  - split; [exact S1|]. split; [exact S3|]. unfold p in Ep.
    destruct range as [[a b]|]; inversion Ep; subst; cbn in *; congruence.
Qed.

Lemma isempty_rem (s : rbuf) : rinv s -> isempty s = true <-> rem s = [].
Proof.
  intros [[Hlen Hpos Hix Hd Hr] Ho]. unfold isempty, rem. rewrite andb_true_iff, !Nat.eqb_eq. split.
  - intros [-> ->]. rewrite skipn_all2 by lia. unfold slice. rewrite Nat.sub_diag. reflexivity.
  - intros H. apply app_eq_nil in H as [H1 H2].
    assert (length (skipn (r_bufix s) (r_buf s)) = 0) as L1 by (rewrite H1; reflexivity).
    assert (length (slice (r_dsetix s) (r_nrows s) (r_dset s)) = 0) as L2 by (rewrite H2; reflexivity).
    rewrite skipn_length in L1. rewrite slice_length in L2. lia.
Qed.

Lemma nonempty_buffer (s : rbuf) : rinv s -> isempty s = false -> r_bufix s < r_buflen s.
Proof.
  intros [[Hlen Hpos Hix Hd Hr] Ho] He. unfold isempty in He. apply andb_false_iff in He.
  rewrite !Nat.eqb_neq in He. destruct He as [He|He]; [|lia].
  destruct Ho as [Ho|Ho]; [congruence|]. nia.
Qed.

Lemma read_loop_spec fuel (s : rbuf) amount found data :
  rinv s -> found <= amount -> amount - found < fuel ->
  exists s', read_loop occ_num occ_den fuel s amount found data
             = Ok (data ++ firstn (amount - found) (rem s), s')
             /\ rinv s' /\ rem s' = skipn (amount - found) (rem s) /\ same_src s s'.
Proof.
  revert s found data. induction fuel as [|fuel IH]; intros s found data I Hf Hfuel; [lia|].
  cbn [read_loop]. destruct (Nat.ltb_spec found amount) as [Hlt|Hge]; cbn [andb].
  2:{ exists s. replace (amount - found) with 0 by lia. cbn. rewrite app_nil_r.
      split; [reflexivity|]. split; [exact I|]. split; [reflexivity|]. repeat split. }
  destruct (isempty s) eqn:He; cbn [negb].
  { exists s. assert (rem s = []) as -> by (apply isempty_rem; assumption).
    rewrite firstn_nil, skipn_nil, app_nil_r. split; [reflexivity|]. split; [exact I|].
    split; [reflexivity|]. repeat split. }
  pose proof (nonempty_buffer s I He) as Hne.
  pose proof I as [[Hlen Hpos Hix Hd Hr] Ho].
  set (aib := r_buflen s - r_bufix s) in *.
  destruct (Nat.ltb_spec (amount - found) aib) as [Hn|Hn].
  - (* enough in the buffer *)
    set (s1 := {| r_dset := r_dset s; r_nrows := r_nrows s; r_dsetix := r_dsetix s;
                  r_buflen := r_buflen s; r_bufix := r_bufix s + (amount - found);
                  r_buf := r_buf s |}).
    destruct (refill_spec s1) as (s2 & E & I2 & R2 & S2).
    { constructor; cbn; try assumption. unfold aib in *. lia. }
    rewrite E. cbn [bind].
    set (block := slice (r_bufix s) (r_bufix s + (amount - found)) (r_buf s)).
    destruct (IH s2 amount (data ++ block)) as (s3 & E3 & I3 & R3 & S3); [assumption|lia|lia|].
    rewrite Nat.sub_diag in E3, R3. cbn in E3, R3. rewrite app_nil_r in E3.
    exists s3. rewrite E3.
    assert (Hrem : rem s = block ++ rem s2).
    { rewrite R2. unfold rem, s1. cbn. rewrite app_assoc. f_equal.
      unfold block, slice. replace (r_bufix s + (amount - found) - r_bufix s) with (amount - found) by lia.
      rewrite Nat.add_comm, <- skipn_skipn. symmetry. apply firstn_skipn. }
    assert (Hbl : length block = amount - found).
    { unfold block. rewrite slice_length. unfold aib in *. lia. }
    split; [|split; [exact I3|split]].
    + f_equal. f_equal. f_equal. rewrite Hrem, firstn_app, Hbl, Nat.sub_diag. cbn.
      rewrite app_nil_r. symmetry. apply firstn_all2. lia.
    + rewrite R3. rewrite Hrem, skipn_app, Hbl, Nat.sub_diag. cbn.
      rewrite skipn_all2 by lia. reflexivity.
    + destruct S2 as (? & ? & ?), S3 as (? & ? & ?). cbn in *. repeat split; congruence.
  - (* take the whole buffer *)
    set (s1 := {| r_dset := r_dset s; r_nrows := r_nrows s; r_dsetix := r_dsetix s;
                  r_buflen := r_buflen s; r_bufix := r_buflen s; r_buf := r_buf s |}).
    destruct (refill_spec s1) as (s2 & E & I2 & R2 & S2).
    { constructor; cbn; try assumption. lia. }
    rewrite E. cbn [bind].
    set (block := slice (r_bufix s) (r_buflen s) (r_buf s)).
    destruct (IH s2 (found + aib) (data ++ block)) as (s3 & E3 & I3 & R3 & S3);
      [assumption|lia|unfold aib in *; lia|].
    exists s3. rewrite E3.
    assert (Hbl : length block = aib).
    { unfold block. rewrite slice_length. unfold aib in *. lia. }
    assert (Hblk : block = skipn (r_bufix s) (r_buf s)).
    { unfold block, slice. apply firstn_all2. rewrite skipn_length. lia. }
    assert (Hrem : rem s = block ++ rem s2).
    { rewrite R2. unfold rem, s1. cbn. rewrite (skipn_all2 (r_buf s) (n := r_buflen s)) by lia.
      cbn. now rewrite Hblk. }
    split; [|split; [exact I3|split]].
    + f_equal. f_equal. rewrite <- app_assoc. f_equal.
      rewrite Hrem, firstn_app, Hbl. rewrite (firstn_all2 block) by lia.
      f_equal. f_equal. lia.
    + rewrite R3, Hrem, skipn_app, Hbl. rewrite (skipn_all2 block) by lia. cbn.
      f_equal. lia.
    + destruct S2 as (? & ? & ?), S3 as (? & ? & ?). cbn in *. repeat split; congruence.
Qed.

Lemma read_amount_spec (s : rbuf) n :
  rinv s -> 0 < n -> rem s <> [] ->
  exists s', rbuf_read occ_num occ_den s (Some n) = Ok (Data (firstn n (rem s)) s')
             /\ rinv s' /\ rem s' = skipn n (rem s) /\ same_src s s'.
Proof.
  intros I Hn Hne. unfold rbuf_read. destruct n as [|n]; [lia|].
  destruct (isempty s) eqn:He.
  { exfalso. apply Hne. apply isempty_rem; assumption. }
  destruct (read_loop_spec (S (S n)) s (S n) 0 [] I) as (s' & E & I' & R' & S'); [lia|lia|].
  rewrite E. cbn [bind fst snd app]. rewrite Nat.sub_0_r in *. eauto.
Qed.

Lemma read_amount_stop (s : rbuf) n :
  rinv s -> 0 < n -> rem s = [] -> rbuf_read occ_num occ_den s (Some n) = Ok Stop.
Proof.
  intros I Hn He. unfold rbuf_read. destruct n; [lia|].
  rewrite (proj2 (isempty_rem s I) He). reflexivity.
Qed.

Lemma read_next_spec (s : rbuf) :
  rinv s -> rem s <> [] ->
  exists l s', rbuf_read occ_num occ_den s None = Ok (Data l s')
             /\ l <> [] /\ length l <= r_buflen s /\ rem s = l ++ rem s' /\ rinv s' /\ same_src s s'.
Proof.
  intros I Hne. unfold rbuf_read. destruct (isempty s) eqn:He.
  { exfalso. apply Hne. apply isempty_rem; assumption. }
  pose proof (nonempty_buffer s I He) as Hb.
  set (n := r_buflen s - r_bufix s).
  destruct (read_loop_spec (S n) s n 0 [] I) as (s' & E & I' & R' & S'); [lia|lia|].
  rewrite E. cbn [bind fst snd app]. rewrite Nat.sub_0_r in *.
  exists (firstn n (rem s)), s'. split; [reflexivity|]. split; [|split; [|split; [|split; assumption]]].
  - destruct (rem s) as [|a r]; [congruence|]. unfold n. destruct (r_buflen s - r_bufix s) eqn:E0; [lia|].
    discriminate.
  - rewrite firstn_length. unfold n. lia.
  - rewrite R'. symmetry. apply firstn_skipn.
Qed.

Lemma iterate_spec fuel (s : rbuf) :
  rinv s -> length (rem s) < fuel ->
  exists ls, iterate occ_num occ_den fuel s = Ok ls /\ concat ls = rem s /\
             Forall (fun l => l <> [] /\ length l <= r_buflen s) ls.
Proof.
  revert s. induction fuel as [|fuel IH]; intros s I Hf; [lia|]. cbn [iterate].
  destruct (rem s) as [|a r] eqn:Er.
  - unfold rbuf_read. rewrite (proj2 (isempty_rem s I) Er). cbn [bind].
    exists []. auto.
  - destruct (read_next_spec s I) as (l & s' & E & Hl & Hl2 & R & I' & (S1 & S2 & S3)); [congruence|].
    rewrite E. cbn [bind]. rewrite Er in R.
    destruct (IH s' I') as (ls & E' & C & F).
    { assert (length (a :: r) = length l + length (rem s')) as L by (rewrite R, app_length; reflexivity).
      destruct l; [congruence|]. cbn in *. lia. }
    rewrite E'. cbn [bind]. exists (l :: ls). split; [reflexivity|]. cbn. rewrite C.
    split; [now rewrite R|]. rewrite S3 in F. constructor; [split|]; assumption.
Qed.

Lemma read_blocks_spec buflen range (d : list A) :
  0 < buflen ->
  (forall i0 i1, range = Some (i0, i1) -> i0 <= i1 <= length d) ->
  exists ls, read_blocks zero occ_num occ_den buflen range d = Ok ls /\
             concat ls = rows_of range d /\
             Forall (fun l => l <> [] /\ length l <= buflen) ls.
Proof.
  intros Hb Hr. unfold read_blocks.
  destruct (open_spec buflen range d Hb Hr) as (s & E & I & R & _ & Hbl & _).
  rewrite E. cbn [bind]. rewrite <- R, <- Hbl. apply iterate_spec; [exact I|].
  rewrite R. destruct range as [[i0 i1]|]; [|cbn; lia].
  change (rows_of (Some (i0, i1)) d) with (slice i0 i1 d).
  rewrite slice_length. specialize (Hr i0 i1 eq_refl). lia.
Qed.

Lemma read_seq_spec (s : rbuf) amounts :
  rinv s -> Forall (fun n => 0 < n) amounts ->
  read_seq occ_num occ_den s amounts = Ok (cut amounts (rem s)).
Proof.
  revert s. induction amounts as [|a amounts IH]; intros s I Hp; [reflexivity|].
  inversion Hp as [|? ? Ha Hp']; subst. cbn [read_seq cut].
  destruct (rem s) as [|x r] eqn:Er.
  - rewrite read_amount_stop by assumption. reflexivity.
  - destruct (read_amount_spec s a I Ha) as (s' & E & I' & R & _); [congruence|].
    rewrite E. cbn [bind]. rewrite IH by assumption. rewrite R, Er. reflexivity.
Qed.

End Proofs.

(** Statements over whole files. *)
Section Top.
Variable A : Type.
Variable zero : A.

Lemma read_amounts_top num den buflen range (d : list A) amounts :
  0 < num -> num <= den -> 0 < buflen ->
  (forall i0 i1, range = Some (i0, i1) -> i0 <= i1 <= length d) ->
  Forall (fun n => 0 < n) amounts ->
  (s <- rbuf_open zero num den buflen range d ;; read_seq num den s amounts)
  = Ok (cut amounts (rows_of range d)).
Proof.
  intros H1 H2 H3 H4 H5.
  destruct (open_spec A zero num den H1 H2 buflen range d H3 H4) as (s & E & I & R & _).
  rewrite E. cbn [bind]. rewrite (read_seq_spec A num den H1 H2 s amounts I H5). now rewrite R.
Qed.

Lemma read_zero_top num den (s : rbuf A) : rbuf_read num den s (Some 0) = Err ValueError.
Proof. reflexivity. Qed.

Lemma read_buf_len_spec size row n :
  (0 < row)%Z -> (0 <= size)%Z -> read_buf_len size row = Ok n ->
  (2 * size - row <= 2 * row * Z.of_nat n <= 2 * size + row)%Z.
Proof.
  intros Hr Hs. unfold read_buf_len. destruct (Z.eqb_spec row 0) as [E|E]; [lia|].
  intros H. inversion H; subst. pose proof (@round_div_bounds size row Hr) as B.
  rewrite Z2Nat.id by nia. lia.
Qed.

End Top.
