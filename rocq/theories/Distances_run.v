(** Proofs about the processes that compute the distances. *)
From Coq Require Import String.
From Coq Require Import List ZArith Lia Permutation Sorted.
From Verif Require Import Prelude ListFacts Pairs Pairs_spec Distances Distances_spec
     Distances_jobs Distances_proofs.
Import ListNotations.
Local Open Scope Z_scope.
Local Open Scope list_scope.

Lemma consecutive_In l : forall i n s e, consecutive i l n -> In (s, e) l -> (i <= s <= e /\ e <= n)%nat.
Proof.
  induction l as [|(s0, e0) l IH]; cbn; intros i n s e H Hin; [contradiction|].
  destruct H as (-> & H1 & H2).
  assert (Hle : (e0 <= n)%nat).
  { clear - H2. revert e0 H2. induction l as [|(s, e) l IH]; cbn; intros e0 H; [lia|].
    destruct H as (-> & H & H'). apply IH in H'. lia. }
  destruct Hin as [[= -> ->]|Hin]; [lia|]. specialize (IH _ _ _ _ H2 Hin). lia.
Qed.

Lemma consecutive_cover l : forall i n p, consecutive i l n -> (i <= p < n)%nat ->
  exists s e, In (s, e) l /\ (s <= p < e)%nat.
Proof.
  induction l as [|(s0, e0) l IH]; cbn; intros i n p H Hp; [lia|].
  destruct H as (-> & H1 & H2).
  destruct (Nat.lt_ge_cases p e0).
  - exists i, e0. split; [now left|lia].
  - destruct (IH e0 n p H2) as (s & e & Hin & Hse); [lia|]. exists s, e. split; [now right|lia].
Qed.

Lemma Forall2_len A B (P : A -> B -> Prop) l m : Forall2 P l m -> length l = length m.
Proof. induction 1; cbn; auto. Qed.

Lemma Forall2_set_nth A B (P : A -> B -> Prop) ws js i w j :
  Forall2 P ws js -> nth_error js i = Some j -> P w j -> Forall2 P (set_nth ws i w) js.
Proof.
  intros H. revert i. induction H as [|a b ws js Hab H IH]; intros [|i]; cbn; try discriminate.
  - intros [= ->] Hw. now constructor.
  - intros Hj Hw. constructor; eauto.
Qed.

Lemma Forall2_nth_error A B (P : A -> B -> Prop) ws js i w :
  Forall2 P ws js -> nth_error ws i = Some w -> exists j, nth_error js i = Some j /\ P w j.
Proof.
  intros H. revert i. induction H as [|a b ws js Hab H IH]; intros [|i]; cbn; try discriminate.
  - intros [= ->]. eauto.
  - apply IH.
Qed.

Section Run.
Variables T F V : Type.
Variable tle : T -> T -> bool.
Variable zero : V.
Variable distance : option bool -> list F -> list F -> res V.
Variable c : setting T F.
Let pf := c_pairs c.
Let files := c_files c.
Let normalize := c_normalize c.
Hypothesis Hpf : pair_file_ok pf.
Hypothesis Hfiles : forall x, In x files -> feature_file_ok x.

Definition valued (p : nat) (v : V) : Prop := row_value tle distance pf files normalize p v.
Definition good (p : nat) (data : list V) : Prop :=
  exists v, nth_error data p = Some v /\ valued p v.
Definition rows (r : range) (p : nat) : Prop :=
  exists base s e, In (r_by r, (base, s, e)) (pf_attrs pf) /\
    s + val (r_start r) <= Z.of_nat p < s + val (r_stop r).
Definition range_ok (r : range) : Prop :=
  exists base s e, In (r_by r, (base, s, e)) (pf_attrs pf) /\
    0 <= val (r_start r) < val (r_stop r) /\ val (r_stop r) <= e - s.
Definition ready (r : range) (first : Z) (dis : list V) : Prop :=
  (exists base e, In (r_by r, (base, first, e)) (pf_attrs pf)) /\
  Z.of_nat (length dis) = val (r_stop r) - val (r_start r) /\
  forall q v, nth_error dis q = Some v -> valued (Z.to_nat (first + val (r_start r)) + q) v.

Lemma attrs_keys : NoDup (map fst (pf_attrs pf)).
Proof. destruct Hpf as (_ & H & _ & E & _). now rewrite E. Qed.

Lemma attrs_bounds k base s e : In (k, (base, s, e)) (pf_attrs pf) ->
  0 < base /\ 0 <= s <= e /\ e <= Z.of_nat (length (pf_data pf)).
Proof.
  intros Hin. destruct Hpf as (_ & _ & _ & _ & Hb & Hc & _).
  destruct (Hb _ _ _ _ Hin) as (H1 & H2).
  assert (I : In (Z.to_nat s, Z.to_nat e)
                 (map (fun x => (Z.to_nat (snd (fst (snd x))), Z.to_nat (snd (snd x)))) (pf_attrs pf))).
  { apply in_map_iff. exists (k, (base, s, e)). split; [reflexivity|exact Hin]. }
  pose proof (consecutive_In _ _ _ _ _ Hc I). lia.
Qed.

Lemma ready_of_block r bd fd dis :
  range_ok r -> read_block pf r = Ok bd -> merge_features files = Ok fd ->
  compute_block tle distance fd normalize bd = Ok dis -> ready r (bd_first bd) dis.
Proof.
  intros (base & s & e & Hin & Hr & Hse) Hread Hm Hcomp.
  pose proof (attrs_bounds _ _ _ _ Hin) as (Hb & Hs & He).
  unfold read_block in Hread. apply bind_ok in Hread as (items & Hi & Hread).
  rewrite (lookup_NoDup _ _ _ _ attrs_keys Hin) in Hread. cbn [bind] in Hread.
  destruct (r_start r) as [i|i] eqn:Ei, (r_stop r) as [j|j] eqn:Ej; try discriminate.
  injection Hread as <-. cbn [val] in *. cbn [bd_first].
  apply lookup_In in Hi.
  apply compute_block_values with (files := files) in Hcomp; auto.
  - cbn [bd_items bd_base bd_pairs] in Hcomp.
    assert (L : length (slice (Z.to_nat (s + i)) (Z.to_nat (s + j)) (pf_data pf)) = Z.to_nat (j - i)).
    { rewrite slice_length. lia. }
    pose proof (Forall2_len _ _ _ _ _ Hcomp) as L2.
    split; [eauto|]. rewrite Ei, Ej. cbn [val]. split; [lia|].
    intros q v Hq.
    assert (Lq : (q < length dis)%nat) by (apply nth_error_Some; congruence).
    destruct (nth_error (slice (Z.to_nat (s + i)) (Z.to_nat (s + j)) (pf_data pf)) q) as [cd|] eqn:Eq;
      [|apply nth_error_None in Eq; lia].
    assert (P : pair_value T F V tle distance files normalize items base cd v).
    { clear - Hcomp Hq Eq. revert q Hq Eq.
      induction Hcomp as [|x y l l' Hxy H IH]; intros [|q] Hq Eq; cbn in *; try discriminate.
      - now injection Hq as <-; injection Eq as <-.
      - eauto. }
    destruct P as (a & b & it & it' & m & m' & Ec & Ha & N1 & N2 & M1 & M2 & Hd).
    rewrite nth_error_slice in Eq. destruct (q <? _)%nat eqn:Q in Eq; [|discriminate].
    exists (r_by r), base, s, e, items, a, b, it, it', m, m'.
    repeat split; auto.
    + rewrite Nat2Z.inj_add, Z2Nat.id by lia. lia.
    + rewrite Nat2Z.inj_add, Z2Nat.id by lia. lia.
    + rewrite Eq, Ec. reflexivity.
  - destruct Hpf as (_ & _ & _ & _ & _ & _ & Hl). cbn. now apply (Hl (r_by r)).
Qed.

Lemma write_ready r first dis df data :
  range_ok r -> ready r first dis -> d_data df = Some data ->
  length data = length (pf_data pf) ->
  exists data', write_block first r dis df = Ok (mk_dist_file (d_done df) (Some data')) /\
    length data' = length (pf_data pf) /\
    (forall p, good p data -> good p data') /\ (forall p, rows r p -> good p data').
Proof.
  intros (base & s & e & Hin & Hr & Hse) ((base' & e' & Hin') & Hl & Hv) Hd Hlen.
  assert (E : (base', first, e') = (base, s, e)) by (eapply NoDup_keys_inj; [apply attrs_keys| |]; eauto).
  injection E as -> -> ->.
  pose proof (attrs_bounds _ _ _ _ Hin) as (Hb & Hs & He).
  unfold write_block. rewrite Hd.
  set (i := Z.to_nat (s + val (r_start r))) in *. set (j := Z.to_nat (s + val (r_stop r))) in *.
  assert (Ls : length (slice i j data) = length dis).
  { rewrite slice_length. unfold i, j. lia. }
  rewrite Ls, Nat.eqb_refl.
  exists (splice i dis data). split; [reflexivity|]. split.
  { rewrite splice_length; [exact Hlen|]. unfold i. lia. }
  assert (G : forall p, (i <= p < i + length dis)%nat -> good p (splice i dis data)).
  { intros p Hp. destruct (nth_error dis (p - i)) as [v|] eqn:Ev; [|apply nth_error_None in Ev; lia].
    exists v. split.
    - rewrite nth_error_splice by (unfold i; lia).
      destruct (Nat.leb_spec i p); [|lia].
      destruct (Nat.ltb_spec p (i + length dis)); [exact Ev|lia].
    - apply Hv in Ev. now replace (i + (p - i))%nat with p in Ev by lia. }
  split.
  - intros p (v & Hp & Hval).
    destruct (Nat.lt_ge_cases p i) as [L|L]; [|destruct (Nat.lt_ge_cases p (i + length dis)) as [L'|L']].
    + exists v. split; [|exact Hval]. rewrite nth_error_splice by (unfold i; lia).
      destruct (Nat.leb_spec i p); [lia|exact Hp].
    + apply G. lia.
    + exists v. split; [|exact Hval]. rewrite nth_error_splice by (unfold i; lia).
      destruct (Nat.leb_spec i p); [|lia].
      destruct (Nat.ltb_spec p (i + length dis)); [lia|exact Hp].
  - intros p (b2 & s2 & e2 & Hin2 & Hp).
    assert (E : (b2, s2, e2) = (base, s, e)) by (eapply NoDup_keys_inj; [apply attrs_keys| |]; eauto).
    injection E as -> -> ->. apply G. unfold i. lia.
Qed.

Variable jobs : list job.
Hypothesis Hjobs : forall j r, In j jobs -> In r j -> range_ok r.
Hypothesis Hcover : forall p, (p < length (pf_data pf))%nat -> exists j r, In j jobs /\ In r j /\ rows r p.

Hypothesis Hsome : jobs <> [].

Definition written (data : list V) (l : job) : Prop :=
  forall r p, In r l -> rows r p -> good p data.

Definition winv (data : list V) (w : worker T V) (j : job) : Prop :=
  match w with
  | W_init todo => todo = j
  | W_start todo => exists l, j = l ++ todo /\ written data l
  | W_read r todo => exists l, j = l ++ r :: todo /\ written data l
  | W_comp r todo bd => exists l, j = l ++ r :: todo /\ written data l /\ read_block pf r = Ok bd
  | W_store r todo first dis => exists l, j = l ++ r :: todo /\ written data l /\ ready r first dis
  | W_write r todo first dis => exists l, j = l ++ r :: todo /\ written data l /\ ready r first dis
  | W_failed _ => True
  end.

Lemma written_mono data data' l :
  (forall p, good p data -> good p data') -> written data l -> written data' l.
Proof. intros H Hw r p Hr Hp. eauto. Qed.

Lemma winv_mono data data' w j :
  (forall p, good p data -> good p data') -> winv data w j -> winv data' w j.
Proof.
  intros H. destruct w; cbn; auto.
  all: intros (l & Hl); exists l; intuition (eauto using written_mono).
Qed.

Record sinv (s : sys T V) (data : list V) : Prop := {
  si_data : d_data (s_file s) = Some data;
  si_len : length data = length (pf_data pf);
  si_work : Forall2 (winv data) (s_workers s) jobs;
  si_done : d_done (s_file s) = Some true ->
            s_main s = M_returned /\ length jobs = 1%nat;
  si_ret : s_main s = M_returned ->
           (forall p, (p < length (pf_data pf))%nat -> good p data) /\
           (length jobs = 1%nat -> d_done (s_file s) = Some true)
}.

Lemma finished_all ws data : Forall2 (winv data) ws jobs -> forallb (@finished T V) ws = true ->
  first_failure ws = None -> forall p, (p < length (pf_data pf))%nat -> good p data.
Proof.
  intros Hf Hfin Hno p Hp. destruct (Hcover p Hp) as (j & r & Hj & Hr & Hrow).
  clear Hcover Hjobs Hsome. revert Hfin Hno Hj. induction Hf as [|w j' ws js Hw Hf IH]; [contradiction|].
  cbn [forallb first_failure]. intros Hfin Hno Hj. apply andb_prop in Hfin as (F1 & F2).
  destruct Hj as [->|Hj].
  - destruct w as [t|[|r0 t]|r0 t|r0 t bd|r0 t f d|r0 t f d|e]; try discriminate.
    destruct Hw as (l & -> & Hw). rewrite app_nil_r in Hr. eapply Hw; eauto.
  - apply IH; auto. destruct w; try exact Hno. discriminate.
Qed.

Lemma set_worker_inv s data i w j :
  sinv s data -> nth_error jobs i = Some j -> winv data w j -> sinv (with_worker s i w) data.
Proof.
  intros [H1 H2 H3 H4 H5] Hj Hw. constructor; cbn; auto. eapply Forall2_set_nth; eauto.
Qed.

Lemma lock_inv s data l : sinv s data -> sinv (with_lock s l) data.
Proof. intros [H1 H2 H3 H4 H5]. constructor; cbn; auto. Qed.

Lemma release_inv b s data : sinv s data -> sinv (release b s) data.
Proof. destruct b; cbn; auto using lock_inv. Qed.

Lemma acquire_inv b s i s' data : acquire b s i = Some s' -> sinv s data -> sinv s' data.
Proof.
  unfold acquire. destruct b; [destruct (s_lock s); [discriminate|]|]; intros [= <-]; auto using lock_inv.
Qed.

Lemma step_inv s who s' data :
  sinv s data -> step tle distance c s who = Some s' -> exists data', sinv s' data'.
Proof.
  intros Hs H. unfold step in H.
  destruct (nth_error (s_workers s) who) as [w|] eqn:Ew.
  - destruct (Forall2_nth_error _ _ _ _ _ _ _ (si_work _ _ Hs) Ew) as (j & Ej & Hw).
    destruct w as [todo|[|r todo]|r todo|r todo bd|r todo first dis|r todo first dis|e]; cbn [worker_step] in H; try discriminate.
    + exists data. destruct (merge_features (c_files c)); injection H as <-;
        eapply set_worker_inv; eauto; cbn; auto.
      exists []. cbn in *. split; [congruence|]. intros ? ? [].
    + exists data. destruct (acquire _ s who) as [s1|] eqn:Ea; [|discriminate]. injection H as <-.
      eapply set_worker_inv; eauto. eapply acquire_inv; eauto.
    + exists data. destruct (read_block (c_pairs c) r) as [bd|e] eqn:Er; injection H as <-.
      * apply release_inv. eapply set_worker_inv; eauto. destruct Hw as (l & Hl & Hw).
        exists l. auto.
      * eapply set_worker_inv; eauto. exact I.
    + exists data.
      destruct (fd <- merge_features (c_files c) ;; compute_block tle distance fd (c_normalize c) bd)
        as [dis|e] eqn:Ed; injection H as <-.
      * eapply set_worker_inv; eauto. destruct Hw as (l & Hl & Hw & Hr). exists l.
        split; auto. split; auto. apply bind_ok in Ed as (fd & Hm & Hc).
        eapply ready_of_block; eauto. apply (Hjobs j r); [eapply nth_error_In; eauto|].
        rewrite Hl. apply in_or_app. right. now left.
      * eapply set_worker_inv; eauto. exact I.
    + exists data. destruct (acquire _ s who) as [s1|] eqn:Ea; [|discriminate]. injection H as <-.
      eapply set_worker_inv; eauto. eapply acquire_inv; eauto.
    + destruct Hw as (l & Hl & Hw & Hr).
      assert (Hok : range_ok r).
      { apply (Hjobs j r); [eapply nth_error_In; eauto|]. rewrite Hl. apply in_or_app. right. now left. }
      destruct (write_ready r first dis (s_file s) data Hok Hr (si_data _ _ Hs) (si_len _ _ Hs))
        as (data' & E & L & G1 & G2).
      rewrite E in H. injection H as <-. exists data'. apply release_inv.
      destruct Hs as [H1 H2 H3 H4 H5]. constructor; cbn; auto.
      * eapply Forall2_set_nth; eauto.
        { revert H3. apply Forall2_impl. intros. eapply winv_mono; eauto. }
        { exists (l ++ [r]). split; [rewrite <- app_assoc; exact Hl|].
          intros r' p Hr' Hp. apply in_app_or in Hr' as [Hr'|[<-|[]]]; eauto. }
      * intros Hret. destruct (H5 Hret) as (H6 & H7). split; eauto.
  - unfold main_step in H. destruct (s_main s) eqn:Em; try discriminate.
    destruct (forallb (@finished T V) (s_workers s)) eqn:Ef; [|discriminate].
    pose proof (Forall2_len _ _ _ _ _ (si_work _ _ Hs)) as L.
    destruct (first_failure (s_workers s)) as [e|] eqn:Efail.
    + injection H as <-. exists data. destruct Hs as [H1 H2 H3 H4 H5].
      constructor; cbn; auto; try discriminate. intros Hd. destruct (H4 Hd). congruence.
    + pose proof (finished_all _ _ (si_work _ _ Hs) Ef Efail) as G.
      destruct Hs as [H1 H2 H3 H4 H5]. exists data.
      destruct (Nat.ltb_spec 1 (length (s_workers s))); injection H as <-; constructor; cbn; auto.
      * intros Hd. destruct (H4 Hd). congruence.
      * intros _. split; auto. lia.
      * intros _. split; auto. destruct jobs; [contradiction|cbn in *; lia].
Qed.

Lemma run_sinv schedule : forall s data, sinv s data ->
  exists data', sinv (run tle distance c s schedule) data'.
Proof.
  induction schedule as [|who l IH]; cbn; intros s data Hs; [eauto|].
  unfold next at 2. destruct (step tle distance c s who) as [s'|] eqn:E; [|eauto].
  destruct (step_inv _ _ _ _ Hs E) as (data' & Hs'). eauto.
Qed.

(** ** The lock *)

Definition linv (s : sys T V) : Prop :=
  if (1 <? length (s_workers s))%nat
  then forall i w, nth_error (s_workers s) i = Some w -> in_critical w -> s_lock s = Some i
  else s_lock s = None.

Lemma linv_step s who s' : linv s -> step tle distance c s who = Some s' ->
  linv s' /\ length (s_workers s') = length (s_workers s).
Proof.
  intros Hl H. unfold step in H.
  destruct (nth_error (s_workers s) who) as [w|] eqn:Ew.
  - assert (L : forall (s1 : sys T V) w1, length (s_workers (with_worker s1 who w1)) = length (s_workers s1)).
    { intros. cbn. apply set_nth_length. }
    assert (Hlt : (who < length (s_workers s))%nat) by (apply nth_error_Some; congruence).
    unfold linv in *.
    destruct (1 <? length (s_workers s))%nat eqn:Es.
    + (* with the lock *)
      assert (K : forall w1, ~ in_critical w1 -> in_critical w \/ True ->
                forall i w2, nth_error (set_nth (s_workers s) who w1) i = Some w2 -> in_critical w2 ->
                             i <> who /\ s_lock s = Some i).
      { intros w1 Hn _ i w2 Hi Hc. destruct (Nat.eq_dec who i) as [<-|N].
        - rewrite set_nth_same in Hi by assumption. injection Hi as <-. contradiction.
        - rewrite set_nth_other in Hi by assumption. split; [auto|]. eapply Hl; eauto. }
      destruct w as [todo|[|r todo]|r todo|r todo bd|r todo first dis|r todo first dis|e];
        cbn [worker_step] in H; try discriminate.
      * destruct (merge_features (c_files c)); injection H as <-; rewrite L, Es; split; auto;
          cbn; intros i w2 Hi Hc; eapply K; eauto; cbn; auto.
      * cbn [acquire] in H. destruct (s_lock s) eqn:El; [discriminate|]. injection H as <-.
        rewrite L. cbn [with_lock s_workers s_lock]. rewrite Es. split; auto.
        cbn. intros i w2 Hi Hc. destruct (Nat.eq_dec who i) as [<-|N]; [reflexivity|].
        rewrite set_nth_other in Hi by assumption. specialize (Hl _ _ Hi Hc). discriminate.
      * destruct (read_block (c_pairs c) r); injection H as <-.
        { cbn [release with_worker with_file with_lock s_workers s_lock]. rewrite set_nth_length, Es. split; auto.
          intros i w2 Hi Hc. destruct (K (W_comp r todo a) (fun x => x) (or_intror I) i w2 Hi Hc) as (N & E).
          rewrite (Hl _ _ Ew) in E by exact I. congruence. }
        { rewrite L, Es. split; auto. cbn. intros i w2 Hi Hc. eapply K; eauto. cbn. auto. }
      * destruct (bind _ _); injection H as <-; rewrite L, Es; split; auto;
          cbn; intros i w2 Hi Hc; eapply K; eauto; cbn; auto.
      * cbn [acquire] in H. destruct (s_lock s) eqn:El; [discriminate|]. injection H as <-.
        rewrite L. cbn [with_lock s_workers s_lock]. rewrite Es. split; auto.
        cbn. intros i w2 Hi Hc. destruct (Nat.eq_dec who i) as [<-|N]; [reflexivity|].
        rewrite set_nth_other in Hi by assumption. specialize (Hl _ _ Hi Hc). discriminate.
      * destruct (write_block first r dis (s_file s)); injection H as <-.
        { cbn [release with_worker with_file with_lock s_workers s_lock]. rewrite set_nth_length, Es. split; auto.
          intros i w2 Hi Hc. destruct (K (W_start todo) (fun x => x) (or_intror I) i w2 Hi Hc) as (N & E).
          rewrite (Hl _ _ Ew) in E by exact I. congruence. }
        { rewrite L, Es. split; auto. cbn. intros i w2 Hi Hc. eapply K; eauto. cbn. auto. }
    + destruct w as [todo|[|r todo]|r todo|r todo bd|r todo first dis|r todo first dis|e];
        cbn [worker_step acquire release] in H; try discriminate;
        repeat match type of H with
          | match ?x with _ => _ end = _ => destruct x
          end; injection H as <-; cbn [with_worker with_file with_lock s_workers s_lock];
        rewrite set_nth_length, Es; auto.
  - unfold main_step in H. destruct (s_main s); try discriminate.
    destruct (forallb _ _); [|discriminate]. unfold linv in *.
    destruct (first_failure _); [|destruct (1 <? _)%nat eqn:Es in H]; injection H as <-; cbn; auto.
Qed.

Lemma linv_exclusive s : linv s -> exclusive s.
Proof.
  unfold linv. intros H i j w w' Hi Hj Ci Cj.
  destruct (Nat.ltb_spec 1 (length (s_workers s))).
  - pose proof (H _ _ Hi Ci). pose proof (H _ _ Hj Cj). congruence.
  - assert (i < length (s_workers s))%nat by (apply nth_error_Some; congruence).
    assert (j < length (s_workers s))%nat by (apply nth_error_Some; congruence). lia.
Qed.

Lemma run_linv schedule : forall s, linv s ->
  linv (run tle distance c s schedule) /\
  length (s_workers (run tle distance c s schedule)) = length (s_workers s).
Proof.
  induction schedule as [|who l IH]; cbn; intros s Hs; [auto|].
  unfold next at 2 4. destruct (step tle distance c s who) as [s'|] eqn:E; [|exact (IH _ Hs)].
  destruct (linv_step _ _ _ Hs E) as (H1 & H2). destruct (IH _ H1) as (H3 & H4).
  split; [exact H3|]. etransitivity; [exact H4|exact H2].
Qed.

(** ** Termination *)

Definition mu (w : worker T V) : nat :=
  match w with
  | W_init todo => 1 + 5 * length todo
  | W_start todo => 5 * length todo
  | W_read _ todo => 5 * length todo + 4
  | W_comp _ todo _ => 5 * length todo + 3
  | W_store _ todo _ _ => 5 * length todo + 2
  | W_write _ todo _ _ => 5 * length todo + 1
  | W_failed _ => 0
  end%nat.
Definition measure (s : sys T V) : nat :=
  (sumn (map mu (s_workers s)) + match s_main s with M_running => 1 | _ => 0 end)%nat.

Lemma sumn_set_nth ws : forall i w w', nth_error ws i = Some w ->
  (sumn (map mu (set_nth ws i w')) + mu w = sumn (map mu ws) + mu w')%nat.
Proof.
  induction ws as [|x ws IH]; intros [|i] w w' H; cbn in *; try discriminate.
  - injection H as ->. lia.
  - specialize (IH i w w' H). unfold sumn in *. lia.
Qed.

Lemma measure_step s who s' : step tle distance c s who = Some s' -> (measure s' < measure s)%nat.
Proof.
  intros H. unfold step in H. unfold measure.
  destruct (nth_error (s_workers s) who) as [w|] eqn:Ew.
  - set (b := (1 <? length (s_workers s))%nat) in H.
    assert (E : exists w', s_workers s' = set_nth (s_workers s) who w' /\ (mu w' < mu w)%nat /\
                           s_main s' = s_main s).
    { destruct w as [todo|[|r todo]|r todo|r todo bd|r todo first dis|r todo first dis|e];
        cbn [worker_step] in H; try discriminate; unfold acquire, release in H;
        destruct b; repeat match type of H with
          | match (match ?x with _ => _ end) with _ => _ end = _ => destruct x
          | match ?x with _ => _ end = _ => destruct x
          end; try discriminate; injection H as <-; eexists; (split; [reflexivity|]);
        (split; [cbn; lia|reflexivity]). }
    destruct E as (w' & -> & Hm & ->). pose proof (sumn_set_nth _ _ _ w' Ew). lia.
  - unfold main_step in H. destruct (s_main s); try discriminate.
    destruct (forallb _ _); [|discriminate].
    destruct (first_failure _); [|destruct (1 <? _)%nat in H]; injection H as <-; cbn [s_workers s_main]; lia.
Qed.

Lemma moves_bounded l : forall s s', moves tle distance c s l = Some s' ->
  (length l + measure s' <= measure s)%nat.
Proof.
  induction l as [|i l IH]; cbn; intros s s' H.
  - injection H as <-. lia.
  - destruct (step tle distance c s i) as [s1|] eqn:E; [|discriminate].
    apply measure_step in E. apply IH in H. lia.
Qed.

(** No failure inside the critical sections: the lock is held by somebody who can move. *)
Hypothesis Hread : forall j r, In j jobs -> In r j -> exists bd, read_block pf r = Ok bd.

Definition held (s : sys T V) : Prop :=
  forall i, s_lock s = Some i -> exists w, nth_error (s_workers s) i = Some w /\ in_critical w.

Lemma held_step s who s' data : sinv s data -> linv s -> held s ->
  step tle distance c s who = Some s' -> held s'.
Proof.
  intros Hs Hli Hh H. unfold step in H.
  destruct (nth_error (s_workers s) who) as [w|] eqn:Ew.
  - assert (Hlt : (who < length (s_workers s))%nat) by (apply nth_error_Some; congruence).
    destruct (Forall2_nth_error _ _ _ _ _ _ _ (si_work _ _ Hs) Ew) as (j & Ej & Hw).
    assert (Ij : In j jobs) by (eapply nth_error_In; eauto).
    assert (K : ~ in_critical w -> forall w1, held (with_worker s who w1)).
    { intros Hn w1 i Hi. cbn in *. destruct (Hh i Hi) as (w2 & H2 & C2).
      destruct (Nat.eq_dec who i) as [<-|N]; [rewrite Ew in H2; injection H2 as <-; contradiction|].
      exists w2. rewrite set_nth_other by assumption. auto. }
    unfold linv in Hli.
    set (b := (1 <? length (s_workers s))%nat) in *.
    destruct w as [todo|[|r todo]|r todo|r todo bd|r todo first dis|r todo first dis|e];
      cbn [worker_step] in H; try discriminate.
    + destruct (merge_features (c_files c)); injection H as <-; apply K; auto.
    + unfold acquire in H. destruct b.
      * destruct (s_lock s) eqn:El; [discriminate|]. injection H as <-.
        intros i Hi. cbn in *. injection Hi as <-. rewrite set_nth_same by assumption.
        eexists; split; [reflexivity|exact I].
      * injection H as <-. intros i Hi. cbn in Hi. congruence.
    + destruct Hw as (l & -> & _).
      destruct (Hread _ r Ij) as (bd & Eb); [apply in_or_app; right; now left|].
      unfold pf in Eb. rewrite Eb in H. injection H as <-.
      destruct b; intros i Hi; cbn in Hi; [discriminate|congruence].
    + destruct (bind _ _); injection H as <-; apply K; auto.
    + unfold acquire in H. destruct b.
      * destruct (s_lock s) eqn:El; [discriminate|]. injection H as <-.
        intros i Hi. cbn in *. injection Hi as <-. rewrite set_nth_same by assumption.
        eexists; split; [reflexivity|exact I].
      * injection H as <-. intros i Hi. cbn in Hi. congruence.
    + destruct Hw as (l & -> & _ & Hr).
      assert (Hok : range_ok r) by (eapply Hjobs; [exact Ij|apply in_or_app; right; now left]).
      destruct (write_ready r first dis (s_file s) data Hok Hr (si_data _ _ Hs) (si_len _ _ Hs))
        as (data' & E & _).
      rewrite E in H. injection H as <-.
      destruct b; intros i Hi; cbn in Hi; [discriminate|congruence].
  - unfold main_step in H. destruct (s_main s); try discriminate.
    destruct (forallb _ _); [|discriminate].
    destruct (first_failure _); [|destruct (1 <? _)%nat in H]; injection H as <-; exact Hh.
Qed.

Lemma critical_moves s data i w : sinv s data -> nth_error (s_workers s) i = Some w ->
  (in_critical w \/ (s_lock s = None /\ finished w = false)) ->
  exists s', step tle distance c s i = Some s'.
Proof.
  intros Hs Ew H. unfold step. rewrite Ew.
  destruct (Forall2_nth_error _ _ _ _ _ _ _ (si_work _ _ Hs) Ew) as (j & Ej & Hw).
  destruct w as [todo|[|r todo]|r todo|r todo bd|r todo first dis|r todo first dis|e];
    cbn [worker_step]; unfold acquire.
  - destruct (merge_features _); eauto.
  - destruct H as [[]|(_ & H)]. discriminate.
  - destruct H as [[]|(-> & _)]. destruct (1 <? _)%nat; eauto.
  - destruct (read_block _ _); eauto.
  - destruct (bind _ _); eauto.
  - destruct H as [[]|(-> & _)]. destruct (1 <? _)%nat; eauto.
  - destruct (write_block _ _ _ _); eauto.
  - destruct H as [[]|(_ & H)]. discriminate.
Qed.

Lemma someone_moves s data : sinv s data -> held s -> s_main s = M_running ->
  exists who s', step tle distance c s who = Some s'.
Proof.
  intros Hs Hh Hm.
  destruct (s_lock s) as [i|] eqn:El.
  - destruct (Hh i El) as (w & Hw & Cw). exists i. eapply critical_moves; eauto.
  - destruct (forallb (@finished T V) (s_workers s)) eqn:Ef.
    + exists (length (s_workers s)). unfold step.
      rewrite (proj2 (nth_error_None _ _)) by lia. unfold main_step. rewrite Hm, Ef.
      destruct (first_failure _); [eauto|]. destruct (1 <? _)%nat; eauto.
    + assert (exists i w, nth_error (s_workers s) i = Some w /\ finished w = false) as (i & w & Hw & Fw).
      { clear - Ef. induction (s_workers s) as [|x l IH]; cbn in Ef; [discriminate|].
        destruct (finished x) eqn:E; [|exists 0%nat, x; auto].
        destruct (IH Ef) as (i & w & Hw & Fw). exists (S i), w. auto. }
      exists i. eapply critical_moves; eauto.
Qed.

Lemma can_end : forall n s data, (measure s < n)%nat -> sinv s data -> linv s -> held s ->
  exists schedule, ended (run tle distance c s schedule).
Proof.
  induction n as [|n IH]; intros s data Hn Hs Hl Hh; [lia|].
  destruct (s_main s) eqn:Em.
  - destruct (someone_moves _ _ Hs Hh Em) as (who & s' & E).
    pose proof (measure_step _ _ _ E). destruct (step_inv _ _ _ _ Hs E) as (data' & Hs').
    destruct (linv_step _ _ _ Hl E) as (Hl' & _). pose proof (held_step _ _ _ _ Hs Hl Hh E) as Hh'.
    destruct (IH s' data') as (sch & Hsch); auto; [lia|].
    exists (who :: sch). cbn. unfold next at 2. rewrite E. exact Hsch.
  - exists []. unfold ended. cbn. congruence.
  - exists []. unfold ended. cbn. congruence.
Qed.

Lemma run_held schedule : forall s data, sinv s data -> linv s -> held s ->
  held (run tle distance c s schedule).
Proof.
  induction schedule as [|who l IH]; cbn; intros s data Hs Hl Hh; [auto|].
  unfold next at 2. destruct (step tle distance c s who) as [s'|] eqn:E; [|eauto].
  destruct (step_inv _ _ _ _ Hs E) as (data' & Hs'). destruct (linv_step _ _ _ Hl E) as (Hl' & _).
  pose proof (held_step _ _ _ _ Hs Hl Hh E) as Hh'. eauto.
Qed.

End Run.
