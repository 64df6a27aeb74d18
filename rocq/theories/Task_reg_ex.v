(** Examples and counterexamples of Props_Regressors.v. *)
From Coq Require Import String.
From Verif Require Import Prelude TypeFitting Sampler Sampler_spec Sampler_proofs Task Task_spec Task_blocks Task_main Task_ex
  Task_refuted Task_reg_spec.
Set Implicit Arguments.
Open Scope string_scope.
Open Scope list_scope.
Open Scope Z_scope.

Lemma ex_reg_reads : reg_reads ex_cols ex_regressors.
Proof.
  constructor; cbn.
  - intros nf r r' [<-|[]] H. apply (H "lang"). cbn. tauto.
  - intros nf r r' [<-|[]] H. apply (H "phone"). cbn. tauto.
  - intros nf v v' r r' [<-|[<-|[<-|[]]]] _ H; cbn; [apply (H "n")|apply (H "phone")|apply (H "talker")]; cbn; tauto.
Qed.

Lemma ex_reg_regs_determined T db : t_regressors T = ex_regressors -> t_on T = "phone" -> t_by T = ["lang"] -> reg_determined T db.
Proof.
  intros E E1 E2. constructor; rewrite E; cbn.
  - intros nf r r' [<-|[]] _ _ H. rewrite E2 in H. apply (H "lang"). cbn. tauto.
  - intros nf r r' [<-|[]] _ _ _ H. rewrite E1 in H. apply (H "phone"). cbn. tauto.
  - intros nf r r' x [<-|[<-|[<-|[]]]]; reflexivity.
Qed.

(** Few items and small regressors leave room. *)
Lemma room_by T db M :
  (forall k, Zlen (by_rows T db k) * Zlen (by_rows T db k) * Zlen (by_rows T db k) <= 256) -> 0 <= M -> (M + 1) ^ Zlen (of_BX (t_regressors T)) < 2 ^ 63 ->
  (forall ng ra rb rx, In ng (of_BX (t_regressors T)) -> In ra db -> In rb db -> In rx db -> 0 <= snd ng ra rb rx <= M) ->
  room T db.
Proof.
  intros Hn HM HP Hv k t0 l [Hnd Hl] _.
  assert (Hin : forall t, In t l -> exists ra rb rx, item (by_rows T db k) (fst (fst t)) ra /\
     item (by_rows T db k) (snd (fst t)) rb /\ item (by_rows T db k) (snd t) rx).
  { intros [[a b] x] H. apply Hl in H as [(ra & rb & rx & Ha & Hb & Hx & _) _]. exists ra, rb, rx. auto. }
  assert (Hdb : incl (by_rows T db k) db).
  { unfold by_rows. destruct (t_by T); [destruct (key_dec _ _); [apply incl_refl|intros x []]|].
    intros x Hx. apply filter_In in Hx. tauto. }
  assert (Hrow : forall i r, item (by_rows T db k) i r -> row_at (by_rows T db k) i = r /\ In r db).
  { intros i r [_ H]. split; [unfold row_at; apply nth_error_nth; exact H|]. apply Hdb. eapply nth_error_In. exact H. }
  assert (Hval : forall ng t, In ng (of_BX (t_regressors T)) -> In t l -> 0 <= value (by_rows T db k) (snd ng) t <= M).
  { intros ng t Hng Ht. destruct (Hin t Ht) as (ra & rb & rx & Ha & Hb & Hx).
    apply Hrow in Ha as [Ea Ha], Hb as [Eb Hb], Hx as [Ex Hx]. destruct t as [[a b] x]. cbn [value fst snd] in *.
    rewrite Ea, Eb, Ex. apply Hv; assumption. }
  split; [intros ng t H1 H2; apply Hval; assumption|].
  set (ns := map (fun ng => maxZ (map (value (by_rows T db k) (snd ng)) l) + 1) (of_BX (t_regressors T))).
  assert (Hns : forall n, In n ns -> 0 < n <= M + 1).
  { intros n H. apply in_map_iff in H as (ng & <- & Hng). pose proof (maxZ_nonneg (map (value (by_rows T db k) (snd ng)) l)).
    split; [lia|]. assert (maxZ (map (value (by_rows T db k) (snd ng)) l) <= M); [|lia].
    clear -Hval Hng HM. assert (HQ : forall z, In z (map (value (by_rows T db k) (snd ng)) l) -> z <= M).
    { intros z Hz. apply in_map_iff in Hz as (t & <- & Ht). apply Hval; assumption. }
    revert HQ. generalize (map (value (by_rows T db k) (snd ng)) l). intros m.
    unfold maxZ. induction m as [|z m IH]; cbn; intros HQ; [lia|]. pose proof (HQ z (or_introl eq_refl)).
    assert (fold_right Z.max 0 m <= M) by (apply IH; auto). lia. }
  assert (Hl0 : length ns = length (of_BX (t_regressors T))) by (unfold ns; apply map_length).
  cbv zeta. fold ns. split.
  - unfold Zlen in HP. rewrite <- Hl0 in HP. eapply Z.le_lt_trans; [|exact HP].
    clear -Hns HM. induction ns as [|n ns IH]; cbn [prodZ fold_right length]; [cbn; lia|].
    fold (prodZ ns). rewrite Nat2Z.inj_succ, Z.pow_succ_r by lia.
    assert (0 <= prodZ ns).
    { assert (Hp : forall x, In x ns -> 0 < x) by (intros x Hx; apply (Hns x); right; exact Hx).
      clear -Hp. induction ns as [|m l IH]; cbn; [lia|]. apply Z.mul_nonneg_nonneg; [pose proof (Hp m (or_introl eq_refl)); lia|].
      apply IH; intros; apply Hp; right; assumption. }
    pose proof (Hns n (or_introl eq_refl)). apply Z.mul_le_mono_nonneg; try lia. apply IH. intros; apply Hns; right; assumption.
  - assert (Zlen l <= 256).
    { set (ids := map Z.of_nat (seq 0 (length (by_rows T db k)))).
      assert (Hincl : incl l (list_prod (list_prod ids ids) ids)).
      { assert (HI : forall i r, item (by_rows T db k) i r -> In i ids).
        { intros i r [H0 H]. assert (Hlt : (Z.to_nat i < length (by_rows T db k))%nat) by (apply nth_error_Some; congruence).
          apply in_map_iff. exists (Z.to_nat i). split; [lia|]. apply in_seq. lia. }
        intros t Ht. destruct (Hin t Ht) as (ra & rb & rx & Ha & Hb & Hx). destruct t as [[a b] x].
        apply in_prod; [apply in_prod|]; eauto. }
      apply NoDup_incl_length in Hincl; [|exact Hnd]. 
      assert (Hl3 : (length l <= length ids * length ids * length ids)%nat) by (rewrite <- !prod_length; exact Hincl).
      assert (El : length ids = length (by_rows T db k)) by (unfold ids; rewrite map_length, seq_length; reflexivity).
      rewrite El in Hl3. specialize (Hn k). unfold Zlen in *. lia. }
    unfold ucapacity. repeat match goal with |- context [if ?c then _ else _] => destruct c end; lia.
Qed.

Lemma room_small T db M :
  Zlen db * Zlen db * Zlen db <= 256 -> 0 <= M -> (M + 1) ^ Zlen (of_BX (t_regressors T)) < 2 ^ 63 ->
  (forall ng ra rb rx, In ng (of_BX (t_regressors T)) -> In ra db -> In rb db -> In rx db -> 0 <= snd ng ra rb rx <= M) ->
  room T db.
Proof.
  intros Hn HM HP Hv. apply (@room_by T db M); try assumption. intros k.
  assert (Hlen : 0 <= Zlen (by_rows T db k) <= Zlen db).
  { unfold by_rows, Zlen. destruct (t_by T) as [|c cs]; [destruct (key_dec _ _); cbn; lia|]. clear.
    generalize (c :: cs). intros cs'. induction db as [|r db IH]; cbn [filter length]; [lia|]. destruct (key_dec _ _); cbn [length]; lia. }
  set (m := Zlen (by_rows T db k)) in *. set (n := Zlen db) in *. clearbody m n.
  assert (m * m <= n * n) by nia. assert (m * m * m <= n * n * n) by nia. lia.
Qed.

(** Two languages, two phones, two talkers; all regressors, no filter. *)
Definition small_db : list row := [ln 1 1 7 0; ln 1 2 7 1; ln 2 1 7 2; ln 1 1 7 3; ln 1 2 7 4; ln 2 2 7 5].
Definition small_task : task :=
  mk_task "phone" ["talker"] ["lang"] (t_filters (unfiltered ex_task)) ex_regressors.

Lemma small_room : room small_task small_db.
Proof.
  apply (@room_small _ _ 3); [vm_compute; discriminate|lia|vm_compute; reflexivity|].
  assert (H : forall r, In r small_db -> 0 <= r "phone" <= 3 /\ 0 <= r "talker" <= 3).
  { intros r Hr. unfold small_db in Hr. cbn [In] in Hr. repeat (destruct Hr as [<-|Hr]; [vm_compute; repeat split; discriminate|]). destruct Hr. }
  intros ng ra rb rx Hng Ha Hb Hx. cbn in Hng. destruct Hng as [<-|[<-|[]]]; cbn [snd]; apply H; assumption.
Qed.

(** A triplet list that determines what it lists: for the examples. *)
Lemma ex_task_reg_ordered : A_in_order ex_task_reg.
Proof. left. discriminate. Qed.

(** Without ABX filter the A regressors stay in the order before the sort. *)
Definition abx_less : task := mk_task "phone" ["talker"] ["lang"] (t_filters (unfiltered ex_task))
  (mk_regressors [] [] [("n_A", fun v r => r "n")] [("phone_B", fun v r => r "phone")] [] false).
Definition swap_db : list row := [ln 1 1 7 0; ln 1 1 7 1; ln 3 1 7 2; ln 2 1 7 3; ln 1 2 7 4].

(** With an ABX filter and no B nor X regressor the A regressors are lost. *)
Definition abx_only : task := mk_task "phone" ["talker"] ["lang"]
  (mk_filters (fun _ => true) (fun _ _ => true) (fun _ => true) None None None (Some (fun v a b x => true)))
  (mk_regressors [] [] [("n_A", fun v r => r "n")] [] [] false).

(** One group of 300 triplets. *)
Definition wrap_task : task := mk_task "phone" ["talker"] ["lang"] (t_filters (unfiltered ex_task))
  (mk_regressors [] [] [] [("phone_B", fun v r => r "phone")] [] false).
Definition wrap_db : list row := [ln 1 1 7 0; ln 1 2 7 1] ++ repeat (ln 2 1 7 2) 300.

Lemma A_not_sorted :
  exists T db f,
    reads ex_cols (t_filters T) /\ determined T db /\ kept_first T db /\
    reg_reads ex_cols (t_regressors T) /\ reg_determined T db /\ made T None db 4 f /\
    fl_triplets f = [(0, 3, 4); (1, 3, 4); (0, 2, 4); (1, 2, 4)] /\ fl_bys f = [[7]] /\
    columns_of (by_rows T db [7]) (fl_triplets f) (of_A (t_regressors T)) = [("n_A", [0; 1; 0; 1])] /\
    exists rest, fl_regressors f = [([7], [("n_A", [0; 0; 1; 1]); ("phone_B", [2; 2; 3; 3])] :: rest)].
Proof.
  exists abx_less, swap_db. eexists.
  split; [constructor; cbn; intros; try discriminate; reflexivity|].
  split; [constructor; cbn; intros; try discriminate; reflexivity|].
  split; [intros k i j ri rj _ _ _ _; reflexivity|].
  split.
  { constructor; cbn; try tauto. intros nf v v' r r' [<-|[<-|[]]] _ H; cbn; [apply (H "n")|apply (H "phone")]; cbn; tauto. }
  split.
  { constructor; cbn; try tauto. intros nf r r' x [<-|[<-|[]]]; reflexivity. }
  split; [apply run_made; vm_compute; reflexivity|].
  split; [reflexivity|]. split; [reflexivity|]. split; [vm_compute; reflexivity|]. eexists. reflexivity.
Qed.

Lemma A_lost :
  exists T db f,
    reads ex_cols (t_filters T) /\ determined T db /\ kept_first T db /\
    reg_reads ex_cols (t_regressors T) /\ reg_determined T db /\ made T None db 4 f /\
    fl_triplets f = [(0, 2, 4); (0, 3, 4); (1, 2, 4); (1, 3, 4)] /\ fl_bys f = [[7]] /\
    columns_of (by_rows T db [7]) (fl_triplets f) (of_A (t_regressors T)) = [("n_A", [0; 0; 1; 1])] /\
    fl_regressors f = [([7], [[("n_A", [])]; [("n_A", [])]; [("n_A", [])]; [("n_A", [])]])].
Proof.
  exists abx_only, swap_db. eexists.
  split; [constructor; cbn; intros; try discriminate; try reflexivity; injection H as <-; reflexivity|].
  split; [constructor; cbn; intros; try discriminate; try reflexivity; injection H as <-; reflexivity|].
  split; [intros k i j ri rj _ _ _ _; reflexivity|].
  split.
  { constructor; cbn; try tauto. intros nf v v' r r' [<-|[]] _ H; cbn; apply (H "n"); cbn; tauto. }
  split.
  { constructor; cbn; try tauto. intros nf r r' x [<-|[]]; reflexivity. }
  split; [apply run_made; vm_compute; reflexivity|].
  split; [reflexivity|]. split; [reflexivity|]. split; [vm_compute; reflexivity|reflexivity].
Qed.

Lemma not_nodup A (dec : forall x y : A, {x = y} + {x <> y}) l n m :
  length (nodup dec l) = n -> length l = m -> n <> m -> ~ NoDup l.
Proof. intros H1 H2 H3 H. rewrite (nodup_fixed_point dec H) in H1. congruence. Qed.

Lemma wrap_reg_determined db : reg_determined wrap_task db.
Proof. constructor; cbn; try tauto. intros nf r r' x [<-|[]]; reflexivity. Qed.

Lemma run_pair fuel T thr db n f : run ex_rng fuel T thr db = Ok (n, Some f) ->
  exists T' bs st bs', task_init idk idz T ex_cols db = Ok (T', bs, st) /\ s_nb_triplets st = n /\
    generate_triplets idk idz argsort_ins ex_rng fuel T' thr bs st 0 = Ok (bs', Some f).
Proof.
  unfold run. intros H. apply bind_ok in H as ([[T' bs] st] & H1 & H).
  apply bind_ok in H as ([bs' g] & H2 & H). cbn [snd] in H. inversion H; subst. exists T', bs, st, bs'. auto.
Qed.

Definition wrap_file : task_file :=
  Eval vm_compute in match run ex_rng 400 wrap_task (Some 200) wrap_db with
  | Ok (_, Some f) => f
  | _ => mk_file [] [] [] [] []
  end.

Lemma wrap_run : run ex_rng 400 wrap_task (Some 200) wrap_db = Ok (300, Some wrap_file).
Proof. vm_compute. reflexivity. Qed.

(** All triplets of [wrap_db] have the same regressors, and none of them is lost by storage. *)
Lemma threshold_repeats :
  exists T db T' bs st bs' f,
    reads ex_cols (t_filters T) /\ determined T db /\ kept_first T db /\
    reg_reads ex_cols (t_regressors T) /\ reg_determined T db /\ storable T db (capacity (s_nb_triplets st)) /\
    of_BX (t_regressors T) <> [] /\
    task_init idk idz T ex_cols db = Ok (T', bs, st) /\ s_nb_triplets st = 300 /\
    generate_triplets idk idz argsort_ins ex_rng 400 T' (Some 200) bs st 0 = Ok (bs', Some f) /\
    fl_by_index f = [(0, 200)] /\ Zlen (fl_triplets f) = 200 /\
    length (nodup (fun x y : triplet => ltac:(repeat decide equality) : {x = y} + {x <> y}) (fl_triplets f)) = 173%nat /\
    ~ NoDup (fl_triplets f).
Proof.
  destruct (run_pair _ _ _ _ wrap_run) as (T' & bs & st & bs' & H1 & H2 & H3).
  exists wrap_task, wrap_db, T', bs, st, bs', wrap_file.
  split; [apply (unfiltered_reads wrap_task)|].
  split; [apply (unfiltered_determined wrap_task)|].
  split; [apply (@unfiltered_kept_first wrap_task)|].
  split.
  { constructor; cbn; try tauto. intros nf v v' r r' [<-|[]] _ H; cbn; apply (H "phone"); cbn; tauto. }
  split; [apply wrap_reg_determined|].
  split; [rewrite H2; apply storable_small; vm_compute; discriminate|]. split; [discriminate|].
  split; [exact H1|]. split; [exact H2|]. split; [exact H3|].
  split; [vm_compute; reflexivity|]. split; [vm_compute; reflexivity|].
  split; [vm_compute; reflexivity|].
  apply (@not_nodup _ (fun x y : triplet => ltac:(repeat decide equality) : {x = y} + {x <> y}) _ 173 200);
    [vm_compute; reflexivity|vm_compute; reflexivity|discriminate].
Qed.
