(** Examples: thresholds with which the generation of triplets does not end. *)
From Coq Require Import Ascii String.
From Verif Require Import Prelude ListFacts TypeFitting TypeFitting_proofs
  Sampler Sampler_spec Sampler_proofs Task Task_spec Task_blocks Task_sort Task_regs Task_gen Task_file
  Task_proofs Task_main Task_total Task_reg_spec Task_align TaskIndex_spec Task_reg_ex Task_ex Task_thr_total
  Task_thr_spec Task_thr_ends.
Set Implicit Arguments.
Open Scope Z_scope.
Open Scope string_scope.

Lemma coded_small T db M :
  0 <= M -> (M + 1) ^ Zlen (of_BX (t_regressors T)) < 2 ^ 63 ->
  (forall ng ra rb rx, In ng (of_BX (t_regressors T)) -> In ra db -> In rb db -> In rx db -> 0 <= snd ng ra rb rx <= M) ->
  coded T db.
Proof.
  intros HM HP Hv k t0 l [Hnd Hl] _.
  assert (Hdb : incl (by_rows T db k) db).
  { intros r. unfold by_rows. destruct (t_by T); [destruct (key_dec _ _); [auto|intros []]|]. intros H. apply filter_In in H. tauto. }
  assert (Hin : forall t, In t l -> exists ra rb rx, item (by_rows T db k) (fst (fst t)) ra /\
            item (by_rows T db k) (snd (fst t)) rb /\ item (by_rows T db k) (snd t) rx).
  { intros [[a b] x] Ht. apply Hl in Ht as [Hw _]. cbn in Hw. destruct Hw as (ra & rb & rx & Ha & Hb & Hx & _).
    exists ra, rb, rx. auto. }
  assert (Hrow : forall i r, item (by_rows T db k) i r -> row_at (by_rows T db k) i = r /\ In r db).
  { intros i r [_ H]. split; [unfold row_at; apply nth_error_nth; exact H|]. apply Hdb. eapply nth_error_In. exact H. }
  assert (Hval : forall ng t, In ng (of_BX (t_regressors T)) -> In t l -> 0 <= value (by_rows T db k) (snd ng) t <= M).
  { intros ng t Hng Ht. destruct (Hin t Ht) as (ra & rb & rx & Ha & Hb & Hx).
    apply Hrow in Ha as [Ea Ha], Hb as [Eb Hb], Hx as [Ex Hx]. destruct t as [[a b] x]. cbn [value fst snd] in *.
    rewrite Ea, Eb, Ex. apply Hv; assumption. }
  split; [intros ng t H1 H2; apply Hval; assumption|].
  set (ns := map (fun ng => maxZ (map (value (by_rows T db k) (snd ng)) l) + 1) (of_BX (t_regressors T))).
  assert (Hns : forall n, In n ns -> 0 < n <= M + 1).
  { intros n H. apply in_map_iff in H as (ng & <- & Hng). pose proof (maxZ_nonneg (map (value (by_rows T db k) (snd ng)) l)).
    split; [lia|]. assert (maxZ (map (value (by_rows T db k) (snd ng)) l) <= M); [|lia].
    clear -Hval Hng HM. assert (HQ : forall z, In z (map (value (by_rows T db k) (snd ng)) l) -> z <= M).
    { intros z Hz. apply in_map_iff in Hz as (t & <- & Ht). apply Hval; assumption. }
    revert HQ. generalize (map (value (by_rows T db k) (snd ng)) l). intros m.
    unfold maxZ. induction m as [|z m IH]; cbn; intros HQ; [lia|]. pose proof (HQ z (or_introl eq_refl)).
    assert (fold_right Z.max 0 m <= M) by (apply IH; auto). lia. }
  assert (Hl0 : length ns = length (of_BX (t_regressors T))) by (unfold ns; apply map_length).
  unfold Zlen in HP. rewrite <- Hl0 in HP. eapply Z.le_lt_trans; [|exact HP].
  clear -Hns HM. induction ns as [|n ns IH]; cbn [prodZ fold_right length]; [cbn; lia|].
  fold (prodZ ns). rewrite Nat2Z.inj_succ, Z.pow_succ_r by lia.
  assert (0 <= prodZ ns).
  { assert (Hp : forall x, In x ns -> 0 < x) by (intros x Hx; apply (Hns x); right; exact Hx).
    clear -Hp. induction ns as [|m l IH]; cbn; [lia|]. apply Z.mul_nonneg_nonneg; [pose proof (Hp m (or_introl eq_refl)); lia|].
    apply IH; intros; apply Hp; right; assumption. }
  pose proof (Hns n (or_introl eq_refl)). apply Z.mul_le_mono_nonneg; try lia. apply IH. intros; apply Hns; right; assumption.
Qed.

(** Eight A, eight B and seven X: 448 triplets with the same regressors. *)
Definition stuck_db : list row :=
  map (fun i => ln 1 1 7 (Z.of_nat i)) (seq 0 8) ++ map (fun i => ln 2 1 7 (Z.of_nat i)) (seq 8 8) ++
  map (fun i => ln 1 2 7 (Z.of_nat i)) (seq 16 7).

(** The prepared task of [stuck_db]. *)
Lemma stuck_init : exists T' b st, task_init idk idz wrap_task ex_cols stuck_db = Ok (T', [b], st) /\
  s_nb_triplets st = 448 /\ b_key b = [7] /\
  keys (t_on T' :: t_across T') (map snd (b_frame b)) = [[1; 1]; [2; 1]; [1; 2]] /\
  Zlen (block_list idz T' b [1; 1]) = 448 /\ In (0, 8, 16) (block_list idz T' b [1; 1]) /\
  filter (same_vals wrap_task stuck_db b (0, 8, 16)) (block_list idz T' b [1; 1]) = block_list idz T' b [1; 1] /\
  prodZ (map (fun ng => maxZ (map (value (by_rows wrap_task stuck_db [7]) (snd ng)) (block_list idz T' b [1; 1])) + 1)
                          (of_BX (t_regressors wrap_task))) = 3.
Proof.
  destruct (task_init idk idz wrap_task ex_cols stuck_db) as [[[T' [|b [|? ?]]] st]|e] eqn:E.
  1,3,4: exfalso; vm_compute in E; discriminate.
  exists T', b, st. split; [reflexivity|].
  pose proof (f_equal (fun r => match r with Ok (_, _, st) => s_nb_triplets st | _ => 0 end) E) as E1.
  pose proof (f_equal (fun r => match r with Ok (_, [b], st) => b_key b | _ => [] end) E) as E2.
  pose proof (f_equal (fun r => match r with Ok (T', [b], st) => keys (t_on T' :: t_across T') (map snd (b_frame b)) | _ => [] end) E) as E3.
  pose proof (f_equal (fun r => match r with Ok (T', [b], st) => block_list idz T' b [1; 1] | _ => [] end) E) as E4.
  pose proof (f_equal (fun r => match r with Ok (T', [b], st) =>
     filter (same_vals wrap_task stuck_db b (0, 8, 16)) (block_list idz T' b [1; 1]) | _ => [] end) E) as E5.
  cbn beta iota in *. rewrite <- E1, <- E2, <- E3, <- E5, <- E4.
  split; [vm_compute; reflexivity|]. split; [vm_compute; reflexivity|]. split; [vm_compute; reflexivity|].
  split; [vm_compute; reflexivity|]. split; [vm_compute; tauto|]. split; vm_compute; reflexivity.
Qed.

Lemma wrap_reg_reads : reg_reads ex_cols (t_regressors wrap_task).
Proof. constructor; cbn; try tauto. intros nf v v' r r' [<-|[]] _ H; cbn; apply (H "phone"); cbn; tauto. Qed.

Lemma stuck_coded : coded wrap_task stuck_db.
Proof.
  apply (@coded_small _ _ 2); [lia|vm_compute; reflexivity|].
  assert (H : forall r, In r stuck_db -> 0 <= r "phone" <= 2).
  { intros r Hr. unfold stuck_db in Hr. rewrite !in_app_iff in Hr.
    destruct Hr as [Hr|[Hr|Hr]]; apply in_map_iff in Hr as (i & <- & _); vm_compute; split; discriminate. }
  intros ng ra rb rx Hng Ha Hb Hx. cbn in Hng. destruct Hng as [<-|[]]; cbn [snd]; apply H; assumption.
Qed.


(** Few values asked for: every type has room. *)
Lemma overfull_large T db t : overfull T db t -> 256 < t.
Proof.
  intros (k & t0 & block & group & _ & _ & _ & _ & _ & H). revert H. unfold ucapacity.
  repeat match goal with |- context [if ?c then _ else _] => destruct c end; lia.
Qed.

Lemma stuck_overfull : overfull wrap_task stuck_db 257.
Proof.
  destruct stuck_init as (T' & b & st & Hi & Hn & Hk & Hks & Hl & H0 & Hf & Hp).
  assert (Hb : In b [b]) by (left; reflexivity).
  eapply (@overfull_block idk idz idk_ok idz_ok wrap_task ex_cols stuck_db T' [b] st) with (b := b) (k := [1; 1]) (t0 := (0, 8, 16)).
  - apply (unfiltered_reads wrap_task).
  - apply (unfiltered_determined wrap_task).
  - apply (@unfiltered_kept_first wrap_task).
  - exact Hi.
  - exact Hb.
  - rewrite Hks. left. reflexivity.
  - exact H0.
  - rewrite Hf, Hl. lia.
  - rewrite Hf, Hl. lia.
  - rewrite Hk, Hp. vm_compute. reflexivity.
Qed.

Lemma stuck_size : Zlen stuck_db * Zlen stuck_db * Zlen stuck_db < 2 ^ 63.
Proof. vm_compute. reflexivity. Qed.

(** 448 triplets with the same regressors, of which 257 are asked for: it does not end. *)
Lemma threshold_stuck :
  exists T db T' bs st,
    reads ex_cols (t_filters T) /\ determined T db /\ kept_first T db /\
    reg_reads ex_cols (t_regressors T) /\ reg_determined T db /\ coded T db /\
    task_init idk idz T ex_cols db = Ok (T', bs, st) /\ s_nb_triplets st = 448 /\
    (exists bs' f, generate_triplets idk idz argsort_ins ex_rng 400 T' (Some 256) bs st 0 = Ok (bs', Some f) /\
       Zlen (fl_triplets f) = 256) /\
    forall R, rng_ok R -> forall fuel c,
      generate_triplets idk idz argsort_ins R fuel T' (Some 257) bs st c = Err OutOfFuel.
Proof.
  destruct stuck_init as (T' & b & st & Hi & Hn & _).
  assert (rd : reads ex_cols (t_filters wrap_task)) by apply (unfiltered_reads wrap_task).
  assert (dt : determined wrap_task stuck_db) by apply (unfiltered_determined wrap_task).
  assert (kf : kept_first wrap_task stuck_db) by apply (@unfiltered_kept_first wrap_task).
  exists wrap_task, stuck_db, T', [b], st.
  split; [exact rd|]. split; [exact dt|]. split; [exact kf|]. split; [exact wrap_reg_reads|].
  split; [apply wrap_reg_determined|]. split; [exact stuck_coded|]. split; [exact Hi|]. split; [exact Hn|]. split.
  - pose proof (f_equal (fun r => match r with Ok (T', bs, st) =>
        match generate_triplets idk idz argsort_ins ex_rng 400 T' (Some 256) bs st 0 with
        | Ok (_, Some f) => Some (Zlen (fl_triplets f)) | _ => None end | _ => None end) Hi) as E.
    cbn beta iota in E.
    destruct (generate_triplets idk idz argsort_ins ex_rng 400 T' (Some 256) [b] st 0) as [[bs' [f|]]|e].
    + exists bs', f. split; [reflexivity|].
      assert (E' : Some (Zlen (fl_triplets f)) = Some 256) by (rewrite <- E; vm_compute; reflexivity). congruence.
    + exfalso. assert (E' : Some 256 = @None Z) by (rewrite <- E; vm_compute; reflexivity). discriminate.
    + exfalso. assert (E' : Some 256 = @None Z) by (rewrite <- E; vm_compute; reflexivity). discriminate.
  - intros R ro fuel c.
    apply (@overfull_never_ends idk idz argsort_ins R idk_ok idz_ok argsort_ins_spec ro wrap_task ex_cols stuck_db T' [b] st
      rd dt kf wrap_reg_reads (wrap_reg_determined _) Hi stuck_size eq_refl 257 ltac:(lia) stuck_coded ltac:(discriminate) stuck_overfull).
Qed.
