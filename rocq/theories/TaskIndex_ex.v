(** Examples and counterexamples of Props_TaskIndex.v. *)
From Coq Require Import String.
From Verif Require Import Prelude TypeFitting Sampler Sampler_spec Sampler_proofs Task Task_spec Task_main Task_ex Task_refuted
  Task_reg_spec Task_align Task_reg_ex TaskIndex_spec.
Open Scope string_scope.
Open Scope list_scope.
Open Scope Z_scope.

Lemma room_coded T db : room T db -> coded T db.
Proof. intros H k t0 l HL Hw. destruct (H k t0 l HL Hw) as (H1 & H2 & _). split; assumption. Qed.

Lemma swap_coded : coded small_task swap_db.
Proof.
  apply room_coded, (@room_small _ _ 3); [vm_compute; discriminate|lia|vm_compute; reflexivity|].
  assert (H : forall r, In r swap_db -> 0 <= r "phone" <= 3 /\ 0 <= r "talker" <= 3).
  { intros r Hr. unfold swap_db in Hr. cbn [In] in Hr. repeat (destruct Hr as [<-|Hr]; [vm_compute; repeat split; discriminate|]). destruct Hr. }
  intros ng ra rb rx Hng Ha Hb Hx. cbn in Hng. destruct Hng as [<-|[<-|[]]]; cbn [snd]; apply H; assumption.
Qed.

Definition long_file : task_file :=
  Eval vm_compute in match run ex_rng 9 wrap_task None wrap_db with
  | Ok (_, Some f) => f
  | _ => mk_file [] [] [] [] []
  end.

Lemma long_run : run ex_rng 9 wrap_task None wrap_db = Ok (300, Some long_file).
Proof. vm_compute. reflexivity. Qed.

Lemma long_blocks : match task_init idk idz wrap_task ex_cols wrap_db with Ok (_, _, st) => s_nb_blocks st = 3 | Err _ => False end.
Proof. vm_compute. reflexivity. Qed.

Lemma long_groups s t : In s (fl_triplets long_file) -> In t (fl_triplets long_file) ->
  same_group wrap_task (by_rows wrap_task wrap_db [7]) s t.
Proof.
  assert (F : forallb (fun u : triplet => (fst (fst u) =? 0) && (row_at (by_rows wrap_task wrap_db [7]) (snd (fst u)) "phone" =? 2))%bool
    (fl_triplets long_file) = true) by (vm_compute; reflexivity).
  rewrite forallb_forall in F. intros Hs Ht. apply F in Hs, Ht.
  apply andb_true_iff in Hs as [S1 S2]. apply andb_true_iff in Ht as [T1 T2].
  apply Z.eqb_eq in S1, S2, T1, T2.
  destruct s as [[sa sb] sx], t as [[ta tb] tx]. cbn [fst snd] in *. subst sa ta.
  split; [intros c _; reflexivity|]. intros ng [<-|[]]. cbn [snd value]. congruence.
Qed.

(** The type of the index is too small for its groups: 300 is stored as 44. *)
Lemma index_wraps :
  exists T' bs st bs' f,
    task_init idk idz wrap_task ex_cols wrap_db = Ok (T', bs, st) /\ s_nb_blocks st = 3 /\
    generate_triplets idk idz argsort_ins ex_rng 9 T' None bs st 0 = Ok (bs', Some f) /\
    Zlen (fl_triplets f) = 300 /\ fl_by_index f = [(0, 300)] /\
    (forall s t, In s (fl_triplets f) -> In t (fl_triplets f) -> same_group wrap_task (by_rows wrap_task wrap_db [7]) s t) /\
    fl_block_index f = [0; 44; 0; 0].
Proof.
  destruct (run_pair _ _ _ _ long_run) as (T' & bs & st & bs' & H1 & H2 & H3).
  pose proof long_blocks as H4. rewrite H1 in H4.
  exists T', bs, st, bs', long_file. split; [exact H1|]. split; [exact H4|]. split; [exact H3|].
  split; [vm_compute; reflexivity|]. split; [reflexivity|]. split; [exact long_groups|reflexivity].
Qed.

(** With a threshold the index counts the triplets before the choice. *)
Lemma index_threshold :
  made small_task (Some 1) small_db 12
    (mk_file [(2, 0, 5); (0, 2, 4); (4, 5, 0); (5, 4, 2)] [(0, 4)] [[7]] [0; 2; 0; 4; 0; 4; 0; 2]
       [([7], [[("lang", [7]); ("phone_1", [2]); ("n_A", [2; 2]); ("phone_B", [1]); ("talker_X", [2])];
               [("lang", [7]); ("phone_1", [1]); ("n_A", [0; 0; 3; 3]); ("phone_B", [2]); ("talker_X", [2])];
               [("lang", [7]); ("phone_1", [1]); ("n_A", [1; 1; 4; 4]); ("phone_B", [2]); ("talker_X", [1])];
               [("lang", [7]); ("phone_1", [2]); ("n_A", [5; 5]); ("phone_B", [1]); ("talker_X", [1])]])]) /\
  forall l, Forall2 (fun bd ts => block_bounds small_task (by_rows small_task small_db [7]) bd ts) l
      [[(2, 0, 5)]; [(0, 2, 4)]; [(4, 5, 0)]; [(5, 4, 2)]] ->
    concat l <> [0; 2; 0; 4; 0; 4; 0; 2].
Proof.
  split; [apply run_made; vm_compute; reflexivity|]. intros l H.
  assert (Q : forall bd t, block_bounds small_task (by_rows small_task small_db [7]) bd [t] -> bd = [0; 1]).
  { intros bd t [[[E|E] _]|[_ (H1 & H2 & H3 & _)]]; try discriminate.
    destruct bd as [|x bd]; [discriminate|]. injection H2 as ->. change (Zlen [t]) with 1 in H3.
    destruct bd as [|y bd]; [discriminate|]. destruct bd as [|z bd]; [cbn in H3; congruence|]. exfalso.
    inversion H1 as [|? ? H1' F]; subst. inversion H1' as [|? ? H1'' F']; subst.
    assert (L : In (last (y :: z :: bd) 0) (z :: bd)).
    { change (last (y :: z :: bd) 0) with (last (z :: bd) 0). destruct (exists_last (l := z :: bd)) as (l1 & w & E); [discriminate|].
      rewrite E, last_last. apply in_or_app. right. left. reflexivity. }
    change (last (0 :: y :: z :: bd) 0) with (last (y :: z :: bd) 0) in H3. rewrite H3 in L.
    rewrite Forall_forall in F, F'. specialize (F' _ L). specialize (F y (or_introl eq_refl)). lia. }
  inversion H as [|b1 ? l1 ? B1 H1]; subst. inversion H1 as [|b2 ? l2 ? B2 H2]; subst.
  inversion H2 as [|b3 ? l3 ? B3 H3]; subst. inversion H3 as [|b4 ? l4 ? B4 H4]; subst. inversion H4; subst.
  apply Q in B1, B2, B3, B4. subst. discriminate.
Qed.
