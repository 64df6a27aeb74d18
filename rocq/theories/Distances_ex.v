(** A concrete computation of distances, used in the examples and the refutations. *)
From Coq Require Import String.
From Coq Require Import List ZArith Lia Permutation Sorted.
From Verif Require Import Prelude ListFacts Pairs Pairs_spec Distances Distances_spec
     Distances_jobs Distances_proofs Distances_run Distances_main.
Import ListNotations.
Local Open Scope Z_scope.
Local Open Scope string_scope.
Local Open Scope list_scope.

(** Five pairs for the by "a" (three items), two for the by "b" (two items). *)
Definition ex_items : list (string * list (Z * item Z)) :=
  [("b", [(0, mk_item "f1" 0 2); (1, mk_item "f2" 1 9)]);
   ("a", [(0, mk_item "f1" 1 2); (1, mk_item "f2" 0 1); (2, mk_item "f1" 3 3)])].
Definition ex_pairs : pair_file Z :=
  mk_pair_file ["a"; "b"] [("a", (3, 0, 5)); ("b", (2, 5, 7))]
               [1; 2; 3; 5; 7; 1; 2] ex_items.
Definition ex_files : list (feature_data Z Z) :=
  [([("f1", [0; 1; 2; 3])], [("f1", [10; 11; 12; 13])]);
   ([("f2", [0; 1; 2])], [("f2", [20; 21; 22])])].
(** Not symmetric, and different when normalised. *)
Definition ex_distance (n : option bool) (m m' : list Z) : res Z :=
  Ok (1000 * sumZ m + sumZ m' + match n with Some true => 500000 | _ => 0 end).
Definition ex_setting : setting Z Z := mk_setting ex_pairs ex_files (Some 1).
Definition no_file : dist_file Z := mk_dist_file None None.

Lemma ex_pairs_ok : pair_file_ok ex_pairs.
Proof.
  split; [discriminate|]. split; [repeat constructor; cbn; intuition discriminate|].
  split; [repeat constructor; cbn; intuition discriminate|]. split; [reflexivity|].
  split; [|split].
  - intros k base s e [[= <- <- <- <-]|[[= <- <- <- <-]|[]]]; lia.
  - vm_compute. repeat split; auto; lia.
  - intros k l [[= <- <-]|[[= <- <-]|[]]]; reflexivity.
Qed.

Lemma ex_features_ok : features_ok ex_files.
Proof.
  split.
  - intros fd [<-|[<-|[]]]; (split; [repeat constructor; cbn; intuition discriminate|reflexivity]).
  - repeat constructor; cbn; intuition discriminate.
Qed.

Lemma ex_has_items : has_items ex_pairs.
Proof. intros k [<-|[<-|[]]]; cbn; auto. Qed.

Lemma ex_fit n : (1 <= n)%nat -> blocks_fit ex_pairs n.
Proof. intros H. left. cbn [ex_pairs pf_data length]. lia. Qed.

Ltac row k base s e items i j :=
  exists k, base, s, e, items, i, j; eexists; eexists; eexists; eexists;
  split; [cbn; auto|]; split; [lia|]; split; [cbn; auto|]; split; [reflexivity|]; split; [cbn; lia|];
  split; [reflexivity|]; split; [reflexivity|].

Lemma ex_recorded f times frames : recorded ex_files f times frames ->
  length times = length frames.
Proof.
  intros (fd & Hfd & H1 & H2).
  destruct Hfd as [<-|[<-|[]]]; cbn in H1, H2; destruct H1 as [[= <- <-]|[]], H2 as [[= <-]|[]]; reflexivity.
Qed.

Lemma ex_rec1 : recorded ex_files "f1" [0; 1; 2; 3] [10; 11; 12; 13].
Proof. eexists; split; [left; reflexivity|split; left; reflexivity]. Qed.
Lemma ex_rec2 : recorded ex_files "f2" [0; 1; 2] [20; 21; 22].
Proof. eexists; split; [right; left; reflexivity|split; left; reflexivity]. Qed.

Definition itemsA := Eval compute in nth 1 (map snd ex_items) [].
Definition itemsB := Eval compute in nth 0 (map snd ex_items) [].

Lemma ex_matrix it : In it (map snd (itemsA ++ itemsB)) ->
  exists m, matrix_of Z.leb ex_files it m.
Proof.
  cbn. intros [<-|[<-|[<-|[<-|[<-|[]]]]]]; eexists;
    (exists [0; 1; 2; 3], [10; 11; 12; 13]; split; [apply ex_rec1|reflexivity]) ||
    (exists [0; 1; 2], [20; 21; 22]; split; [apply ex_rec2|reflexivity]).
Qed.

Lemma ex_row p : (p < 7)%nat -> exists v, row_value Z.leb ex_distance ex_pairs ex_files (Some 1) p v.
Proof.
  intros Hp.
  assert (G : forall k base s e items i j it it',
     In (k, (base, s, e)) (pf_attrs ex_pairs) -> s <= Z.of_nat p < e ->
     In (k, items) (pf_items ex_pairs) ->
     nth_error (pf_data ex_pairs) p = Some (code base (Z.of_nat i) (Z.of_nat j)) ->
     Z.of_nat i < base ->
     nth_error items i = Some (Z.of_nat i, it) -> nth_error items j = Some (Z.of_nat j, it') ->
     In it (map snd (itemsA ++ itemsB)) -> In it' (map snd (itemsA ++ itemsB)) ->
     exists v, row_value Z.leb ex_distance ex_pairs ex_files (Some 1) p v).
  { intros k base s e items i j it it' H1 H2 H3 H4 H5 H6 H7 I1 I2.
    destruct (ex_matrix _ I1) as (m & M1). destruct (ex_matrix _ I2) as (m' & M2).
    eexists. exists k, base, s, e, items, i, j, it, it', m, m'. repeat (split; [eassumption|]).
    reflexivity. }
  destruct p as [|[|[|[|[|[|[|p]]]]]]]; [..|lia].
  - apply (G "a" 3 0 5 itemsA 1%nat 0%nat (mk_item "f2" 0 1) (mk_item "f1" 1 2)); cbn; auto 10; lia.
  - apply (G "a" 3 0 5 itemsA 2%nat 0%nat (mk_item "f1" 3 3) (mk_item "f1" 1 2)); cbn; auto 10; lia.
  - apply (G "a" 3 0 5 itemsA 0%nat 1%nat (mk_item "f1" 1 2) (mk_item "f2" 0 1)); cbn; auto 10; lia.
  - apply (G "a" 3 0 5 itemsA 2%nat 1%nat (mk_item "f1" 3 3) (mk_item "f2" 0 1)); cbn; auto 10; lia.
  - apply (G "a" 3 0 5 itemsA 1%nat 2%nat (mk_item "f2" 0 1) (mk_item "f1" 3 3)); cbn; auto 10; lia.
  - apply (G "b" 2 5 7 itemsB 1%nat 0%nat (mk_item "f2" 1 9) (mk_item "f1" 0 2)); cbn; auto 10; lia.
  - apply (G "b" 2 5 7 itemsB 0%nat 1%nat (mk_item "f1" 0 2) (mk_item "f2" 1 9)); cbn; auto 10; lia.
Qed.

Lemma ex_computable : computable Z.leb ex_distance ex_pairs ex_files (Some 1).
Proof. split; [exact ex_row|exact ex_recorded]. Qed.

(** The processes at the start, for one and two cpus. *)
Definition ex_start (n : nat) : sys Z Z :=
  match compute_distances 0 argsort_ins 10 ex_setting no_file n with
  | (_, Ok s) => s
  | _ => mk_sys None no_file [] M_running
  end.
Definition ex_zeros : dist_file Z := mk_dist_file (Some false) (Some [0; 0; 0; 0; 0; 0; 0]).

Lemma ex_started n : (1 <= n <= 4)%nat ->
  compute_distances 0 argsort_ins 10 ex_setting no_file n = (ex_zeros, Ok (ex_start n)).
Proof. intros H. destruct n as [|[|[|[|[|n]]]]]; try lia; vm_compute; reflexivity. Qed.

(** A schedule with two cpus where the workers move in turn, and what is in the file at
    the end. *)
Definition ex_turns : list nat := concat (repeat [0; 1; 1; 2]%nat 12).
Definition ex_end : sys Z Z := run Z.leb ex_distance ex_setting (ex_start 2) ex_turns.
Definition ex_data : list Z :=
  [541023; 513023; 523041; 513041; 541013; 543033; 533043].

Lemma ex_end_ok : s_main ex_end = M_returned /\
  s_file ex_end = mk_dist_file (Some false) (Some ex_data).
Proof. vm_compute. split; reflexivity. Qed.

Lemma ex_alone : let s := run Z.leb ex_distance ex_setting (ex_start 1) (repeat 0 12 ++ [1])%nat in
  s_main s = M_returned /\ s_file s = mk_dist_file (Some true) (Some ex_data).
Proof. vm_compute. split; reflexivity. Qed.

(** ** A deadlock *)

(** The same, but the dataframe of "b" is missing from the task file. *)
Definition bad_setting : setting Z Z :=
  mk_setting (mk_pair_file (pf_bys ex_pairs) (pf_attrs ex_pairs) (pf_data ex_pairs)
                           (skipn 1 ex_items)) ex_files (Some 1).
Definition bad_start (n : nat) : sys Z Z :=
  match compute_distances 0 argsort_ins 10 bad_setting no_file n with
  | (_, Ok s) => s
  | _ => mk_sys None no_file [] M_running
  end.
(** The second worker ends its first range, then fails on "b" before the first worker has
    read anything. *)
Definition bad_end : sys Z Z :=
  run Z.leb ex_distance bad_setting (bad_start 2) [0; 1; 1; 1; 1; 1; 1; 1; 1]%nat.

Lemma bad_pairs_ok : pair_file_ok (c_pairs bad_setting).
Proof.
  destruct ex_pairs_ok as (H1 & H2 & H3 & H4 & H5 & H6 & H7).
  split; [exact H1|]. split; [exact H2|]. split; [inversion H3; assumption|].
  split; [exact H4|]. split; [exact H5|]. split; [exact H6|].
  intros k l H. apply (H7 k l). right. exact H.
Qed.

Lemma bad_stuck : s_main bad_end = M_running /\
  nth_error (s_workers bad_end) 1 = Some (W_failed KeyError) /\
  forall who, step Z.leb ex_distance bad_setting bad_end who = None.
Proof.
  split; [vm_compute; reflexivity|]. split; [vm_compute; reflexivity|].
  intros [|[|who]]; vm_compute; try reflexivity. destruct who; reflexivity.
Qed.

Lemma bad_forever s : reaches Z.leb ex_distance bad_setting bad_end s -> ~ ended s.
Proof.
  intros (l & ->). assert (H : run Z.leb ex_distance bad_setting bad_end l = bad_end).
  { induction l as [|w l IH]; [reflexivity|]. unfold run in *. cbn [fold_left].
    assert (N : next Z.leb ex_distance bad_setting bad_end w = bad_end)
      by (unfold next; rewrite (proj2 (proj2 bad_stuck)); reflexivity).
    rewrite N. exact IH. }
  rewrite H. intros E. apply E. vm_compute. reflexivity.
Qed.

(** ** Ranges that are not slices *)

Definition big_bys : list (string * Z) := [("a", 12500001); ("b", 3)].
Definition big_jobs : list job :=
  [[mk_range "a" (Flt 0) (Flt 12500000); mk_range "a" (Flt 12500000) (Flt 12500001);
    mk_range "b" (Flt 0) (Flt 3)]].

Lemma big_jobs_ok : distance_jobs argsort_ins 5 1 100 big_bys = Ok big_jobs.
Proof. vm_compute. reflexivity. Qed.
