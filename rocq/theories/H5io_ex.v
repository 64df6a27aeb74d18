(** Groups written by H5IO, for the examples and the refutations. *)
From Coq Require Import Ascii String.
From Coq Require Import List ZArith Lia.
From Verif Require Import Prelude TypeFitting Distances H5io H5io_spec H5io_proofs H5io_use.
Import ListNotations.
Local Open Scope string_scope.
Local Open Scope list_scope.
Local Open Scope Z_scope.

Ltac is_in := repeat (first [left; reflexivity | right]).

(** An item table: phones and talkers are indexed, contexts fused, times raw. *)
Definition ex_indexes : list (string * list string) :=
  [("phone", ["aa"; "ee"; "oo"]); ("talker", ["t2"; "t1"]); ("left", ["k"; "p"]); ("right", ["s"; "z"; "f"])].
Definition ex_fused : list (string * list string) := [("context", ["left"; "right"])].
Definition ex_list : list string := ["time"; "phone"; "talker"; "left"; "right"].

Definition ex_b0 : list (string * values string) :=
  [("phone", Labels ["ee"; "oo"; "aa"]); ("time", Ints string [10; 20; 30]); ("left", Labels ["p"; "k"; "p"]);
   ("right", Labels ["f"; "f"; "f"]); ("talker", Labels ["t1"; "t1"; "t2"])].
Definition ex_b1 : list (string * values string) :=
  [("phone", Labels ["oo"]); ("time", Ints string [40]); ("left", Labels ["k"]);
   ("right", Labels ["f"]); ("talker", Labels ["t1"])].

Definition dummy : h5io string := mk_h5io [] [] [] [] [] [] [].
Definition ex_group : h5io string := Eval vm_compute in
  match init plain_text (DList ex_list) ex_indexes ex_fused with Ok H => H | Err _ => dummy end.

Lemma nodup_strings l : (if list_eq_dec String.string_dec (nodup String.string_dec l) l then true else false) = true -> NoDup l.
Proof. destruct (list_eq_dec _ _ _) as [E|]; [|discriminate]. intros _. rewrite <- E. apply NoDup_nodup. Qed.

Lemma plain_texts l : forallb plain_text l = true -> forall s, In s l -> ascii_only s.
Proof. intros H s Hs. apply plain_text_iff. exact (proj1 (forallb_forall _ _) H s Hs). Qed.

Lemma plain_labels (indexes : list (string * list string)) :
  forallb (fun kv => forallb plain_text (snd kv)) indexes = true -> labels_plain plain_text indexes.
Proof.
  intros H ix l x Hin Hx. pose proof (proj1 (forallb_forall _ _) H (ix, l) Hin) as H'. cbn [snd] in H'.
  exact (proj1 (forallb_forall _ _) H' x Hx).
Qed.

Lemma ex_indexes_ok : indexes_ok ex_indexes ex_fused.
Proof.
  split; [apply nodup_strings; reflexivity|]. split; [apply nodup_strings; reflexivity|]. split.
  - intros ix l Hin. repeat (destruct Hin as [E|Hin]; [injection E as <- <-; split; [discriminate|reflexivity]|]). destruct Hin.
  - intros f members [E|[]]. injection E as <- <-. discriminate.
Qed.

Lemma ex_init : init plain_text (DList ex_list) ex_indexes ex_fused = Ok ex_group.
Proof. reflexivity. Qed.

Lemma ex_declared : declared_ok ex_group.
Proof.
  destruct (init_list string plain_text ex_list ex_indexes ex_fused) as (H & E & D & _).
  - exact ex_indexes_ok.
  - discriminate.
  - apply plain_texts. reflexivity.
  - apply plain_labels. reflexivity.
  - apply subset_incl. reflexivity.
  - apply subset_incl. reflexivity.
  - rewrite ex_init in E. injection E as <-. exact D.
Qed.

Lemma ex_index_for s l : index_for ex_group s l -> In (s, l) ex_indexes.
Proof.
  intros (ix & H1 & H2). cbn in H1. change (h_indexes ex_group) with ex_indexes in H2.
  assert (s = ix) as -> by (repeat (destruct H1 as [E|H1]; [congruence|]); destruct H1). exact H2.
Qed.

Lemma labels_of_bool d n :
  (forall s, In s (h_managed ex_group) <-> In s (map fst d)) -> NoDup (map fst d) ->
  forallb (fun kv : string * values string => let '(s, v) := kv in
     match v with
     | Labels labels => (length labels =? n)%nat && negb (s =? "time")%string &&
                        forallb (fun e => match lookup ex_indexes s with Ok l => existsb (String.eqb e) l | Err _ => false end) labels
     | Ints _ zs => (length zs =? n)%nat && (s =? "time")%string
     | Rows _ _ _ => false
     end) d = true -> labels_batch ex_group d n.
Proof.
  intros Ha Hn Hb. rewrite forallb_forall in Hb. constructor; [exact Hn|exact Ha| |].
  - intros s v l Hin Hl. apply ex_index_for in Hl. specialize (Hb _ Hin). cbv beta iota in Hb. destruct v as [labels|zs|w rows]; [| |discriminate].
    + apply andb_prop in Hb. destruct Hb as [Hb H2]. apply andb_prop in Hb. destruct Hb as [H0 H1].
      apply Nat.eqb_eq in H0. exists labels. split; [reflexivity|]. split; [exact H0|]. rewrite forallb_forall in H2.
      intros e He. specialize (H2 e He). rewrite (Distances_proofs.lookup_NoDup _ _ _ _ (proj1 ex_indexes_ok) Hl) in H2.
      apply existsb_exists in H2. destruct H2 as (x & Hx & E). apply String.eqb_eq in E. subst. exact Hx.
    + apply andb_prop in Hb. destruct Hb as [_ Hb]. apply String.eqb_eq in Hb. subst s. cbn in Hl.
      repeat (destruct Hl as [E|Hl]; [discriminate|]). destruct Hl.
  - intros s v Hin Hnot. specialize (Hb _ Hin). cbv beta iota in Hb. destruct v as [labels|zs|w rows]; [| |discriminate].
    + exfalso. apply andb_prop in Hb. destruct Hb as [Hb _]. apply andb_prop in Hb. destruct Hb as [_ Hb].
      apply Bool.negb_true_iff, String.eqb_neq in Hb. assert (Hm : In s (h_managed ex_group)) by (apply Ha, in_map_iff; exists (s, Labels labels); auto).
      cbn in Hm, Hnot. intuition congruence.
    + apply andb_prop in Hb. destruct Hb as [Hb _]. apply Nat.eqb_eq in Hb. eauto.
Qed.

Lemma ex_batches : Forall (fun dn => labels_batch ex_group (fst dn) (snd dn)) [(ex_b0, 3%nat); (ex_b1, 1%nat)].
Proof.
  constructor; [|constructor; [|constructor]]; cbn [fst snd].
  - apply labels_of_bool; [intros s; cbn; intuition|apply nodup_strings; reflexivity|reflexivity].
  - apply labels_of_bool; [intros s; cbn; intuition|apply nodup_strings; reflexivity|reflexivity].
Qed.

(** A regressor file: two regressors of widths 2 and 1, as positions, and one that is not
    indexed, in two batches. *)
Definition pos_indexes : list (string * list string) := [("on", ["a"; "b"; "c"]); ("talker", ["t"; "u"])].
Definition pos_list : list string := ["on"; "length"; "talker"].
Definition pos_group : h5io string := Eval vm_compute in
  match init plain_text (DList pos_list) pos_indexes [] with Ok H => H | Err _ => dummy end.
Definition pos_w (s : string) : nat := if String.eqb s "on" then 2%nat else 1%nat.
Definition pos_b0 : list (values string) :=
  [Rows string 2 [[0; 1]; [2; 1]]; Rows string 1 [[70]; [-9]]; Rows string 1 [[1]; [0]]].
Definition pos_b1 : list (values string) := [Rows string 2 [[2; 2]]; Rows string 1 [[5]]; Rows string 1 [[1]]].

Lemma pos_indexes_ok : indexes_ok pos_indexes [].
Proof.
  split; [apply nodup_strings; reflexivity|]. split; [constructor|]. split.
  - intros ix l Hin. repeat (destruct Hin as [E|Hin]; [injection E as <- <-; split; [discriminate|reflexivity]|]). destruct Hin.
  - intros f members [].
Qed.

Lemma pos_declared : declared_ok pos_group /\ NoDup (h_managed pos_group).
Proof.
  destruct (init_list string plain_text pos_list pos_indexes []) as (H & E & D & _).
  - exact pos_indexes_ok.
  - discriminate.
  - apply plain_texts. reflexivity.
  - apply plain_labels. reflexivity.
  - apply subset_incl. reflexivity.
  - intros s [].
  - split; [|apply nodup_strings; reflexivity].
    assert (E' : init plain_text (DList pos_list) pos_indexes [] = Ok pos_group) by reflexivity.
    rewrite E' in E. injection E as <-. exact D.
Qed.

Lemma pos_batches : Forall (fun ln => positions_batch pos_group pos_w (fst ln) (snd ln)) [(pos_b0, 2%nat); (pos_b1, 1%nat)].
Proof.
  assert (I : forall s l, index_for pos_group s l -> In (s, l) pos_indexes).
  { intros s l (ix & H1 & H2). cbn in H1. change (h_indexes pos_group) with pos_indexes in H2.
    assert (s = ix) as -> by (repeat (destruct H1 as [E|H1]; [congruence|]); destruct H1). exact H2. }
  constructor; [|constructor; [|constructor]]; cbn [fst snd]; (constructor; [reflexivity|]);
    intros s v Hin; cbn in Hin;
    repeat (destruct Hin as [E|Hin]; [injection E as <- <-; eexists; split; [reflexivity|]; split; [reflexivity|]; split;
      [intros r Hr; repeat (destruct Hr as [<-|Hr]; [reflexivity|]); destruct Hr|
       intros index r x Hix Hr Hx; apply I in Hix; cbn in Hix; repeat (destruct Hix as [E|Hix]; [try discriminate; injection E as <-|]); try (destruct Hix);
       repeat (destruct Hr as [<-|Hr]; [repeat (destruct Hx as [<-|Hx]; [cbn; lia|]); destruct Hx|]); destruct Hr]|]); destruct Hin.
Qed.

(** Two datasets that share an index. *)
Definition shared_decl : list (string * option string) := [("left", Some "phone"); ("right", Some "phone")].
Definition shared_indexes : list (string * list string) := [("phone", ["a"; "b"])].
Definition shared_data : list (string * values string) := [("left", Labels ["a"; "b"]); ("right", Labels ["b"; "b"])].

Lemma shared_refuted : exists H, init plain_text (DDict shared_decl) shared_indexes [] = Ok H /\ indexes_ok shared_indexes [] /\
  labels_batch H shared_data 2 /\ write_all String.string_dec H None [(InDict shared_data, false)] = Err KeyError.
Proof.
  eexists. split; [reflexivity|]. split.
  { split; [apply nodup_strings; reflexivity|]. split; [constructor|]. split; [|intros f members []].
    intros ix l [E|[]]. injection E as <- <-. split; [discriminate|reflexivity]. }
  split; [|vm_compute; reflexivity]. constructor.
  - apply nodup_strings. reflexivity.
  - intros s. cbn. intuition.
  - intros s v l Hin (ix & H1 & H2). cbn in H1, H2. destruct H2 as [E|[]]. injection E as <- <-.
    destruct Hin as [E|[E|[]]]; injection E as <- <-; eexists; (split; [reflexivity|]); (split; [reflexivity|intros x Hx; cbn in *; intuition]).
  - intros s v Hin Hn. exfalso. apply Hn. cbn in Hin |- *. destruct Hin as [E|[E|[]]]; injection E as <- <-; auto.
Qed.

(** Sixty-five binary datasets fused. *)
Definition name (i : nat) : string := String (ascii_of_nat (48 + i)) EmptyString.
Definition many : list string := map name (seq 0 65).
Definition many_indexes : list (string * list Z) := map (fun s => (s, [0; 1])) many.
Definition many_fused : list (string * list string) := [("all", many)].
Definition many_data : list (string * values Z) :=
  map (fun s => (s, Labels [0; if String.eqb s (name 64) then 1 else 0])) many.
Definition many_group : h5io Z :=
  match init (fun _ => true) (DList many) many_indexes many_fused with Ok H => H | Err _ => mk_h5io [] [] [] [] [] [] [] end.

Lemma many_init : init (fun _ => true) (DList many) many_indexes many_fused = Ok many_group.
Proof. vm_compute. reflexivity. Qed.

Lemma many_nodup : NoDup many.
Proof. apply nodup_strings. vm_compute. reflexivity. Qed.

Lemma many_names : map fst many_indexes = many.
Proof. unfold many_indexes. rewrite map_map. apply map_id. Qed.

Lemma many_declared : declared_ok many_group /\ h_managed many_group = many /\ h_fused many_group = many_fused /\
  (forall s l, index_for many_group s l -> l = [0; 1]).
Proof.
  destruct (init_list Z (fun _ => true) many many_indexes many_fused) as (H & E & D & Em & Ei & Ef & _).
  - split; [rewrite many_names; exact many_nodup|]. split; [constructor; [intros []|constructor]|]. split.
    + intros ix l Hin. apply in_map_iff in Hin. destruct Hin as (s & E & _). injection E as <- <-. split; [discriminate|reflexivity].
    + intros f members [E|[]]. injection E as <- <-. discriminate.
  - discriminate.
  - apply plain_texts. vm_compute. reflexivity.
  - intros ix l x _ _. reflexivity.
  - rewrite many_names. apply incl_refl.
  - rewrite many_names. cbn [many_fused flat_map snd]. rewrite app_nil_r. apply incl_refl.
  - rewrite many_init in E. injection E as <-. split; [exact D|]. split; [exact Em|]. split; [exact Ef|].
    intros s l (ix & _ & H2). rewrite Ei in H2. apply in_map_iff in H2. destruct H2 as (s' & E & _). congruence.
Qed.

Lemma many_batch : labels_batch many_group many_data 2.
Proof.
  destruct many_declared as (D & Em & _ & Hix). assert (Ek : map fst many_data = many) by (unfold many_data; rewrite map_map; apply map_id).
  constructor.
  - rewrite Ek. exact many_nodup.
  - intros s. rewrite Em, Ek. tauto.
  - intros s v l Hin Hl. apply Hix in Hl. subst l. apply in_map_iff in Hin. destruct Hin as (s' & E & _). injection E as <- <-.
    eexists. split; [reflexivity|]. split; [reflexivity|]. intros x Hx. destruct (String.eqb s' (name 64)), Hx as [<-|[<-|[]]]; try (left; reflexivity); right; left; reflexivity.
  - intros s v Hin Hn. exfalso. apply Hn. assert (Hs : In s many) by (rewrite <- Ek; apply in_map_iff; exists (s, v); auto).
    assert (E : map fst (h_indexed many_group) = many) by (vm_compute; reflexivity). rewrite E. exact Hs.
Qed.

Lemma many_refuted : declared_ok many_group /\ labels_batch many_group many_data 2 /\ h_fused many_group = [("all", many)] /\
  exists o fo s, write_all Z.eq_dec many_group None [(InDict many_data, false)] = Ok (Some o) /\
    In ("all", fo) (o_fused o) /\ f_keys fo = [0; 0] /\ In s many /\ labels_given s [many_data] = [0; 1].
Proof.
  split; [apply many_declared|]. split; [exact many_batch|]. split; [vm_compute; reflexivity|].
  assert (E : exists o fo, write_all Z.eq_dec many_group None [(InDict many_data, false)] = Ok (Some o) /\
     o_fused o = [("all", fo)] /\ f_keys fo = [0; 0]).
  { eexists _, _. split; [vm_compute; reflexivity|]. split; reflexivity. }
  destruct E as (o & fo & E & Eo & Ek). exists o, fo, (name 64). split; [exact E|]. split; [rewrite Eo; left; reflexivity|]. split; [exact Ek|].
  split; [unfold many; apply in_map; apply in_seq; lia|vm_compute; reflexivity].
Qed.
