(** A whole evaluation, used in the examples of Props_Pipeline.v. *)
From Coq Require Import Ascii String.
From Coq Require Import List ZArith QArith Lia Permutation.
From Verif Require Import Prelude ListFacts TypeFitting Sampler Sampler_proofs Task Task_spec Task_sort Task_proofs Task_main Task_ex Task_reg_ex
  Task_reg_spec Task_align Pairs Pairs_spec Distances Distances_spec
  Score Score_spec Score_ex Analyze Analyze_spec Rounding H5io H5io_spec H5io_use H5io_ex Pipeline Pipeline_spec Pipeline_file Pipeline_proofs.
Import ListNotations.
Local Open Scope Z_scope.
Local Open Scope string_scope.
Local Open Scope list_scope.

(** Names for the keys. *)
Fixpoint bits (p : positive) (s : string) : string :=
  match p with
  | xH => String ";" s
  | xO p => String "0" (bits p s)
  | xI p => String "1" (bits p s)
  end.
Definition sign (z : Z) (s : string) : string :=
  match z with Z0 => String "z" s | Zpos p => String "+" (bits p s) | Zneg p => String "-" (bits p s) end.
Definition pl_name (k : key) : string := fold_right sign "" k.

Lemma bits_inj p q s t : bits p s = bits q t -> p = q /\ s = t.
Proof.
  revert q. induction p as [p IH|p IH|]; intros [q|q|]; cbn; intros E; try discriminate; injection E as E.
  - apply IH in E as [-> ->]. auto.
  - apply IH in E as [-> ->]. auto.
  - auto.
Qed.

Lemma pl_name_inj k k' : pl_name k = pl_name k' -> k = k'.
Proof.
  revert k'. induction k as [|z k IH]; intros [|z' k']; cbn; intros E.
  - reflexivity.
  - destruct z'; discriminate.
  - destruct z; discriminate.
  - destruct z, z'; cbn in E; try discriminate; injection E as E.
    + f_equal. apply IH, E.
    + apply bits_inj in E as [-> E]. f_equal. apply IH, E.
    + apply bits_inj in E as [-> E]. f_equal. apply IH, E.
Qed.

(** The task, the locations of the items, the features. *)
Definition pl_indexes : list (string * list string) :=
  [("phone_B", ["?"; "a"; "b"; "c"]); ("talker_X", ["?"; "ann"; "bob"; "cid"]); ("phone_1", ["?"; "a"; "b"; "c"])].
Definition pl_places : list (Distances.item Z) :=
  map (fun i => mk_item (if Nat.even i then "f1" else "f2") (Z.of_nat i / 4) (Z.of_nat i / 3 + 1)) (seq 0 15).
Definition pl_files : list (feature_data Z Z) :=
  [([("f1", [0; 1; 2; 3; 4; 5])], [("f1", [5; 3; 8; 1; 9; 2])]);
   ([("f2", [0; 1; 2; 3; 4; 5; 6])], [("f2", [4; 4; 7; 2; 6; 6; 1])])].
Definition pl_distance (n : option bool) (m m' : list Z) : res Z :=
  Ok (Z.abs (sumZ m - sumZ m') + match n with Some true => 1 | _ => 0 end).
Definition pl_len (_ : Z) : nat := 3.
Definition pl_make :=
  make_file string_dec plain_text pl_name (@rev (string * by_group string)) idk idz argsort_ins ex_rng 9 pl_len pl_len pl_len 1000 100
            ex_task_reg ex_cols ex_db pl_places pl_indexes None 0.
Definition pl_file : abx_file Z string :=
  Eval vm_compute in match pl_make with Ok (Some x) => x | _ => mk_abx [] I8 [] [] [] [] [] [] end.

Lemma pl_made : pl_make = Ok (Some pl_file).
Proof. vm_compute. reflexivity. Qed.

Lemma pl_features_ok : features_ok pl_files.
Proof.
  split.
  - intros fd [<-|[<-|[]]]; (split; [repeat constructor; cbn; intuition discriminate|reflexivity]).
  - repeat constructor; cbn; intuition discriminate.
Qed.

Lemma pl_A_fine : A_fine ex_task_reg.
Proof. right. left. discriminate. Qed.

(** The lines of the items of a triplet are lines of the table. *)
Lemma wanted_lines T db k a b x : wanted T db k a b x ->
  exists ra rb rx, (Task_spec.item (by_rows T db k) a ra /\ row_at (by_rows T db k) a = ra /\ In ra db) /\
                   (Task_spec.item (by_rows T db k) b rb /\ row_at (by_rows T db k) b = rb /\ In rb db) /\
                   (Task_spec.item (by_rows T db k) x rx /\ row_at (by_rows T db k) x = rx /\ In rx db).
Proof.
  intros (ra & rb & rx & Ha & Hb & Hx & _). exists ra, rb, rx.
  assert (Hdb : incl (by_rows T db k) db).
  { unfold by_rows. destruct (t_by T); [destruct (key_dec _ _); [apply incl_refl|intros y []]|].
    intros y Hy. apply filter_In in Hy. tauto. }
  assert (G : forall i r, Task_spec.item (by_rows T db k) i r -> Task_spec.item (by_rows T db k) i r /\ row_at (by_rows T db k) i = r /\ In r db).
  { intros i r [H0 H]. split; [split; assumption|]. split; [unfold row_at; apply nth_error_nth; exact H|].
    apply Hdb. eapply nth_error_In. exact H. }
  auto.
Qed.

Lemma pl_levels : levels_ok plain_text ex_task_reg ex_db pl_indexes.
Proof.
  constructor.
  - discriminate.
  - repeat constructor; cbn; intuition discriminate.
  - repeat constructor; cbn; intuition discriminate.
  - intros s. cbn. tauto.
  - intros s levels [[= <- <-]|[[= <- <-]|[[= <- <-]|[]]]]; discriminate.
  - intros s levels k [[a b] x] Hs Hw. destruct (wanted_lines _ _ _ _ _ _ Hw) as (ra & rb & rx & (_ & Ea & Ia) & (_ & Eb & Ib) & (_ & Ex & Ix)).
    assert (P : forall r, In r ex_db -> 0 <= r "phone" < 4 /\ 0 <= r "talker" < 4).
    { intros r Hr. cbn [ex_db In] in Hr. repeat (destruct Hr as [<-|Hr]; [vm_compute; intuition discriminate|]). destruct Hr. }
    destruct (P ra Ia), (P rb Ib), (P rx Ix).
    destruct Hs as [[= <- <-]|[[= <- <-]|[[= <- <-]|[]]]].
    + change (0 <= row_at (by_rows ex_task_reg ex_db k) b "phone" < 4). rewrite Eb. assumption.
    + change (0 <= row_at (by_rows ex_task_reg ex_db k) x "talker" < 4). rewrite Ex. assumption.
    + change (0 <= row_at (by_rows ex_task_reg ex_db k) a "phone" < 4). rewrite Ea. assumption.
  - vm_compute. discriminate.
  - apply plain_texts. reflexivity.
  - apply plain_labels. reflexivity.
Qed.

Lemma place_exists (T : task) db (places : list (Distances.item Z)) k i r : length places = length db ->
  Task_spec.item (by_rows T db k) i r -> exists p, place T db places k i p /\ In p places.
Proof.
  intros HL [H0 H].
  set (p := fun rp : row * Distances.item Z => match t_by T with
                                        | [] => if key_dec k [0] then true else false
                                        | cols => if key_dec (map (fst rp) cols) k then true else false
                                        end).
  assert (E : by_rows T db k = map fst (filter p (combine db places))).
  { unfold by_rows, p. clear -HL. destruct (t_by T) as [|c cs].
    - destruct (key_dec k [0]).
      + revert places HL. induction db as [|r db IH]; intros [|q places]; cbn; try discriminate; auto. intros E. f_equal. apply IH. lia.
      + induction (combine db places); auto.
    - revert places HL. induction db as [|r db IH]; intros [|q places] E; cbn [length] in E; try discriminate; [reflexivity|].
      cbn [combine filter fst].
      destruct (key_dec (map r (c :: cs)) k); cbn [map fst]; [f_equal|]; apply IH; lia. }
  rewrite E, nth_error_map in H. destruct (nth_error (filter p (combine db places)) (Z.to_nat i)) as [[r' q]|] eqn:En; [|discriminate].
  exists q. split.
  - split; [exact H0|]. change (nth_error (map snd (filter p (combine db places))) (Z.to_nat i) = Some q).
    rewrite nth_error_map, En. reflexivity.
  - apply nth_error_In in En. apply filter_In in En as [En _]. apply in_combine_r in En. exact En.
Qed.

Lemma pl_matrix p : In p pl_places -> exists m, matrix_of Z.leb pl_files p m.
Proof.
  intros H. assert (E : i_file p = "f1" \/ i_file p = "f2").
  { unfold pl_places in H. apply in_map_iff in H as (i & <- & _). cbn. destruct (Nat.even i); auto. }
  destruct E as [E|E]; eexists.
  - exists [0; 1; 2; 3; 4; 5], [5; 3; 8; 1; 9; 2]. split; [|reflexivity]. rewrite E. eexists. split; [left; reflexivity|]. cbn. auto.
  - exists [0; 1; 2; 3; 4; 5; 6], [4; 4; 7; 2; 6; 6; 1]. split; [|reflexivity]. rewrite E. eexists. split; [right; left; reflexivity|]. cbn. auto.
Qed.

Lemma pl_answerable n : answerable Z.leb Z.ltb pl_distance ex_task_reg ex_db pl_places pl_files n.
Proof.
  split.
  - intros k [[a b] x] Hw. destruct (wanted_lines _ _ _ _ _ _ Hw) as (ra & rb & rx & (Ia & _) & (Ib & _) & (Ix & _)).
    destruct (place_exists ex_task_reg ex_db pl_places k a ra eq_refl Ia) as (pa & Pa & Qa).
    destruct (place_exists ex_task_reg ex_db pl_places k b rb eq_refl Ib) as (pb & Pb & Qb).
    destruct (place_exists ex_task_reg ex_db pl_places k x rx eq_refl Ix) as (px & Px & Qx).
    destruct (pl_matrix pa Qa) as (ma & Ma). destruct (pl_matrix pb Qb) as (mb & Mb). destruct (pl_matrix px Qx) as (mx & Mx).
    assert (V : forall d d', exists s, verdict Z.ltb d d' s).
    { intros d d'. unfold verdict. destruct (Z.ltb_spec d d'), (Z.ltb_spec d' d); try lia; eexists; [left|right; left|right; right]; eauto. }
    destruct (V (Z.abs (sumZ ma - sumZ mx) + match meant n with Some true => 1 | _ => 0 end)
                (Z.abs (sumZ mb - sumZ mx) + match meant n with Some true => 1 | _ => 0 end)) as (s & Hs).
    exists s. exists pa, pb, px, ma, mb, mx. do 2 eexists.
    split; [exact Pa|]. split; [exact Pb|]. split; [exact Px|]. split; [exact Ma|]. split; [exact Mb|]. split; [exact Mx|].
    split; [reflexivity|]. split; [reflexivity|]. exact Hs.
  - intros f times frames (fd & Hfd & H1 & H2).
    destruct Hfd as [<-|[<-|[]]]; cbn in H1, H2; destruct H1 as [[= <- <-]|[]], H2 as [[= <-]|[]]; reflexivity.
Qed.

(** The distances, computed by two processes in turn. *)
Definition pl_setting : setting Z Z := mk_setting (for_distances pl_file) pl_files (Some 1).
Definition pl_start : sys Z Z :=
  match compute_distances 0 argsort_ins 100 pl_setting (mk_dist_file None None) 2 with
  | (_, Ok s) => s
  | _ => mk_sys None (mk_dist_file None None) [] M_running
  end.
Definition pl_end : sys Z Z := Distances.run Z.leb pl_distance pl_setting pl_start (concat (repeat [0; 1; 1; 2]%nat 20)).
Definition pl_dis : list Z := Eval vm_compute in match d_data (s_file pl_end) with Some d => d | None => [] end.

(** The files, then the scores and the result. *)
Definition pl_disk : disk Z := mk_disk [("t.abx", for_score pl_file)] [("d.distance", pl_dis)] [] [].
Definition pl_scores : list Z :=
  Eval vm_compute in match score Z.ltb rnd64 pl_len (fun s => s) pl_disk "t.abx" "d.distance" None with
                     | (k, Ok _) => match k_scores k with (_, s) :: _ => s | [] => [] end
                     | _ => []
                     end.
Definition pl_lines : res (list string * list (line string)) :=
  Eval vm_compute in analyze rnd64 argsort_ins (for_analysis pl_file) pl_scores.

Lemma pl_fit : blocks_fit (for_distances pl_file) 2.
Proof. left. vm_compute. discriminate. Qed.

(** The same with a threshold of two triplets. *)
Lemma pl_room : room ex_task_reg ex_db.
Proof.
  apply (@room_by _ _ 3); [|lia|vm_compute; reflexivity|].
  { intros k. destruct (key_dec k [7]) as [->|N7]; [vm_compute; discriminate|].
    destruct (key_dec k [8]) as [->|N8]; [vm_compute; discriminate|].
    destruct (key_dec k [5]) as [->|N5]; [vm_compute; discriminate|].
    destruct (key_dec k [6]) as [->|N6]; [vm_compute; discriminate|].
    assert (E : by_rows ex_task_reg ex_db k = []); [|rewrite E; cbn; lia].
    destruct (by_rows ex_task_reg ex_db k) as [|r l] eqn:E; [reflexivity|]. exfalso.
    assert (Hr : In r (by_rows ex_task_reg ex_db k)) by (rewrite E; left; reflexivity).
    change (In r (filter (fun r => if key_dec (map r ["lang"]) k then true else false) ex_db)) in Hr. apply filter_In in Hr as [Hr Hk].
    destruct (key_dec (map r ["lang"]) k) as [Ek|]; [|discriminate]. cbn [ex_db In] in Hr.
    repeat (destruct Hr as [<-|Hr]; [cbn in Ek; congruence|]). destruct Hr. }
  assert (H : forall r, In r ex_db -> 0 <= r "phone" <= 3 /\ 0 <= r "talker" <= 3).
  { intros r Hr. cbn [ex_db In] in Hr. repeat (destruct Hr as [<-|Hr]; [vm_compute; repeat split; discriminate|]). destruct Hr. }
  intros ng ra rb rx Hng Ha Hb Hx. cbn in Hng. destruct Hng as [<-|[<-|[]]]; cbn [snd]; apply H; assumption.
Qed.

Definition pt_make :=
  make_file string_dec plain_text pl_name (@rev (string * by_group string)) idk idz argsort_ins ex_rng 9 pl_len pl_len pl_len 1000 100
            ex_task_reg ex_cols ex_db pl_places pl_indexes (Some 2) 0.
Definition pt_file : abx_file Z string :=
  Eval vm_compute in match pt_make with Ok (Some x) => x | _ => mk_abx [] I8 [] [] [] [] [] [] end.
Lemma pt_made : pt_make = Ok (Some pt_file).
Proof. vm_compute. reflexivity. Qed.
Definition pt_setting : setting Z Z := mk_setting (for_distances pt_file) pl_files (Some 1).
Definition pt_start : sys Z Z :=
  match compute_distances 0 argsort_ins 100 pt_setting (mk_dist_file None None) 2 with
  | (_, Ok s) => s
  | _ => mk_sys None (mk_dist_file None None) [] M_running
  end.
Definition pt_end : sys Z Z := Distances.run Z.leb pl_distance pt_setting pt_start (concat (repeat [0; 1; 1; 2]%nat 20)).
Definition pt_dis : list Z := Eval vm_compute in match d_data (s_file pt_end) with Some d => d | None => [] end.
Definition pt_disk : disk Z := mk_disk [("t.abx", for_score pt_file)] [("d.distance", pt_dis)] [] [].
Definition pt_scores : list Z :=
  Eval vm_compute in match score Z.ltb rnd64 pl_len (fun s => s) pt_disk "t.abx" "d.distance" None with
                     | (k, Ok _) => match k_scores k with (_, s) :: _ => s | [] => [] end
                     | _ => []
                     end.
Definition pt_lines : res (list string * list (line string)) :=
  Eval vm_compute in analyze rnd64 argsort_ins (for_analysis pt_file) pt_scores.
