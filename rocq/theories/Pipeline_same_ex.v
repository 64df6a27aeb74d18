(** Whole evaluations used in the examples of Props_PipelineSame.v. *)
From Coq Require Import Ascii String.
From Coq Require Import List ZArith QArith Lia Permutation.
From Verif Require Import Prelude ListFacts TypeFitting Sampler Sampler_proofs Task Task_spec Task_sort Task_proofs Task_main Task_ex Task_reg_ex
  Task_reg_spec Task_align Pairs Pairs_spec Distances Distances_spec
  Score Score_spec Score_ex Analyze Analyze_spec Rounding H5io H5io_spec H5io_use H5io_ex Pipeline Pipeline_spec Pipeline_file Pipeline_proofs
  Pipeline_ex Pipeline_same_spec.
Import ListNotations.
Local Open Scope Z_scope.
Local Open Scope string_scope.
Local Open Scope list_scope.

(** An evaluation from the item table: what the analysis returns. *)
Definition pe_make (order : list (string * by_group string) -> list (string * by_group string)) (memory : Z)
           (db : list row) (places : list (Distances.item Z)) :=
  make_file string_dec plain_text pl_name order idk idz argsort_ins ex_rng 9 pl_len pl_len pl_len memory 100
            ex_task_reg ex_cols db places pl_indexes None 0.

Section Run.
Variables (V : Type) (zero : V) (vlt : V -> V -> bool) (distance : option bool -> list Z -> list Z -> res V).

Definition pe_run (x : abx_file Z string) (files : list (feature_data Z Z)) (normalize : option Z) (n_cpu : nat)
  (schedule : list nat) : option (list (line string)) :=
  let c := mk_setting (for_distances x) files normalize in
  match compute_distances zero argsort_ins 100 c (mk_dist_file None None) n_cpu with
  | (_, Ok s0) =>
    let s := Distances.run Z.leb distance c s0 schedule in
    match s_main s, d_data (s_file s) with
    | M_returned, Some dis =>
      match score vlt rnd64 pl_len (fun s => s) (mk_disk [("t.abx", for_score x)] [("d.distance", dis)] [] [])
                  "t.abx" "d.distance" None with
      | (k', Ok tt) =>
        match lookup (k_scores k') "t.abx_d.distance.score" with
        | Ok scores => match analyze rnd64 argsort_ins (for_analysis x) scores with
                       | Ok (_, lines) => Some lines
                       | Err _ => None
                       end
        | Err _ => None
        end
      | _ => None
      end
    | _, _ => None
    end
  | _ => None
  end.

Lemma pe_evaluated order memory db places x files normalize n_cpu schedule lines :
  (forall l, Permutation (order l) l) ->
  pe_make order memory db places = Ok (Some x) -> Zlen db <= capacity (Zlen (x_triplets x)) + 1 ->
  64 * Zlen (x_triplets x) <= 3 * memory -> (1 <= n_cpu)%nat ->
  pe_run x files normalize n_cpu schedule = Some lines ->
  evaluated string_dec plain_text pl_name Z.leb vlt distance ex_task_reg ex_cols db places pl_indexes files normalize lines.
Proof.
  intros Ho Hm Hs H64 Hn Hr. unfold pe_run in Hr.
  destruct (compute_distances _ _ _ _ _ _) as [df' [s0|e]] eqn:Ec; [|discriminate].
  destruct (s_main _) eqn:Em; try discriminate. destruct (d_data _) as [dis|] eqn:Ed; [|discriminate].
  destruct (score _ _ _ _ _ _ _ _) as [k' [[]|e]] eqn:Es; [|discriminate].
  destruct (lookup (k_scores k') _) as [scores|e] eqn:El; [|discriminate].
  destruct (analyze _ _ _ _) as [[names lines']|e] eqn:Ea; [|discriminate]. injection Hr as ->.
  refine (@Evaluated Z string string_dec plain_text pl_name Z V Z.leb vlt distance ex_task_reg ex_cols db places pl_indexes files normalize lines
    order Ho idk idz argsort_ins ex_rng 9 idk_ok idz_ok argsort_ins_spec pl_len pl_len pl_len _ _ _ memory 100 _ None 0 x Hm _ _ _
    zero 100 n_cpu _ df' s0 _ Hn Ec _ Em dis rnd64 pl_len (fun s => s)
    (mk_disk [("t.abx", for_score x)] [("d.distance", dis)] [] []) "t.abx" "d.distance" None k' scores names Ed rnd64_exact _ _ _ _ Es El Ea).
  - intros z. unfold pl_len. lia.
  - intros z. unfold pl_len. lia.
  - intros z. unfold pl_len. lia.
  - lia.
  - apply storable_small. exact Hs.
  - left. exact H64.
  - left. left. reflexivity.
  - eexists. reflexivity.
  - intros z. unfold pl_len. lia.
  - reflexivity.
  - reflexivity.
  - intros [H|[H|[[]|[]]]]; cbn in H; intuition discriminate.
Qed.
End Run.

(** Item tables of this task. *)
Lemma pe_determined db : determined ex_task_reg db.
Proof.
  constructor; cbn [ex_task_reg t_on t_across t_by t_filters ex_filters f_by f_generic f_oab f_A f_B f_X f_ABX]; intros;
    repeat match goal with
    | H : Some _ = Some _ |- _ => injection H as <-
    | H : None = Some _ |- _ => discriminate H
    | H : agree ?l ?r ?r' |- context [?r ?c] => rewrite (H c ltac:(cbn; tauto))
    end; reflexivity.
Qed.

Definition small (r : row) : bool :=
  andb (andb (0 <=? r "phone")%Z (r "phone" <? 4)%Z) (andb (0 <=? r "talker")%Z (r "talker" <? 4)%Z).

Lemma pe_levels db : forallb small db = true -> levels_ok plain_text ex_task_reg db pl_indexes.
Proof.
  intros Hd. constructor; try (destruct pl_levels; assumption).
  intros s levels k [[a b] x] Hs Hw. destruct (wanted_lines _ _ _ _ _ _ Hw) as (ra & rb & rx & (_ & Ea & Ia) & (_ & Eb & Ib) & (_ & Ex & Ix)).
  assert (P : forall r, In r db -> 0 <= r "phone" < 4 /\ 0 <= r "talker" < 4).
  { intros r Hr. rewrite forallb_forall in Hd. apply Hd in Hr. unfold small in Hr.
    rewrite !andb_true_iff, !Z.leb_le, !Z.ltb_lt in Hr. lia. }
  destruct (P ra Ia), (P rb Ib), (P rx Ix).
  destruct Hs as [[= <- <-]|[[= <- <-]|[[= <- <-]|[]]]].
  - change (0 <= row_at (by_rows ex_task_reg db k) b "phone" < 4). rewrite Eb. assumption.
  - change (0 <= row_at (by_rows ex_task_reg db k) x "talker" < 4). rewrite Ex. assumption.
  - change (0 <= row_at (by_rows ex_task_reg db k) a "phone" < 4). rewrite Ea. assumption.
Qed.

Lemma pe_evaluable l1 l2 (places : list (Distances.item Z)) (files : list (feature_data Z Z)) :
  forallb (fun r => f_generic (t_filters ex_task_reg) r r) l1 = true ->
  forallb (fun r => negb (f_generic (t_filters ex_task_reg) r r)) l2 = true ->
  forallb small (l1 ++ l2) = true -> length places = length (l1 ++ l2) -> Zlen (l1 ++ l2) <= 94906265 -> features_ok files ->
  evaluable plain_text ex_task_reg ex_cols (l1 ++ l2) places pl_indexes files.
Proof.
  intros H1 H2 H3 H4 H5 H6. constructor.
  - exact ex_reads.
  - apply pe_determined.
  - exact (kept_first_split ex_task_reg l1 l2 H1 H2).
  - exact ex_reg_reads.
  - apply ex_reg_regs_determined; reflexivity.
  - exact H4.
  - exact H5.
  - exact pl_A_fine.
  - apply pe_levels, H3.
  - exact H6.
Qed.

(** The evaluation of Pipeline_ex.v. *)
Definition pe_file (r : res (option (abx_file Z string))) : abx_file Z string :=
  match r with Ok (Some x) => x | _ => mk_abx [] I8 [] [] [] [] [] [] end.
Definition turns : list nat := concat (repeat [0; 1; 1; 2; 3]%nat 20).
Definition got (r : option (list (line string))) : list (line string) := match r with Some l => l | None => [] end.

Definition p0_lines := Eval vm_compute in got (pe_run Z 0 Z.ltb pl_distance pl_file pl_files (Some 1) 2 turns).

Lemma p0_evaluable : evaluable plain_text ex_task_reg ex_cols ex_db pl_places pl_indexes pl_files.
Proof.
  apply (pe_evaluable (firstn 14 ex_db) (skipn 14 ex_db)); try reflexivity; [vm_compute; discriminate|exact pl_features_ok].
Qed.

Lemma rev_order (l : list (string * by_group string)) : Permutation (rev l) l.
Proof. apply Permutation_sym, Permutation_rev. Qed.

Lemma p0_evaluated : evaluated string_dec plain_text pl_name Z.leb Z.ltb pl_distance ex_task_reg ex_cols ex_db pl_places
  pl_indexes pl_files (Some 1) p0_lines.
Proof.
  apply (pe_evaluated Z 0 Z.ltb pl_distance (@rev _) 1000 ex_db pl_places pl_file pl_files (Some 1) 2 turns).
  - exact rev_order.
  - exact pl_made.
  - vm_compute. discriminate.
  - vm_compute. discriminate.
  - lia.
  - vm_compute. reflexivity.
Qed.

(** The same items in another order, with three processes, more memory and another order of the
    groups. *)
Definition p1_db : list row := rev (firstn 14 ex_db) ++ skipn 14 ex_db.
Definition p1_places : list (Distances.item Z) := rev (firstn 14 pl_places) ++ skipn 14 pl_places.
Definition p1_file : abx_file Z string := Eval vm_compute in pe_file (pe_make (fun l => l) 2000 p1_db p1_places).
Definition p1_lines := Eval vm_compute in got (pe_run Z 0 Z.ltb pl_distance p1_file pl_files (Some 1) 3 turns).

Lemma p1_evaluable : evaluable plain_text ex_task_reg ex_cols p1_db p1_places pl_indexes pl_files.
Proof.
  apply (pe_evaluable (rev (firstn 14 ex_db)) (skipn 14 ex_db)); try reflexivity; [vm_compute; discriminate|exact pl_features_ok].
Qed.

Lemma p1_evaluated : evaluated string_dec plain_text pl_name Z.leb Z.ltb pl_distance ex_task_reg ex_cols p1_db p1_places
  pl_indexes pl_files (Some 1) p1_lines.
Proof.
  apply (pe_evaluated Z 0 Z.ltb pl_distance (fun l => l) 2000 p1_db p1_places p1_file pl_files (Some 1) 3 turns).
  - intros l. apply Permutation_refl.
  - vm_compute. reflexivity.
  - vm_compute. discriminate.
  - vm_compute. discriminate.
  - lia.
  - vm_compute. reflexivity.
Qed.

Lemma p1_items : Permutation (combine ex_db pl_places) (combine p1_db p1_places).
Proof.
  change (Permutation (firstn 14 (combine ex_db pl_places) ++ skipn 14 (combine ex_db pl_places))
                      (rev (firstn 14 (combine ex_db pl_places)) ++ skipn 14 (combine ex_db pl_places))).
  apply Permutation_app_tail, Permutation_rev.
Qed.

(** A similarity instead of a distance, the largest being the best. *)
Definition p2_distance (n : option bool) (m m' : list Z) : res Z :=
  d <- pl_distance (Some true) m m' ;; Ok (10 - 3 * d).
Definition p2_lines := Eval vm_compute in got (pe_run Z 0 Z.gtb p2_distance pl_file pl_files None 2 turns).

Lemma p2_evaluated : evaluated string_dec plain_text pl_name Z.leb Z.gtb p2_distance ex_task_reg ex_cols ex_db pl_places
  pl_indexes pl_files None p2_lines.
Proof.
  apply (pe_evaluated Z 0 Z.gtb p2_distance (@rev _) 1000 ex_db pl_places pl_file pl_files None 2 turns).
  - exact rev_order.
  - exact pl_made.
  - vm_compute. discriminate.
  - vm_compute. discriminate.
  - lia.
  - vm_compute. reflexivity.
Qed.

Lemma lt_asym : asymmetric Z.ltb.
Proof. intros d d'. rewrite Z.ltb_lt, Z.ltb_ge. lia. Qed.
Lemma gt_asym : asymmetric Z.gtb.
Proof. intros d d'. rewrite Z.gtb_ltb, Z.ltb_lt, Z.gtb_ltb, Z.ltb_ge. lia. Qed.
Lemma p2_order d d' : Z.gtb (10 - 3 * d) (10 - 3 * d') = Z.ltb d d'.
Proof. rewrite Z.gtb_ltb. destruct (Z.ltb_spec d d'); destruct (Z.ltb_spec (10 - 3 * d') (10 - 3 * d)); auto; lia. Qed.
Lemma p2_distances m m' d : pl_distance (meant (Some 1)) m m' = Ok d -> p2_distance (meant None) m m' = Ok (10 - 3 * d).
Proof. cbn. intros E. injection E as <-. reflexivity. Qed.

(** Other features, the same inside the items: one feature file and more frames. *)
Definition p3_files : list (feature_data Z Z) :=
  [([("f2", [0; 1; 2; 3; 4; 5; 6; 7]); ("f0", [0]); ("f1", [-1; 0; 1; 2; 3; 4; 5])],
    [("f2", [4; 4; 7; 2; 6; 6; 9; 9]); ("f0", [0]); ("f1", [7; 5; 3; 8; 1; 9; 2])])].
Definition p3_lines := Eval vm_compute in got (pe_run Z 0 Z.ltb pl_distance pl_file p3_files (Some 1) 1 turns).

Lemma p3_evaluated : evaluated string_dec plain_text pl_name Z.leb Z.ltb pl_distance ex_task_reg ex_cols ex_db pl_places
  pl_indexes p3_files (Some 1) p3_lines.
Proof.
  apply (pe_evaluated Z 0 Z.ltb pl_distance (@rev _) 1000 ex_db pl_places pl_file p3_files (Some 1) 1 turns).
  - exact rev_order.
  - exact pl_made.
  - vm_compute. discriminate.
  - vm_compute. discriminate.
  - lia.
  - vm_compute. reflexivity.
Qed.

Lemma p3_features_ok : features_ok p3_files.
Proof.
  split.
  - intros fd [<-|[]]; (split; [repeat constructor; cbn; intuition discriminate|reflexivity]).
  - repeat constructor; cbn; intuition discriminate.
Qed.

Lemma p3_matrix p m : In p pl_places -> matrix_of Z.leb pl_files p m -> matrix_of Z.leb p3_files p m.
Proof.
  intros Hp (times & frames & (fd & Hfd & Ht & Hf) & ->). vm_compute in Hp.
  repeat (destruct Hp as [<-|Hp];
    [destruct Hfd as [<-|[<-|[]]]; cbn in Ht, Hf; destruct Ht as [[= <-]|[]]; destruct Hf as [[= <-]|[]]; do 2 eexists;
     (split; [eexists; split; [left; reflexivity|cbn; split; eauto 6]|]; vm_compute; reflexivity)|]);
  destruct Hp.
Qed.

(** Other bys. *)
Definition p4_items : list (row * Distances.item Z) :=
  filter (fun rp => fst rp "lang" =? 7)%Z (combine ex_db pl_places) ++
  [(ln 1 1 9 3, mk_item "f1" 1 4); (ln 2 1 9 4, mk_item "f1" 2 4); (ln 1 2 9 6, mk_item "f2" 1 3)].
Definition p4_db : list row := map fst p4_items.
Definition p4_places : list (Distances.item Z) := map snd p4_items.
Definition p4_file : abx_file Z string := Eval vm_compute in pe_file (pe_make (fun l => l) 2000 p4_db p4_places).
Definition p4_lines := Eval vm_compute in got (pe_run Z 0 Z.ltb pl_distance p4_file pl_files (Some 1) 3 turns).

Lemma p4_evaluable : evaluable plain_text ex_task_reg ex_cols p4_db p4_places pl_indexes pl_files.
Proof.
  rewrite <- (app_nil_r p4_db).
  apply (pe_evaluable p4_db []); try reflexivity; [vm_compute; discriminate|exact pl_features_ok].
Qed.

Lemma p4_evaluated : evaluated string_dec plain_text pl_name Z.leb Z.ltb pl_distance ex_task_reg ex_cols p4_db p4_places
  pl_indexes pl_files (Some 1) p4_lines.
Proof.
  apply (pe_evaluated Z 0 Z.ltb pl_distance (fun l => l) 2000 p4_db p4_places p4_file pl_files (Some 1) 3 turns).
  - intros l. apply Permutation_refl.
  - vm_compute. reflexivity.
  - vm_compute. discriminate.
  - vm_compute. discriminate.
  - lia.
  - vm_compute. reflexivity.
Qed.

Lemma p4_same : Permutation (items_of ex_task_reg ex_db pl_places [7]) (items_of ex_task_reg p4_db p4_places [7]).
Proof. assert (items_of ex_task_reg ex_db pl_places [7] = items_of ex_task_reg p4_db p4_places [7]) as -> by (vm_compute; reflexivity). apply Permutation_refl. Qed.

(** The order of the items that makes the generation fail. *)
Definition p5_db : list row := skipn 14 ex_db ++ firstn 14 ex_db.
Definition p5_places : list (Distances.item Z) := skipn 14 pl_places ++ firstn 14 pl_places.
Lemma p5_items : Permutation (combine ex_db pl_places) (combine p5_db p5_places).
Proof.
  change (Permutation (firstn 14 (combine ex_db pl_places) ++ skipn 14 (combine ex_db pl_places))
                      (skipn 14 (combine ex_db pl_places) ++ firstn 14 (combine ex_db pl_places))).
  apply Permutation_app_comm.
Qed.
