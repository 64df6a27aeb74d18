(** C90: the scores of an evaluation with a threshold, compared with those of the evaluation without. *)
From Coq Require Import Reals Ascii String.
From Coq Require Import List ZArith QArith Qreals Permutation.
From Verif Require Import Prelude Sampler Sampler_spec Sampler_proofs Chance_spec Expect_spec Expect Task Task_spec Task_main Task_ex Task_reg_spec Task_reg_ex
  Distances Distances_spec Score Score_spec Score_ex Analyze Analyze_spec Rounding H5io H5io_use H5io_ex Pipeline Pipeline_spec Pipeline_ex
  Pipeline_same_spec Pipeline_same_ex Unbiased_spec Unbiased_made Unbiased Unbiased_main Unbiased_ex.
Import ListNotations.
Local Open Scope Z_scope.
Local Open Scope string_scope.
Local Open Scope list_scope.

(** C90: once the triplets are generated with a threshold, the task file is always completed. There is
    no file exactly when there is no triplet, and it has at most the number of rows announced. *)
Theorem C90_file_made :
  forall (tm L : Type) (leq : forall x y : L, {x = y} + {x <> y}) (plain : L -> bool) (name : key -> string),
    (forall k k', name k = name k' -> k = k') ->
  forall gorder : list (string * by_group L) -> list (string * by_group L),
  forall korder enum argsort, lists_keys korder -> lists_set enum -> argsort_spec argsort ->
  forall rlen wlen clen : Z -> nat,
    (forall z, (0 < rlen z)%nat) -> (forall z, (0 < wlen z)%nat) -> (forall z, (0 < clen z)%nat) ->
  forall memory o_buffer : Z, 8 <= o_buffer ->
  forall T cols db (places : list (Distances.item tm)) (indexes : list (string * list L)),
    reads cols (t_filters T) -> determined T db -> kept_first T db ->
    reg_reads cols (t_regressors T) -> reg_determined T db ->
    List.length places = List.length db -> Zlen db <= 94906265 -> A_fine T -> levels_ok plain T db indexes ->
  forall T' bs st, task_init korder enum T cols db = Ok (T', bs, st) -> room T db ->
    r_ABX (t_regressors T) = false -> storable T db (capacity (s_nb_triplets st)) ->
    64 * s_nb_triplets st <= 3 * memory \/ 10 ^ 9 <= memory /\ s_nb_triplets st <= 10 ^ 14 ->
  forall t, 0 < t -> of_BX (t_regressors T) <> [] ->
  forall (R : rng) (fuel : nat) bs' of, rng_ok R ->
    generate_triplets korder enum argsort R fuel T' (Some t) bs st 0 = Ok (bs', of) ->
    exists o, make_file leq plain name gorder korder enum argsort R fuel rlen wlen clen memory o_buffer T cols db places indexes (Some t) 0 = Ok o /\
      (o = None <-> forall k s, ~ is_wanted T db k s) /\
      forall x, o = Some x -> Zlen (x_triplets x) <= s_nb_triplets st.
Proof. exact threshold_file_made. Qed.
Print Assumptions C90_file_made.

(** Ten triplets announced, eight kept. *)
Example C90_file_made_ex :
  evaluable plain_text ex_task_reg ex_cols ex_db pl_places pl_indexes pl_files /\ room ex_task_reg ex_db /\
  r_ABX (t_regressors ex_task_reg) = false /\ storable ex_task_reg ex_db (capacity 10) /\ 64 * 10 <= 3 * 1000 /\
  of_BX (t_regressors ex_task_reg) <> [] /\ rng_ok ex_rng /\
  (exists T' bs st, task_init idk idz ex_task_reg ex_cols ex_db = Ok (T', bs, st) /\ s_nb_triplets st = 10 /\
     exists r, generate_triplets idk idz argsort_ins ex_rng 9 T' (Some 2) bs st 0 = Ok r) /\
  pt_make = Ok (Some pt_file) /\ Zlen (x_triplets pt_file) = 8.
Proof.
  split; [exact p0_evaluable|]. split; [exact pl_room|]. split; [reflexivity|]. split; [exact u_storable|]. split; [vm_compute; discriminate|].
  split; [discriminate|]. split; [exact ex_rng_ok|]. split; [|split; [exact pt_made|reflexivity]].
  do 3 eexists. split; [vm_compute; reflexivity|]. split; [reflexivity|]. eexists. vm_compute. reflexivity.
Qed.

(** C90: two triplets of the same group always have the same levels of the regressors analysed, unless
    there is an across column and a regressor of A is analysed. *)
Theorem C90_whole_groups :
  forall (L : Type) T db (indexes : list (string * list L)),
    reg_determined T db ->
    t_across T = [] \/ (forall nf, In nf (r_A (t_regressors T)) -> ~ In (fst nf) (map fst indexes)) ->
  forall k s u, is_wanted T db k s -> is_wanted T db k u -> same_group T (by_rows T db k) u s ->
    combination T (by_rows T db k) (map fst indexes) u = combination T (by_rows T db k) (map fst indexes) s.
Proof. exact whole_groups. Qed.
Print Assumptions C90_whole_groups.

Example C90_whole_groups_ex :
  reg_determined ex_task_reg ex_db /\ (forall nf, In nf (r_A (t_regressors ex_task_reg)) -> ~ In (fst nf) (map fst u_indexes)) /\
  is_wanted ex_task_reg ex_db [7] (1, 3, 0) /\ is_wanted ex_task_reg ex_db [7] (5, 3, 4) /\
  same_group ex_task_reg (by_rows ex_task_reg ex_db [7]) (5, 3, 4) (1, 3, 0) /\
  combination ex_task_reg (by_rows ex_task_reg ex_db [7]) (map fst u_indexes) (1, 3, 0) = [1].
Proof.
  split; [exact (ev_reg_determined u_evaluable)|]. split; [intros nf [<-|[]]; cbn; intuition discriminate|].
  split; [apply u_wanted; vm_compute; tauto|]. split; [apply u_wanted; vm_compute; tauto|].
  split; [apply (proj1 (proj2 (u_group_lists (1, 3, 0)) (5, 3, 4))); vm_compute; tauto|vm_compute; reflexivity].
Qed.

(** C90: with a threshold, the expected score of a line made of whole groups is the mean of what the
    answers of all its triplets are worth, each with the weight min(t, n) / n, where n is the number of
    triplets of its group. *)
Theorem C90_expected_score :
  forall (tm L F V : Type) (leq : forall x y : L, {x = y} + {x <> y}) (plain : L -> bool) (name : key -> string),
    (forall k k', name k = name k' -> k = k') ->
  forall gorder : list (string * by_group L) -> list (string * by_group L), (forall l, Permutation (gorder l) l) ->
  forall korder enum argsort, lists_keys korder -> lists_set enum -> argsort_spec argsort ->
  forall rlen wlen clen : Z -> nat,
    (forall z, (0 < rlen z)%nat) -> (forall z, (0 < wlen z)%nat) -> (forall z, (0 < clen z)%nat) ->
  forall memory o_buffer : Z, 8 <= o_buffer ->
  forall T cols db (places : list (Distances.item tm)) (indexes : list (string * list L)) (files : list (feature_data tm F)),
    evaluable plain T cols db places indexes files ->
  forall T' bs st, task_init korder enum T cols db = Ok (T', bs, st) -> room T db ->
    Zlen db * Zlen db * Zlen db < 2 ^ 63 -> r_ABX (t_regressors T) = false -> storable T db (capacity (s_nb_triplets st)) ->
    64 * s_nb_triplets st <= 3 * memory \/ 10 ^ 9 <= memory /\ s_nb_triplets st <= 10 ^ 14 ->
  forall t, 0 < t -> of_BX (t_regressors T) <> [] ->
  forall (tle : tm -> tm -> bool) (vlt : V -> V -> bool) (distance : option bool -> list F -> list F -> res V) (normalize : option Z),
    asymmetric vlt -> answerable tle vlt distance T db places files normalize ->
    (forall s levels, In (s, levels) indexes -> NoDup levels) ->
  forall k r labels all answers (chance : triplet -> R),
    labelled indexes r labels ->
    lists_that (fun s => is_wanted T db k s /\ combination T (by_rows T db k) (map fst indexes) s = r) all -> all <> [] ->
    Forall2 (answer tle vlt distance T db places files normalize k) all answers ->
    (forall s u, is_wanted T db k s -> is_wanted T db k u -> same_group T (by_rows T db k) u s ->
       combination T (by_rows T db k) (map fst indexes) s = r -> combination T (by_rows T db k) (map fst indexes) u = r) ->
    (forall s grp, In s all -> lists_that (fun u => is_wanted T db k u /\ same_group T (by_rows T db k) u s) grp ->
       chance s = (IZR (Z.min t (Zlen grp)) / IZR (Zlen grp))%R) ->
    always_expects (s_nb_triplets st)
      (evaluates (fun fuel R => make_file leq plain name gorder korder enum argsort R fuel rlen wlen clen memory o_buffer T cols db places indexes (Some t) 0)
        (finished argsort tle vlt distance files normalize))
      (score_at leq (name k) labels)
      (Rsum (map (fun sa => chance (fst sa) * worth (snd sa)) (combine all answers)) / Rsum (map chance all))%R.
Proof. exact expected_score. Qed.
Print Assumptions C90_expected_score.

(** The line of "a": one triplet alone in its group, and a group of four. *)
Example C90_expected_score_ex :
  evaluable plain_text ex_task_reg ex_cols ex_db pl_places u_indexes pl_files /\ room ex_task_reg ex_db /\
  storable ex_task_reg ex_db (capacity 10) /\ 64 * 10 <= 3 * 1000 /\ of_BX (t_regressors ex_task_reg) <> [] /\ asymmetric Z.ltb /\
  answerable Z.leb Z.ltb pl_distance ex_task_reg ex_db pl_places pl_files (Some 1) /\
  (forall s levels, In (s, levels) u_indexes -> NoDup levels) /\ labelled u_indexes [1] ["a"] /\
  lists_that (fun s => is_wanted ex_task_reg ex_db [7] s /\ combination ex_task_reg (by_rows ex_task_reg ex_db [7]) (map fst u_indexes) s = [1]) u_all /\
  u_all = [(0, 2, 5); (1, 3, 0); (1, 3, 4); (5, 3, 0); (5, 3, 4)] /\
  Forall2 (answer Z.leb Z.ltb pl_distance ex_task_reg ex_db pl_places pl_files (Some 1) [7]) u_all [0; 1; -1; 1; 1] /\
  map (fun s => Zlen (u_group s)) u_all = [1; 4; 4; 4; 4] /\
  (Rsum (map (fun sa => u_chance (fst sa) * worth (snd sa)) (combine u_all [0; 1; -1; 1; 1]%Z)) / Rsum (map u_chance u_all) = 2 / 3)%R.
Proof.
  split; [exact u_evaluable|]. split; [exact pl_room|]. split; [exact u_storable|]. split; [vm_compute; discriminate|]. split; [discriminate|].
  split; [exact u_asym|]. split; [apply pl_answerable|]. split; [exact u_distinct|]. split; [repeat constructor; discriminate|].
  split; [exact u_lists|]. split; [reflexivity|]. split; [exact u_answer|]. split; [exact u_sizes|exact u_expected].
Qed.

(** C90: when the groups a line is made of have the same share of their triplets kept, the expected score
    of the line is exactly its score without a threshold. *)
Theorem C90_unbiased :
  forall (tm L F V : Type) (leq : forall x y : L, {x = y} + {x <> y}) (plain : L -> bool) (name : key -> string),
    (forall k k', name k = name k' -> k = k') ->
  forall gorder : list (string * by_group L) -> list (string * by_group L), (forall l, Permutation (gorder l) l) ->
  forall korder enum argsort, lists_keys korder -> lists_set enum -> argsort_spec argsort ->
  forall rlen wlen clen : Z -> nat,
    (forall z, (0 < rlen z)%nat) -> (forall z, (0 < wlen z)%nat) -> (forall z, (0 < clen z)%nat) ->
  forall memory o_buffer : Z, 8 <= o_buffer ->
  forall T cols db (places : list (Distances.item tm)) (indexes : list (string * list L)) (files : list (feature_data tm F)),
    evaluable plain T cols db places indexes files ->
  forall T' bs st, task_init korder enum T cols db = Ok (T', bs, st) -> room T db ->
    Zlen db * Zlen db * Zlen db < 2 ^ 63 -> r_ABX (t_regressors T) = false -> storable T db (capacity (s_nb_triplets st)) ->
    64 * s_nb_triplets st <= 3 * memory \/ 10 ^ 9 <= memory /\ s_nb_triplets st <= 10 ^ 14 ->
  forall t, 0 < t -> of_BX (t_regressors T) <> [] ->
  forall (tle : tm -> tm -> bool) (vlt : V -> V -> bool) (distance : option bool -> list F -> list F -> res V) (normalize : option Z),
    asymmetric vlt -> answerable tle vlt distance T db places files normalize ->
    (forall s levels, In (s, levels) indexes -> NoDup levels) ->
    t_across T = [] \/ (forall nf, In nf (r_A (t_regressors T)) -> ~ In (fst nf) (map fst indexes)) ->
  forall lines ln,
    evaluated leq plain name tle vlt distance T cols db places indexes files normalize lines -> In ln lines ->
    (forall k s u all_s all_u, l_by ln = name k -> is_wanted T db k s -> is_wanted T db k u ->
       labelled indexes (combination T (by_rows T db k) (map fst indexes) s) (l_labels ln) ->
       combination T (by_rows T db k) (map fst indexes) s = combination T (by_rows T db k) (map fst indexes) u ->
       lists_that (fun v => is_wanted T db k v /\ same_group T (by_rows T db k) v s) all_s ->
       lists_that (fun v => is_wanted T db k v /\ same_group T (by_rows T db k) v u) all_u ->
       Z.min t (Zlen all_s) * Zlen all_u = Z.min t (Zlen all_u) * Zlen all_s) ->
    always_expects (s_nb_triplets st)
      (evaluates (fun fuel R => make_file leq plain name gorder korder enum argsort R fuel rlen wlen clen memory o_buffer T cols db places indexes (Some t) 0)
        (finished argsort tle vlt distance files normalize))
      (score_at leq (l_by ln) (l_labels ln)) (Q2R (l_score ln)).
Proof. exact unbiased_scores. Qed.
Print Assumptions C90_unbiased.

(** The line of "b", "ann", "a", made of a group of four triplets of which two are kept. *)
Example C90_unbiased_ex :
  let ln := mk_line ["b"; "ann"; "a"] "+11;" (6 # 8) 4 in
  evaluable plain_text ex_task_reg ex_cols ex_db pl_places pl_indexes pl_files /\ room ex_task_reg ex_db /\
  storable ex_task_reg ex_db (capacity 10) /\ 64 * 10 <= 3 * 1000 /\ of_BX (t_regressors ex_task_reg) <> [] /\ asymmetric Z.ltb /\
  answerable Z.leb Z.ltb pl_distance ex_task_reg ex_db pl_places pl_files (Some 1) /\
  (forall s levels, In (s, levels) pl_indexes -> NoDup levels) /\
  (forall nf, In nf (r_A (t_regressors ex_task_reg)) -> ~ In (fst nf) (map fst pl_indexes)) /\
  evaluated string_dec plain_text pl_name Z.leb Z.ltb pl_distance ex_task_reg ex_cols ex_db pl_places pl_indexes pl_files (Some 1) p0_lines /\
  In ln p0_lines /\
  (forall k s u all_s all_u, l_by ln = pl_name k -> is_wanted ex_task_reg ex_db k s -> is_wanted ex_task_reg ex_db k u ->
     labelled pl_indexes (combination ex_task_reg (by_rows ex_task_reg ex_db k) (map fst pl_indexes) s) (l_labels ln) ->
     combination ex_task_reg (by_rows ex_task_reg ex_db k) (map fst pl_indexes) s = combination ex_task_reg (by_rows ex_task_reg ex_db k) (map fst pl_indexes) u ->
     lists_that (fun v => is_wanted ex_task_reg ex_db k v /\ same_group ex_task_reg (by_rows ex_task_reg ex_db k) v s) all_s ->
     lists_that (fun v => is_wanted ex_task_reg ex_db k v /\ same_group ex_task_reg (by_rows ex_task_reg ex_db k) v u) all_u ->
     Z.min 2 (Zlen all_s) * Zlen all_u = Z.min 2 (Zlen all_u) * Zlen all_s) /\
  u_group (1, 3, 0) = [(1, 3, 0); (1, 3, 4); (5, 3, 0); (5, 3, 4)].
Proof.
  split; [exact p0_evaluable|]. split; [exact pl_room|]. split; [exact u_storable|]. split; [vm_compute; discriminate|]. split; [discriminate|].
  split; [exact u_asym|]. split; [apply pl_answerable|]. split; [exact pl_distinct|]. split; [intros nf [<-|[]]; cbn; intuition discriminate|]. split; [exact p0_evaluated|].
  split; [vm_compute; tauto|]. split; [|vm_compute; reflexivity].
  intros k s u gs gu Hk Hs Hu _ E Hgs Hgu. change (l_by _) with (pl_name [7]) in Hk. apply pl_name_inj in Hk. subst k.
  rewrite (u_group_any s gs Hgs), (u_group_any u gu Hgu), (u_same s u); [reflexivity| | |exact E]; apply u_wanted; assumption.
Qed.

(** C90: ... but when the shares differ, the expected score of a line is not its score without a
    threshold: here it is 2/3 instead of 7/10. *)
Theorem C90_unequal_refuted :
  exists ln, In ln u_lines /\
  always_expects 10
    (evaluates (fun fuel R => make_file string_dec plain_text pl_name (@rev (string * by_group string)) idk idz argsort_ins R fuel pl_len pl_len pl_len 1000 100
                                ex_task_reg ex_cols ex_db pl_places u_indexes (Some 2) 0)
      (finished argsort_ins Z.leb Z.ltb pl_distance pl_files (Some 1)))
    (score_at string_dec (l_by ln) (l_labels ln)) (2 / 3)%R /\
  Q2R (l_score ln) = (7 / 10)%R /\
  ~ always_expects 10
    (evaluates (fun fuel R => make_file string_dec plain_text pl_name (@rev (string * by_group string)) idk idz argsort_ins R fuel pl_len pl_len pl_len 1000 100
                                ex_task_reg ex_cols ex_db pl_places u_indexes (Some 2) 0)
      (finished argsort_ins Z.leb Z.ltb pl_distance pl_files (Some 1)))
    (score_at string_dec (l_by ln) (l_labels ln)) (Q2R (l_score ln)).
Proof. exact unequal. Qed.
Print Assumptions C90_unequal_refuted.

Example C90_unequal_refuted_ex :
  evaluable plain_text ex_task_reg ex_cols ex_db pl_places u_indexes pl_files /\
  evaluated string_dec plain_text pl_name Z.leb Z.ltb pl_distance ex_task_reg ex_cols ex_db pl_places u_indexes pl_files (Some 1) u_lines /\
  In (mk_line ["a"] "+11;" (7 # 10) 5) u_lines /\ map (fun s => Zlen (u_group s)) u_all = [1; 4; 4; 4; 4].
Proof. split; [exact u_evaluable|]. split; [exact u_evaluated|]. split; [exact u_line|exact u_sizes]. Qed.
