(** Properties of the analysis of the scores (C37, C38, C39). *)
From Coq Require Import Ascii String.
From Coq Require Import List ZArith QArith Qround.
From Verif Require Import Prelude Rounding Analyze Analyze_spec Analyze_main Analyze_account Analyze_ex.
Import ListNotations.
Local Open Scope string_scope.
Local Open Scope list_scope.
Local Open Scope Z_scope.

(** C37: the analysis has, for each by, one line for each combination of regressor values of
    its triplets, in lexicographic order, with its labels, its number of triplets and
    (mean + 1) / 2 of their scores. Missing: more than 2^53 combinations of levels within a
    by (false then, see below); the mean is exact here, not rounded. *)
Theorem C37_groups_partial : forall (L : Type) rnd argsort (T : analyzed_task L) scores first rest,
  exact53 rnd -> argsort_spec argsort -> analysable (2 ^ 53) T scores -> a_groups T = first :: rest ->
  exists lines, analyze rnd argsort T scores = Ok (g_names (snd first), lines) /\ analysed T scores lines.
Proof. exact analyze_ok. Qed.
Example C37_groups_partial_ex :
  exact53 rnd64 /\ argsort_spec argsort_ins /\ analysable (2 ^ 53) ex_task ex_scores /\
  a_groups ex_task = [("b0", ex_g0); ("b1", ex_g1)] /\
  exists lines, analyze rnd64 argsort_ins ex_task ex_scores = Ok (["phone"; "talker"], lines) /\
    map (fun ln => (l_labels ln, l_by ln, Qred (l_score ln), l_n ln)) lines =
    [(["aa"; "t1"], "b0", 1%Q, 1); (["aa"; "t2"], "b0", 0%Q, 1); (["oo"; "t1"], "b0", 1 # 2, 3);
     (["ee"; "t2"], "b1", 3 # 4, 2)].
Proof.
  split; [exact rnd64_exact|]. split; [exact argsort_ins_spec|]. split; [exact ex_analysable|]. split; [reflexivity|].
  eexists. split; [vm_compute; reflexivity|]. vm_compute. reflexivity.
Qed.
Print Assumptions C37_groups_partial.

(** C37 is false of 64 regressors with two levels: two combinations share a line. *)
Theorem C37_groups_refuted :
  analysable (2 ^ 64) many_task [1; -1] /\ nth 0 many_rows [] <> nth 1 many_rows [] /\ g_data many_g = many_rows /\
  exists ln, analyze rnd64 argsort_ins many_task [1; -1] = Ok (many_names, [ln]) /\ l_n ln = 2.
Proof. exact many_refuted. Qed.
Example C37_groups_refuted_ex : length many_rows = 2%nat /\ length many_names = 64%nat.
Proof. split; reflexivity. Qed.
Print Assumptions C37_groups_refuted.

(** C37: with 54 regressors with two levels, the analysis of one triplet raises IndexError. *)
Theorem C37_analysed_refuted :
  analysable (2 ^ 54) some_task [1] /\ analyze rnd64 argsort_ins some_task [1] = Err IndexError.
Proof. exact (conj some_analysable some_fails). Qed.
Example C37_analysed_refuted_ex : g_data some_g = [repeat 1 54].
Proof. reflexivity. Qed.
Print Assumptions C37_analysed_refuted.

(** C38: whatever the number of combinations, when the analysis ends, each triplet is counted
    in one line; n is the number of triplets of the line, the score is the proportion of
    correct answers, ties counting one half, and is between 0 and 1. *)
Theorem C38_every_triplet_counted : forall (L : Type) rnd argsort limit (T : analyzed_task L) scores header lines,
  argsort_spec argsort -> analysable limit T scores -> Forall (fun s => s = -1 \/ s = 0 \/ s = 1) scores ->
  analyze rnd argsort T scores = Ok (header, lines) ->
  shared_out (concat (map (fun ij => scores_in ij scores) (a_by_index T))) lines.
Proof. exact analyze_accounts. Qed.
Example C38_every_triplet_counted_ex :
  analysable (2 ^ 53) ex_task ex_scores /\ Forall (fun s => s = -1 \/ s = 0 \/ s = 1) ex_scores /\
  concat (map (fun ij => scores_in ij ex_scores) (a_by_index ex_task)) = ex_scores /\
  exists header lines, analyze rnd64 argsort_ins ex_task ex_scores = Ok (header, lines).
Proof.
  split; [exact ex_analysable|]. split; [repeat (constructor; [auto|]); constructor|]. split; [reflexivity|].
  eexists _, _. vm_compute. reflexivity.
Qed.
Print Assumptions C38_every_triplet_counted.

(** C38: the n column sums to the number of triplets of the bys. *)
Theorem C38_total : forall (L : Type) rnd argsort limit (T : analyzed_task L) scores header lines,
  argsort_spec argsort -> analysable limit T scores -> Forall (fun s => s = -1 \/ s = 0 \/ s = 1) scores ->
  analyze rnd argsort T scores = Ok (header, lines) ->
  sumZ (map (@l_n L) lines) = sumZ (map (fun ij => Z.of_nat (snd ij - fst ij)) (a_by_index T)).
Proof. exact analyze_total. Qed.
Example C38_total_ex :
  analysable (2 ^ 64) many_task [1; -1] /\ Forall (fun s => s = -1 \/ s = 0 \/ s = 1) [1; -1] /\
  (exists lines, analyze rnd64 argsort_ins many_task [1; -1] = Ok (many_names, lines) /\ sumZ (map (@l_n string) lines) = 2).
Proof.
  split; [exact many_analysable|]. split; [repeat (constructor; [auto|]); constructor|].
  destruct many_lines as (ln & E & H). exists [ln]. split; [exact E|]. cbn. rewrite H. reflexivity.
Qed.
Print Assumptions C38_total.

(** C38: within 2^53 combinations, the scores of a line are those of the triplets of the by
    with its combination. *)
Theorem C38_proportions : forall (L : Type) (T : analyzed_task L) scores lines ln,
  analysable (2 ^ 53) T scores -> analysed T scores lines -> Forall (fun s => s = -1 \/ s = 0 \/ s = 1) scores ->
  In ln lines ->
  exists n by_ ij g r, nth_error (a_bys T) n = Some by_ /\ nth_error (a_by_index T) n = Some ij /\
    In (by_, g) (a_groups T) /\ In r (g_data g) /\ labels_of g r (l_labels ln) /\
    let sc := scores_with (g_data g) (scores_in ij scores) r in
    l_by ln = by_ /\ l_n ln = Z.of_nat (length sc) /\ (l_score ln == proportion sc)%Q /\ (0 <= l_score ln <= 1)%Q.
Proof. exact analysed_lines. Qed.
Example C38_proportions_ex :
  analysable (2 ^ 53) ex_task ex_scores /\
  scores_with (g_data ex_g0) (scores_in (0, 5)%nat ex_scores) [2; 0] = [1; 0; -1] /\
  (proportion [1%Z; 0%Z; (-1)%Z] == 1 # 2)%Q.
Proof. split; [exact ex_analysable|]. split; reflexivity. Qed.
Print Assumptions C38_proportions.

(** C39: the keys of the combinations of a by are their mixed-radix numbers. *)
Theorem C39_keys : forall (L : Type) (g : by_group L) sizes, group_ok (2 ^ 53) g sizes -> g_data g <> [] ->
  exists radices, new_keys g = Ok (radices, map (mixed_radix radices) (g_data g)) /\
    (forall r, In r (g_data g) -> digits_of radices r) /\ prodZ radices <= 2 ^ 53.
Proof. exact keys_mixed. Qed.
Example C39_keys_ex : group_ok (2 ^ 53) ex_g0 [3; 2] /\ new_keys ex_g0 = Ok ([3; 2], [4; 1; 4; 0; 4]).
Proof. split; [exact ex_g0_ok|]. vm_compute. reflexivity. Qed.
Print Assumptions C39_keys.

(** C39: npdecode gives the digits back, up to 2^53 combinations. Missing: larger numbers of
    combinations, for which it is false. *)
Theorem C39_decode_partial : forall rnd radices rows,
  exact53 rnd -> radices <> [] -> (forall r, In r rows -> digits_of radices r) -> prodZ radices <= 2 ^ 53 ->
  exists decoded, npdecode rnd (map (mixed_radix radices) rows) radices = decoded /\
    Forall2 (Forall2 (fun q d => Qfloor q = d)) decoded rows.
Proof. exact npdecode_ok. Qed.
Example C39_decode_partial_ex :
  exact53 rnd64 /\ prodZ (repeat 2 53) = 2 ^ 53 /\
  map (map Qfloor) (npdecode rnd64 [mixed_radix (repeat 2 53) (repeat 1 53)] (repeat 2 53)) = [repeat 1 53] /\
  map (map Qfloor) (npdecode rnd64 (map (mixed_radix [3; 2; 5]) [[2; 1; 4]; [0; 1; 3]]) [3; 2; 5]) = [[2; 1; 4]; [0; 1; 3]].
Proof. split; [exact rnd64_exact|]. vm_compute. auto. Qed.
Print Assumptions C39_decode_partial.

(** C39 is false of 2^54 combinations. *)
Theorem C39_decode_refuted :
  map (map Qfloor) (npdecode rnd64 [mixed_radix (repeat 2 54) (repeat 1 54)] (repeat 2 54)) <> [repeat 1 54].
Proof. exact decode_refuted. Qed.
Example C39_decode_refuted_ex : mixed_radix (repeat 2 54) (repeat 1 54) = 2 ^ 54 - 1 /\ 2 ^ 54 - 1 < 2 ^ 64 - 1.
Proof. vm_compute. split; reflexivity. Qed.
Print Assumptions C39_decode_refuted.
