(** What the analysis of a score file must be. *)
From Coq Require Import String.
From Coq Require Import List ZArith QArith Sorted Permutation.
From Verif Require Import Prelude Analyze.
Import ListNotations.
Local Open Scope Z_scope.
Local Open Scope list_scope.
Set Implicit Arguments.

(** Lexicographic order of the combinations. *)
Fixpoint lex (r r' : list Z) : Prop :=
  match r, r' with
  | x :: l, y :: l' => x < y \/ (x = y /\ lex l l')
  | _, _ => False
  end.

Definition same (r r' : list Z) : bool := if list_eq_dec Z.eq_dec r r' then true else false.

(** The scores of the triplets with the combination [r]. *)
Definition scores_with (data : list (list Z)) (scores : list Z) (r : list Z) : list Z :=
  map snd (filter (fun x => same r (fst x)) (combine data scores)).

(** Number of scores equal to [v]. *)
Definition howmany (v : Z) (scores : list Z) : Z := Z.of_nat (length (filter (Z.eqb v) scores)).

(** The key of a combination of digits, the last digit having weight 1. *)
Fixpoint mixed_radix (radices digits : list Z) : Z :=
  match radices, digits with
  | _ :: ns, d :: ds => d * prodZ ns + mixed_radix ns ds
  | _, _ => 0
  end.

(** Digits of a number in these radices. *)
Definition digits_of (radices digits : list Z) : Prop :=
  Forall2 (fun n d => 0 <= d < n) radices digits.

(** Proportion of correct answers, equal distances counting one half. *)
Definition proportion (scores : list Z) : Q :=
  ((inject_Z (howmany 1 scores) + (1 # 2) * inject_Z (howmany 0 scores)) / inject_Z (Z.of_nat (length scores)))%Q.

Section Spec.
Variable L : Type.

(** The labels of a combination. *)
Definition labels_of (g : by_group L) (r : list Z) (labels : list L) : Prop :=
  length labels = length r /\
  forall j name i, nth_error (g_names g) j = Some name -> nth_error r j = Some i ->
    exists levels, In (name, levels) (g_indexes g) /\ 0 <= i /\
      nth_error levels (Z.to_nat i) = nth_error labels j /\ nth_error labels j <> None.

(** The line of a combination whose triplets have the scores [sc]. *)
Definition line_for (g : by_group L) (by_ : string) (r : list Z) (sc : list Z) (ln : line L) : Prop :=
  labels_of g r (l_labels ln) /\ l_by ln = by_ /\ l_n ln = Z.of_nat (length sc) /\
  (l_score ln == (inject_Z (sumZ sc) / inject_Z (Z.of_nat (length sc)) + 1) / 2)%Q.

(** One line for each combination of the by, in lexicographic order. *)
Definition collapsed (g : by_group L) (by_ : string) (scores : list Z) (lines : list (line L)) : Prop :=
  exists rows, StronglySorted lex rows /\ (forall r, In r rows <-> In r (g_data g)) /\
    Forall2 (fun r => line_for g by_ r (scores_with (g_data g) scores r)) rows lines.

(** The regressors of a by as H5IO writes them: an unsigned type that holds the numbers of
    levels, one column for each name, and indices of levels. [sizes] bounds the indices
    column by column; there are at most [limit] combinations within these bounds. *)
Record group_ok (limit : Z) (g : by_group L) (sizes : list Z) : Prop := mk_group_ok {
  go_type : signed (g_type g) = false;
  go_columns : g_columns g = length (g_names g);
  go_some : g_names g <> [];
  go_names : NoDup (map fst (g_indexes g));
  go_indexes : forall name, In name (g_names g) -> exists levels, In (name, levels) (g_indexes g);
  go_sizes : length sizes = length (g_names g);
  go_width : forall r, In r (g_data g) -> length r = length (g_names g);
  go_bounds : forall r j i n, In r (g_data g) -> nth_error r j = Some i ->
    nth_error sizes j = Some n -> 0 <= i < n;
  go_levels : forall j name n levels, nth_error (g_names g) j = Some name ->
    nth_error sizes j = Some n -> In (name, levels) (g_indexes g) ->
    n <= Z.of_nat (length levels) /\ Z.of_nat (length levels) <= tmax (g_type g);
  go_product : prodZ sizes <= limit
}.

(** A task file and its scores: each by has regressors, for as many triplets as its range of
    triplets has. *)
Record analysable (limit : Z) (T : analyzed_task L) (scores : list Z) : Prop := mk_analysable {
  an_index : length (a_by_index T) = length (a_bys T);
  an_groups : NoDup (map fst (a_groups T));
  an_by : forall n by_ i j, nth_error (a_bys T) n = Some by_ ->
    nth_error (a_by_index T) n = Some (i, j) ->
    (i <= j <= length scores)%nat /\
    exists g sizes, In (by_, g) (a_groups T) /\ group_ok limit g sizes /\
                    length (g_data g) = (j - i)%nat
}.

(** The scores of a by. *)
Definition scores_in (ij : nat * nat) (scores : list Z) : list Z :=
  firstn (snd ij - fst ij) (skipn (fst ij) scores).

(** The lines of the result, by by by. *)
Definition analysed (T : analyzed_task L) (scores : list Z) (lines : list (line L)) : Prop :=
  exists ls, lines = concat ls /\ length ls = length (a_bys T) /\
    forall n by_ ij l g, nth_error (a_bys T) n = Some by_ -> nth_error (a_by_index T) n = Some ij ->
      nth_error ls n = Some l -> In (by_, g) (a_groups T) ->
      collapsed g by_ (scores_in ij scores) l.

(** The lines share out the triplets: each line stands for some scores, each score of the
    by is counted in one line. *)
Definition shared_out (scores : list Z) (lines : list (line L)) : Prop :=
  exists parts, Permutation (concat parts) scores /\
    Forall2 (fun sc ln => sc <> [] /\ l_n ln = Z.of_nat (length sc) /\
                          (l_score ln == proportion sc)%Q /\ (0 <= l_score ln <= 1)%Q) parts lines.

End Spec.
