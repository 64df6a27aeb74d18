(** C52, C53, C57: generated item files, their comparison, and the verification of item
    files. *)

From Coq Require Import List Bool Arith Lia Ascii String.
From Verif Require Import Prelude Text Items Items_proofs.
Import ListNotations.
Local Open Scope nat_scope.
Local Open Scope list_scope.

(** Every combination of the factors is written [repeats + 1] times. *)
Theorem C52_balanced base n repeats v :
  List.length v = n -> Forall (fun d => d < base) v ->
  count_occ words_dec (map (fun l => skipn 4 (split l)) (tl (generate_testitems base n repeats)))
            (map str v) = repeats + 1.
Proof. exact (testitems_balanced base n repeats v). Qed.
Print Assumptions C52_balanced.

Example C52_balanced_ex : generate_testitems 2 2 0 =
  map (fun s => (s ++ newline)%string)
    ["#file onset offset #src c0 c1"; "s0 n0 f0 i0 0 0"; "s1 n1 f1 i1 1 0"; "s2 n2 f2 i2 0 1";
     "s3 n3 f3 i3 1 1"]%string.
Proof. vm_compute. reflexivity. Qed.

(** The whole file. *)
Theorem C52_table base n repeats :
  map split (generate_testitems base n repeats) =
  (["#file"; "onset"; "offset"; "#src"]%string ++ map (fun j => ("c" ++ str j)%string) (seq 0 n)) ::
  map (fun i => [("s" ++ str i)%string; ("n" ++ str i)%string; ("f" ++ str i)%string; ("i" ++ str i)%string] ++
                map str (map (fun j => i / base ^ j mod base) (seq 0 n)))
      (seq 0 (base ^ n * (repeats + 1))).
Proof. exact (testitems_table base n repeats). Qed.
Print Assumptions C52_table.

Example C52_table_ex : map split (generate_testitems 3 1 0) =
  [["#file"; "onset"; "offset"; "#src"; "c0"]; ["s0"; "n0"; "f0"; "i0"; "0"];
   ["s1"; "n1"; "f1"; "i1"; "1"]; ["s2"; "n2"; "f2"; "i2"; "2"]]%string.
Proof. vm_compute. reflexivity. Qed.

(** The same for the file with named values. *)
Theorem C52_named_balanced base n repeats v :
  List.length v = n -> Forall (fun d => d < base) v ->
  count_occ words_dec (map (fun l => skipn 4 (split l)) (tl (generate_named_testitems base n repeats)))
            (map (fun p => ("c" ++ str (fst p) ++ "_v" ++ str (snd p))%string) (combine (seq 0 n) v))
  = repeats + 1.
Proof. exact (named_balanced base n repeats v). Qed.
Print Assumptions C52_named_balanced.

Theorem C52_named_table base n repeats :
  map split (generate_named_testitems base n repeats) =
  (["#file"; "onset"; "offset"; "#item"]%string ++ map (fun j => ("c" ++ str j)%string) (seq 0 n)) ::
  map (fun i => [("s" ++ str i)%string; "0"%string; "0"%string; ("i" ++ str i)%string] ++
                map (fun j => ("c" ++ str j ++ "_v" ++ str (i / base ^ j mod base))%string) (seq 0 n))
      (seq 0 (base ^ n * (repeats + 1))).
Proof. exact (named_table base n repeats). Qed.
Print Assumptions C52_named_table.

Example C52_named_table_ex : map split (generate_named_testitems 1 2 1) =
  [["#file"; "onset"; "offset"; "#item"; "c0"; "c1"]; ["s0"; "0"; "0"; "i0"; "c0_v0"; "c1_v0"];
   ["s1"; "0"; "0"; "i1"; "c0_v0"; "c1_v0"]]%string.
Proof. vm_compute. reflexivity. Qed.

Example C52_named_balanced_ex : generate_named_testitems 2 1 1 =
  map (fun s => (s ++ newline)%string)
    ["#file onset offset #item c0"; "s0 0 0 i0 c0_v0"; "s1 0 0 i1 c0_v1"; "s2 0 0 i2 c0_v0";
     "s3 0 0 i3 c0_v1"]%string.
Proof. vm_compute. reflexivity. Qed.

(** Every line has its own source. *)
Theorem C52_sources_distinct base n repeats :
  NoDup (map (fun l => nth 0 (split l) EmptyString) (tl (generate_testitems base n repeats))) /\
  NoDup (map (fun l => nth 0 (split l) EmptyString) (tl (generate_named_testitems base n repeats))).
Proof. exact (sources_distinct base n repeats). Qed.
Print Assumptions C52_sources_distinct.

Example C52_sources_distinct_ex :
  map (fun l => nth 0 (split l) EmptyString) (tl (generate_testitems 2 1 0)) = ["s0"; "s1"]%string.
Proof. vm_compute. reflexivity. Qed.

(** The item file generated with a feature file passes the verification. *)
Theorem C52_verified base n repeats :
  let '(item, files) := generate_db_and_feat base n repeats in
  check (nth 0 item EmptyString) (tl item) files = Ok tt.
Proof. exact (generated_verified base n repeats). Qed.
Print Assumptions C52_verified.

Example C52_verified_ex : snd (generate_db_and_feat 2 1 0) = ["s0"; "s1"]%string.
Proof. vm_compute. reflexivity. Qed.

(** [csv_cmp] finds any two readable files equal. *)
Theorem C53_always_equal_refuted c1 c2 : csv_cmp (Ok c1) (Ok c2) = Ok true.
Proof. exact (csv_cmp_true c1 c2). Qed.
Print Assumptions C53_always_equal_refuted.

Example C53_always_equal_refuted_ex :
  csv_cmp (Ok ["score"; "0.5"]%string) (Ok ["score"; "0.7"]%string) = Ok true.
Proof. vm_compute. reflexivity. Qed.

(** What the verification checks: the header and, on each line, the text before the first
    space. *)
Theorem C57_check first others files :
  check first others files = Ok tt <->
  good_header (split first) /\ forall l, In l others -> In (before " " l) files.
Proof. exact (check_ok first others files). Qed.
Print Assumptions C57_check.

Example C57_check_ex :
  check "#file onset offset phone" [] [] = Err AssertionError /\
  check "#file onset offset #phone x" [] [] = Ok tt.
Proof. vm_compute. auto. Qed.

(** On lines where a space follows the name of the source, it is the source that must be in
    the feature file. *)
Theorem C57_sources_partial cols first (rows : list (string * string)) files :
  spaced cols first -> Forall (fun p => word (fst p)) rows ->
  (check first (map (fun p => (fst p ++ String " " (snd p))%string) rows) files = Ok tt <->
   good_header cols /\ forall p, In p rows -> In (fst p) files).
Proof. exact (check_sources cols first rows files). Qed.
Print Assumptions C57_sources_partial.

Example C57_sources_partial_ex :
  check "#file onset offset #phone" ["f1 0 1 a"; "f2 0 1 b"]%string ["f2"; "f1"]%string = Ok tt /\
  check "#file onset offset #phone" ["f1 0 1 a"; "f3 0 1 b"]%string ["f2"; "f1"]%string = Err AssertionError.
Proof. vm_compute. auto. Qed.

(** With a tabulation after the source the file is refused, though the source is there and the
    header is read. *)
Theorem C57_tabulation_refuted :
  check "#file onset offset #phone" [tab_line] ["f1"%string] = Err AssertionError /\
  split tab_line = ["f1"; "0"; "1"; "a"]%string.
Proof. exact tab_refused. Qed.
Print Assumptions C57_tabulation_refuted.
