(** The model gives what is in the files of /repo/test/frozen_files. *)
From Coq Require Import Ascii String.
From Coq Require Import List ZArith QArith Qround.
From Verif Require Import Prelude TypeFitting Sampler Sampler_proofs Task Task_ex Pairs Distances Score Analyze AnalyzeText Rounding Dtw
  H5io H5io_ex Pipeline Pipeline_ex Text Items Frozen_data.
Import ListNotations.
Local Open Scope Z_scope.
Local Open Scope string_scope.
Local Open Scope list_scope.

(** The items are those of [generate_named_testitems(3, 3, 1)], in which the onsets and offsets
    are now 0 and were 0.0. *)
Example frozen_item_file :
  String.concat "" (savetxt (map (map (fun c => if c =? "0" then "0.0" else c)) (cells (named_cell 3) 3 3 1)))
  = frozen_item_text.
Proof. vm_compute. reflexivity. Qed.

(** The table of the items, the columns in the order c0, c1, c2. *)
Definition fz_row (x : Z * Z * Z) : row := fun c =>
  let '(c0, c1, c2) := x in
  if c =? "c0" then c0 else if c =? "c1" then c1 else if c =? "c2" then c2 else 0.
Definition fz_db : list row := map fz_row frozen_items.
Definition fz_cols := ["c0"; "c1"; "c2"].

(** The task: on c0 across c1 by c2, no filter, and the regressors of default (those of the
    on and across attributes come in the order of a dictionary of Python 2). *)
Definition fz_task : task :=
  mk_task "c0" ["c1"] ["c2"] (mk_filters (fun _ => true) (fun _ _ => true) (fun _ => true) None None None None)
    (mk_regressors [] [("c1_1", fun v => v "c1"); ("c0_1", fun v => v "c0")] []
                   [("c0_2", fun v r => r "c0")] [("c1_2", fun v r => r "c1")] false).

(** The order of the sets of small integers of CPython: that of a hash table with 16 places,
    in which an integer is its own hash. *)
Definition fz_enum (l : list Z) : list Z :=
  flat_map (fun h => filter (fun x => x mod 16 =? h)%Z l) (map Z.of_nat (seq 0 16)).
(** The order of the blocks, those of a dictionary of Python 2. *)
Definition fz_korder (l : list key) : list key :=
  match l with
  | [_; _; _] => l
  | _ => flat_map (fun c : Z * Z => filter (fun k => ((nth 0 k 0 =? fst c) && (nth 1 k 0 =? snd c))%Z) l)
                  [(2, 1); (2, 2); (1, 1); (1, 0); (1, 2); (0, 2); (0, 0); (2, 0); (0, 1)]
  end.
Definition fz_digit (z : Z) : string := nth (Z.to_nat z) ["0"; "1"; "2"] "".
Definition fz_name (k : key) : string := ("c2_v" ++ fz_digit (nth 0 k 0))%string.
Definition fz_labels (c : string) : list string := map (fun z => (c ++ "_v" ++ fz_digit z)%string) [0; 1; 2].
Definition fz_indexes : list (string * list string) :=
  [("c1_1", fz_labels "c1"); ("c0_1", fz_labels "c0"); ("c0_2", fz_labels "c0"); ("c1_2", fz_labels "c1")].
Definition fz_len (_ : Z) : nat := 50.

(** Where the items are: they start and end at the time 0 of a file. *)
Definition fz_places : list (Distances.item Z) :=
  map (fun i => mk_item ("s" ++ Text.str i)%string 0 0) (seq 0 54).

Definition fz_make :=
  make_file string_dec plain_text fz_name (fun l => l) fz_korder fz_enum argsort_ins ex_rng 9 fz_len fz_len fz_len 100000 1000
            fz_task fz_cols fz_db fz_places fz_indexes None 0.
Definition fz_made := Eval vm_compute in fz_make.
Definition fz_file : abx_file Z string :=
  match fz_made with Ok (Some x) => x | _ => mk_abx [] I8 [] [] [] [] [] [] end.

Example frozen_task_file : fz_make = Ok (Some fz_file).
Proof. vm_cast_no_check (eq_refl fz_made). Qed.
Example frozen_task_bys : x_bys fz_file = ["c2_v0"; "c2_v1"; "c2_v2"].
Proof. vm_compute. reflexivity. Qed.

(** The triplets, by by by, and their regressors are those of the frozen file; since then the
    program sorts the triplets of a block. *)
Definition fz_sorted (rows : list (Z * Z * Z)) (others : list (list Z)) : list Z :=
  sortZ (map (fun x : Z * Z * Z * list Z => let '(a, b, c, l) := x in
                fold_left (fun s z => 100 * s + (z + 1)) (a :: b :: c :: l) 0) (combine rows others)).
Definition fz_by {A : Type} (i : nat) (l : list A) : list A := firstn 288 (skipn (288 * i) l).
Definition fz_all : list triplet := frozen_triplets ++ frozen_triplets ++ frozen_triplets.

Example frozen_task_triplets :
  x_by_index fz_file = [(0, 288); (288, 576); (576, 864)] /\ length (x_triplets fz_file) = 864%nat /\
  map fst (x_groups fz_file) = x_bys fz_file /\
  map (fun i => fz_sorted (fz_by i (x_triplets fz_file)) (g_data (snd (nth i (x_groups fz_file) ("", mk_group U8 0 [] [] []))))) [0; 1; 2]%nat
  = repeat (fz_sorted frozen_triplets frozen_regressors) 3 /\
  map (fun g => (g_names (snd g), g_indexes (snd g))) (x_groups fz_file)
  = repeat (["c1_1"; "c0_1"; "c0_2"; "c1_2"], fz_indexes) 3.
Proof. split; [vm_compute; reflexivity|]. split; [vm_compute; reflexivity|]. split; [vm_compute; reflexivity|]. split; vm_compute; reflexivity. Qed.

(** The pairs, and the base and range of every by. *)
Example frozen_task_pairs :
  x_pairs fz_file = frozen_pairs ++ frozen_pairs ++ frozen_pairs /\
  x_attrs fz_file = [("c2_v0", (18, 0, 216)); ("c2_v1", (18, 216, 432)); ("c2_v2", (18, 432, 648))].
Proof. vm_compute. repeat split. Qed.

(** The scores of the frozen triplets from the frozen distances. *)
Definition fz_scored : scored_task :=
  mk_scored (x_bys fz_file) (x_type fz_file) fz_all (map nat_range (x_by_index fz_file)) (x_attrs fz_file) (x_pairs fz_file).
Definition fz_score (T : scored_task) : option (list Z) :=
  match score Z.ltb rnd64 fz_len (fun s => s) (mk_disk [("data.abx", T)] [("data.distance", frozen_distances)] [] [])
              "data.abx" "data.distance" (Some "data.score") with
  | (k, Ok _) => match lookup (k_scores k) "data.score" with Ok s => Some s | Err _ => None end
  | _ => None
  end.
Example frozen_score_file : fz_score fz_scored = Some frozen_scores.
Proof. vm_compute. reflexivity. Qed.

(** The same scores for the triplets in the order of the model. *)
Definition fz_scores : list Z := Eval vm_compute in match fz_score (for_score fz_file) with Some s => s | None => [] end.
Example frozen_scores_of_triplets :
  fz_score (for_score fz_file) = Some fz_scores /\
  map (fun i => fz_sorted (fz_by i (x_triplets fz_file)) (map (fun z => [z]) (fz_by i fz_scores))) [0; 1; 2]%nat
  = map (fun i => fz_sorted frozen_triplets (map (fun z => [z]) (fz_by i frozen_scores))) [0; 1; 2]%nat.
Proof. vm_compute. repeat split. Qed.

(** [str] of the floats that are multiples of 1/8 and less than 10. *)
Definition fz_str (q : Q) : string :=
  let n := Qfloor (q * 8)%Q in
  ((if n <? 0 then "-" else "") ++ str_int (Z.abs n / 8) ++ "." ++
   nth (Z.to_nat (Z.abs n mod 8)) ["0"; "125"; "25"; "375"; "5"; "625"; "75"; "875"] "")%Z%string.
Definition fz_analysis (T : analyzed_task string) (scores : list Z) : string * res unit :=
  analyze_text rnd64 argsort_ins (fun s => s) fz_str T scores.

(** The analysis of the frozen scores with the frozen regressors. *)
Definition fz_groups : list (string * by_group string) :=
  map (fun b => (b, mk_group U8 4 frozen_regressors ["c1_1"; "c0_1"; "c0_2"; "c1_2"] fz_indexes)) (x_bys fz_file).
Example frozen_csv_file :
  fz_analysis (mk_analyzed (x_bys fz_file) (map nat_range (x_by_index fz_file)) fz_groups) frozen_scores
  = (frozen_csv, Ok tt).
Proof. vm_compute. reflexivity. Qed.

(** The whole chain from the items and the distances: the same text. *)
Example frozen_chain : fz_analysis (for_analysis fz_file) fz_scores = (frozen_csv, Ok tt).
Proof. vm_compute. reflexivity. Qed.

(** The distances, from the features. The distance of default is the arc cosine of the cosine
    of two frames. Its values are in the reverse order of the cosines; so they are replaced here by
    the opposite of the square of the cosine with its sign, which is a rational. The times are
    multiplied by 2. *)
Definition fz_times (n : nat) : list Z :=
  match n with 1%nat => [0] | 2%nat => [0; 2] | _ => [0; 1; 2] end.
Definition fz_features : feature_data Z (Z * Z) :=
  let files := map (fun i => ("s" ++ Text.str i)%string) (seq 0 54) in
  (combine files (map (fun l => fz_times (List.length l)) frozen_features), combine files frozen_features).
Definition fz_cosine (x y : Z * Z) : Q :=
  let dot := fst x * fst y + snd x * snd y in
  let norm := fun v : Z * Z => fst v * fst v + snd v * snd v in
  (- inject_Z (dot * Z.abs dot) / inject_Z (norm x * norm y))%Q.
Definition fz_distance (_ : option bool) (x y : list (Z * Z)) : res Q :=
  dtw Qplus Qle_bool (fun c n => (c / inject_Z (Z.of_nat n))%Q) x y
      (fun x y => Ok (map (fun a => map (fz_cosine a) y) x)) true (fun _ _ => 0%Q).
Definition fz_setting : setting Z (Z * Z) := mk_setting (for_distances fz_file) [fz_features] None.
Definition fz_distances : option (list Q) :=
  match compute_distances 0%Q argsort_ins 100 fz_setting (mk_dist_file None None) 3 with
  | (_, Ok s) =>
    let s' := Distances.run Z.leb fz_distance fz_setting s (concat (repeat [0; 1; 2; 3]%nat 30)) in
    match s_main s' with M_returned => d_data (s_file s') | _ => None end
  | _ => None
  end.
Definition fz_qlt (a b : Q) : bool := negb (Qle_bool b a).
Definition fz_feature_scores (T : scored_task) : option (list Z) :=
  match fz_distances with
  | None => None
  | Some dis =>
    match score fz_qlt rnd64 fz_len (fun s => s) (mk_disk [("data.abx", T)] [("data.distance", dis)] [] [])
                "data.abx" "data.distance" (Some "data.score") with
    | (k, Ok _) => match lookup (k_scores k) "data.score" with Ok s => Some s | Err _ => None end
    | _ => None
    end
  end.
Example frozen_score_features : fz_feature_scores fz_scored = Some frozen_scores.
Proof. vm_compute. reflexivity. Qed.
Example frozen_chain_features : fz_feature_scores (for_score fz_file) = Some fz_scores.
Proof. vm_compute. reflexivity. Qed.
