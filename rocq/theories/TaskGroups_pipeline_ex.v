(** The task file of a whole evaluation with its groups, for the examples. *)
From Coq Require Import Ascii String.
From Coq Require Import List ZArith QArith Lia.
From Verif Require Import Prelude TypeFitting Rounding Sampler Sampler_proofs Task Task_spec Task_ex Distances Analyze AnalyzeText AnalyzeText_spec AnalyzeText_ex Analyze_ex
  H5Names H5Names_proofs H5io H5io_spec H5io_ex H5ioFile H5ioFile_spec H5ioFile_ex Pipeline Pipeline_ex TaskGroups TaskGroups_ex.
Import ListNotations.
Local Open Scope string_scope.
Local Open Scope list_scope.
Local Open Scope Z_scope.

(** All the regressors are indexed. *)
Definition tp_indexes : list (string * list string) :=
  pl_indexes ++ [("lang", ["?"; "?"; "?"; "?"; "?"; "?"; "de"; "en"; "fr"]); ("n_A", ["0"; "1"; "2"; "3"; "4"; "5"; "6"; "7"; "8"; "9"; "10"; "11"; "12"; "13"; "14"])].
Definition tp_make := 
  make_file string_dec plain_text pl_name (@rev (string * by_group string)) idk idz argsort_ins ex_rng 9 pl_len pl_len pl_len 1000 100
            ex_task_reg ex_cols ex_db pl_places tp_indexes None 0.
Definition tp_x : abx_file Z string :=
  Eval vm_compute in match tp_make with Ok (Some x) => x | _ => mk_abx [] I8 [] [] [] [] [] [] end.
Lemma tp_made : tp_make = Ok (Some tp_x).
Proof. vm_compute. reflexivity. Qed.
Definition tp_regs : list (key * list (list (string * list Z))) :=
  Eval vm_compute in match task_init idk idz ex_task_reg ex_cols ex_db with
  | Ok (T', bs, st) => match generate_triplets idk idz argsort_ins ex_rng 9 T' None bs st 0 with Ok (_, Some f) => fl_regressors f | _ => [] end
  | Err _ => []
  end.
Definition tp_h5 := Eval vm_compute in
  write_bys String.string_dec plain_text false tg_file (regressor_names ex_regressors) tp_indexes
    (map (fun kb => (pl_name (fst kb), snd kb)) tp_regs).

Lemma tp_simple s : In s (map fst tp_indexes) -> simple s /\ ascii_only s.
Proof.
  intros Hs. split.
  - unfold simple. repeat (destruct Hs as [<-|Hs]; [split; [discriminate|cbn; intuition discriminate]|]). destruct Hs.
  - revert s Hs. apply plain_texts. reflexivity.
Qed.

Lemma bits_no_slash p s : no_slash s -> no_slash (bits p s).
Proof. intros N. induction p as [p IH|p IH|]; cbn; intros [E|H]; try discriminate; try exact (IH H). exact (N H). Qed.

Lemma pl_no_slash k : no_slash (pl_name k).
Proof.
  induction k as [|z k IH]; [intros []|]. cbn. destruct z; intros [E|H]; try discriminate.
  - exact (IH H).
  - exact (bits_no_slash _ _ IH H).
  - exact (bits_no_slash _ _ IH H).
Qed.

Lemma tp_names k : by_rows ex_task_reg ex_db k <> [] -> simple (pl_name k).
Proof.
  intros N. split; [|apply pl_no_slash]. destruct k as [|z k]; [|destruct z; discriminate].
  exfalso. apply N. reflexivity.
Qed.
