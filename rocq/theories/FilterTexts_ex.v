(** Texts used in the examples of Props_FilterTexts.v. *)
From Coq Require Import String.
From Coq Require Import List ZArith.
From Verif Require Import Prelude Task Task_ex Tree SideOps SideOps_ex Compute Compute_ex FilterTexts.
Import ListNotations.
Local Open Scope string_scope.
Local Open Scope list_scope.

(** Three scripts, one of them in a file. *)
Definition ft_read (n : string) : res string := if String.eqb n "f.py" then Ok "[a == b for a, b in zip(talker_A, talker_B)]" else Err IOError.
Definition ft_parse (t : string) : res (list (stmt pv)) :=
  if String.eqb t "[a == b for a, b in zip(talker_A, talker_B)]" then Ok zip_script
  else if String.eqb t "[n == n_A]" then Ok [Expr (Prim "==" [nm "n"; nm "n_A"])]
  else if String.eqb t "x = n_A" then Ok [Assign "x" (nm "n_A")]
  else Err ValueError.
Definition ft_table (n : string) : res dbfun := Err IOError.
Definition ft_column (l : list Z) : pv := PL (map PI l).
Definition ft_result (v : pv) : res result :=
  match v with
  | PL l => Ok (Flat (map (fun x => match x with PB b => b | _ => true end) l))
  | _ => Err TypeError
  end.
Definition ft_fun := filter_fun PL pv_items pv_truth pv_prim pv_builtin pv_import false (fun l => l) ft_read ft_parse ft_table ft_column ft_result.
Definition ft_manager := texts_manager PL pv_items pv_truth pv_prim pv_builtin pv_import false (fun l => l) ft_read ft_parse ft_table ft_column ft_result.
Definition ft_regressors := regressor_manager PL pv_items pv_truth pv_prim pv_builtin pv_import false (fun l => l) ft_read ft_parse ft_table ft_column ft_result (fun l => l).
Definition ft_regressor := regressor_fun PL pv_items pv_truth pv_prim pv_builtin pv_import false (fun l => l) ft_read ft_parse ft_table ft_column ft_result (fun l => l).
Definition ft_columns : columns :=
  mk_columns ["n"; "phone"; "place"; "talker"; "sex"; "old"; "lang"] ["phone"; "place"] ["talker"; "sex"; "old"] ["lang"].
Definition said {A} (r : res A) : option exn := match r with Ok _ => None | Err e => Some e end.

(** Seven lookup tables, those of the filters of SideOps_ex.v. *)
Definition seven : list string := ["0.dbfun"; "1.dbfun"; "2.dbfun"; "3.dbfun"; "4.dbfun"; "5.dbfun"; "6.dbfun"].
Definition seven_table (n : string) : res dbfun :=
  match find (fun p => String.eqb (fst p) n) (combine seven (map fst hx_fps)) with Some p => Ok (snd p) | None => Err IOError end.
Definition seven_texts := combine seven (map snd hx_fps).
Definition seven_fun := filter_fun PL pv_items pv_truth pv_prim pv_builtin pv_import false (fun l => l) ft_read ft_parse seven_table ft_column ft_result.
Definition seven_manager := texts_manager PL pv_items pv_truth pv_prim pv_builtin pv_import false (fun l => l) ft_read ft_parse seven_table ft_column ft_result.

Lemma seven_manager_ok : seven_manager hx_forest (t_on hx_task) (t_across hx_task) (t_by hx_task) (map fst seven_texts) = Ok hx_manager.
Proof. rewrite <- hx_manager_ok. vm_compute. reflexivity. Qed.

Lemma seven_read : Forall2 (fun tp fp => seven_fun (m_cols hx_manager) (fst tp) = Ok (fst fp) /\ snd fp = snd tp) seven_texts hx_fps.
Proof. repeat (constructor; [split; vm_compute; reflexivity|]). constructor. Qed.
