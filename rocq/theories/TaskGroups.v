(** Model of the groups of regressors in the HDF5 file of a task: how ABXpy/task.py writes them and
    how ABXpy/analyze.py finds them. *)
From Coq Require Import Ascii String.
From Coq Require Import List ZArith QArith.
From Verif Require Import Prelude TypeFitting Distances Analyze AnalyzeText H5Names H5io H5ioFile.
Import ListNotations.
Local Open Scope string_scope.
Local Open Scope list_scope.
Set Implicit Arguments.

Section Groups.
Variable L : Type.
Variable leq : forall x y : L, {x = y} + {x <> y}.
(** See H5io.v, H5ioFile.v and AnalyzeText.v. *)
Variable plain : L -> bool.
Variable texts : bool.
Variable rnd : Q -> Q.
Variable argsort : list Z -> list nat.
Variable str_label : L -> string.
Variable str_float : Q -> string.

Notation h5file := (file (content L)).

(** task.py line 768. *)
Definition group_name (by_ : string) : string := ("/regressors/" ++ by_ ++ "/")%string.

(** task.py lines 764-771 and 833, for one by: its group, and the regressors of its blocks written
    with [indexed=True]. *)
Definition write_by (f : h5file) (names : list string) (indexes : list (string * list L)) (by_ : string)
  (blocks : list (list (string * list Z))) : h5file * res unit :=
  match construct plain texts (Some f) (Some (DList names)) indexes [] (group_name by_) with
  | (Some f', Ok (is_empty, is_sorted, H)) =>
    let h := mk_handle f' (components (group_name by_)) is_empty is_sorted H false None in
    let '(h', r) := writes leq (enter h)
      (map (fun cols => (InDict (map (fun nc : string * list Z => (fst nc, Ints L (snd nc))) cols), true)) blocks) in
    (w_file (leave h'), r)
  | (Some f', Err e) => (f', Err e)
  | (None, _) => (f, Err IOError)
  end.

(** task.py lines 755-781: all bys, up to the first exception. *)
Fixpoint write_bys (f : h5file) (names : list string) (indexes : list (string * list L))
  (l : list (string * list (list (string * list Z)))) : h5file * res unit :=
  match l with
  | [] => (f, Ok tt)
  | (by_, blocks) :: l' =>
    match write_by f names indexes by_ blocks with
    | (f', Ok _) => write_bys f' names indexes l'
    | (f', Err e) => (f', Err e)
    end
  end.

(** [tfrk['indexed_datasets']], and the names found in it; in a dataset, a name is looked up as the
    name of a field, which is not there. *)
Definition names_at (f : h5file) (p : path) : res (list string) :=
  match get f p with
  | None => Err KeyError
  | Some (Dataset _) => Err ValueError
  | Some (Group _) =>
    match get f (p ++ ["indexed_datasets"]) with
    | None => Err KeyError
    | Some (Dataset (Texts _ l)) => Ok l
    | Some (Dataset _) => Err TypeError
    | Some (Group _) => Ok (listing f (p ++ ["indexed_datasets"]))
    end
  end.

(** analyze.py lines 74-76 and 103-107: what is read in the group of a by. The names and the indexes
    are read when there are data, after the scores are collapsed (before it here, which matters only
    when both raise something). *)
Definition read_by (f : h5file) (by_ : string) : res (by_group L) :=
  let p := resolve ["regressors"] by_ in
  match get f p with
  | None => Err KeyError
  | Some (Dataset _) => Err ValueError
  | Some (Group _) =>
    c <- read f (p ++ ["indexed_data"]) ;;
    match c with
    | Table _ t n rows =>
      if (List.length rows * n =? 0)%nat then Ok (mk_group t n rows [] [])
      else
        names <- names_at f p ;;
        indexes <- mapM (fun reg => l <- read_levels f (resolve (p ++ ["indexes"]) reg) ;; Ok (reg, l)) names ;;
        Ok (mk_group t n rows names indexes)
    | _ => Err TypeError
    end
  end.

(** analyze.py lines 70-116. *)
Fixpoint collapse_h5 (f : h5file) (by_index : list (nat * nat)) (scores : list Z) (by_idx : nat) (bys : list string) : written :=
  match bys with
  | [] => ("", Ok tt)
  | by_ :: bys' =>
    go_on (match (_ <- nth_res by_index by_idx ;; read_by f by_) with
           | Err e => ("", Err e)
           | Ok g => collapse_by_text rnd argsort str_label str_float (mk_analyzed bys by_index [(by_, g)]) scores by_idx by_
           end)
          (collapse_h5 f by_index scores (S by_idx) bys')
  end.

(** analyze.py lines 155-166: [list(aux)[0]] is the first member of the group regressors in the order
    of the names, which the names of the bys give when they have no slash. *)
Definition analyze_h5 (f : h5file) (bys : list string) (by_index : list (nat * nat)) (scores : list Z) : written :=
  match members f ["regressors"] with
  | Err e => ("", Err e)
  | Ok [] => ("", Err IndexError)
  | Ok (n :: _) =>
    match names_at f ["regressors"; n] with
    | Err e => ("", Err e)
    | Ok names => go_on (header_text names, Ok tt) (collapse_h5 f by_index scores 0 bys)
    end
  end.

End Groups.
