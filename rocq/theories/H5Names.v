(** Model of the names of groups and datasets in an HDF5 file, as h5py 2 treats them. *)
From Coq Require Import Ascii String.
From Coq Require Import List.
From Verif Require Import Prelude.
Import ListNotations.
Local Open Scope string_scope.
Local Open Scope list_scope.
Set Implicit Arguments.

(** Where an object is: the names to follow from the root. *)
Definition path := list string.

(** What is between the slashes of a text. *)
Fixpoint pieces (s : string) : list string :=
  match s with
  | EmptyString => [""]
  | String c s' =>
    if Ascii.eqb c "/" then "" :: pieces s'
    else match pieces s' with
         | [] => [String c ""]
         | p :: l => String c p :: l
         end
  end.

(** HDF5 splits the names it is given at the slashes, several slashes being as one. (The name
    ".", which is the group itself, is treated as any other name here.) *)
Definition components (s : string) : path := filter (fun c => negb (String.eqb c "")) (pieces s).

(** [g[s]] for the group [g] at [here]: from the root if [s] begins with a slash. *)
Definition resolve (here : path) (s : string) : path :=
  match s with
  | String "/" _ => components s
  | _ => here ++ components s
  end.

Section Names.
(** What a dataset contains. *)
Variable C : Type.

(** A group, with its attributes, or a dataset. *)
Inductive object := Group (attrs : list (string * bool)) | Dataset (c : C).
(** The objects of a file. *)
Definition file := list (path * object).

Definition path_eqb (p q : path) : bool := if list_eq_dec string_dec p q then true else false.

(** The object at a path. *)
Fixpoint get (f : file) (p : path) : option object :=
  match f with
  | [] => None
  | (q, o) :: f' => if path_eqb q p then Some o else get f' p
  end.

(** [h5py.File(filename, 'a')] of a new file. *)
Definition new_file : file := [([], Group [])].

(** The groups that lead from [here] to an object are created when missing; there is none to
    create under a dataset. *)
Fixpoint make_parents (e : exn) (f : file) (here : path) (names : list string) : res file :=
  match names with
  | [] => Ok f
  | n :: names' =>
    let p := here ++ [n] in
    match get f p with
    | Some (Group _) => make_parents e f p names'
    | Some (Dataset _) => Err e
    | None => make_parents e (f ++ [(p, Group [])]) p names'
    end
  end.

(** [create_group] (which raises ValueError) and [create_dataset] (RuntimeError, from the link
    to the dataset). *)
Definition make (e : exn) (f : file) (p : path) (o : object) : res file :=
  match get f p with
  | Some _ => Err e
  | None => f' <- make_parents e f [] (removelast p) ;; Ok (f' ++ [(p, o)])
  end.

(** [g.attrs[name] = b], for a group [g]. The attributes of datasets are not modelled. *)
Definition set_attr (f : file) (p : path) (name : string) (b : bool) : file :=
  map (fun po => if path_eqb (fst po) p
                 then (fst po, match snd po with
                               | Group attrs => Group ((name, b) :: attrs)
                               | Dataset c => Dataset c
                               end)
                 else po) f.

(** New data in a dataset. *)
Definition set_data (f : file) (p : path) (c : C) : file :=
  map (fun po => if path_eqb (fst po) p
                 then (fst po, match snd po with
                               | Group attrs => Group attrs
                               | Dataset _ => Dataset c
                               end)
                 else po) f.

Fixpoint insert (s : string) (l : list string) : list string :=
  match l with
  | [] => [s]
  | t :: l' => if String.leb s t then s :: l else t :: insert s l'
  end.
Fixpoint sort (l : list string) : list string :=
  match l with
  | [] => []
  | s :: l' => insert s (sort l')
  end.

(** The name of a path below the group at [p], if the path is one of its members. *)
Fixpoint member (p q : path) : list string :=
  match p, q with
  | [], [n] => [n]
  | a :: p', b :: q' => if String.eqb a b then member p' q' else []
  | _, _ => []
  end.

(** [for name in g]: the names of the members of a group, in the order of the names. *)
Definition listing (f : file) (p : path) : list string :=
  sort (flat_map (fun po => member p (fst po)) f).

End Names.
Arguments Group {C}.
