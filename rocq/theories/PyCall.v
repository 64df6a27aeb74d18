(** How Python gives the arguments of a call to the parameters of a function. *)
From Coq Require Import List String Bool Arith.
From Verif Require Import Prelude.
Import ListNotations.
Set Implicit Arguments.

(** The value of a key. *)
Fixpoint assoc {V : Type} (d : list (string * V)) (k : string) : option V :=
  match d with
  | [] => None
  | (k', v) :: d' => if String.eqb k k' then Some v else assoc d' k
  end.

(** A parameter with its default value if there is one. *)
Definition parameter (V : Type) : Type := (string * option V)%type.

Definition mem (k : string) (l : list string) : bool := existsb (String.eqb k) l.

(** The values of the parameters: first the positional arguments in order, then the keyword
    arguments, each of a parameter that has no value yet, then the defaults. (No parameter of
    the modelled functions takes several arguments.) *)
Definition bind_call {V : Type} (params : list (parameter V)) (pos : list V) (kw : list (string * V))
  : res (list V) :=
  assert! (List.length pos <=? List.length params)%nat else TypeError ;;
  let given := combine (map fst params) pos in
  assert! forallb (fun k => mem k (map fst params) && negb (mem k (map fst given))) (map fst kw) else TypeError ;;
  mapM (fun p => match assoc (given ++ kw) (fst p) with
                 | Some v => Ok v
                 | None => match snd p with Some v => Ok v | None => Err TypeError end
                 end) params.
