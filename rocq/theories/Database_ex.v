From Coq Require Import ZArith List Bool Arith Lia Ascii String Permutation.
From Verif Require Import Prelude Tree Task Database Database_spec.
Import ListNotations.
Local Open Scope nat_scope.
Local Open Scope list_scope.

Definition ex_header : list string := ["#file"; "onset"; "offset"; "#phone"; "talker"]%string.

Definition ex_file : file :=
  mk_file ex_header
    [[Some 1; Some 0; Some 10; Some 7; Some 5]%Z;
     [Some 2; Some 10; Some 20; Some 8; Some 5]%Z;
     [Some 3; Some 20; Some 30; Some 7; Some 6]%Z;
     [Some 4; Some 30; Some 40; None; Some 6]%Z;
     [None; None; None; None; None]].

(** A line dropped in the middle, and a by filter that keeps the other talker: the item gets
    the place of another line without any error. *)
Definition ex_inner : file :=
  mk_file ex_header
    [[Some 1; Some 0; Some 10; None; Some 5]%Z;
     [Some 2; Some 10; Some 20; Some 8; Some 5]%Z;
     [Some 3; Some 20; Some 30; Some 7; Some 6]%Z].

Definition inner_blocks : res (list (key * (frame * list (list cell)))) :=
  r <- load ex_inner (fun _ => None) ;;
  let '(db, _, feat) := r in
  prepare_database (fun l => l) (fun r => Z.eqb (r "talker"%string) 5) (fun _ _ => true)
                   ["talker"%string] [] db feat.


Lemma wrong_place :
  match inner_blocks with
  | Ok [(_, ([(i, r)], [place_of_item]))] =>
      r "phone"%string = 8%Z /\ r "talker"%string = 5%Z /\
      place_of_item = [Some 3; Some 20; Some 30]%Z
  | _ => False
  end.
Proof. vm_compute. auto. Qed.

(** A file for the column [talker]. *)
Definition ex_aux (c : string) : option (list string) :=
  if String.eqb c "talker" then Some ["talker"; "gender"]%string else None.
