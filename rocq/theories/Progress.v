(** Model of ABXpy/misc/progress_display.py. *)
From Coq Require Import Ascii String DecimalString.
From Verif Require Import Prelude.
Set Implicit Arguments.
Local Open Scope string_scope.
Local Open Scope list_scope.

(** [collections.OrderedDict]: [d[k] = v] keeps the place of a key that is there and puts a
    new one at the end; [d[k]]; [d.values()]. *)
Section Dict.
Variable V : Type.

Fixpoint dict_put (k : string) (v : V) (d : list (string * V)) : list (string * V) :=
  match d with
  | [] => [(k, v)]
  | (k', v') :: d' => if String.eqb k' k then (k', v) :: d' else (k', v') :: dict_put k v d'
  end.

Fixpoint dict_get (k : string) (d : list (string * V)) : res V :=
  match d with
  | [] => Err KeyError
  | (k', v) :: d' => if String.eqb k' k then Ok v else dict_get k d'
  end.

Definition dict_values (d : list (string * V)) : list V := map snd d.
End Dict.

(** The attributes of a [ProgressDisplay]. *)
Record progress := mk_progress {
  p_message : list (string * string);
  p_total : list (string * Z);
  p_count : list (string * Z);
  p_init : bool;
  p_tty : bool
}.

(** Lines 9-23: [__init__]. The parameter is what [os.isatty(sys.stdin.fileno())] gives or
    raises: AttributeError when the standard input is closed ([sys.stdin] is [None]),
    [io.UnsupportedOperation], which is a ValueError, in a notebook. *)
Definition new_progress (stdin : res bool) : res progress :=
  t <- stdin ;;
  Ok (mk_progress [] [] [] true (if (t : bool) then true else false)).

(** Lines 25-28: [add]. *)
Definition add_progress (p : progress) (name message : string) (total : Z) : progress :=
  mk_progress (dict_put name message (p_message p)) (dict_put name total (p_total p))
              (dict_put name 0%Z (p_count p)) (p_init p) (p_tty p).

(** Lines 30-31: [update]. *)
Definition update_progress (p : progress) (name : string) (amount : Z) : res progress :=
  n <- dict_get name (p_count p) ;;
  Ok (mk_progress (p_message p) (p_total p) (dict_put name (n + amount)%Z (p_count p)) (p_init p) (p_tty p)).

(** [%d]. *)
Definition percent_d (z : Z) : string := NilZero.string_of_int (Z.to_int z).

Definition endl : string := String "010" "".

(** Line 36: ["\033[<%d>A" % len(self.message)]. *)
Definition escape (n : nat) : string := (String "027" "[<" ++ percent_d (Z.of_nat n) ++ ">A")%string.

(** Line 45. *)
Definition progress_line (message : string) (total count : Z) : string :=
  (message ++ " " ++ percent_d count ++ " on " ++ percent_d total ++ endl)%string.

(** Lines 33-47: [display], with what is written to the standard output. *)
Definition display (p : progress) : string * progress :=
  let m := if p_tty p then escape (length (p_message p)) else "" in
  let m := if p_init p then "" else m in
  let m := fold_left (fun m mtc => (m ++ progress_line (fst (fst mtc)) (snd (fst mtc)) (snd mtc))%string)
             (combine (combine (dict_values (p_message p)) (dict_values (p_total p))) (dict_values (p_count p))) m in
  (m, mk_progress (p_message p) (p_total p) (p_count p) false (p_tty p)).

(** Calls on a [ProgressDisplay], as a client makes them. *)
Inductive call_ :=
| Add (name message : string) (total : Z)
| Update (name : string) (amount : Z)
| Display.

(** A run of such calls, until one raises: what is written by each [display], and the
    object at the end. *)
Fixpoint run_calls (p : progress) (cs : list call_) : list string * res progress :=
  match cs with
  | [] => ([], Ok p)
  | Add n m t :: cs' => run_calls (add_progress p n m t) cs'
  | Update n a :: cs' =>
    match update_progress p n a with
    | Ok p' => run_calls p' cs'
    | Err e => ([], Err e)
    end
  | Display :: cs' =>
    let '(s, p') := display p in
    let '(o, r) := run_calls p' cs' in (s :: o, r)
  end.

(** A new object and calls on it. *)
Definition run_progress (stdin : res bool) (cs : list call_) : list string * res progress :=
  match new_progress stdin with
  | Ok p => run_calls p cs
  | Err e => ([], Err e)
  end.
