(** Specification: what a progress display writes, and what a terminal shows of it. *)
From Coq Require Import Ascii String DecimalString.
From Verif Require Import Prelude Progress.
Set Implicit Arguments.
Local Open Scope string_scope.
Local Open Scope list_scope.

(** Decimal notation of an integer. *)
Definition decimal (z : Z) : string := NilZero.string_of_int (Z.to_int z).

Definition line_feed : string := String "010" "".

(** The names given to [add] so far, in the order of their first occurrence. *)
Definition added (past : list call_) : list string :=
  flat_map (fun c => match c with Add n _ _ => [n] | _ => [] end) past.
Definition names (past : list call_) : list string := rev (nodup string_dec (rev (added past))).

(** The last message and the last total given with a name. *)
Definition entry (n : string) (past : list call_) : string * Z :=
  fold_left (fun e c => match c with
                        | Add n' m t => if string_dec n' n then (m, t) else e
                        | _ => e
                        end) past ("", 0%Z).

(** The sum of the amounts given with a name since the last [add] of this name. *)
Definition amount (n : string) (past : list call_) : Z :=
  fold_left (fun s c => match c with
                        | Add n' _ _ => if string_dec n' n then 0%Z else s
                        | Update n' a => if string_dec n' n then (s + a)%Z else s
                        | Display => s
                        end) past 0%Z.

Definition is_display (c : call_) : bool := match c with Display => true | _ => false end.

(** One line for each name: message, amount reached, total. *)
Definition lines_after (past : list call_) : list string :=
  map (fun n => (fst (entry n past) ++ " " ++ decimal (amount n past) ++ " on " ++ decimal (snd (entry n past))
                 ++ line_feed)%string) (names past).

(** What precedes them on a terminal, from the second display on. *)
Definition marker (n : nat) : string := (String "027" "[<" ++ decimal (Z.of_nat n) ++ ">A")%string.

Definition text_after (tty : bool) (past : list call_) : string :=
  ((if tty && existsb is_display past then marker (length (names past)) else "")
   ++ String.concat "" (lines_after past))%string.

(** The texts of the displays of a run that comes after [past], and the exception that
    ends it: the update of a name that was not added. *)
Fixpoint texts (tty : bool) (past cs : list call_) : list string * option exn :=
  match cs with
  | [] => ([], None)
  | c :: cs' =>
    let next := texts tty (past ++ [c]) cs' in
    match c with
    | Add _ _ _ => next
    | Update n _ => if in_dec string_dec n (added past) then next else ([], Some KeyError)
    | Display => (text_after tty past :: fst next, snd next)
    end
  end.

(* ------------------------------------------------------------------ *)
(** ** A terminal *)

(** A control sequence is ESC [ followed by parameters (characters 48 to 63) and one final
    character (64 to 126). With decimal parameters and the final character A it moves the
    cursor up by that many lines; with the parameters < and > it is private and ignored.
    Other sequences do nothing here. *)
Inductive mode := Ground | Escaped | Control (params : list ascii).

(** What is on the screen, the line and column of the cursor. *)
Record terminal := mk_terminal {
  rows : list (list ascii); at_row : nat; at_col : nat; in_mode : mode }.

Definition blank : terminal := mk_terminal [] 0 0 Ground.

(** Replace element [n] of a list, lengthened if needed. *)
Fixpoint set_at {A} (d : A) (n : nat) (a : A) (l : list A) : list A :=
  match n, l with
  | O, [] => [a]
  | O, _ :: l' => a :: l'
  | S n', [] => d :: set_at d n' a []
  | S n', x :: l' => x :: set_at d n' a l'
  end.

Definition code (c : ascii) : nat := nat_of_ascii c.
Definition is_digit (c : ascii) : bool := (48 <=? code c)%nat && (code c <=? 57)%nat.

(** Number in decimal digits; 1 when there is none. *)
Definition parameter (ps : list ascii) : nat :=
  match ps with
  | [] => 1
  | _ => fold_left (fun n c => 10 * n + (code c - 48)) ps 0
  end.

Definition feed (t : terminal) (c : ascii) : terminal :=
  let 'mk_terminal l r k m := t in
  match m with
  | Ground =>
    if (code c =? 27)%nat then mk_terminal l r k Escaped
    else if (code c =? 10)%nat then mk_terminal l (S r) 0 Ground
    else mk_terminal (set_at [] r (set_at " "%char k c (nth r l [])) l) r (S k) Ground
  | Escaped => if (code c =? 91)%nat then mk_terminal l r k (Control []) else mk_terminal l r k Ground
  | Control ps =>
    if (48 <=? code c)%nat && (code c <=? 63)%nat then mk_terminal l r k (Control (ps ++ [c]))
    else if (code c =? 65)%nat && forallb is_digit ps then mk_terminal l (r - parameter ps) k Ground
    else mk_terminal l r k Ground
  end.

Definition feed_text (t : terminal) (s : string) : terminal := fold_left feed (list_ascii_of_string s) t.

(** What is on the screen after some texts. *)
Definition screen (ts : list string) : list string :=
  map string_of_list_ascii (rows (fold_left feed_text ts blank)).

(** The messages do not contain the character ESC. *)
Definition plain_message (c : call_) : Prop :=
  match c with Add _ m _ => ~ In (ascii_of_nat 27) (list_ascii_of_string m) | _ => True end.
