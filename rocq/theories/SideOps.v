(** Model of ABXpy/sideop/side_operations_manager.py and ABXpy/sideop/filter_manager.py: the
    stage at which a filter or regressor is evaluated, what it is given, and how the filters
    are combined. Python sets are lists here (their order and repetitions do not matter to
    what is computed from them). *)
From Coq Require Import String.
From Verif Require Import Prelude Task Tree.
Set Implicit Arguments.
Open Scope string_scope.
Open Scope list_scope.
Local Open Scope nat_scope.

(* ------------------------------------------------------------------ *)
(** ** Columns *)

(** side_operations_manager.py line 23. *)
Definition extensions : list string := [""; "_A"; "_B"; "_X"; "_AB"; "_AX"; "_1"; "_2"].

Record columns := mk_columns {
  all_cols : list string;
  on_cols : list string;
  across_cols : list string;
  by_cols : list string
}.

(** lines 35-40, 45-50: the names below the first node called [col], in the first tree that
    has one. *)
Fixpoint descendants (forest : list tree) (col : string) : option (list string) :=
  match forest with
  | [] => None
  | t :: forest' =>
      match find_child t [fun s => String.eqb (name s) col] with
      | Some p => match node_at t p with Some s => Some (names s) | None => None end
      | None => descendants forest' col
      end
  end.

(** lines 43-66: columns that are not in the hierarchy (the dummy ones) are skipped. *)
Definition all_descendants (forest : list tree) (cols : list string) : list string :=
  flat_map (fun col => match descendants forest col with Some l => l | None => [] end) cols.

(** lines 21-66: the columns of a manager; [on_root] is unbound when no tree has the on column. *)
Definition init_columns (forest : list tree) (on : string) (across by_ : list string) : res columns :=
  match descendants forest on with
  | None => Err NameError
  | Some o => Ok (mk_columns (flat_map names forest) o (all_descendants forest across) (all_descendants forest by_))
  end.

(** lines 29-30: [extended_cols]. *)
Definition extended_cols (C : columns) : list string :=
  flat_map (fun col => map (fun ext => col ++ ext)%string extensions) (all_cols C).

(** [column[:n]]. *)
Definition prefix (n : nat) (s : string) : string := substring 0 n s.

(** lines 138-146: [parse_extended_column]; [radical] is unbound when no extension fits. *)
Definition parse_extended_column (C : columns) (column : string) : res (string * string) :=
  match find (fun ext => mem_string (map (fun col => col ++ ext)%string (all_cols C)) column) extensions with
  | Some ext => Ok (prefix (String.length column - String.length ext) column, ext)
  | None => Err NameError
  end.

(** A column and an extension. *)
Definition element := (string * string)%type.
Definition ext_name (e : element) : string := (fst e ++ snd e)%string.

(** lines 148-174: [check_extensions]. Line 167 compares with ['AB'], without underscore. *)
Definition check_element (C : columns) (e : element) : res unit :=
  let '(r, s) := e in
  let C1 := (mem_string ["_1"; "_2"] s && negb (mem_string (on_cols C) r || mem_string (across_cols C) r))%bool in
  let C2 := (String.eqb s "_AX" && negb (mem_string (across_cols C) r))%bool in
  let C3 := (String.eqb s "AB" && negb (mem_string (on_cols C) r))%bool in
  if C1 then Err ValueError else if C2 then Err ValueError else if C3 then Err ValueError else Ok tt.

Definition check_extensions (C : columns) (elements : list element) : res unit :=
  _ <- mapM (check_element C) elements ;; Ok tt.

(* ------------------------------------------------------------------ *)
(** ** Functions of the columns *)

(** What a function is given: columns by extended name. *)
Definition context := list (string * list Z).

(** What a function returns: a list of values, of which only the truth matters to filters
    ([Flat]), or the list of one column ([Nested], the column filters of dbfun_column.py). *)
Inductive result := Flat (l : list bool) | Nested (l : list Z).

(** dbfun.py: a function of columns. *)
Record dbfun := mk_dbfun {
  input_names : list string;
  evaluate : context -> res result
}.

(** [d[k] = v] and [d[k]]. *)
Definition dict_set {A} (d : list (string * A)) (k : string) (v : A) : list (string * A) :=
  (k, v) :: filter (fun p => negb (String.eqb k (fst p))) d.

Fixpoint dict_get {A} (d : list (string * A)) (k : string) : res A :=
  match d with
  | [] => Err KeyError
  | (k', v) :: d' => if String.eqb k k' then Ok v else dict_get d' k
  end.

(** dbfun_column.py lines 15-39 with [indexed=False]: the column itself, in a list. *)
Definition DBfun_Column (name : string) : dbfun :=
  mk_dbfun [name] (fun ctx => l <- dict_get ctx name ;; Ok (Nested l)).

(** dbfun_compute.py lines 172-190 on a script that loops over its columns: it ends by a list
    computed from each line of its columns. The name of a column that is not in the context is
    unbound. *)
Definition DBfun_Compute (inputs : list string) (script : (string -> Z) -> bool) : dbfun :=
  mk_dbfun inputs (fun ctx =>
    cols <- mapM (fun n => match dict_get ctx n with Ok l => Ok (n, l) | Err _ => Err NameError end) inputs ;;
    let n := match cols with [] => 1 | (_, l) :: _ => List.length l end in
    Ok (Flat (map (fun i => script (fun c => match dict_get cols c with Ok l => nth i l 0%Z | Err _ => 0%Z end)) (seq 0 n)))).

(* ------------------------------------------------------------------ *)
(** ** Stages *)

Inductive stage := By | Generic | Oab | StA | StB | StX | StABX.
Definition stage_eqb (s t : stage) : bool :=
  match s, t with
  | By, By | Generic, Generic | Oab, Oab | StA, StA | StB, StB | StX, StX | StABX, StABX => true
  | _, _ => false
  end.

(** lines 75-127: the functions of each stage and, for each stage, the extended columns needed
    from the by values, the whole table, the on and across values of the block, and the items. *)
Record manager := mk_manager {
  m_cols : columns;
  m_funs : stage -> list dbfun;
  m_by : stage -> list element;
  m_generic : stage -> list element;
  m_on : stage -> list element;
  m_across : stage -> list element;
  m_A : stage -> list element;
  m_B : stage -> list element;
  m_X : stage -> list element
}.

Definition empty_manager (C : columns) : manager :=
  mk_manager C (fun _ => []) (fun _ => []) (fun _ => []) (fun _ => []) (fun _ => []) (fun _ => []) (fun _ => []) (fun _ => []).

(** [field[st].append(..)], [field[st].update(..)]. *)
Definition upd {A} (f : stage -> list A) (st : stage) (l : list A) : stage -> list A :=
  fun st' => if stage_eqb st st' then f st' ++ l else f st'.

(** lines 216-220: not in the block: neither [_1], [_AX], [_AB], nor [_A] or [_X] of an on
    column. Line 220 compares with ['A'] and ['B'], without underscore. *)
Definition condition (C : columns) (e : element) : bool :=
  let '(r, s) := e in
  (negb (mem_string ["_1"; "_AX"; "_AB"] s)
   && negb (mem_string ["_A"; "_X"] s && mem_string (on_cols C) r)
   && negb (mem_string ["A"; "B"] s && mem_string (across_cols C) r))%bool.

(** lines 256-257: [get_ext]. *)
Definition get_ext (C : columns) (e : element) : string :=
  let '(r, s) := e in
  if String.eqb s "_2" then (if mem_string (on_cols C) r then "_B" else "_X") else s.

(** [exts == set([s])]. *)
Definition only_ext (C : columns) (elements : list element) (s : string) : bool :=
  match elements with [] => false | _ => forallb (fun e => String.eqb (get_ext C e) s) elements end.

(** lines 239-285: [classify_ABX]. *)
Definition classify_ABX (m : manager) (f : dbfun) (vby von vacross elements : list element) : manager :=
  let C := m_cols m in
  let vA := filter (fun e => String.eqb (get_ext C e) "_A") elements in
  let vB := filter (fun e => String.eqb (get_ext C e) "_B") elements in
  let vX := filter (fun e => String.eqb (get_ext C e) "_X") elements in
  let st := if only_ext C elements "_A" then StA
            else if only_ext C elements "_B" then StB
            else if only_ext C elements "_X" then StX else StABX in
  mk_manager C (upd (m_funs m) st [f]) (upd (m_by m) st vby) (m_generic m) (upd (m_on m) st von) (upd (m_across m) st vacross)
    (if (stage_eqb st StA || stage_eqb st StABX)%bool then upd (m_A m) st vA else m_A m)
    (if (stage_eqb st StB || stage_eqb st StABX)%bool then upd (m_B m) st vB else m_B m)
    (if (stage_eqb st StX || stage_eqb st StABX)%bool then upd (m_X m) st vX else m_X m).

(** lines 201-234: [classify_on_across_by], then [classify_ABX] on what is left. *)
Definition classify_on_across_by (m : manager) (f : dbfun) (vby elements : list element) : res manager :=
  let C := m_cols m in
  if mem_string (map snd elements) "" then Err ValueError
  else
    let von := filter (fun e => (negb (condition C e) && mem_string (on_cols C) (fst e))%bool) elements in
    let vacross := filter (fun e => (negb (condition C e) && mem_string (across_cols C) (fst e))%bool) elements in
    match filter (condition C) elements with
    | [] => Ok (mk_manager C (upd (m_funs m) Oab [f]) (upd (m_by m) Oab vby) (m_generic m)
                  (upd (m_on m) Oab von) (upd (m_across m) Oab vacross) (m_A m) (m_B m) (m_X m))
    | rest => Ok (classify_ABX m f vby von vacross rest)
    end.

(** filter_manager.py lines 42-50: [classify_generic] of filters: only plain names. The by
    columns of such a filter are not added to its context. (A regressor with only plain names
    raises ValueError: regressor_manager.py lines 52-58.) *)
Definition only_plain (elements : list element) : bool :=
  match elements with [] => false | _ => forallb (fun e => String.eqb (snd e) "") elements end.

(** lines 176-191 and 288-302: [classify_by] and [add]. *)
Definition add (regressor : bool) (m : manager) (f : dbfun) : res manager :=
  let C := m_cols m in
  elements <- mapM (parse_extended_column C) (input_names f) ;;
  _ <- check_extensions C elements ;;
  let vby := filter (fun e => mem_string (by_cols C) (fst e)) elements in
  if forallb (fun e => mem_string (by_cols C) (fst e)) elements then
    Ok (mk_manager C (upd (m_funs m) By [f]) (upd (m_by m) By vby) (m_generic m) (m_on m) (m_across m) (m_A m) (m_B m) (m_X m))
  else
    let elements := filter (fun e => negb (mem_string (by_cols C) (fst e))) elements in
    if only_plain elements then
      if regressor then Err ValueError
      else Ok (mk_manager C (upd (m_funs m) Generic [f]) (m_by m) (upd (m_generic m) Generic elements)
                 (m_on m) (m_across m) (m_A m) (m_B m) (m_X m))
    else classify_on_across_by m f vby elements.

(** filter_manager.py lines 16-40: a manager of filters. *)
Definition filter_manager (forest : list tree) (on : string) (across by_ : list string) (fs : list dbfun) : res manager :=
  C <- init_columns forest on across by_ ;;
  foldM (add false) fs (empty_manager C).

(* ------------------------------------------------------------------ *)
(** ** Contexts *)

(** lines 305-308: [set_by_context]. The values of a by (or of a block) are the dictionary of
    its first line, which has all columns. *)
Definition set_values (ctx : context) (es : list element) (v : row) : context :=
  fold_left (fun d e => dict_set d (ext_name e) [v (fst e)]) es ctx.

(** [context[var] = context[var] * n]. *)
Definition repeat_all (ctx : context) (n : nat) : context :=
  map (fun p => (fst p, List.concat (repeat (snd p) n))) ctx.

(** lines 311-316, 328-333: columns of several lines. *)
Definition set_columns (ctx : context) (es : list element) (rows : list row) : context :=
  fold_left (fun d e => dict_set d (ext_name e) (map (fun r => r (fst e)) rows)) es ctx.

(** lines 318-325: [set_on_across_context]. *)
Definition set_on_across (m : manager) (ctx : context) (st : stage) (v : row) : context :=
  set_values (set_values ctx (m_on m st) v) (m_across m st) v.

(* ------------------------------------------------------------------ *)
(** ** Filters *)

(** The truth of [evaluate(..)[0]]: a non empty list is true. *)
Definition first_truth (r : result) : res bool :=
  match r with
  | Flat l => nth_res l 0
  | Nested l => Ok (match l with [] => false | _ => true end)
  end.

(** filter_manager.py lines 87-93 with side_operations_manager.py lines 435-438. The functions
    after the first false one are not evaluated. *)
Fixpoint singleton_filter (fs : list dbfun) (ctx : context) : res bool :=
  match fs with
  | [] => Ok true
  | f :: fs' => r <- evaluate f ctx ;; b <- first_truth r ;; if b then singleton_filter fs' ctx else Ok false
  end.

Section Truth.
(** The truth of a value. *)
Variable truthy : Z -> bool.

(** [np.where(result)[0]]: of a list of lists, numbers of lists. *)
Definition where_true (r : result) : list nat :=
  match r with
  | Flat l => np_where l
  | Nested l => map (fun _ => 0) (np_where (map truthy l))
  end.

(** filter_manager.py lines 96-113 with side_operations_manager.py lines 429-432: the functions
    are evaluated lazily on the filtered context. *)
Fixpoint vectorial_loop (fs : list dbfun) (ctx : context) (kept : list nat) : res (list nat) :=
  match fs with
  | [] => Ok kept
  | f :: fs' =>
      r <- evaluate f ctx ;;
      let still_up := where_true r in
      kept <- gather kept still_up ;;
      ctx <- mapM (fun p => l <- gather (snd p) still_up ;; Ok (fst p, l)) ctx ;;
      match kept with [] => Ok kept | _ => vectorial_loop fs' ctx kept end
  end.

Definition vectorial_filter (fs : list dbfun) (ctx : context) (n : nat) : res (list nat) :=
  vectorial_loop fs ctx (seq 0 n).

(** filter_manager.py lines 52-53, side_operations_manager.py lines 350-354. *)
Definition by_filter (m : manager) (v : row) : res bool :=
  singleton_filter (m_funs m By) (set_values [] (m_by m By) v).

(** filter_manager.py lines 55-56, side_operations_manager.py lines 358-369. *)
Definition generic_filter (m : manager) (v : row) (db : list row) : res (list row) :=
  let ctx := repeat_all (set_values [] (m_by m Generic) v) (List.length db) in
  kept <- vectorial_filter (m_funs m Generic) (set_columns ctx (m_generic m Generic) db) (List.length db) ;;
  gather db kept.

(** filter_manager.py lines 58-59, side_operations_manager.py lines 373-380. *)
Definition on_across_by_filter (m : manager) (v : row) : res bool :=
  singleton_filter (m_funs m Oab) (set_on_across m (set_values [] (m_by m Oab) v) Oab v).

(** side_operations_manager.py lines 384-399 and 412-423: the context of the item stages. *)
Definition block_context (m : manager) (st : stage) (v : row) (n : nat) : context :=
  repeat_all (set_on_across m (set_values [] (m_by m st) v) st v) n.

(** filter_manager.py lines 61-77, side_operations_manager.py lines 384-408. *)
Definition item_filter (m : manager) (st : stage) (field : stage -> list element) (v : row) (fr : frame) (indices : list Z)
  : res (list nat) :=
  rows <- mapM (loc fr) indices ;;
  vectorial_filter (m_funs m st) (set_columns (block_context m st v (List.length indices)) (field st) rows) (List.length indices).

Definition A_filter (m : manager) := item_filter m StA (m_A m).
Definition B_filter (m : manager) := item_filter m StB (m_B m).
Definition X_filter (m : manager) := item_filter m StX (m_X m).

(** filter_manager.py lines 79-84, side_operations_manager.py lines 335-346 and 410-426. *)
Definition ABX_filter (m : manager) (v : row) (fr : frame) (ts : list triplet) : res (list nat) :=
  ra <- mapM (fun t : triplet => loc fr (fst (fst t))) ts ;;
  rb <- mapM (fun t : triplet => loc fr (snd (fst t))) ts ;;
  rx <- mapM (fun t : triplet => loc fr (snd t)) ts ;;
  let ctx := set_columns (block_context m StABX v (List.length ts)) (m_A m StABX) ra in
  let ctx := set_columns ctx (m_B m StABX) rb in
  let ctx := set_columns ctx (m_X m StABX) rx in
  vectorial_filter (m_funs m StABX) ctx (List.length ts).

End Truth.

(** The filters of a task, as Task.v takes them: the stage of each is the manager's, and each
    is given one line of its columns. *)
Definition holds_on (truthy : Z -> bool) (r : res (list nat)) : bool := match r with Ok [0] => true | _ => false end.

Definition staged (truthy : Z -> bool) (m : manager) : filters :=
  let some st {A} (x : A) := match m_funs m st with [] => None | _ => Some x end in
  mk_filters
    (fun v => match by_filter m v with Ok b => b | Err _ => false end)
    (fun v r => match generic_filter truthy m v [r] with Ok [_] => true | _ => false end)
    (fun v => match on_across_by_filter m v with Ok b => b | Err _ => false end)
    (some StA (fun v r => holds_on truthy (A_filter truthy m v [(0%Z, r)] [0%Z])))
    (some StB (fun v r => holds_on truthy (B_filter truthy m v [(0%Z, r)] [0%Z])))
    (some StX (fun v r => holds_on truthy (X_filter truthy m v [(0%Z, r)] [0%Z])))
    (some StABX (fun v a b x => holds_on truthy (ABX_filter truthy m v [(0%Z, a); (1%Z, b); (2%Z, x)] [(0%Z, 1%Z, 2%Z)]))).

(** task.py lines 211-224: the manager of the filters of a task; a task without by or across
    column has a dummy one, which is in no hierarchy. *)
Definition task_manager (forest : list tree) (T : task) (fs : list dbfun) : res manager :=
  filter_manager forest (t_on T) (match t_across T with [] => ["#across"] | l => l end)
    (match t_by T with [] => ["#by"] | l => l end) fs.
