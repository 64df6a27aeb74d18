(** What a task must contain, stated on the item table as the user gave it. *)
From Coq Require Import String.
From Verif Require Import Prelude Task.
Set Implicit Arguments.
Open Scope Z_scope.

(** The by group of key [k]: the lines of the table with these by values, in order. With
    no by column there is one group, the whole table, called [0]. *)
Definition by_rows (T : task) (db : list row) (k : key) : list row :=
  match t_by T with
  | [] => if key_dec k [0] then db else []
  | cols => filter (fun r => if key_dec (map r cols) k then true else false) db
  end.

(** Item number [i] of a group is the line [r]. *)
Definition item (rows : list row) (i : Z) (r : row) : Prop :=
  0 <= i /\ nth_error rows (Z.to_nat i) = Some r.

(** The definition of an ABX triplet: A and X agree on the on column and B does not, A and
    B agree on every across column and X on none. Without across, X is any other item. *)
Definition abx (T : task) (a x : Z) (ra rb rx : row) : Prop :=
  rx (t_on T) = ra (t_on T) /\
  rb (t_on T) <> ra (t_on T) /\
  (forall c, In c (t_across T) -> rb c = ra c) /\
  match t_across T with
  | [] => x <> a
  | _ => forall c, In c (t_across T) -> rx c <> ra c
  end.

Definition holds2 (f : option (row -> row -> bool)) (v r : row) : Prop :=
  match f with None => True | Some f => f v r = true end.

Definition holds4 (f : option (row -> row -> row -> row -> bool)) (v a b x : row) : Prop :=
  match f with None => True | Some f => f v a b x = true end.

(** The filters accept the triplet; the values of its block are those of A, and those of
    its by group are those of any item of the group. *)
Definition passes (F : filters) (ra rb rx : row) : Prop :=
  f_by F ra = true /\
  (f_generic F ra ra = true /\ f_generic F ra rb = true /\ f_generic F ra rx = true) /\
  f_oab F ra = true /\
  holds2 (f_A F) ra ra /\ holds2 (f_B F) ra rb /\ holds2 (f_X F) ra rx /\
  holds4 (f_ABX F) ra ra rb rx.

(** [(a, b, x)] is wanted among the items of group [k]. *)
Definition wanted (T : task) (db : list row) (k : key) (a b x : Z) : Prop :=
  exists ra rb rx,
    item (by_rows T db k) a ra /\ item (by_rows T db k) b rb /\ item (by_rows T db k) x rx /\
    abx T a x ra rb rx /\ passes (t_filters T) ra rb rx.

(* ------------------------------------------------------------------ *)
(** ** What is asked of the filters *)

Definition agree (cols : list string) (r r' : row) : Prop := forall c, In c cols -> r c = r' c.

(** The filters only read the columns of the item file. *)
Record reads (cols : list string) (F : filters) : Prop := mk_reads {
  rd_by : forall r r', agree cols r r' -> f_by F r = f_by F r';
  rd_generic : forall v v' r r', agree cols v v' -> agree cols r r' ->
                 f_generic F v r = f_generic F v' r';
  rd_oab : forall r r', agree cols r r' -> f_oab F r = f_oab F r';
  rd_A : forall f v v' r r', f_A F = Some f -> agree cols v v' -> agree cols r r' -> f v r = f v' r';
  rd_B : forall f v v' r r', f_B F = Some f -> agree cols v v' -> agree cols r r' -> f v r = f v' r';
  rd_X : forall f v v' r r', f_X F = Some f -> agree cols v v' -> agree cols r r' -> f v r = f v' r';
  rd_ABX : forall f v v' a a' b b' x x', f_ABX F = Some f -> agree cols v v' ->
             agree cols a a' -> agree cols b b' -> agree cols x x' -> f v a b x = f v' a' b' x'
}.

(** The by filters depend on the by values, and what the other filters read of the block is
    determined by its on, across and by values (without across a block is one item). *)
Record determined (T : task) (db : list row) : Prop := mk_determined {
  dt_by : forall r r', In r db -> In r' db -> agree (t_by T) r r' ->
            f_by (t_filters T) r = f_by (t_filters T) r';
  dt_generic : forall r r' x, In r db -> In r' db -> In x db -> agree (t_by T) r r' ->
            f_generic (t_filters T) r x = f_generic (t_filters T) r' x;
  dt_oab : forall r r', t_across T <> [] -> In r db -> In r' db ->
            agree (t_on T :: t_across T ++ t_by T) r r' ->
            f_oab (t_filters T) r = f_oab (t_filters T) r';
  dt_A : forall f r r' x, f_A (t_filters T) = Some f ->
            t_across T <> [] -> In r db -> In r' db -> In x db ->
            agree (t_on T :: t_across T ++ t_by T) r r' -> f r x = f r' x;
  dt_B : forall f r r' x, f_B (t_filters T) = Some f ->
            t_across T <> [] -> In r db -> In r' db -> In x db ->
            agree (t_on T :: t_across T ++ t_by T) r r' -> f r x = f r' x;
  dt_X : forall f r r' x, f_X (t_filters T) = Some f ->
            t_across T <> [] -> In r db -> In r' db -> In x db ->
            agree (t_on T :: t_across T ++ t_by T) r r' -> f r x = f r' x;
  dt_ABX : forall f r r' a b x, f_ABX (t_filters T) = Some f ->
            t_across T <> [] -> In r db -> In r' db -> In a db -> In b db -> In x db ->
            agree (t_on T :: t_across T ++ t_by T) r r' -> f r a b x = f r' a b x
}.

(** In every by group the items kept by the generic filters come first. (Always true
    without generic filter.) *)
Definition kept_first (T : task) (db : list row) : Prop :=
  forall k i j ri rj, i <= j ->
    item (by_rows T db k) i ri -> item (by_rows T db k) j rj ->
    f_generic (t_filters T) rj rj = true -> f_generic (t_filters T) ri ri = true.

(* ------------------------------------------------------------------ *)
(** ** What is said of the results *)

(** [l] lists once each triplet of group [k]. *)
Definition lists_exactly (T : task) (db : list row) (k : key) (l : list triplet) : Prop :=
  NoDup l /\ forall a b x, In (a, b, x) l <-> wanted T db k a b x.

(** Consecutive intervals from [s] to [e]. *)
Fixpoint tiles (s e : Z) (l : list (Z * Z)) : Prop :=
  match l with
  | [] => s = e
  | (i, j) :: l' => i = s /\ i < j /\ tiles j e l'
  end.

(** Rows [i] to [j] of the triplets. *)
Definition rows_of {A} (ij : Z * Z) (l : list A) : list A :=
  firstn (Z.to_nat (snd ij - fst ij)) (skipn (Z.to_nat (fst ij)) l).

(** Every item number of a wanted triplet can be stored with the type [t]. *)
Definition storable (T : task) (db : list row) (hi : Z) : Prop :=
  forall k a b x, wanted T db k a b x -> a <= hi /\ b <= hi /\ x <= hi.

(** [set] listing, [groupby] listing, and sorting behave as documented. *)
Definition lists_keys (korder : list key -> list key) : Prop := forall l, Permutation (korder l) l.
Definition lists_set (enum : list Z -> list Z) : Prop := forall l, Permutation (enum l) l.

(** Largest item number that a file announcing [n] triplets can store. *)
Definition capacity (n : Z) : Z :=
  if n <=? 127 then 127
  else if n <=? 32767 then 32767
  else if n <=? 2147483647 then 2147483647
  else 9223372036854775807.

(** The generic filters do not empty a by group that the by filters keep. *)
Definition none_emptied (T : task) (db : list row) : Prop :=
  forall k i r, item (by_rows T db k) i r -> f_by (t_filters T) r = true ->
    exists j rj, item (by_rows T db k) j rj /\ f_generic (t_filters T) rj rj = true.

(** The task without its filters. *)
Definition unfiltered (T : task) : task :=
  mk_task (t_on T) (t_across T) (t_by T)
          (mk_filters (fun _ => true) (fun _ _ => true) (fun _ => true) None None None None)
          (t_regressors T).

(** The filters of [T] accept the triplet [(a, b, x)] of group [k]. *)
Definition accepted (T : task) (db : list row) (k : key) (a b x : Z) : Prop :=
  exists ra rb rx,
    item (by_rows T db k) a ra /\ item (by_rows T db k) b rb /\ item (by_rows T db k) x rx /\
    passes (t_filters T) ra rb rx.

(** Those of the triplets of [k] whose A has the on and across values [bk]. *)
Definition lists_block (T : task) (db : list row) (k bk : key) (l : list triplet) : Prop :=
  NoDup l /\ forall a b x, In (a, b, x) l <->
    wanted T db k a b x /\ exists ra, item (by_rows T db k) a ra /\ map ra (t_on T :: t_across T) = bk.
