(** Changes of the features that the distances must not see. *)
From Coq Require Import Reals List Permutation.
From Verif Require Import Prelude Metrics Dtw DefaultDistance.
Import ListNotations.
Local Open Scope R_scope.

(** Each frame is multiplied by a factor of its own, with the property [P]. *)
Record rescaled (P : R -> Prop) (x x' : mat) : Prop := mk_rescaled {
  rs_type : m_type x' = m_type x;
  rs_cols : m_cols x' = m_cols x;
  rs_rows : Forall2 (fun r r' => exists c, P c /\ r' = map (fun v => match v with Some a => Some (c * a) | None => None end) r)
                    (m_rows x) (m_rows x')
}.

(** The columns are taken in the order [s], the same for all frames. *)
Record reordered (s : list nat) (x x' : mat) : Prop := mk_reordered {
  ro_type : m_type x' = m_type x;
  ro_cols : m_cols x' = m_cols x;
  ro_order : Permutation s (seq 0 (m_cols x));
  ro_width : forall r, In r (m_rows x) -> length r = m_cols x;
  ro_rows : m_rows x' = map (fun r => map (fun j => nth j r None) s) (m_rows x)
}.

(** The frames are in the opposite order. *)
Definition backwards (x : mat) : mat := mk_mat (m_type x) (m_cols x) (rev (m_rows x)).

(** ** In a whole evaluation *)

(** [<] on distances, as floats compare. *)
Definition below (d d' : dvalue) : bool :=
  match d, d' with
  | Value (Some a), Value (Some b) => if Rlt_dec a b then true else false
  | Value (Some _), Infinite => true
  | _, _ => false
  end.

(** The distances of [DefaultDistance], on the frames of two items that are read from files of
    type [t] with [w] columns. *)
Definition default_on (t : dtype) (w : nat) (empty : costs num) (normalized : option bool) (m m' : list (list num)) : res dvalue :=
  call_default empty normalized (mk_mat t w m) (mk_mat t w m').
Definition kl_on (t : dtype) (w : nat) (empty : costs num) (normalized : option bool) (m m' : list (list num)) : res dvalue :=
  call_kl empty normalized (mk_mat t w m) (mk_mat t w m').
