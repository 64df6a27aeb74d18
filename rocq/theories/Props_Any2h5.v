(** C51: conversion of feature files. *)

From Coq Require Import List Bool Arith Lia Ascii String.
From Verif Require Import Prelude Text Any2h5 Any2h5_proofs.
Import ListNotations.
Local Open Scope nat_scope.
Local Open Scope list_scope.

(** Every file of the folder is loaded and handed to the writer once, in order, under its
    name without extension; the calls are not empty, have at most [n] files, and only the
    last one can have less. *)
Theorem C51_all_files_once F T (load : string -> res (F * T)) write path p n fs :
  (forall done c, write done c = Ok tt) -> 0 < n -> prefix path p ->
  Forall (fun x => let '(stem, ext, ft, tm) := x in
                   stem_ok stem /\ ext_ok ext /\
                   load (p ++ file_name stem ext)%string = Ok (ft, tm)) fs ->
  exists calls,
    any_to_h5features load write path
      (map (fun x => let '(stem, ext, _, _) := x in file_name stem ext) fs) n = (calls, Ok tt) /\
    flat_map (entries F T) calls = map (fun x => let '(stem, ext, ft, tm) := x in (stem, tm, ft)) fs /\
    Forall (fun c => matched F T c /\ 0 < size F T c <= n) calls /\
    (forall c c' pre post, calls = pre ++ c :: c' :: post -> size F T c = n).
Proof. exact (convert_files F T load write path p n fs). Qed.
Print Assumptions C51_all_files_once.

(** Loader of the example: the features and the times are the length of the path. *)
Example C51_all_files_once_ex :
  any_to_h5features (fun f => Ok (String.length f, f)) (fun _ _ => Ok tt) "dir"
    ["a.npz"; "b.c.npz"; "d"; ".e"; "f.npz"]%string 2 =
  ([(["a"; "b.c"], ["dir/a.npz"; "dir/b.c.npz"], [9; 11]);
    (["d"; ".e"], ["dir/d"; "dir/.e"], [5; 6]);
    (["f"], ["dir/f.npz"], [9])]%string, Ok tt).
Proof. vm_compute. reflexivity. Qed.

(** The folder converted as a whole: same thing by 500 files. *)
Theorem C51_convert F T (load : string -> res (F * T)) write folder listdir :
  convert load write folder listdir = any_to_h5features load write folder (listdir folder) 500.
Proof. exact eq_refl. Qed.
Print Assumptions C51_convert.

Example C51_convert_ex :
  convert (fun f => Ok (f, f)) (fun _ _ => Ok tt) "d/" (fun _ => ["a.npz"; "b.npz"]%string) =
  ([(["a"; "b"], ["d/a.npz"; "d/b.npz"], ["d/a.npz"; "d/b.npz"])]%string, Ok tt).
Proof. vm_compute. reflexivity. Qed.

(** A file that cannot be loaded stops the conversion with its error; at most [n] of the
    files before it are then not written. *)
Theorem C51_failure F T (load : string -> res (F * T)) write path n files pre f post e es :
  (forall done c, write done c = Ok tt) ->
  0 < n -> files = pre ++ f :: post -> stored F T load path pre = Ok es ->
  load (path_join path f) = Err e ->
  exists calls rest, any_to_h5features load write path files n = (calls, Err e) /\
    es = flat_map (entries F T) calls ++ rest /\ List.length rest <= n.
Proof.
  exact (fun Hw => convert_fails F T load write Hw path n files pre f post e es).
Qed.
Print Assumptions C51_failure.

Example C51_failure_ex :
  any_to_h5features (fun f => if String.eqb f "d/bad.npz" then Err IOError else Ok (f, f))
    (fun _ _ => Ok tt) "d" ["a.npz"; "b.npz"; "bad.npz"; "c.npz"]%string 2 =
  ([(["a"; "b"], ["d/a.npz"; "d/b.npz"], ["d/a.npz"; "d/b.npz"])]%string, Err IOError).
Proof. vm_compute. reflexivity. Qed.
