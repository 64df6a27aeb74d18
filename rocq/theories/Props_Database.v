(** C41, C56: the item file. *)

From Coq Require Import ZArith List Bool Arith Lia Ascii String Permutation.
From Verif Require Import Prelude Tree Task Database Database_spec Database_proofs Database_blocks Database_dropped Database_ex.
Import ListNotations.
Local Open Scope nat_scope.
Local Open Scope list_scope.

(** Which headers are accepted. *)
Theorem C41_header f aux r :
  Forall no_space (header f) -> load f aux = Ok r ->
  exists mid a rest, item_header (header f) mid a rest.
Proof. exact (load_inv f aux r). Qed.
Print Assumptions C41_header.

Example C41_header_ex :
  Forall no_space (header ex_file) /\
  match load ex_file (fun _ => None) with Ok _ => True | Err _ => False end.
Proof.
  split; [|vm_compute; exact I].
  repeat (constructor; [unfold no_space; cbn; intros H; repeat (destruct H as [H|H]; [discriminate H|]); exact H|]).
  constructor.
Qed.

(** The lines loaded are the complete ones, in the order of the file, with their place. *)
Theorem C41_load f aux mid a rest db forest feat :
  item_header (header f) mid a rest -> distinct_names mid a rest -> rectangular f ->
  load f aux = Ok (db, forest, feat) ->
  columns db = a :: rest /\ columns feat = ["file"; "onset"; "offset"]%string ++ mid /\
  map snd (lines db) = map (attributes mid) (filter (completeb mid) (body f)) /\
  map snd (lines feat) = map (place mid) (filter (completeb mid) (body f)) /\
  labels (to_frame db) = map fst (lines feat).
Proof. exact (load_table f aux mid a rest db forest feat). Qed.
Print Assumptions C41_load.

Example C41_load_ex :
  item_header (header ex_file) [] "phone" ["talker"]%string /\ distinct_names [] "phone" ["talker"]%string /\
  rectangular ex_file /\ plain "phone" /\ no_aux (fun _ => None) ["phone"; "talker"]%string.
Proof.
  split; [|split; [|split; [|split]]].
  - split; [reflexivity|]. split; [constructor|]. constructor; [|constructor].
    exists "t"%char, "alker"%string. split; [reflexivity|discriminate].
  - unfold distinct_names. cbn.
    repeat (constructor; [cbn; intros H; repeat (destruct H as [H|H]; [discriminate H|]); exact H|]).
    constructor.
  - unfold rectangular. repeat constructor.
  - exists "p"%char, "hone"%string. split; [reflexivity|discriminate].
  - intros c _ _. reflexivity.
Qed.

(** An item file is loaded whenever its header is the documented one and there is no
    auxiliary file. *)
Theorem C41_load_total f aux mid a rest :
  item_header (header f) mid a rest -> distinct_names mid a rest -> rectangular f ->
  no_aux aux (a :: rest) ->
  exists db feat, load f aux = Ok (db, map (fun c => Node c []) (a :: rest), feat).
Proof.
  exact (fun Hh Hd Hr Hx => ex_intro _ _ (ex_intro _ _ (load_ok f aux mid a rest Hh Hd Hr Hx))).
Qed.
Print Assumptions C41_load_total.

Example C41_load_total_ex :
  (r <- load ex_file (fun _ => None) ;;
   let '(db, _, feat) := r in Ok (lines db, lines feat)) =
  Ok ([(0, [Some 7; Some 5]); (1, [Some 8; Some 5]); (2, [Some 7; Some 6])],
      [(0, [Some 1; Some 0; Some 10]); (1, [Some 2; Some 10; Some 20]);
       (2, [Some 3; Some 20; Some 30])])%Z.
Proof. vm_compute. reflexivity. Qed.

(** When the incomplete lines are the last ones, every item of the task keeps its own
    place, and every complete line is an item. *)
Theorem C41_trailing_lines_partial korder f aux mid a rest good bad byf genf by_ across db forest feat :
  (forall l, Permutation (korder l) l) ->
  item_header (header f) mid a rest -> distinct_names mid a rest -> plain a -> rectangular f ->
  body f = good ++ bad -> Forall (complete mid) good -> Forall (fun l => ~ complete mid l) bad ->
  load f aux = Ok (db, forest, feat) ->
  exists blocks, prepare_database korder byf genf by_ across db feat = Ok blocks /\
    (forall k fr feats i r, In (k, (fr, feats)) blocks -> In (i, r) fr ->
       exists l, In l good /\ describes mid (a :: rest) l r /\
                 nth_error feats (Z.to_nat i) = Some (place mid l)) /\
    ((forall r, byf r = true) -> (forall r r', genf r r' = true) ->
     exists arr, Permutation arr good /\
       Forall2 (fun x l => describes mid (a :: rest) l (fst x) /\ snd x = place mid l)
               (items blocks) arr).
Proof.
  exact (fun Hko => blocks_aligned korder Hko f aux mid a rest good bad byf genf by_ across db forest feat).
Qed.
Print Assumptions C41_trailing_lines_partial.

Example C41_trailing_lines_partial_ex :
  (r <- load ex_file (fun _ => None) ;;
   let '(db, _, feat) := r in
   b <- prepare_database (fun l => l) (fun _ => true) (fun _ _ => true) ["talker"%string] [] db feat ;;
   Ok (map (fun x => (fst x, map fst (fst (snd x)), snd (snd x))) b)) =
  Ok [([5%Z], [0; 1]%Z, [[Some 1; Some 0; Some 10]; [Some 2; Some 10; Some 20]]%Z);
      ([6%Z], [0]%Z, [[Some 3; Some 20; Some 30]%Z])].
Proof. vm_compute. reflexivity. Qed.

(** The blocks are those on which the task generates its triplets. *)
Theorem C41_blocks korder T db feat blocks :
  let T' := fst (with_dummies T (map snd (to_frame db))) in
  let rows := snd (with_dummies T (map snd (to_frame db))) in
  prepare_database korder (f_by (t_filters T)) (f_generic (t_filters T)) (t_by T) (t_across T)
                   db feat = Ok blocks ->
  exists opts,
    mapM (prepare_by T') (groupby_rows korder (t_by T') rows) = Ok opts /\
    catMaybes opts = map (fun b => (fst b, fst (snd b))) blocks.
Proof. exact (prepare_task korder T db feat blocks). Qed.
Print Assumptions C41_blocks.

Example C41_blocks_ex :
  (r <- load ex_file (fun _ => None) ;;
   let '(db, _, _) := r in
   Ok (map (fun g => (fst g, List.length (snd g)))
           (groupby_rows (fun l => l) ["talker"%string] (map snd (to_frame db))))) =
  Ok [([5%Z], 2); ([6%Z], 1)].
Proof. vm_compute. reflexivity. Qed.

(** An incomplete line before a complete one: the task cannot be built. *)
Theorem C41_inner_line_refuted korder f aux mid a rest genf by_ across db forest feat i j li lj :
  (forall l, Permutation (korder l) l) ->
  item_header (header f) mid a rest -> distinct_names mid a rest -> rectangular f ->
  nth_error (body f) i = Some li -> ~ complete mid li ->
  nth_error (body f) j = Some lj -> complete mid lj -> i < j ->
  load f aux = Ok (db, forest, feat) ->
  prepare_database korder (fun _ => true) genf by_ across db feat = Err IndexError.
Proof. exact (blocks_dropped korder f aux mid a rest genf by_ across db forest feat i j li lj). Qed.
Print Assumptions C41_inner_line_refuted.

(** With a by filter that keeps the block of the second line only, that item silently gets the
    place of the third line. *)
Theorem C41_wrong_place_refuted :
  match inner_blocks with
  | Ok [(_, ([(i, r)], [place_of_item]))] =>
      r "phone"%string = 8%Z /\ r "talker"%string = 5%Z /\
      place_of_item = [Some 3; Some 20; Some 30]%Z
  | _ => False
  end.
Proof. exact wrong_place. Qed.
Print Assumptions C41_wrong_place_refuted.

(** The line of that item in the file. *)
Example C41_wrong_place_refuted_ex :
  nth_error (body ex_inner) 1 = Some [Some 2; Some 10; Some 20; Some 8; Some 5]%Z.
Proof. reflexivity. Qed.

Example C41_inner_line_refuted_ex :
  (r <- load ex_inner (fun _ => None) ;;
   let '(db, _, feat) := r in
   prepare_database (fun l => l) (fun _ => true) (fun _ _ => true) ["talker"%string] [] db feat) =
  Err IndexError.
Proof. vm_compute. reflexivity. Qed.

(** An auxiliary file for one of the attributes always makes the loading fail. *)
Theorem C56_auxiliary_file_refuted f aux mid a rest c r :
  item_header (header f) mid a rest -> distinct_names mid a rest -> rectangular f ->
  In c (a :: rest) -> c <> "item"%string -> aux c <> None ->
  load f aux <> Ok r.
Proof.
  exact (fun Hh Hd Hr Hc Hi Ha E => Ha (load_no_aux f aux mid a rest r Hh Hd Hr E c Hc Hi)).
Qed.
Print Assumptions C56_auxiliary_file_refuted.

Example C56_auxiliary_file_refuted_ex : load ex_file ex_aux = Err TypeError.
Proof. vm_compute. reflexivity. Qed.

(** The first attribute that has an auxiliary file decides of the exception: TypeError when the
    first column of the file is the attribute, AssertionError otherwise. *)
Theorem C56_first_auxiliary_file f aux mid a rest pre c post h0 h :
  item_header (header f) mid a rest -> distinct_names mid a rest -> rectangular f ->
  a :: rest = pre ++ c :: post -> (forall x, In x pre -> x <> "item"%string -> aux x = None) ->
  c <> "item"%string -> aux c = Some (h0 :: h) ->
  load f aux = Err (if String.eqb c h0 then TypeError else AssertionError).
Proof. exact (load_first_aux f aux mid a rest pre c post h0 h). Qed.
Print Assumptions C56_first_auxiliary_file.

Example C56_first_auxiliary_file_ex :
  load ex_file (fun c => if String.eqb c "talker" then Some ["talker"; "sex"]%string else None) = Err TypeError /\
  load ex_file (fun c => if String.eqb c "talker" then Some ["speaker"; "sex"]%string else None) = Err AssertionError.
Proof. vm_compute. split; reflexivity. Qed.
