(** Property theorems: the number of levels and the printed statistics (C63). *)
From Coq Require Import String.
From Verif Require Import Prelude Task Task_spec Task_ex Task_stats_spec Levels Levels_spec Levels_proofs Levels_ex.
Open Scope string_scope.
Open Scope list_scope.
Open Scope Z_scope.

(** C63: with one across column, the number of levels of each by group is the number of types of
    its triplets: on and across values of A, on value of B, across value of X. *)
Theorem C63_levels :
  forall korder enum, lists_keys korder -> lists_set enum ->
  forall T cols db T' bs st,
    reads cols (t_filters T) -> determined T db -> kept_first T db ->
    task_init korder enum T cols db = Ok (T', bs, st) ->
  forall Ls lv,
    length (t_across T) = 1%nat -> has_item_filters (t_filters T) = false -> length (lv_by lv) = length bs ->
    Forall2 (fun b L => lists_types T db (b_key b) L) bs Ls ->
    compute_nb_levels korder enum true T' bs lv = (mk_levels (map Some (map Zlen Ls)) (Some (sumZ (map Zlen Ls))), Ok tt).
Proof. exact nb_levels_one. Qed.
Print Assumptions C63_levels.

Example C63_levels_ex :
  reads ex_cols (t_filters (lv_task ["talker"])) /\ determined (lv_task ["talker"]) ex_db /\ kept_first (lv_task ["talker"]) ex_db /\
  lists_types (lv_task ["talker"]) ex_db [8] [([1; 1], 2, [2]); ([1; 1], 2, [3])] /\
  match levels_of true (lv_task ["talker"]) ex_db with
  | Ok (ks, _, lv) => ks = [[7]; [6]; [8]] /\ lv = (mk_levels [Some 4; Some 0; Some 2] (Some 6), Ok tt)
  | Err _ => False
  end.
Proof.
  split; [exact lv_reads|]. split; [apply lv_determined; left; left; reflexivity|]. split; [apply lv_kept_first|].
  split; [exact (types_listed (lv_task ["talker"]) ex_db [8])|]. vm_compute. auto.
Qed.

(** C63: without across columns, it is the number of types of triplets, given by the item A and
    the on value of B. *)
Theorem C63_levels_no_across :
  forall korder enum, lists_keys korder -> lists_set enum ->
  forall T cols db T' bs st,
    reads cols (t_filters T) -> determined T db -> kept_first T db ->
    task_init korder enum T cols db = Ok (T', bs, st) ->
  forall Ls lv,
    t_across T = [] -> has_item_filters (t_filters T) = false -> length (lv_by lv) = length bs ->
    Forall2 (fun b L => lists_item_types T db (b_key b) L) bs Ls ->
    compute_nb_levels korder enum true T' bs lv = (mk_levels (map Some (map Zlen Ls)) (Some (sumZ (map Zlen Ls))), Ok tt).
Proof. exact nb_levels_none. Qed.
Print Assumptions C63_levels_no_across.

Example C63_levels_no_across_ex :
  reads ex_cols (t_filters (lv_task [])) /\ determined (lv_task []) ex_db /\ kept_first (lv_task []) ex_db /\
  lists_item_types (lv_task []) ex_db [7] [(0, 2); (1, 2); (2, 1); (3, 1); (4, 2); (5, 2)] /\
  match levels_of true (lv_task []) ex_db with
  | Ok (ks, _, lv) => ks = [[7]; [6]; [8]] /\ lv = (mk_levels [Some 6; Some 0; Some 2] (Some 8), Ok tt)
  | Err _ => False
  end.
Proof.
  split; [exact lv_reads|]. split; [apply lv_determined; right; reflexivity|]. split; [apply lv_kept_first|].
  split; [exact (item_types_listed (lv_task []) ex_db [7])|]. vm_compute. auto.
Qed.

(** C63: with several across columns, it counts the types of all pairs A, B with all pairs A, X
    where X differs from A in some across column. Missing: only the X that differ from A in all
    of them make triplets (see below). *)
Theorem C63_levels_several_partial :
  forall korder enum, lists_keys korder -> lists_set enum ->
  forall T cols db T' bs st,
    reads cols (t_filters T) -> determined T db -> kept_first T db ->
    task_init korder enum T cols db = Ok (T', bs, st) ->
  forall Ls lv,
    t_across T <> [] -> has_item_filters (t_filters T) = false -> length (lv_by lv) = length bs ->
    Forall2 (fun b L => lists_pair_types T db (b_key b) L) bs Ls ->
    compute_nb_levels korder enum true T' bs lv = (mk_levels (map Some (map Zlen Ls)) (Some (sumZ (map Zlen Ls))), Ok tt).
Proof. exact nb_levels_several. Qed.
Print Assumptions C63_levels_several_partial.

Example C63_levels_several_partial_ex :
  across_pair two_task two_db [0] 0 1 /\ on_pair two_task two_db [0] 0 2 /\
  match levels_of true two_task two_db with
  | Ok (_, _, lv) => lv = (mk_levels [Some 1] (Some 1), Ok tt)
  | Err _ => False
  end.
Proof.
  split; [|split; [|vm_compute; reflexivity]].
  - exists (ln 1 1 7 0), (ln 2 1 7 0). do 2 (split; [split; [split; [lia|reflexivity]|reflexivity]|]). split; [reflexivity|].
    split; [discriminate|]. intros c [<-|[<-|[]]]; reflexivity.
  - exists (ln 1 1 7 0), (ln 1 1 8 0). do 2 (split; [split; [split; [lia|reflexivity]|reflexivity]|]). split; [reflexivity|].
    split; [reflexivity|]. exists "lang". split; [right; left; reflexivity|discriminate].
Qed.

(** C63 is false with two across columns: a level is announced although there is no triplet. *)
Theorem C63_two_across_refuted :
  match levels_of true two_task two_db with
  | Ok (ks, ss, (lv, r)) => ks = [[0]] /\ map st_nb_triplets ss = [0] /\ lv = mk_levels [Some 1] (Some 1) /\ r = Ok tt
  | Err _ => False
  end /\ lists_types two_task two_db [0] [] /\ forall a b x, ~ wanted two_task two_db [0] a b x.
Proof. exact two_refuted. Qed.
Print Assumptions C63_two_across_refuted.

Example C63_two_across_refuted_ex : t_across two_task = ["talker"; "lang"] /\ length two_db = 3%nat.
Proof. split; reflexivity. Qed.

(** C63: with filters of A, B, X or triplets, the levels are not computed: ValueError. *)
Theorem C63_item_filters :
  forall korder enum T cols db T' bs st,
    task_init korder enum T cols db = Ok (T', bs, st) ->
  forall has_ix lv, has_item_filters (t_filters T) = true ->
    compute_nb_levels korder enum has_ix T' bs lv = (lv, Err ValueError).
Proof. exact item_filters_refused. Qed.
Print Assumptions C63_item_filters.

Example C63_item_filters_ex :
  has_item_filters (t_filters ex_task) = true /\
  match levels_of true ex_task ex_db with
  | Ok (_, _, lv) => lv = (mk_levels [None; None; None] None, Err ValueError)
  | Err _ => False
  end.
Proof. split; vm_compute; reflexivity. Qed.

(** C63: the summary prints, for each by group, its key and its numbers, that of levels when it is
    computed... *)
Theorem C63_summary :
  forall korder enum T cols db T' bs st,
    task_init korder enum T cols db = Ok (T', bs, st) ->
  forall has_ix lv lv' r o,
    compute_nb_levels korder enum has_ix T' bs lv = (lv', r) -> length (lv_by lv') = length bs ->
    r = Ok tt \/ r = Err ValueError ->
    print_stats korder enum has_ix T' bs st lv true = o ->
  exists parts, o = (Global st (lv_total lv) :: ByBlocks :: concat parts, lv', Ok tt) /\ length parts = length bs /\
  forall i b s n, nth_error bs i = Some b -> nth_error (s_by st) i = Some s -> nth_error (lv_by lv') i = Some n ->
    nth_error parts i = Some
      ([ByLevel (b_key b); Number "nb_triplets" (st_nb_triplets s)] ++
       match n with Some m => [Number "nb_levels" m] | None => [] end ++
       [Number "nb_across_pairs" (st_nb_across_pairs s); Number "nb_on_pairs" (st_nb_on_pairs s);
        Number "nb_on_levels" (st_nb_on_levels s); Number "nb_across_levels" (st_nb_across_levels s);
        Number "nb_on_across_levels" (st_nb_on_across_levels s)]).
Proof. exact print_summary. Qed.
Print Assumptions C63_summary.

Example C63_summary_ex :
  match print_of true (lv_task ["talker"]) ex_db with
  | Ok (_ :: ByBlocks :: l, lv, r) => lv_by lv = [Some 4; Some 0; Some 2] /\ r = Ok tt /\
      skipn 16 l = [ByLevel [8]; Number "nb_triplets" 2; Number "nb_levels" 2; Number "nb_across_pairs" 2; Number "nb_on_pairs" 4;
                    Number "nb_on_levels" 2; Number "nb_across_levels" 3; Number "nb_on_across_levels" 4]
  | _ => False
  end.
Proof. vm_compute. auto. Qed.

(** ... and the other form prints all statistics. *)
Theorem C63_all_statistics :
  forall korder enum T cols db T' bs st,
    task_init korder enum T cols db = Ok (T', bs, st) ->
  forall has_ix lv o, length (lv_by lv) = length bs ->
    print_stats korder enum has_ix T' bs st lv false = o ->
  exists parts, o = (Global st (lv_total lv) :: ByBlocks :: concat parts, lv, Ok tt) /\ length parts = length bs /\
  forall i b s n, nth_error bs i = Some b -> nth_error (s_by st) i = Some s -> nth_error (lv_by lv) i = Some n ->
    nth_error parts i = Some [ByLevel (b_key b); AllOf s n].
Proof. exact print_full. Qed.
Print Assumptions C63_all_statistics.

Example C63_all_statistics_ex :
  match task_init idk idz (lv_task ["talker"]) ex_cols ex_db with
  | Ok (T', bs, st) =>
      match print_stats idk idz true T' bs st (mk_levels [Some 4; Some 0; Some 2] (Some 6)) false with
      | (Global _ t :: ByBlocks :: [ByLevel k; AllOf _ n; ByLevel k'; AllOf _ n'; ByLevel k''; AllOf s n''], _, _) =>
          (t, k, n, k', n', k'', n'') = (Some 6, [7], Some 4, [6], Some 0, [8], Some 2) /\ st_nb_triplets s = 2
      | _ => False
      end
  | Err _ => False
  end.
Proof. vm_compute. auto. Qed.

(** C63 is false of pandas from 1.0 on: the summary stops with AttributeError before the first by
    group. *)
Theorem C63_new_pandas_refuted :
  forall korder enum, lists_keys korder ->
  forall T cols db T' bs st,
    reads cols (t_filters T) -> determined T db -> kept_first T db ->
    task_init korder enum T cols db = Ok (T', bs, st) ->
  forall lv, has_item_filters (t_filters T) = false -> bs <> [] ->
    print_stats korder enum false T' bs st lv true = ([Global st (lv_total lv); ByBlocks], lv, Err AttributeError).
Proof. exact print_no_ix. Qed.
Print Assumptions C63_new_pandas_refuted.

Example C63_new_pandas_refuted_ex :
  match print_of false (lv_task ["talker"]) ex_db with
  | Ok ([Global _ None; ByBlocks], lv, r) => lv = mk_levels [None; None; None] None /\ r = Err AttributeError
  | _ => False
  end.
Proof. vm_compute. auto. Qed.
