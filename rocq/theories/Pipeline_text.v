(** The text of the result file of a whole evaluation. *)
From Coq Require Import Ascii String.
From Coq Require Import List ZArith QArith Lia Permutation.
From Verif Require Import Prelude TypeFitting Sampler Sampler_spec Task Task_spec Task_sort Task_main Task_reg_spec Distances Distances_spec Score Score_spec
  Analyze Rounding H5io Pipeline Pipeline_spec Pipeline_proofs AnalyzeText AnalyzeText_spec AnalyzeText_proofs.
Import ListNotations.
Local Open Scope Z_scope.
Local Open Scope list_scope.
Set Implicit Arguments.

Lemma line_among_fields tm L F V (tle : tm -> tm -> bool) (vlt : V -> V -> bool) (distance : option bool -> list F -> list F -> res V) name (str_label : L -> string) (str_float : Q -> string)
    sel T db places files normalize (indexes : list (string * list L)) k r ln :
  line_among tle vlt distance name sel T db places files normalize indexes k r ln ->
  (forall s levels l, In (s, levels) indexes -> In l levels -> field (str_label l)) -> field (name k) -> (forall q, field (str_float q)) ->
  line_fields str_label str_float ln.
Proof.
  intros (Hl & Hb & _) Hi Hk Hq. split; [|split; [rewrite Hb; exact Hk|apply Hq]].
  clear - Hl Hi. revert r Hl. generalize (l_labels ln). induction indexes as [|[s levels] ix IH]; intros labels r Hl.
  - cbn in Hl. inversion Hl. constructor.
  - destruct r as [|i r]; [cbn in Hl; inversion Hl; constructor|]. cbn [combine] in Hl. inversion Hl as [|? l ? labels' (_ & E) Hl']; subst. constructor.
    + apply (Hi s levels); [left; reflexivity|]. cbn in E. eapply nth_error_In. exact E.
    + eapply IH; [|exact Hl']. intros s' levels' l' H. apply (Hi s'). right. exact H.
Qed.

Lemma result_among_fields tm L F V (tle : tm -> tm -> bool) (vlt : V -> V -> bool) (distance : option bool -> list F -> list F -> res V) name (str_label : L -> string) (str_float : Q -> string)
    (sel : key -> triplet -> Prop) T db places files normalize (indexes : list (string * list L)) lines :
  result_among tle vlt distance name sel T db places files normalize indexes lines ->
  (forall s levels l, In (s, levels) indexes -> In l levels -> field (str_label l)) -> (forall k t, sel k t -> field (name k)) -> (forall q, field (str_float q)) ->
  Forall (line_fields str_label str_float) lines.
Proof.
  intros (parts & -> & _ & Hk & Hp) Hi Hn Hq. apply Forall_forall. intros ln Hin. apply in_concat in Hin as (l & Hl & Hin).
  apply in_map_iff in Hl as ([k part] & <- & Hpart). cbn in Hin. apply in_map_iff in Hin as ([r ln'] & E & Hin). cbn in E. subst ln'.
  destruct (Hp k part Hpart) as (_ & _ & Hline). eapply line_among_fields; [apply (Hline r ln Hin)|exact Hi| |exact Hq].
  destruct (proj1 (Hk k)) as (t & Ht); [apply in_map_iff; exists (k, part); auto|]. apply (Hn k t Ht).
Qed.

Theorem evaluation_text :
  forall (tm L : Type) (leq : forall x y : L, {x = y} + {x <> y}) (plain : L -> bool) (name : key -> string),
    (forall k k', name k = name k' -> k = k') ->
  forall gorder : list (string * by_group L) -> list (string * by_group L), (forall l, Permutation (gorder l) l) ->
  forall korder enum argsort (R : rng) (fuel : nat), lists_keys korder -> lists_set enum -> argsort_spec argsort ->
  forall rlen wlen clen : Z -> nat,
    (forall z, (0 < rlen z)%nat) -> (forall z, (0 < wlen z)%nat) -> (forall z, (0 < clen z)%nat) ->
  forall memory o_buffer : Z, 8 <= o_buffer ->
  forall T cols db (places : list (Distances.item tm)) (indexes : list (string * list L)) thr c,
    reads cols (t_filters T) -> determined T db -> kept_first T db ->
    reg_reads cols (t_regressors T) -> reg_determined T db ->
    length places = length db -> Zlen db <= 94906265 -> A_fine T -> levels_ok plain T db indexes ->
  forall x : abx_file tm L,
    make_file leq plain name gorder korder enum argsort R fuel rlen wlen clen memory o_buffer T cols db places indexes thr c
      = Ok (Some x) ->
    storable T db (capacity (Zlen (x_triplets x))) ->
    64 * Zlen (x_triplets x) <= 3 * memory \/ 10 ^ 9 <= memory /\ Zlen (x_triplets x) <= 10 ^ 14 ->
  forall (F V : Type) (tle : tm -> tm -> bool) (vlt : V -> V -> bool)
    (distance : option bool -> list F -> list F -> res V) (files : list (feature_data tm F)) (normalize : option Z),
    features_ok files ->
  forall (zero : V) dfuel n_cpu df0 df' s0 s rnd slen stem,
    no_threshold thr \/ of_BX (t_regressors T) = [] ->
    (1 <= n_cpu)%nat ->
    compute_distances zero argsort dfuel (mk_setting (for_distances x) files normalize) df0 n_cpu = (df', Ok s0) ->
    reaches tle distance (mk_setting (for_distances x) files normalize) s0 s -> s_main s = M_returned ->
    exact53 rnd -> (forall z, (0 < slen z)%nat) -> (forall d d', vlt d d' = true -> vlt d' d = false) ->
  forall (str_label : L -> string) (str_float : Q -> string),
    Forall field (map fst indexes) -> (forall s levels l, In (s, levels) indexes -> In l levels -> field (str_label l)) ->
    (forall k t, is_wanted T db k t -> field (name k)) -> (forall q, field (str_float q)) ->
    exists dis, d_data (s_file s) = Some dis /\
    forall k tf dfn sf,
      lookup (k_tasks k) tf = Ok (for_score x) -> lookup (k_distances k) dfn = Ok dis ->
      ~ there k (score_name stem tf dfn sf) ->
      exists k' scores lines rows text,
        score vlt rnd slen stem k tf dfn sf = (k', Ok tt) /\
        lookup (k_scores k') (score_name stem tf dfn sf) = Ok scores /\
        analyze_text rnd argsort str_label str_float (for_analysis x) scores = (text, Ok tt) /\
        table_of text = Some ((map fst indexes ++ ["by"; "score"; "n"]%string) :: rows) /\
        Forall2 (row_of str_label str_float) lines rows /\
        result_of tle vlt distance name T db places files normalize indexes lines.
Proof.
  intros tm L leq plain name Hname gorder Hg korder enum argsort R fuel Hk He Ha rlen wlen clen H1 H2 H3 memory o_buffer Ho T cols db places indexes thr c
    Hrd Hdt Hkf Hrr Hrt Hpl Hfew HA HL x Hx Hst Hmem F V tle vlt distance files normalize Hfeat zero dfuel n_cpu df0 df' s0 s rnd slen stem Hu Hn Hc Hr Hm H53 Hsl Hvlt
    str_label str_float Ff Fl Fk Fq.
  destruct (evaluation_result _ _ leq plain name Hname gorder Hg korder enum argsort R fuel Hk He Ha rlen wlen clen H1 H2 H3 memory o_buffer Ho T cols db places indexes thr c
    Hrd Hdt Hkf Hrr Hrt Hpl Hfew HA HL x Hx Hst Hmem F V tle vlt distance files normalize Hfeat zero dfuel n_cpu df0 df' s0 s rnd slen stem Hu Hn Hc Hr Hm H53 Hsl Hvlt) as (dis & Hd & G).
  exists dis. split; [exact Hd|]. intros k tf dfn sf L1 L2 L3. destruct (G k tf dfn sf L1 L2 L3) as (k' & scores & lines & E1 & E2 & E3 & E4).
  destruct (@result_text L rnd argsort str_label str_float (for_analysis x) scores _ _ E3 Ff) as (text & rows & T1 & T2 & T3).
  { eapply result_among_fields; [exact E4|exact Fl|exact Fk|exact Fq]. }
  exists k', scores, lines, rows, text. auto 10.
Qed.

Theorem threshold_text :
  forall (tm L : Type) (leq : forall x y : L, {x = y} + {x <> y}) (plain : L -> bool) (name : key -> string),
    (forall k k', name k = name k' -> k = k') ->
  forall gorder : list (string * by_group L) -> list (string * by_group L), (forall l, Permutation (gorder l) l) ->
  forall korder enum argsort (R : rng) (fuel : nat), lists_keys korder -> lists_set enum -> argsort_spec argsort ->
  forall rlen wlen clen : Z -> nat,
    (forall z, (0 < rlen z)%nat) -> (forall z, (0 < wlen z)%nat) -> (forall z, (0 < clen z)%nat) ->
  forall memory o_buffer : Z, 8 <= o_buffer ->
  forall T cols db (places : list (Distances.item tm)) (indexes : list (string * list L)) thr c,
    reads cols (t_filters T) -> determined T db -> kept_first T db ->
    reg_reads cols (t_regressors T) -> reg_determined T db ->
    length places = length db -> Zlen db <= 94906265 -> A_fine T -> levels_ok plain T db indexes ->
  forall x : abx_file tm L,
    make_file leq plain name gorder korder enum argsort R fuel rlen wlen clen memory o_buffer T cols db places indexes thr c
      = Ok (Some x) ->
    storable T db (capacity (Zlen (x_triplets x))) ->
    64 * Zlen (x_triplets x) <= 3 * memory \/ 10 ^ 9 <= memory /\ Zlen (x_triplets x) <= 10 ^ 14 ->
  forall (F V : Type) (tle : tm -> tm -> bool) (vlt : V -> V -> bool)
    (distance : option bool -> list F -> list F -> res V) (files : list (feature_data tm F)) (normalize : option Z),
    features_ok files ->
  forall t, rng_ok R -> room T db -> 0 < t -> of_BX (t_regressors T) <> [] -> thr = Some t ->
  forall (zero : V) dfuel n_cpu df0 df' s0 s rnd slen stem,
    (1 <= n_cpu)%nat ->
    compute_distances zero argsort dfuel (mk_setting (for_distances x) files normalize) df0 n_cpu = (df', Ok s0) ->
    reaches tle distance (mk_setting (for_distances x) files normalize) s0 s -> s_main s = M_returned ->
    exact53 rnd -> (forall z, (0 < slen z)%nat) -> (forall d d', vlt d d' = true -> vlt d' d = false) ->
  forall (str_label : L -> string) (str_float : Q -> string),
    Forall field (map fst indexes) -> (forall s levels l, In (s, levels) indexes -> In l levels -> field (str_label l)) ->
    (forall k t, is_wanted T db k t -> field (name k)) -> (forall q, field (str_float q)) ->
    exists dis, d_data (s_file s) = Some dis /\
    forall k tf dfn sf,
      lookup (k_tasks k) tf = Ok (for_score x) -> lookup (k_distances k) dfn = Ok dis ->
      ~ there k (score_name stem tf dfn sf) ->
      exists k' scores lines rows text,
        score vlt rnd slen stem k tf dfn sf = (k', Ok tt) /\
        lookup (k_scores k') (score_name stem tf dfn sf) = Ok scores /\
        analyze_text rnd argsort str_label str_float (for_analysis x) scores = (text, Ok tt) /\
        table_of text = Some ((map fst indexes ++ ["by"; "score"; "n"]%string) :: rows) /\
        Forall2 (row_of str_label str_float) lines rows /\
        result_among tle vlt distance name (listed name (x_bys x) (x_by_index x) (x_triplets x))
          T db places files normalize indexes lines.
Proof.
  intros tm L leq plain name Hname gorder Hg korder enum argsort R fuel Hk He Ha rlen wlen clen H1 H2 H3 memory o_buffer Ho T cols db places indexes thr c
    Hrd Hdt Hkf Hrr Hrt Hpl Hfew HA HL x Hx Hst Hmem F V tle vlt distance files normalize Hfeat t Hrng Hroom Ht Hbx Hthr zero dfuel n_cpu df0 df' s0 s rnd slen stem Hn Hc Hr Hm H53 Hsl Hvlt
    str_label str_float Ff Fl Fk Fq.
  destruct (threshold_result _ _ leq plain name Hname gorder Hg korder enum argsort R fuel Hk He Ha rlen wlen clen H1 H2 H3 memory o_buffer Ho T cols db places indexes thr c
    Hrd Hdt Hkf Hrr Hrt Hpl Hfew HA HL x Hx Hst Hmem F V tle vlt distance files normalize Hfeat t Hrng Hroom Ht Hbx Hthr zero dfuel n_cpu df0 df' s0 s rnd slen stem Hn Hc Hr Hm H53 Hsl Hvlt) as (dis & Hd & G).
  exists dis. split; [exact Hd|]. intros k tf dfn sf L1 L2 L3. destruct (G k tf dfn sf L1 L2 L3) as (k' & scores & lines & E1 & E2 & E3 & E4).
  destruct (@result_text L rnd argsort str_label str_float (for_analysis x) scores _ _ E3 Ff) as (text & rows & T1 & T2 & T3).
  { eapply result_among_fields; [exact E4|exact Fl| |exact Fq]. intros k0 t0 H0. apply (Fk k0 t0).
    refine (proj1 (proj1 (threshold_chosen _ _ leq plain name Hname gorder korder enum argsort R fuel Hk He Ha rlen wlen clen memory o_buffer T cols db places indexes thr c
    Hrd Hdt Hkf Hrr Hrt x Hx Hst t Hrng Hroom Ht Hbx Hthr)) k0 t0 H0). }
  exists k', scores, lines, rows, text. auto 10.
Qed.
