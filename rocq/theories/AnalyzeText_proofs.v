(** The text of the result file and the lines of the analysis. *)
From Coq Require Import Ascii String DecimalString DecimalZ.
From Coq Require Import List ZArith QArith Lia.
From Verif Require Import Prelude Distances Analyze AnalyzeText AnalyzeText_spec.
Import ListNotations.
Local Open Scope list_scope.

Definition without (c : ascii) (s : string) : Prop := ~ In c (list_ascii_of_string s).

Lemma chars_app s t : list_ascii_of_string (s ++ t) = (list_ascii_of_string s ++ list_ascii_of_string t)%list.
Proof. induction s as [|a s IH]; cbn; [reflexivity|]. rewrite IH. reflexivity. Qed.

Lemma append_assoc (s t u : string) : ((s ++ t) ++ u = s ++ (t ++ u))%string.
Proof. induction s as [|a s IH]; cbn; [reflexivity|]. rewrite IH. reflexivity. Qed.

Lemma append_nil (s : string) : (s ++ "" = s)%string.
Proof. induction s as [|a s IH]; cbn; [reflexivity|]. rewrite IH. reflexivity. Qed.

Lemma cut_piece c s t : without c s -> cut c (s ++ String c t) = s :: cut c t.
Proof.
  unfold without. induction s as [|a s IH]; cbn [append list_ascii_of_string cut]; intros H.
  - rewrite Ascii.eqb_refl. reflexivity.
  - destruct (Ascii.eqb_spec a c) as [->|N]; [exfalso; apply H; left; reflexivity|].
    rewrite IH; [reflexivity|]. intros H'. apply H. right. exact H'.
Qed.

Lemma cut_one c s : without c s -> cut c s = [s].
Proof.
  unfold without. induction s as [|a s IH]; cbn [list_ascii_of_string cut]; intros H; [reflexivity|].
  destruct (Ascii.eqb_spec a c) as [->|N]; [exfalso; apply H; left; reflexivity|].
  rewrite IH; [reflexivity|]. intros H'. apply H. right. exact H'.
Qed.

Lemma concat_cons sep s l : l <> [] -> String.concat sep (s :: l) = (s ++ sep ++ String.concat sep l)%string.
Proof. destruct l; [congruence|reflexivity]. Qed.

Lemma cut_concat c l : l <> [] -> Forall (without c) l -> cut c (String.concat (String c "") l) = l.
Proof.
  induction l as [|s l IH]; intros Hne F; [congruence|]. inversion F; subst. destruct l as [|s' l].
  - cbn [String.concat]. apply cut_one. assumption.
  - rewrite concat_cons by discriminate. cbn [append]. rewrite cut_piece by assumption. rewrite IH; [reflexivity|discriminate|assumption].
Qed.

Lemma without_concat c sep l : without c sep -> Forall (without c) l -> without c (String.concat sep l).
Proof.
  unfold without. intros Hs. induction l as [|s l IH]; intros F; [intros []|]. inversion F; subst. destruct l as [|s' l]; [assumption|].
  rewrite concat_cons by discriminate. rewrite !chars_app, !in_app_iff. specialize (IH ltac:(assumption)). tauto.
Qed.

(** A text of lines. *)
Definition lines_text (rows : list (list string)) : string :=
  String.concat "" (map (fun r => String.concat tab r ++ newline)%string rows).

Lemma concat_empty_cons s l : String.concat "" (s :: l) = (s ++ String.concat "" l)%string.
Proof. destruct l; [cbn; rewrite append_nil; reflexivity|reflexivity]. Qed.

Lemma concat_empty_app l l' : String.concat "" (l ++ l') = (String.concat "" l ++ String.concat "" l')%string.
Proof.
  induction l as [|s l IH]; [reflexivity|]. cbn [app]. rewrite !concat_empty_cons, IH, append_assoc. reflexivity.
Qed.

Lemma lines_text_cons r rows : lines_text (r :: rows) = (String.concat tab r ++ newline ++ lines_text rows)%string.
Proof. unfold lines_text. cbn [map]. rewrite concat_empty_cons, append_assoc. reflexivity. Qed.

Lemma lines_text_app rows rows' : lines_text (rows ++ rows') = (lines_text rows ++ lines_text rows')%string.
Proof. unfold lines_text. rewrite map_app. apply concat_empty_app. Qed.

Lemma field_tab s : field s -> without "009" s.
Proof. intros H H'. destruct (H _ H'). congruence. Qed.
Lemma field_newline s : field s -> without "010" s.
Proof. intros H H'. destruct (H _ H'). congruence. Qed.

Lemma cut_lines rows : Forall (Forall field) rows ->
  cut "010" (lines_text rows) = map (String.concat tab) rows ++ [EmptyString].
Proof.
  induction rows as [|r rows IH]; intros F; [reflexivity|]. inversion F; subst. rewrite lines_text_cons. cbn [map app].
  unfold newline at 1. cbn [append]. rewrite cut_piece; [rewrite IH by assumption; reflexivity|].
  apply without_concat; [intros [E|[]]; discriminate|]. eapply Forall_impl; [|eassumption]. intros s. apply field_newline.
Qed.

Lemma table_of_lines rows : Forall (Forall field) rows -> Forall (fun r => r <> []) rows -> table_of (lines_text rows) = Some rows.
Proof.
  intros F Hne. unfold table_of. rewrite (cut_lines rows F). rewrite last_last, removelast_last. cbn [String.eqb].
  f_equal. induction rows as [|r rows IH]; [reflexivity|]. inversion F; inversion Hne; subst. cbn [map]. f_equal; [|apply IH; assumption].
  unfold tab. apply cut_concat; [assumption|]. eapply Forall_impl; [|eassumption]. intros s. apply field_tab.
Qed.

Lemma header_lines names : header_text names = lines_text [names ++ ["by"; "score"; "n"]%string].
Proof.
  unfold header_text. rewrite lines_text_cons. cbn [lines_text map String.concat].
  induction names as [|s names IH]; [reflexivity|]. cbn [map app]. rewrite concat_empty_cons, concat_cons by (destruct names; discriminate).
  rewrite !append_assoc. f_equal. f_equal. rewrite IH. rewrite append_nil. reflexivity.
Qed.

Lemma uint_chars d c : In c (list_ascii_of_string (NilEmpty.string_of_uint d)) -> c <> "009"%char /\ c <> "010"%char.
Proof.
  induction d; cbn [NilEmpty.string_of_uint list_ascii_of_string]; [intros []|..];
    (intros [<-|H]; [split; discriminate|apply IHd, H]).
Qed.

Lemma int_field z : field (str_int z).
Proof.
  intros c. unfold str_int. destruct (Z.to_int z) as [d|d].
  - cbn [NilZero.string_of_int]. unfold NilZero.string_of_uint. destruct d; try (apply uint_chars).
    intros [<-|[]]. split; discriminate.
  - cbn [NilZero.string_of_int list_ascii_of_string]. intros [<-|H]; [split; discriminate|]. revert H.
    unfold NilZero.string_of_uint. destruct d; try (apply uint_chars).
    intros [<-|[]]. split; discriminate.
Qed.

Lemma int_read z : integer (str_int z) = Some z.
Proof.
  unfold integer, str_int. rewrite NilZero.isi.
  - cbn [option_map]. rewrite DecimalZ.of_to. reflexivity.
  - destruct z; cbn; try discriminate. intros E. injection E as E. exact (DecimalPos.Unsigned.to_uint_nonnil _ E).
  - destruct z; cbn; try discriminate. intros E. injection E as E. exact (DecimalPos.Unsigned.to_uint_nonnil _ E).
Qed.

Section Text.
Variable L : Type.
Variable rnd : Q -> Q.
Variable argsort : list Z -> list nat.
Variable str_label : L -> string.
Variable str_float : Q -> string.

Let row (ln : line L) : list string :=
  map str_label (l_labels ln) ++ [l_by ln; str_float (l_score ln); str_int (l_n ln)].

Lemma line_row ln : line_text str_label str_float ln = lines_text [row ln].
Proof. rewrite lines_text_cons. unfold line_text, row. cbn [lines_text map String.concat]. rewrite append_nil. reflexivity. Qed.

Lemma write_lines_ok by_ indexes tb lines : mapM (make_line by_ indexes) tb = Ok lines ->
  write_lines str_label str_float by_ indexes tb = (lines_text (map row lines), Ok tt).
Proof.
  revert lines. induction tb as [|x tb IH]; intros lines E; cbn [mapM] in E.
  - injection E as <-. reflexivity.
  - cbn [write_lines]. destruct (make_line by_ indexes x) as [ln|]; [|discriminate]. cbn [bind] in E.
    destruct (mapM (make_line by_ indexes) tb) as [lns|]; [|discriminate]. injection E as <-. rewrite (IH lns eq_refl).
    unfold go_on. cbn [fst snd map]. rewrite line_row. change (row ln :: map row lns) with ([row ln] ++ map row lns).
    rewrite lines_text_app. reflexivity.
Qed.

Lemma write_lines_err by_ indexes tb e : mapM (make_line by_ indexes) tb = Err e ->
  exists n part, mapM (make_line by_ indexes) (firstn n tb) = Ok part /\ 
    (exists x, nth_error tb n = Some x /\ make_line by_ indexes x = Err e) /\
    write_lines str_label str_float by_ indexes tb = (lines_text (map row part), Err e).
Proof.
  induction tb as [|x tb IH]; intros E; cbn [mapM] in E; [discriminate|]. cbn [write_lines].
  destruct (make_line by_ indexes x) as [ln|e'] eqn:El; cbn [bind] in E.
  - destruct (mapM (make_line by_ indexes) tb) as [lns|e']; [discriminate|]. injection E as <-.
    destruct (IH eq_refl) as (n & part & H1 & H2 & H3). exists (S n), (ln :: part). split.
    { cbn [firstn mapM]. rewrite El. cbn [bind]. rewrite H1. reflexivity. }
    split; [exact H2|]. rewrite H3. unfold go_on. cbn [fst snd map]. rewrite line_row.
    change (row ln :: map row part) with ([row ln] ++ map row part). rewrite lines_text_app. reflexivity.
  - injection E as <-. exists 0%nat, []. split; [reflexivity|]. split; [exists x; split; [reflexivity|exact El]|]. reflexivity.
Qed.

Lemma by_text_ok T scores i by_ lines : collapse_by rnd argsort T scores i by_ = Ok lines ->
  collapse_by_text rnd argsort str_label str_float T scores i by_ = (lines_text (map row lines), Ok tt).
Proof.
  unfold collapse_by, collapse_by_text. destruct (by_table _ _ _ _ _ _) as [[tb ix]|]; [|discriminate]. cbn [bind]. apply write_lines_ok.
Qed.

Lemma text_ok T scores bys : forall i lines, collapse rnd argsort T scores i bys = Ok lines ->
  collapse_text rnd argsort str_label str_float T scores i bys = (lines_text (map row lines), Ok tt).
Proof.
  induction bys as [|b bys IH]; intros i lines E; cbn [collapse] in E; [injection E as <-; reflexivity|].
  destruct (collapse_by _ _ _ _ _ _) as [l|] eqn:E1; [|discriminate]. cbn [bind] in E.
  destruct (collapse _ _ _ _ (S i) bys) as [ls|] eqn:E2; [|discriminate]. cbn [bind] in E. injection E as <-.
  cbn [collapse_text]. rewrite (by_text_ok _ _ _ _ _ E1), (IH _ _ E2). unfold go_on. cbn [fst snd].
  rewrite map_app, lines_text_app. reflexivity.
Qed.

Lemma by_text_err T scores i by_ e : collapse_by rnd argsort T scores i by_ = Err e ->
  exists part, begun rnd argsort T scores i by_ e part /\
    collapse_by_text rnd argsort str_label str_float T scores i by_ = (lines_text (map row part), Err e).
Proof.
  unfold collapse_by, collapse_by_text, begun. destruct (by_table _ _ _ _ _ _) as [[tb ix]|e'] eqn:Eb; cbn [bind].
  - intros E. apply write_lines_err in E as (n & part & H1 & (x & H0 & H0') & H2). exists part. split; [|exact H2]. right. exists tb, ix, n, x. auto.
  - intros E. injection E as <-. exists []. split; [left; split; reflexivity|reflexivity].
Qed.

Lemma text_err T scores bys e : forall i, collapse rnd argsort T scores i bys = Err e ->
  exists k by_ done part, nth_error bys k = Some by_ /\ collapse rnd argsort T scores i (firstn k bys) = Ok done /\
    collapse_by rnd argsort T scores (i + k) by_ = Err e /\ begun rnd argsort T scores (i + k) by_ e part /\
    collapse_text rnd argsort str_label str_float T scores i bys = (lines_text (map row (done ++ part)), Err e).
Proof.
  induction bys as [|b bys IH]; intros i E; cbn [collapse] in E; [discriminate|].
  destruct (collapse_by rnd argsort T scores i b) as [l|e'] eqn:E1; cbn [bind] in E.
  - destruct (collapse rnd argsort T scores (S i) bys) as [ls|e'] eqn:E2; cbn [bind] in E; [discriminate|]. injection E as ->.
    destruct (IH (S i) E2) as (k & by_ & done & part & H1 & H2 & H3 & H4 & H5).
    exists (S k), by_, (l ++ done), part. split; [exact H1|]. split.
    { cbn [firstn collapse]. rewrite E1. cbn [bind]. rewrite H2. reflexivity. }
    rewrite <- Nat.add_succ_comm. split; [exact H3|]. split; [exact H4|].
    cbn [collapse_text]. rewrite (by_text_ok _ _ _ _ _ E1), H5. unfold go_on. cbn [fst snd].
    rewrite <- app_assoc, (map_app row l), lines_text_app. reflexivity.
  - injection E as ->. destruct (by_text_err _ _ _ _ _ E1) as (part & H1 & H2).
    exists 0%nat, b, [], part. split; [reflexivity|]. split; [reflexivity|]. rewrite Nat.add_0_r.
    split; [exact E1|]. split; [exact H1|]. cbn [collapse_text]. rewrite H2. reflexivity.
Qed.

Lemma rows_fields lines : Forall (line_fields str_label str_float) lines -> Forall (Forall field) (map row lines).
Proof.
  intros F. apply Forall_map. eapply Forall_impl; [|exact F]. intros ln (H1 & H2 & H3). unfold row.
  apply Forall_app. split; [apply Forall_map; exact H1|]. constructor; [exact H2|constructor; [exact H3|constructor; [apply int_field|constructor]]].
Qed.

Lemma rows_some lines : Forall (fun r => r <> []) (map row lines).
Proof. apply Forall_map, Forall_forall. intros ln _ E. apply app_eq_nil in E as [_ E]. discriminate. Qed.

Lemma rows_of lines : Forall2 (row_of str_label str_float) lines (map row lines).
Proof.
  induction lines as [|ln lines IH]; constructor; [|exact IH]. exists (str_int (l_n ln)). split; [reflexivity|apply int_read].
Qed.

Lemma table_read names lines : Forall field names -> Forall (line_fields str_label str_float) lines ->
  table_of (header_text names ++ lines_text (map row lines))%string =
    Some ((names ++ ["by"; "score"; "n"]%string) :: map row lines).
Proof.
  intros Hn Hl. rewrite header_lines, <- lines_text_app. cbn [app]. apply table_of_lines.
  - constructor; [|apply rows_fields; exact Hl]. apply Forall_app. split; [exact Hn|].
    constructor; [|constructor; [|constructor; [|constructor]]]; intros c Hc; cbn in Hc; repeat (destruct Hc as [<-|Hc]; [split; discriminate|]); destruct Hc.
  - constructor; [|apply rows_some]. intros E. apply app_eq_nil in E as [_ E]. discriminate.
Qed.

(** The result file of an analysis that succeeds. *)
Theorem result_text T scores names lines : analyze rnd argsort T scores = Ok (names, lines) ->
  Forall field names -> Forall (line_fields str_label str_float) lines ->
  exists text rows, analyze_text rnd argsort str_label str_float T scores = (text, Ok tt) /\
    table_of text = Some ((names ++ ["by"; "score"; "n"]%string) :: rows) /\
    Forall2 (row_of str_label str_float) lines rows.
Proof.
  unfold analyze, analyze_text. destruct (nth_res _ _) as [g|]; [|discriminate]. cbn [bind].
  destruct (collapse _ _ _ _ _ _) as [ls|] eqn:E; [|discriminate]. cbn [bind]. intros H Hn Hl. injection H as <- <-.
  rewrite (text_ok _ _ _ _ _ E). unfold go_on. cbn [fst snd]. eexists _, (map row ls). split; [reflexivity|].
  split; [apply table_read; assumption|apply rows_of].
Qed.

(** The result file of an analysis that fails. *)
Theorem failed_text T scores e : analyze rnd argsort T scores = Err e ->
  (a_groups T = [] /\ e = IndexError /\ analyze_text rnd argsort str_label str_float T scores = (EmptyString, Err e)) \/
  exists g k by_ done part,
    nth_error (map snd (a_groups T)) 0 = Some g /\ nth_error (a_bys T) k = Some by_ /\
    collapse rnd argsort T scores 0 (firstn k (a_bys T)) = Ok done /\
    collapse_by rnd argsort T scores k by_ = Err e /\ begun rnd argsort T scores k by_ e part /\
    exists text, analyze_text rnd argsort str_label str_float T scores = (text, Err e) /\
      (Forall field (g_names g) -> Forall (line_fields str_label str_float) (done ++ part) ->
       exists rows, table_of text = Some ((g_names g ++ ["by"; "score"; "n"]%string) :: rows) /\
         Forall2 (row_of str_label str_float) (done ++ part) rows).
Proof.
  unfold analyze, analyze_text. destruct (a_groups T) as [|[nm g] gs] eqn:Eg.
  - cbn. intros E. injection E as <-. left. repeat split.
  - cbn [map nth_res nth_error bind]. unfold nth_res. cbn [nth_error bind snd].
    destruct (collapse rnd argsort T scores 0 (a_bys T)) as [ls|e'] eqn:E; cbn [bind]; [discriminate|]. intros H. injection H as ->. right.
    destruct (text_err _ _ _ _ _ E) as (k & by_ & done & part & H1 & H2 & H3 & H4 & H5).
    exists g, k, by_, done, part. split; [reflexivity|]. split; [exact H1|]. split; [exact H2|]. split; [exact H3|]. split; [exact H4|].
    rewrite H5. unfold go_on. cbn [fst snd]. eexists. split; [reflexivity|]. intros Hn Hl.
    exists (map row (done ++ part)). split; [apply table_read; assumption|apply rows_of].
Qed.

End Text.
