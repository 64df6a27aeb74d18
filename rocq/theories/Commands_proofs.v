From Coq Require Import Ascii String List Bool ZArith Lia Reals.
From Verif Require Import Prelude Text PyCall Dtw Metrics DefaultDistance DistanceCommand RunAll Commands_spec.
Import ListNotations.
Local Open Scope string_scope.


Lemma split_on_none c s : no_char c s -> split_on c s = [s].
Proof.
  induction s as [|a s IH]; intros H; [reflexivity|]. apply all_chars_cons in H. destruct H as [Ha H].
  cbn [split_on]. rewrite (IH H). destruct (Ascii.eqb_spec a c); [contradiction|reflexivity].
Qed.

Lemma split_on_app c s t : no_char c s -> split_on c (s ++ String c t) = s :: split_on c t.
Proof.
  induction s as [|a s IH]; intros H.
  - cbn. rewrite Ascii.eqb_refl. reflexivity.
  - apply all_chars_cons in H. destruct H as [Ha H]. cbn [append split_on]. rewrite (IH H).
    destruct (Ascii.eqb_spec a c); [contradiction|reflexivity].
Qed.

(** The two first parts of the name. *)
Lemma choose_parts m f rest : no_char "." m -> no_char "." f -> (rest = "" \/ exists r, rest = String "." r) ->
  choose (Some (m ++ "." ++ f ++ rest)) = Ok (Imported (fst (path_split m)) (snd (path_split m)) f).
Proof.
  intros Hm Hf Hr. unfold choose.
  assert (D : forall w, no_char "." w -> String.eqb (m ++ "." ++ f ++ rest) w = false).
  { intros w Hw. apply String.eqb_neq. intros <-. apply all_chars_app in Hw. destruct Hw as [_ Hw].
    apply all_chars_cons in Hw. destruct Hw as [Hw _]. congruence. }
  rewrite !D by (repeat constructor; discriminate).
  assert (E : exists ts, split_on "." (m ++ "." ++ f ++ rest) = m :: f :: ts).
  { change ("." ++ f ++ rest) with (String "." (f ++ rest)). rewrite split_on_app by exact Hm.
    destruct Hr as [-> | (r & ->)].
    - rewrite app_nil_s, split_on_none by exact Hf. eexists. reflexivity.
    - rewrite split_on_app by exact Hf. eexists. reflexivity. }
  destruct E as (ts & ->). cbn [nth_res nth_error bind]. destruct (path_split m). reflexivity.
Qed.

Lemma choose_names : choose None = Ok Default /\ choose (Some "") = Ok Default /\
  choose (Some "levenshtein") = Ok Levenshtein /\ choose (Some "dtw_kl") = Ok DtwKl.
Proof. repeat split. Qed.

Lemma choose_no_dot d : no_char "." d -> d <> "" -> d <> "levenshtein" -> d <> "dtw_kl" -> choose (Some d) = Err IndexError.
Proof.
  intros H N1 N2 N3. unfold choose. rewrite !(proj2 (String.eqb_neq _ _)) by assumption.
  rewrite split_on_none by exact H. reflexivity.
Qed.

(** Paths. *)
Lemma path_split_plain m : no_char "/" m -> path_split m = ("", m).
Proof.
  intros H. unfold path_split. rewrite rfind1_none by exact H. rewrite Nat.sub_0_r.
  assert (E : forall s, substring 0 0 s = "") by (intros []; reflexivity). rewrite E. cbn [list_ascii_of_string forallb].
  f_equal. rewrite <- (app_nil_s m) at 2. apply substring_prefix.
Qed.

Lemma rstrip_keep c s a : a <> c -> rstrip c (s ++ String a "") = s ++ String a "".
Proof.
  intros N. induction s as [|b s IH]; cbn.
  - destruct (Ascii.eqb_spec a c); [contradiction|reflexivity].
  - rewrite IH. destruct s; reflexivity.
Qed.

Lemma rstrip_last c s : rstrip c (s ++ String c "") = rstrip c s.
Proof.
  induction s as [|b s IH]; cbn; [rewrite Ascii.eqb_refl; reflexivity|]. rewrite IH. reflexivity.
Qed.

Lemma path_split_dir d a m : a <> "/"%char -> no_char "/" m -> path_split ((d ++ String a "") ++ "/" ++ m) = (d ++ String a "", m).
Proof.
  intros Na Hm. set (dir := d ++ String a ""). unfold path_split.
  assert (R : rfind1 "/" (dir ++ "/" ++ m) = S (String.length dir)).
  { change ("/" ++ m) with (String "/" "" ++ m). rewrite <- app_assoc_s. rewrite rfind1_app by exact Hm. apply rfind1_last. }
  rewrite R.
  assert (H1 : substring 0 (S (String.length dir)) (dir ++ "/" ++ m) = dir ++ "/").
  { change ("/" ++ m) with (String "/" "" ++ m). rewrite <- app_assoc_s.
    replace (S (String.length dir)) with (String.length (dir ++ "/")) by (rewrite append_length; cbn; lia).
    apply substring_prefix. }
  assert (H2 : substring (S (String.length dir)) (String.length (dir ++ "/" ++ m) - S (String.length dir)) (dir ++ "/" ++ m) = m).
  { change ("/" ++ m) with (String "/" "" ++ m). rewrite <- app_assoc_s.
    rewrite substring_skip by (rewrite append_length; cbn; lia).
    replace (String.length ((dir ++ String "/" "") ++ m) - S (String.length dir)) with (String.length m)
      by (rewrite !append_length; cbn; lia).
    rewrite <- (app_nil_s m) at 2. apply substring_prefix. }
  rewrite H1, H2.
  assert (F : forallb (Ascii.eqb "/") (list_ascii_of_string (dir ++ "/")) = false).
  { apply not_true_is_false. intros F. rewrite forallb_forall in F.
    assert (I : In a (list_ascii_of_string (dir ++ "/"))).
    { unfold dir. clear. induction d as [|b d IH]; cbn; [left; reflexivity|right; exact IH]. }
    apply F in I. apply Ascii.eqb_eq in I. congruence. }
  rewrite F. f_equal. rewrite rstrip_last. unfold dir. apply rstrip_keep. exact Na.
Qed.

Lemma choose_plain m f : no_char "." m -> no_char "/" m -> no_char "." f ->
  choose (Some (m ++ "." ++ f)) = Ok (Imported "" m f).
Proof.
  intros H1 H2 H3. rewrite <- (app_nil_s f) at 1. rewrite choose_parts by auto. rewrite path_split_plain by exact H2. reflexivity.
Qed.

Lemma choose_dir d a m f : a <> "/"%char -> no_char "." d -> a <> "."%char -> no_char "." m -> no_char "/" m -> no_char "." f ->
  choose (Some ((d ++ String a "") ++ "/" ++ m ++ "." ++ f)) = Ok (Imported (d ++ String a "") m f).
Proof.
  intros Na Hd Ma H1 H2 H3. rewrite <- (app_nil_s f) at 1.
  replace ((d ++ String a "") ++ "/" ++ m ++ "." ++ f ++ "") with (((d ++ String a "") ++ "/" ++ m) ++ "." ++ f ++ "")
    by (rewrite !app_assoc_s; reflexivity).
  rewrite choose_parts.
  - rewrite path_split_dir by assumption. reflexivity.
  - change (all_chars (fun b => b <> "."%char) ((d ++ String a "") ++ "/" ++ m)). rewrite !all_chars_app. repeat split; try assumption; repeat constructor; try discriminate; assumption.
  - exact H3.
  - left. reflexivity.
Qed.

Lemma choose_dotted : choose (Some "./mydistances.cosine") = Ok (Imported "" "" "/mydistances") /\
  choose (Some "/home/v1.0/mydistances.cosine") = Ok (Imported "/home" "v1" "0/mydistances").
Proof. split; vm_compute; reflexivity. Qed.

(** ** The command *)
Section Command.
Variables D C : Type.
Variables dd ed kd : D.
Variable import : string -> string -> string -> res D.
Variable compute : DistanceCommand.call D -> files C -> files C * res unit.

Local Notation fn := (function_of dd ed kd import).

Lemma cleared (args : options) (fs : files C) :
  without fs (match fs (o_output args) with Some _ => remove fs (o_output args) | None => fs end) (o_output args).
Proof.
  split.
  - destruct (fs (o_output args)) eqn:G; [|exact G]. unfold remove. rewrite String.eqb_refl. reflexivity.
  - intros n Hn. destruct (fs (o_output args)); [|reflexivity]. unfold remove. apply String.eqb_neq in Hn. rewrite Hn. reflexivity.
Qed.

Lemma main_runs args fs ch d : o_distance args <> None \/ o_normalization args <> None ->
  choose (o_distance args) = Ok ch -> fn ch = Ok d ->
  exists fs', without fs fs' (o_output args) /\
  DistanceCommand.main dd ed kd import compute args fs =
  let r := compute (mk_call (o_features args) (o_group args) (o_task args) (o_output args) d (o_normalization args) (o_njobs args)) fs' in
  (fst r, match snd r with Ok _ => Returned | Err e => Raised e end).
Proof.
  intros N E F. eexists. split; [apply cleared|]. unfold DistanceCommand.main, run. rewrite E. cbn [bind].
  assert (Q : match ch with
              | Default => Ok dd | Levenshtein => Ok ed | DtwKl => Ok kd
              | Imported path module f => import path module f end = Ok d) by (destruct ch; exact F).
  rewrite Q. cbv zeta.
  destruct (o_distance args), (o_normalization args); try (destruct N; congruence); destruct (compute _ _); reflexivity.
Qed.

Lemma main_fails args fs e : o_distance args <> None \/ o_normalization args <> None ->
  (ch <- choose (o_distance args) ;; fn ch) = Err e ->
  exists fs', without fs fs' (o_output args) /\ DistanceCommand.main dd ed kd import compute args fs = (fs', Raised e).
Proof.
  intros N E. eexists. split; [apply cleared|]. unfold DistanceCommand.main, run.
  assert (Q : (ch <- choose (o_distance args) ;;
              match ch with
              | Default => Ok dd | Levenshtein => Ok ed | DtwKl => Ok kd
              | Imported path module f => import path module f end) = Err e) by exact E.
  rewrite Q. destruct (o_distance args), (o_normalization args); try reflexivity. destruct N; congruence.
Qed.

Lemma main_exits args fs : o_distance args = None -> o_normalization args = None ->
  exists fs', without fs fs' (o_output args) /\ DistanceCommand.main dd ed kd import compute args fs = (fs', Exited).
Proof. intros E1 E2. eexists. split; [apply cleared|]. unfold DistanceCommand.main. rewrite E1, E2. reflexivity. Qed.

End Command.

(** ** The keyword [normalized] *)
Lemma calls empty eval (x y : mat) :
  (forall b, call_default empty (Some b) x y = default_distance empty x y b) /\
  call_default empty None x y = Err TypeError /\
  (forall b, call_kl empty (Some b) x y = (r <- dtw_kl_distance empty [x; y] 0 1 b ;; Ok (snd r))) /\
  call_kl empty None x y = (r <- dtw_kl_distance empty [x; y] 0 1 true ;; Ok (snd r)) /\
  (forall b, call_edit eval (Some b) x y = Err TypeError) /\
  call_edit eval None x y = edit_distance eval x y.
Proof. repeat split. Qed.

Lemma edit_value eval (x y : mat) :
  (m_rows x <> [] -> m_rows y <> [] -> edit_distance eval x y = Ok (Value (eval (m_rows x) (m_rows y)))) /\
  (m_rows x = [] -> m_rows y = [] -> edit_distance eval x y = Ok (Value (Some 0%R))) /\
  (m_rows x = [] -> m_rows y <> [] -> edit_distance eval x y = Ok Infinite) /\
  (m_rows x <> [] -> m_rows y = [] -> edit_distance eval x y = Ok Infinite).
Proof.
  unfold edit_distance, frames. destruct (m_rows x), (m_rows y); repeat split; intros; try congruence.
Qed.

(** ** The program that runs the four steps *)
Section RunAll.
Variable St : Type.
Variable body : callee -> list pyval -> St -> St * res unit.
Variable show : pyval -> string.
Variable exists_ : St -> string -> bool.
Variable load_json : St -> string -> res dict.

Lemma assoc_in (V : Type) (d : list (string * V)) k v : NoDup (map fst d) -> In (k, v) d -> assoc d k = Some v.
Proof.
  induction d as [|[k' v'] d IH]; cbn [assoc map fst]; intros N I; [destruct I|destruct I as [E|H]].
  - injection E as -> ->. rewrite String.eqb_refl. reflexivity.
  - inversion N as [|? ? A B]; subst. destruct (String.eqb_spec k k') as [-> |_].
    + destruct A. apply (in_map fst) in H. exact H.
    + apply IH; assumption.
Qed.

Lemma assoc_some (V : Type) (d : list (string * V)) k v : assoc d k = Some v -> In (k, v) d.
Proof.
  induction d as [|[k' v'] d IH]; cbn [assoc]; [discriminate|].
  destruct (String.eqb_spec k k') as [-> |_]; intros E; [injection E as ->; left; reflexivity|right; auto].
Qed.

Lemma test_analyze_raises itemfile featurefile args taskfile distance distancefile scorefile analyzefile filename st :
  let r := test_analyze body show itemfile featurefile args taskfile distance distancefile scorefile analyzefile filename st in
  ((forall v, In ("on", v) args -> v = PNone \/ v = PStr "" \/ v = PList []) -> r = (st, Err AssertionError)) /\
  (NoDup (map fst args) ->
   forall v, In ("on", v) args -> v <> PNone -> v <> PStr "" -> v <> PList [] -> r = (st, Err TypeError)).
Proof.
  intros r. subst r. unfold test_analyze, get_arg. split.
  - intros H. destruct (assoc args "on") as [v|] eqn:E; [|reflexivity].
    apply assoc_some in E. destruct (H v E) as [-> |[-> | ->]]; reflexivity.
  - intros N v I H1 H2 H3. rewrite (@assoc_in _ _ _ _ N I).
    destruct v as [|s|l|f]; cbn [truthy].
    + destruct H1; reflexivity.
    + destruct (String.eqb_spec s "") as [-> |_]; [destruct H2; reflexivity|reflexivity].
    + destruct l; [destruct H3; reflexivity|reflexivity].
    + reflexivity.
Qed.

Lemma run_all_raises v st :
  RunAll.main body show exists_ load_json v st
  = (st, Err (if exists_ st (v_itemfile v) && exists_ st (v_featurefile v) then KeyError else AssertionError)).
Proof.
  unfold RunAll.main. cbn. destruct (exists_ st (v_itemfile v)); [|reflexivity]. cbn.
  destruct (exists_ st (v_featurefile v)); reflexivity.
Qed.

End RunAll.
