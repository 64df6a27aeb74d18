From Coq Require Import List Bool Arith Lia Ascii String.
From Verif Require Import Prelude ListFacts Text Any2h5.
Import ListNotations.
Local Open Scope nat_scope.
Local Open Scope list_scope.

Section Proofs.

Variables F T : Type.
Variable load : string -> res (F * T).
Variable write : list (call F T) -> call F T -> res unit.

(** What one call hands over for each file. *)
Definition entries (c : call F T) : list (string * T * F) :=
  combine (combine (fst (fst c)) (snd (fst c))) (snd c).

(** The three lists of a call have the same length. *)
Definition matched (c : call F T) : Prop :=
  List.length (snd (fst c)) = List.length (fst (fst c)) /\
  List.length (snd c) = List.length (fst (fst c)).

Definition size (c : call F T) : nat := List.length (fst (fst c)).

(** The files loaded, as they are to be stored. *)
Definition stored (path : string) (files : list string) : res (list (string * T * F)) :=
  mapM (fun f => d <- load (path_join path f) ;; Ok (splitext f, snd d, fst d)) files.

Definition state_call (s : state F T) : call F T := (s_files s, s_times s, s_features s).

Definition full (n : nat) (c : call F T) : Prop := matched c /\ size c = n.

Lemma entries_snoc ns ts fs n t f :
  matched (ns, ts, fs) ->
  entries (ns ++ [n], ts ++ [t], fs ++ [f]) = entries (ns, ts, fs) ++ [(n, t, f)].
Proof.
  unfold matched, entries. cbn [fst snd]. revert ts fs.
  induction ns as [|x ns IH]; intros [|y ts] [|z fs] (H1 & H2); cbn in *; try lia; [reflexivity|].
  f_equal. apply IH. split; lia.
Qed.

Lemma matched_snoc ns ts fs (n : string) (t : T) (f : F) :
  matched (ns, ts, fs) -> matched (ns ++ [n], ts ++ [t], fs ++ [f]).
Proof.
  unfold matched. cbn [fst snd]. rewrite !app_length. cbn. lia.
Qed.

Hypothesis Hwrite : forall done c, write done c = Ok tt.

Section Batch.

Variable path : string.
Variable n : nat.
Hypothesis Hn : 0 < n.

Lemma loop_ok : forall files s done es,
  stored path files = Ok es -> matched (state_call s) -> s_i s = size (state_call s) ->
  s_i s <= n -> Forall (full n) done ->
  exists done' s', loop load write path n files s done = (done', Ok s') /\
    Forall (full n) done' /\ matched (state_call s') /\ s_i s' = size (state_call s') /\
    s_i s' <= n /\ (files <> [] -> 0 < s_i s') /\ (files = [] -> s' = s) /\
    flat_map entries done' ++ entries (state_call s') =
    flat_map entries done ++ entries (state_call s) ++ es.
Proof.
  induction files as [|f files IH]; intros s done es He Hm Hi Hle Hd.
  - injection He as <-. exists done, s. cbn [loop]. rewrite app_nil_r.
    repeat split; auto; try apply Hm. congruence.
  - cbn [stored mapM] in He. cbn [loop].
    destruct (load (path_join path f)) as [(x, t)|] eqn:El; cbn [bind fst snd] in He; [|discriminate].
    destruct (mapM _ files) as [es'|] eqn:Em; cbn [bind] in He; [|discriminate]. injection He as <-.
    destruct (Nat.eqb_spec (s_i s) n) as [E|Hne].
    + rewrite Hwrite. cbn [fst snd s_features s_times s_files s_i].
      destruct (IH (mk_state ([] ++ [x]) ([] ++ [t]) ([] ++ [splitext f]) (0 + 1))
                   (done ++ [(s_files s, s_times s, s_features s)]) es' Em)
        as (done' & s' & -> & H1 & H2 & H3 & H4 & H5 & H6 & H7).
      * unfold matched. cbn. auto.
      * reflexivity.
      * cbn. lia.
      * apply Forall_app. split; [exact Hd|]. constructor; [|constructor].
        split; [exact Hm|]. unfold state_call in Hi. lia.
      * exists done', s'. repeat split; auto; try apply H2.
        -- intros _. destruct files; [rewrite H6 by reflexivity; cbn; lia|apply H5; discriminate].
        -- discriminate.
        -- rewrite H7, flat_map_app. cbn [flat_map]. rewrite app_nil_r, <- !app_assoc. reflexivity.
    + cbn [fst snd].
      destruct (IH (mk_state (s_features s ++ [x]) (s_times s ++ [t]) (s_files s ++ [splitext f]) (s_i s + 1))
                   done es' Em)
        as (done' & s' & -> & H1 & H2 & H3 & H4 & H5 & H6 & H7).
      * unfold state_call in *. cbn [s_files s_times s_features]. now apply matched_snoc.
      * cbn [s_i]. rewrite Hi. unfold state_call, size. cbn. rewrite app_length. cbn. lia.
      * cbn [s_i]. lia.
      * exact Hd.
      * exists done', s'. repeat split; auto; try apply H2.
        -- intros _. destruct files; [rewrite H6 by reflexivity; cbn; lia|apply H5; discriminate].
        -- discriminate.
        -- rewrite H7. unfold state_call at 1. cbn [s_files s_times s_features].
           rewrite entries_snoc by exact Hm. rewrite <- !app_assoc. reflexivity.
Qed.

Lemma convert_all files es :
  stored path files = Ok es ->
  exists calls, any_to_h5features load write path files n = (calls, Ok tt) /\
    flat_map entries calls = es /\
    Forall (fun c => matched c /\ 0 < size c <= n) calls /\
    (forall c c' pre post, calls = pre ++ c :: c' :: post -> size c = n).
Proof.
  intros He. unfold any_to_h5features.
  destruct (loop_ok files (mk_state [] [] [] 0) [] es He)
    as (done & s & -> & H1 & H2 & H3 & H4 & H5 & H6 & H7); try (cbn; auto; lia).
  { split; reflexivity. }
  change (entries (state_call (mk_state [] [] [] 0))) with (@nil (string * T * F)) in H7.
  cbn [flat_map app] in H7.
  assert (Hfull : Forall (fun c => matched c /\ 0 < size c <= n) done).
  { eapply Forall_impl; [|exact H1]. intros c (Hc & E). split; [exact Hc|lia]. }
  assert (Hsizes : forall c (pre post : list (call F T)), done = pre ++ c :: post -> size c = n).
  { intros c pre post ->. apply Forall_app in H1 as (_ & H1). inversion_clear H1 as [|? ? (_ & Hc) _].
    exact Hc. }
  destruct (s_features s) as [|x fs] eqn:Ef.
  - exists done. split; [reflexivity|]. split; [|split].
    + assert (E : entries (state_call s) = []).
      { unfold entries, state_call. cbn [fst snd]. rewrite Ef.
        generalize (combine (s_files s) (s_times s)). now intros []. }
      rewrite <- H7, E. now rewrite app_nil_r.
    + exact Hfull.
    + intros c c' pre post E. eapply Hsizes; eauto.
  - rewrite Hwrite. exists (done ++ [(s_files s, s_times s, x :: fs)]).
    split; [reflexivity|]. rewrite <- Ef. fold (state_call s). split; [|split].
    + rewrite flat_map_app. cbn [flat_map]. rewrite app_nil_r. exact H7.
    + apply Forall_app. split; [exact Hfull|]. constructor; [|constructor]. split; [exact H2|].
      rewrite <- H3. split; [|exact H4]. apply H5. intros ->. 
      rewrite H6 in Ef by reflexivity. discriminate.
    + intros c c' pre post E.
      assert (Hin : exists post', done = pre ++ c :: post').
      { clear - E. revert pre E. induction done as [|d done IH]; intros pre E.
        - destruct pre as [|p [|]]; discriminate.
        - destruct pre as [|p pre].
          + cbn in E. injection E as <- _. exists done. reflexivity.
          + cbn in E. injection E as <- E. destruct (IH pre E) as (post' & ->). exists post'. reflexivity. }
      destruct Hin as (post' & Hin). eapply Hsizes; eauto.
Qed.

End Batch.

(** A file that cannot be loaded stops the conversion; what was written before is made of
    the files before it. *)
Lemma convert_fails path n files pre f post e es :
  0 < n -> files = pre ++ f :: post -> stored path pre = Ok es -> load (path_join path f) = Err e ->
  exists calls rest, any_to_h5features load write path files n = (calls, Err e) /\
    es = flat_map entries calls ++ rest /\ List.length rest <= n.
Proof.
  intros Hn -> Hs Hf. unfold any_to_h5features.
  assert (G : forall files s done es,
    stored path files = Ok es -> matched (state_call s) -> s_i s = size (state_call s) ->
    s_i s <= n -> Forall (full n) done ->
    exists calls rest, loop load write path n (files ++ f :: post) s done = (calls, Err e) /\
      flat_map entries done ++ entries (state_call s) ++ es = flat_map entries calls ++ rest /\
      List.length rest <= n).
  { clear es Hs pre. induction files as [|g files IH]; intros s done es He Hm Hi Hle Hd.
    - injection He as <-. cbn [app loop].
      assert (Hlen : List.length (entries (state_call s)) = s_i s).
      { rewrite Hi. unfold entries, size. destruct Hm as (M1 & M2).
        rewrite !combine_length. lia. }
      destruct (Nat.eqb_spec (s_i s) n).
      + rewrite Hwrite, Hf. eexists _, []. split; [reflexivity|].
        rewrite flat_map_app. cbn. rewrite !app_nil_r. split; [reflexivity|lia].
      + rewrite Hf. exists done, (entries (state_call s)). split; [reflexivity|].
        rewrite app_nil_r. split; [reflexivity|lia].
    - cbn [stored mapM] in He. cbn [app loop].
      destruct (load (path_join path g)) as [(x, t)|] eqn:El; cbn [bind fst snd] in He; [|discriminate].
      destruct (mapM _ files) as [es'|] eqn:Em; cbn [bind] in He; [|discriminate]. injection He as <-.
      destruct (Nat.eqb_spec (s_i s) n) as [E|Hne].
      + rewrite Hwrite. cbn [fst snd s_features s_times s_files s_i].
        destruct (IH (mk_state ([] ++ [x]) ([] ++ [t]) ([] ++ [splitext g]) (0 + 1))
                   (done ++ [(s_files s, s_times s, s_features s)]) es' Em)
          as (calls & rest & -> & H1 & H2).
        * unfold matched. cbn. auto.
        * reflexivity.
        * cbn. lia.
        * apply Forall_app. split; [exact Hd|]. constructor; [|constructor].
          split; [exact Hm|]. unfold state_call in Hi. lia.
        * exists calls, rest. split; [reflexivity|]. split; [|exact H2]. rewrite <- H1, flat_map_app.
          cbn [flat_map]. rewrite app_nil_r, <- !app_assoc. reflexivity.
      + cbn [fst snd].
      destruct (IH (mk_state (s_features s ++ [x]) (s_times s ++ [t]) (s_files s ++ [splitext g]) (s_i s + 1))
                   done es' Em) as (calls & rest & -> & H1 & H2).
        * unfold state_call in *. cbn [s_files s_times s_features]. now apply matched_snoc.
        * cbn [s_i]. rewrite Hi. unfold state_call, size. cbn. rewrite app_length. cbn. lia.
        * cbn [s_i]. lia.
        * exact Hd.
        * exists calls, rest. split; [reflexivity|]. split; [|exact H2]. rewrite <- H1.
          unfold state_call at 2. cbn [s_files s_times s_features].
          rewrite entries_snoc by exact Hm. rewrite <- !app_assoc. reflexivity. }
  destruct (G pre (mk_state [] [] [] 0) [] es Hs) as (calls & rest & -> & H1 & H2);
    try (cbn; auto; lia).
  { split; reflexivity. }
  exists calls, rest. split; [reflexivity|]. split; [exact H1|exact H2].
Qed.

End Proofs.

(** A file of a folder: name without extension, extension. *)
Definition file_name (stem ext : string) : string := (stem ++ "." ++ ext)%string.

Definition stem_ok (stem : string) : Prop :=
  all_chars (fun c => c <> "/"%char) stem /\ ~ all_chars (fun c => c = "."%char) stem.
Definition ext_ok (ext : string) : Prop :=
  all_chars (fun c => c <> "/"%char /\ c <> "."%char) ext.

Lemma get_last s c : String.get (String.length (s ++ String c "")%string - 1) (s ++ String c "")%string = Some c.
Proof.
  rewrite append_length. cbn [String.length]. replace (String.length s + 1 - 1) with (String.length s) by lia.
  induction s as [|a s IH]; [reflexivity|]. exact IH.
Qed.

Lemma path_join_slash d f : path_join (d ++ "/")%string f = (d ++ "/" ++ f)%string.
Proof.
  unfold path_join.
  assert (E : String.get (String.length (d ++ "/")%string - 1) (d ++ "/")%string = Some "/"%char) by apply get_last.
  rewrite E. rewrite Ascii.eqb_refl. destruct d; [reflexivity|]. cbn [append].
  change (d ++ "/")%string with (d ++ String "/" "")%string. now rewrite app_assoc_s.
Qed.

Lemma path_join_plain d c f : c <> "/"%char ->
  path_join (d ++ String c "")%string f = (d ++ String c "" ++ "/" ++ f)%string.
Proof.
  intros Hc. unfold path_join. rewrite get_last.
  destruct (Ascii.eqb_spec c "/"); [contradiction|].
  destruct (d ++ String c "")%string eqn:E; [destruct d; discriminate|].
  rewrite <- E. now rewrite app_assoc_s.
Qed.

Lemma splitext_file stem ext : stem_ok stem -> ext_ok ext -> splitext (file_name stem ext) = stem.
Proof.
  intros (H1 & H2) H3. apply (splitext_ext "" stem ext); auto. left. reflexivity.
Qed.

(** The folder as a prefix of the paths of its files. *)
Inductive prefix : string -> string -> Prop :=
| prefix_none : prefix "" ""
| prefix_slash d : prefix (d ++ "/") (d ++ "/")
| prefix_plain d c : c <> "/"%char -> prefix (d ++ String c "") (d ++ String c "" ++ "/").

Lemma path_join_prefix path p f : prefix path p -> path_join path f = (p ++ f)%string.
Proof.
  intros [|d|d c Hc].
  - reflexivity.
  - rewrite path_join_slash. now rewrite app_assoc_s.
  - rewrite path_join_plain by exact Hc. now rewrite !app_assoc_s.
Qed.

Lemma stored_files F T (load : string -> res (F * T)) path p (fs : list (string * string * F * T)) :
  prefix path p ->
  Forall (fun x => let '(stem, ext, ft, tm) := x in
                   stem_ok stem /\ ext_ok ext /\
                   load (p ++ file_name stem ext)%string = Ok (ft, tm)) fs ->
  stored F T load path (map (fun x => let '(stem, ext, _, _) := x in file_name stem ext) fs) =
  Ok (map (fun x => let '(stem, ext, ft, tm) := x in (stem, tm, ft)) fs).
Proof.
  intros Hp H. induction H as [|(((stem, ext), ft), tm) fs (H1 & H2 & H3) H IH]; [reflexivity|].
  unfold stored in *. cbn [map mapM]. rewrite (path_join_prefix _ _ _ Hp), H3. cbn [bind fst snd].
  rewrite IH. cbn [bind]. now rewrite splitext_file.
Qed.

Lemma convert_files F T (load : string -> res (F * T)) write path p n fs :
  (forall done c, write done c = Ok tt) -> 0 < n -> prefix path p ->
  Forall (fun x => let '(stem, ext, ft, tm) := x in
                   stem_ok stem /\ ext_ok ext /\
                   load (p ++ file_name stem ext)%string = Ok (ft, tm)) fs ->
  exists calls,
    any_to_h5features load write path
      (map (fun x => let '(stem, ext, _, _) := x in file_name stem ext) fs) n = (calls, Ok tt) /\
    flat_map (entries F T) calls = map (fun x => let '(stem, ext, ft, tm) := x in (stem, tm, ft)) fs /\
    Forall (fun c => matched F T c /\ 0 < size F T c <= n) calls /\
    (forall c c' pre post, calls = pre ++ c :: c' :: post -> size F T c = n).
Proof.
  intros Hw Hn Hp H. apply convert_all; auto. eapply stored_files; eauto.
Qed.
