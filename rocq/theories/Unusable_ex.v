(** Two filters that are accepted and cannot be evaluated, used by Props_Unusable.v. *)
From Coq Require Import Ascii String.
From Verif Require Import Prelude Task Task_ex Tree SideOps SideOps_spec SideOps_unusable_spec SideOps_proofs SideOps_ex.
Open Scope string_scope.
Open Scope list_scope.

(** [[n > lang for n, lang in zip(n, lang)]]. *)
Definition ux_by : manager :=
  get_or (filter_manager hx_forest "phone" ["talker"] ["lang"] [DBfun_Compute ["n"; "lang"] (fun e => e "lang" <? e "n")%Z]) (empty_manager (mk_columns [] [] [] [])).

Lemma ux_by_ok : filter_manager hx_forest "phone" ["talker"] ["lang"] [DBfun_Compute ["n"; "lang"] (fun e => e "lang" <? e "n")%Z] = Ok ux_by.
Proof. unfold ux_by. apply get_ok. vm_compute. reflexivity. Qed.

Lemma ux_some_by : some_by (m_cols ux_by) ["n"; "lang"] /\ some_plain (m_cols ux_by) ["n"; "lang"].
Proof.
  split.
  - exists "lang", "lang", "". vm_compute. tauto.
  - exists "n", "n". vm_compute. intuition discriminate.
Qed.

(** [[n1 > n2 for n1, n2 in zip(n_AB, n_X)]]. *)
Definition ux_AB : manager :=
  get_or (filter_manager hx_forest "phone" ["talker"] ["lang"] [DBfun_Compute ["n_AB"; "n_X"] (fun e => e "n_X" <? e "n_AB")%Z]) (empty_manager (mk_columns [] [] [] [])).

Lemma ux_AB_ok : filter_manager hx_forest "phone" ["talker"] ["lang"] [DBfun_Compute ["n_AB"; "n_X"] (fun e => e "n_X" <? e "n_AB")%Z] = Ok ux_AB.
Proof. unfold ux_AB. apply get_ok. vm_compute. reflexivity. Qed.

Lemma ux_lone_AB : lone_AB (m_cols ux_AB) ["n_AB"; "n_X"].
Proof. exists "n_AB", "n". vm_compute. intuition discriminate. Qed.

(** [[n1 > n2 for n1, n2 in zip(n_A, lang)]]. *)
Definition ux_A : manager :=
  get_or (filter_manager hx_forest "phone" ["talker"] ["lang"] [DBfun_Compute ["n_A"; "lang"] (fun e => e "lang" <? e "n_A")%Z]) (empty_manager (mk_columns [] [] [] [])).

Lemma ux_A_ok : filter_manager hx_forest "phone" ["talker"] ["lang"] [DBfun_Compute ["n_A"; "lang"] (fun e => e "lang" <? e "n_A")%Z] = Ok ux_A.
Proof. unfold ux_A. apply get_ok. vm_compute. reflexivity. Qed.

Lemma ux_plain : Forall plain (all_cols (m_cols ux_A)).
Proof. apply plain_check. vm_compute. reflexivity. Qed.

Lemma ux_A_neither : ~ (some_by (m_cols ux_A) ["n_A"; "lang"] /\ some_plain (m_cols ux_A) ["n_A"; "lang"]) /\ ~ lone_AB (m_cols ux_A) ["n_A"; "lang"].
Proof.
  assert (P : forall n c s c' s', named (m_cols ux_A) n c s -> named (m_cols ux_A) n c' s' -> c = c' /\ s = s').
  { intros n c s c' s' (-> & Hc & Hs) (E & Hc' & Hs'). pose proof ux_plain as Hp. rewrite Forall_forall in Hp. apply extended_unique; auto. }
  assert (N1 : named (m_cols ux_A) "n_A" "n" "_A") by (vm_compute; tauto).
  assert (N2 : named (m_cols ux_A) "lang" "lang" "") by (vm_compute; tauto).
  split.
  - intros [_ (n & c & [<-|[<-|[]]] & N & Hb)].
    + destruct (P _ _ _ _ _ N N1). discriminate.
    + destruct (P _ _ _ _ _ N N2) as [-> _]. apply Hb. vm_compute. tauto.
  - intros (n & c & [<-|[<-|[]]] & N & _).
    + destruct (P _ _ _ _ _ N N1). discriminate.
    + destruct (P _ _ _ _ _ N N2). discriminate.
Qed.
