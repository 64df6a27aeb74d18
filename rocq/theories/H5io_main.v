(** The datasets written by H5IO. *)
From Coq Require Import String.
From Coq Require Import List ZArith Lia.
From Verif Require Import Prelude ListFacts TypeFitting TypeFitting_proofs Distances Distances_proofs H5io H5io_spec
  H5io_proofs H5io_keys.
Import ListNotations.
Local Open Scope Z_scope.
Local Open Scope list_scope.

Section Main.
Variable V : Type.
Variable veq : forall x y : V, {x = y} + {x <> y}.
Variable H : h5io V.
Hypothesis Hd : declared_ok H.
Variable w : string -> nat.
Variable bs : list ((input V * bool) * nat).
Hypothesis Hne : bs <> [].
Hypothesis Hbs : Forall (fun bn => batch_ok V veq H w (fst bn) (snd bn)) bs.

Definition all_rows (s : string) : list (list Z) := concat (map (fun bn => matrix V veq H (fst bn) s) bs).
Definition total : nat := sumn (map snd bs).

Lemma all_rows_length s : In s (h_managed H) -> length (all_rows s) = total.
Proof.
  intros Hs. unfold all_rows, total. rewrite length_concat, map_map. f_equal. apply map_ext_in. intros bn Hin.
  apply (b_rows _ _ _ _ _ _ (proj1 (Forall_forall _ _) Hbs bn Hin) s Hs).
Qed.

Lemma all_rows_width s r : In s (h_managed H) -> In r (all_rows s) -> length r = w s.
Proof.
  intros Hs Hr. unfold all_rows in Hr. apply in_concat in Hr. destruct Hr as (m & Hm & Hr).
  apply in_map_iff in Hm. destruct Hm as (bn & <- & Hin).
  apply (b_rows _ _ _ _ _ _ (proj1 (Forall_forall _ _) Hbs bn Hin) s Hs). exact Hr.
Qed.

Lemma sides_nth names : (forall s, In s names -> In s (h_managed H)) ->
  sides V veq H names bs = map (fun k => concat (map (fun s => nth k (all_rows s) []) names)) (seq 0 total).
Proof.
  intros Hn. unfold sides, all_rows, total. pose proof Hbs as F. clear Hne Hbs. induction F as [|[b n] bs' B Bs IH]; [reflexivity|].
  cbn [map concat fst snd]. change (sumn (n :: map snd bs')) with (n + sumn (map snd bs'))%nat.
  rewrite seq_app, map_app, IH. f_equal.
  - unfold side. apply map_ext_in. intros k Hk. apply in_seq in Hk. f_equal. apply map_ext_in. intros s Hs.
    rewrite app_nth1; [reflexivity|]. destruct (b_rows _ _ _ _ _ _ B s (Hn s Hs)) as [L _]. cbn [fst snd] in L. lia.
  - cbn [plus].
    assert (G : forall m, seq n m = map (fun k => (n + k)%nat) (seq 0 m)).
    { clear. intros m. rewrite <- (Nat.add_0_r n) at 1. generalize 0%nat as a. induction m as [|m IHm]; intros a; [reflexivity|].
      cbn. f_equal. rewrite <- IHm. f_equal. lia. }
    rewrite G, map_map. apply map_ext_in. intros k Hk. f_equal. apply map_ext_in. intros s Hs.
    destruct (b_rows _ _ _ _ _ _ B s (Hn s Hs)) as [L _]. cbn [fst snd] in L.
    rewrite app_nth2 by lia. f_equal. lia.
Qed.

Definition in_range : Prop := forall s index r x, index_for H s index -> In r (all_rows s) -> In x r ->
  0 <= x < Z.of_nat (length index).
Hypothesis Hrange : in_range.

Lemma concat_eq names k k' : (forall s, In s names -> In s (h_managed H)) -> (k < total)%nat -> (k' < total)%nat ->
  (concat (map (fun s => nth k (all_rows s) []) names) = concat (map (fun s => nth k' (all_rows s) []) names) <->
   forall s, In s names -> nth k (all_rows s) [] = nth k' (all_rows s) []).
Proof.
  intros Hn Hk Hk'. split.
  - induction names as [|s names IH]; intros E s' Hs'; [destruct Hs'|]. cbn [map concat] in E.
    assert (Hs : In s (h_managed H)) by (apply Hn; left; reflexivity).
    pose proof (all_rows_length s Hs) as L.
    assert (W : forall i, (i < total)%nat -> length (nth i (all_rows s) []) = w s).
    { intros i Hi. apply (all_rows_width s _ Hs). apply nth_In. lia. }
    assert (E1 : nth k (all_rows s) [] = nth k' (all_rows s) [] /\
                 concat (map (fun s => nth k (all_rows s) []) names) = concat (map (fun s => nth k' (all_rows s) []) names)).
    { apply (f_equal (firstn (w s))) in E as E1. apply (f_equal (skipn (w s))) in E as E2.
      rewrite <- (W k Hk) in E1 at 1. rewrite <- (W k' Hk') in E1.
      rewrite <- (W k Hk) in E2 at 1. rewrite <- (W k' Hk') in E2.
      rewrite !firstn_app, !firstn_all, !Nat.sub_diag, !firstn_O, !app_nil_r in E1.
      rewrite !skipn_app, !skipn_all, !Nat.sub_diag in E2. cbn [app skipn] in E2. auto. }
    destruct E1 as [E1 E2]. destruct Hs' as [<-|Hs']; [exact E1|].
    apply IH; auto. intros x Hx. apply Hn. right. exact Hx.
  - intros E. f_equal. apply map_ext_in. exact E.
Qed.

Lemma maxZ_ge l x : In x l -> x <= maxZ l.
Proof. induction l as [|y l IH]; [intros []|]. intros [->|Hx]; cbn; [lia|]. specialize (IH Hx). unfold maxZ in IH. lia. Qed.

Lemma write_all_ok : exists o, write_all veq H None (map fst bs) = Ok (Some o) /\
  (forall s, In s (h_raw H) -> In (s, all_rows s) (o_raw o)) /\
  (h_non_fused H <> [] -> exists t, o_indexed o =
     Some (t, map (fun k => concat (map (fun s => nth k (all_rows s) []) (h_non_fused H))) (seq 0 total))) /\
  (forall f members levels, In (f, members) (h_fused H) -> In (f, levels) (h_nb_levels H) ->
     combinations w members levels <= 2 ^ 64 ->
     exists fo, In (f, fo) (o_fused o) /\ length (f_keys fo) = total /\
       forall k k', (k < total)%nat -> (k' < total)%nat ->
         (nth k (f_keys fo) 0 = nth k' (f_keys fo) 0 <->
          forall s, In s members -> nth k (all_rows s) [] = nth k' (all_rows s) [])).
Proof.
  destruct (write_ok V veq H Hd w bs Hne Hbs) as (o & E & S). exists o. split; [exact E|]. split; [|split].
  - intros s Hs. rewrite (st_raw _ _ _ _ _ _ S). apply in_map_iff. exists s. split; [reflexivity|exact Hs].
  - intros Hnf. pose proof (st_indexed _ _ _ _ _ _ S) as Si. destruct (o_indexed o) as [[t rows]|]; [|congruence].
    destruct Si as (_ & -> & levels & El & Et). exists t. do 2 f_equal.
    rewrite (sides_nth (h_non_fused H) (non_fused_managed V H Hd)). rewrite map_map. apply map_ext_in. intros k Hk.
    apply in_seq in Hk. rewrite <- (map_id (concat _)) at 2. apply map_ext_in. intros x Hx.
    apply in_concat in Hx. destruct Hx as (r & Hr & Hx). apply in_map_iff in Hr. destruct Hr as (s & <- & Hs).
    pose proof (k_non_fused Hd _ Hs) as Hi. destruct (k_index Hd _ _ Hi) as (Hm & l & Hl).
    assert (B : 0 <= x < Z.of_nat (length l)).
    { apply (Hrange s l (nth k (all_rows s) []) x); [exists s; auto| |exact Hx]. apply nth_In. rewrite (all_rows_length s Hm). lia. }
    apply (fit_cast _ _ _ _ Et). split; [lia|].
    assert (Z.of_nat (length l) <= maxZ levels); [|lia]. apply maxZ_ge.
    apply mapM_forall2 in El. destruct (Forall2_in_l _ _ _ _ _ s El Hs) as (y & Hy & Ey).
    rewrite (lookup_NoDup _ _ _ _ (k_indexes Hd) Hl) in Ey. cbn [bind] in Ey. injection Ey as <-. exact Hy.
  - intros f members levels Hf Hlv Hc. pose proof (st_fused _ _ _ _ _ _ S) as F.
    destruct (Forall2_in_l _ _ _ _ _ (f, members) F Hf) as ([f' fo] & Hfo & (E1 & levels' & E2 & E3)).
    cbn [fst snd] in *. subst f'.
    assert (Hnd : NoDup (map fst (h_nb_levels H))) by (rewrite (k_nb_levels Hd); apply (k_fused Hd)).
    rewrite (lookup_NoDup _ _ _ _ Hnd Hlv) in E2. injection E2 as <-.
    unfold fused_of in E3. destruct (fit_integer_type _ false) as [t|e] eqn:Et; cbn [bind] in E3; [|discriminate].
    injection E3 as <-. cbn [fst snd] in Et. exists (mk_fused t (1 :: removelast (cumprod 1 (flat_map (fun p => repeat (cast t (fst p)) (snd p)) (combine levels (map w members))))) (map (cast t)
      (compute_keys (1 :: removelast (cumprod 1 (flat_map (fun p => repeat (cast t (fst p)) (snd p)) (combine levels (map w members))))) (sides V veq H members bs)))).
    split; [exact Hfo|]. cbn [f_keys].
    assert (Hmm : forall s, In s members -> In s (h_managed H)) by (intros s; apply (member_managed V H Hd _ _ _ Hf)).
    set (row := fun k => concat (map (fun s => nth k (all_rows s) []) members)).
    assert (Hrow : forall k, (k < total)%nat -> Forall2 under (spread (combine levels (map w members))) (row k)).
    { intros k Hk. unfold row. pose proof (k_nb Hd _ _ _ Hf Hlv) as Fl.
      assert (Hg : forall s, In s members -> length (nth k (all_rows s) []) = w s /\
                     forall index x, index_for H s index -> In x (nth k (all_rows s) []) -> 0 <= x < Z.of_nat (length index)).
      { intros s Hs. pose proof (all_rows_length s (Hmm s Hs)) as L. assert (Hin : In (nth k (all_rows s) []) (all_rows s)) by (apply nth_In; lia).
        split; [apply (all_rows_width s _ (Hmm s Hs) Hin)|]. intros index x Hix Hx. apply (Hrange s index _ x Hix Hin Hx). }
      clear -Fl Hg. induction Fl as [|s n members levels (ix & l & Hi & Hl & ->) F IH]; [constructor|].
      cbn [map combine concat]. unfold spread. cbn [flat_map fst snd]. apply Forall2_app.
      - destruct (Hg s (or_introl eq_refl)) as [L B]. rewrite <- L. specialize (B l).
        assert (Hix : index_for H s l) by (exists ix; auto). specialize (fun x => B x Hix). clear -B.
        induction (nth k (all_rows s) []) as [|x r IHr]; cbn; constructor; [apply B; left; reflexivity|].
        apply IHr. intros y Hy. apply B. right. exact Hy.
      - apply IH. intros s' Hs'. apply Hg. right. exact Hs'. }
    assert (Hst : sides V veq H members bs = map row (seq 0 total)) by (apply sides_nth; exact Hmm).
    assert (Hk1 : length (map (cast t) (compute_keys (1 :: removelast (cumprod 1 (flat_map (fun p => repeat (cast t (fst p)) (snd p)) (combine levels (map w members))))) (sides V veq H members bs))) = total).
    { unfold compute_keys. rewrite !map_length, Hst, map_length, seq_length. reflexivity. }
    split; [exact Hk1|]. intros k k' Hk Hk'. rewrite <- (concat_eq members k k' Hmm Hk Hk'). fold (row k). fold (row k').
    rewrite (stored_keys (combine levels (map w members)) (sides V veq H members bs) t).
    + rewrite Hst, map_map.
      assert (N : forall i, (i < total)%nat -> nth i (map (fun x => lval (spread (combine levels (map w members))) (row x)) (seq 0 total)) 0
                  = lval (spread (combine levels (map w members))) (row i)).
      { intros i Hi. rewrite nth_indep with (d' := (fun x => lval (spread (combine levels (map w members))) (row x)) 0%nat) by (rewrite map_length, seq_length; exact Hi).
        rewrite (map_nth (fun x => lval (spread (combine levels (map w members))) (row x))). rewrite seq_nth by exact Hi. reflexivity. }
      rewrite (N k Hk), (N k' Hk'). split; [|intros ->; reflexivity].
      apply lval_inj; apply Hrow; assumption.
    + rewrite Hst. apply Forall_forall. intros r Hr. apply in_map_iff in Hr. destruct Hr as (i & <- & Hi). apply in_seq in Hi. apply Hrow. lia.
    + rewrite Hst. intros C. apply map_eq_nil in C. assert (total = 0%nat) by (rewrite <- (seq_length total 0), C; reflexivity). lia.
    + rewrite prodZ_spread. exact Hc.
    + exact Et.
Qed.

End Main.
