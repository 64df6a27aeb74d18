(** Proofs about H5IO. *)
From Coq Require Import String.
From Coq Require Import List ZArith Lia.
From Verif Require Import Prelude ListFacts TypeFitting TypeFitting_proofs Distances Distances_proofs H5io H5io_spec.
Import ListNotations.
Local Open Scope Z_scope.
Local Open Scope list_scope.

Lemma mem_In s l : mem s l = true <-> In s l.
Proof.
  unfold mem. rewrite existsb_exists. split.
  - intros (x & H & E). apply String.eqb_eq in E. subst. exact H.
  - intros H. exists s. split; [exact H|apply String.eqb_refl].
Qed.

Lemma subset_incl l l' : subset l l' = true <-> incl l l'.
Proof.
  unfold subset. rewrite forallb_forall. split; intros H x Hx; [apply mem_In, H, Hx|apply mem_In, H, Hx].
Qed.

Lemma hcat_ok n : forall ms, ms <> [] -> (forall m, In m ms -> length m = n) ->
  exists r, hcat ms = Ok r /\ r = map (fun k => concat (map (fun m => nth k m []) ms)) (seq 0 n).
Proof.
  induction ms as [|m ms IH]; intros Hne Hl; [congruence|]. clear Hne. destruct ms as [|m' ms].
  - exists m. split; [reflexivity|]. cbn [map concat].
    rewrite <- (Hl m (or_introl eq_refl)). 
    rewrite (map_ext _ (fun k => nth k m [])) by (intros; apply app_nil_r).
    symmetry. apply map_nth_seq.
  - destruct IH as (r & E & Er); [discriminate|intros; apply Hl; right; assumption|].
    cbn [hcat] in *. rewrite E. cbn [bind].
    assert (Lr : length r = n) by (rewrite Er, map_length, seq_length; reflexivity).
    pose proof (Hl m (or_introl eq_refl)) as Lm. rewrite Lm, Lr, Nat.eqb_refl.
    eexists. split; [reflexivity|]. rewrite Er.
    assert (G : forall (f : nat -> list Z), map (fun p : list Z * list Z => fst p ++ snd p) (combine m (map f (seq 0 n))) = map (fun k => nth k m [] ++ f k) (seq 0 n)).
    { intros f. rewrite <- Lm. rewrite <- (map_nth_seq m []) at 1.
      generalize (seq 0 (length m)). intros l. induction l as [|k l IHl]; [reflexivity|]. cbn. f_equal. exact IHl. }
    rewrite G. reflexivity.
Qed.

Section Write.
Variable V : Type.
Variable veq : forall x y : V, {x = y} + {x <> y}.
Variable H : h5io V.

(** The matrix written for a dataset of a batch. *)
Definition matrix (b : input V * bool) (s : string) : list (list Z) :=
  match (d <- parse_input H (fst b) ;; v <- lookup d s ;;
         v' <- (if snd b then Ok v else compute_indexes veq H s v) ;; convert v') with
  | Ok m => m
  | Err _ => []
  end.

(** Dataset widths and numbers of rows. *)
Record batch_ok (w : string -> nat) (b : input V * bool) (n : nat) : Prop := mk_batch_ok {
  b_parse : exists d, parse_input H (fst b) = Ok d /\
    (forall s v, In (s, v) d -> exists v' m, (if snd b then Ok v else compute_indexes veq H s v) = Ok v' /\ convert v' = Ok m) /\
    (forall s, In s (h_managed H) -> exists v, lookup d s = Ok v /\ width v = w s);
  b_rows : forall s, In s (h_managed H) -> length (matrix b s) = n /\ forall r, In r (matrix b s) -> length r = w s
}.

Lemma lookup_mapM {A B} (f : string -> A -> res B) d d' s a :
  mapM (fun kv => b <- f (fst kv) (snd kv) ;; Ok (fst kv, b)) d = Ok d' -> lookup d s = Ok a ->
  exists b, f s a = Ok b /\ lookup d' s = Ok b.
Proof.
  revert d'. induction d as [|[k x] d IH]; intros d' E L; cbn [lookup] in L; [discriminate|].
  cbn [mapM fst snd] in E. destruct (f k x) as [y|e] eqn:Ef; cbn [bind] in E; [|discriminate].
  destruct (mapM _ d) as [d1|e] eqn:Ed; cbn [bind] in E; [|discriminate]. injection E as <-.
  cbn [lookup]. destruct (String.eqb_spec k s) as [->|N].
  - injection L as <-. exists y. auto.
  - apply IH; auto.
Qed.

Lemma batch_converted w b n : batch_ok w b n -> exists d d',
  parse_input H (fst b) = Ok d /\
  mapM (fun kv => v <- (if snd b then Ok (snd kv) else compute_indexes veq H (fst kv) (snd kv)) ;;
                  m <- convert v ;; Ok (fst kv, m)) d = Ok d' /\
  (forall s, In s (h_managed H) -> lookup d' s = Ok (matrix b s)).
Proof.
  intros [(d & Ep & Hc & Hm) _].
  destruct (mapM_exists _ _ (fun kv : string * values V => v <- (if snd b then Ok (snd kv) else compute_indexes veq H (fst kv) (snd kv)) ;;
                  m <- convert v ;; Ok (fst kv, m)) (fun _ _ => True) d) as (d' & E & _).
  { intros [s v] Hin. destruct (Hc s v Hin) as (v' & m & E1 & E2). cbn [fst snd]. rewrite E1. cbn [bind]. rewrite E2. cbn [bind]. eauto. }
  exists d, d'. split; [exact Ep|]. split; [exact E|]. intros s Hs. destruct (Hm s Hs) as (v & L & _).
  pose (f := fun s v => v' <- (if snd b then Ok v else compute_indexes veq H s v) ;; convert v').
  assert (E' : mapM (fun kv => b <- f (fst kv) (snd kv) ;; Ok (fst kv, b)) d = Ok d').
  { rewrite <- E. clear. induction d as [|[k x] d IH]; [reflexivity|]. cbn [mapM fst snd]. unfold f at 1.
    destruct (if snd b then Ok x else compute_indexes veq H k x) as [v|e]; cbn [bind]; [|reflexivity].
    destruct (convert v) as [m|e]; cbn [bind]; [|reflexivity]. rewrite IH. reflexivity. }
  destruct (lookup_mapM f d d' s v E' L) as (m & Ef & L'). rewrite L'. f_equal.
  unfold matrix. rewrite Ep. cbn [bind]. rewrite L. cbn [bind]. unfold f in Ef. rewrite Ef. reflexivity.
Qed.

(** The matrices of some datasets, side by side. *)
Definition side (names : list string) (b : input V * bool) (n : nat) : list (list Z) :=
  map (fun k => concat (map (fun s => nth k (matrix b s) []) names)) (seq 0 n).

Definition sides (names : list string) (bs : list ((input V * bool) * nat)) : list (list Z) :=
  concat (map (fun bn => side names (fst bn) (snd bn)) bs).

Definition fused_of (w : string -> nat) (nf : string * list string) (levels : list Z) (bs : list ((input V * bool) * nat)) : res fused_out :=
  let dims := map w (snd nf) in
  let max_key := cast U64 (cast U64 (prodZ (map (fun p => fst p ^ Z.of_nat (snd p)) (combine levels dims))) - 1) in
  t <- fit_integer_type max_key false ;;
  let weights := 1 :: removelast (cumprod 1 (flat_map (fun p => repeat (cast t (fst p)) (snd p)) (combine levels dims))) in
  Ok (mk_fused t weights (map (cast t) (compute_keys weights (sides (snd nf) bs)))).

Record state (w : string -> nat) (bs : list ((input V * bool) * nat)) (o : out) : Prop := mk_state {
  st_raw : o_raw o = map (fun s => (s, concat (map (fun bn => matrix (fst bn) s) bs))) (h_raw H);
  st_indexed : match o_indexed o with
    | None => h_non_fused H = []
    | Some (t, rows) => h_non_fused H <> [] /\ rows = map (map (cast t)) (sides (h_non_fused H) bs) /\
       exists levels, mapM (fun s => l <- lookup (h_indexes H) s ;; Ok (Z.of_nat (length l))) (h_non_fused H) = Ok levels /\
                      fit_integer_type (maxZ levels) false = Ok t
    end;
  st_fused : Forall2 (fun nf p => fst p = fst nf /\ exists levels, lookup (h_nb_levels H) (fst nf) = Ok levels /\
                        fused_of w nf levels bs = Ok (snd p)) (h_fused H) (o_fused o)
}.

Hypothesis Hd : declared_ok H.

Lemma non_fused_managed s : In s (h_non_fused H) -> In s (h_managed H).
Proof. intros Hs. apply (k_non_fused Hd) in Hs. apply (k_index Hd) in Hs. apply Hs. Qed.

Lemma member_managed f members s : In (f, members) (h_fused H) -> In s members -> In s (h_managed H).
Proof.
  intros Hf Hs. pose proof (k_members Hd _ _ _ Hf Hs) as Hi. apply in_map_iff in Hi. destruct Hi as ([s' ix] & E & Hi).
  cbn in E. subst s'. apply (k_index Hd) in Hi. apply Hi.
Qed.

Lemma maxZ_bound l b : 0 <= b -> (forall x, In x l -> x <= b) -> maxZ l <= b.
Proof.
  induction l as [|y l IH]; intros Hn Hx; cbn; [exact Hn|].
  pose proof (Hx y (or_introl eq_refl)). specialize (IH Hn (fun x Hx' => Hx x (or_intror Hx'))). unfold maxZ in IH. lia.
Qed.

Lemma initialize_state w b n : batch_ok w b n -> exists o, initialize H (fst b) = Ok o /\ state w [] o.
Proof.
  intros Hb. destruct (b_parse w b n Hb) as (d & Ep & _ & Hm). unfold initialize. rewrite Ep. cbn [bind].
  assert (Ei : exists ind : option (itype * list (list Z)), (if (length (h_non_fused H) =? 0)%nat then Ok None
              else
                levels <- mapM (fun s => l <- lookup (h_indexes H) s ;; Ok (Z.of_nat (length l))) (h_non_fused H) ;;
                t <- fit_integer_type (maxZ levels) false ;;
                Ok (Some (t, []))) = Ok ind /\ match ind with
    | None => h_non_fused H = []
    | Some (t, rows) => h_non_fused H <> [] /\ rows = [] /\
       exists levels, mapM (fun s => l <- lookup (h_indexes H) s ;; Ok (Z.of_nat (length l))) (h_non_fused H) = Ok levels /\
                      fit_integer_type (maxZ levels) false = Ok t
    end).
  { destruct (Nat.eqb_spec (length (h_non_fused H)) 0) as [E|E].
    - exists None. split; [reflexivity|]. apply length_zero_iff_nil. exact E.
    - destruct (mapM_exists _ _ (fun s => l <- lookup (h_indexes H) s ;; Ok (Z.of_nat (length l))) (fun s x => x < 2 ^ 64) (h_non_fused H)) as (levels & El & Fl).
      { intros s Hs. pose proof (k_non_fused Hd _ Hs) as Hi. destruct (k_index Hd _ _ Hi) as (_ & l & Hl).
        rewrite (lookup_NoDup _ _ _ _ (k_indexes Hd) Hl). cbn [bind]. eexists. split; [reflexivity|]. apply (k_levels Hd _ _ Hl). }
      rewrite El. cbn [bind]. destruct (fit_ok_unsigned (maxZ levels)) as (t & Et).
      { assert (maxZ levels <= 2 ^ 64 - 1); [|lia]. apply maxZ_bound; [lia|]. intros x Hx.
        destruct (Forall2_in_l _ _ _ _ _ x (Forall2_flip _ _ _ _ _ Fl) Hx) as (s & _ & Hx'). lia. }
      rewrite Et. cbn [bind]. eexists. split; [reflexivity|]. cbn. split; [intros C; rewrite C in E; cbn in E; congruence|].
      split; [reflexivity|]. eauto. }
  destruct Ei as (ind & Ei & Hi). rewrite Ei. cbn [bind].
  assert (Ef : exists fused, mapM (init_fused H (fun s => v <- lookup d s ;; Ok (width v))) (h_fused H) = Ok fused /\
     Forall2 (fun nf p => fst p = fst nf /\ exists levels, lookup (h_nb_levels H) (fst nf) = Ok levels /\
                        fused_of w nf levels [] = Ok (snd p)) (h_fused H) fused).
  { apply mapM_exists. intros [f members] Hf. unfold init_fused. cbn [fst snd].
    rewrite (mapM_ok_map _ w) by (intros s Hs; destruct (Hm s (member_managed _ _ _ Hf Hs)) as (v & -> & Hw); cbn [bind]; rewrite Hw; reflexivity).
    cbn [bind].
    assert (Hl : exists levels, lookup (h_nb_levels H) f = Ok levels).
    { assert (In f (map fst (h_nb_levels H))) as Hin by (rewrite (k_nb_levels Hd); apply in_map_iff; exists (f, members); auto).
      apply in_map_iff in Hin. destruct Hin as ([f' levels] & E & Hin). cbn in E. subst f'.
      exists levels. apply lookup_NoDup; [|exact Hin]. rewrite (k_nb_levels Hd). apply (k_fused Hd). }
    destruct Hl as (levels & El). rewrite El. cbn [bind].
    set (mk := cast U64 (_ - 1)). assert (Hmk : 0 <= mk < 2 ^ 64).
    { unfold mk. pose proof (cast_range U64 (cast U64 (prodZ (map (fun p => fst p ^ Z.of_nat (snd p)) (combine levels (map w members)))) - 1)) as R.
      change (tmin U64) with 0 in R. change (tmax U64) with (2 ^ 64 - 1) in R. lia. }
    destruct (Z.leb_spec (2 ^ 64) mk); [lia|].
    destruct (fit_ok_unsigned mk) as (t & Et); [lia|]. rewrite Et. cbn [bind].
    pose proof (@k_some _ _ Hd _ _ Hf). destruct (Nat.eqb_spec (length members) 0) as [E|_]; [apply length_zero_iff_nil in E; congruence|].
    eexists. split; [reflexivity|]. cbn [fst snd]. split; [reflexivity|]. exists levels. split; [reflexivity|].
    unfold fused_of. cbn [fst snd]. fold mk. rewrite Et. cbn [bind]. reflexivity. }
  destruct Ef as (fused & Ef & Hf). cbv zeta in Ef |- *. rewrite Ef. cbn [bind]. eexists. split; [reflexivity|].
  constructor; cbn [o_raw o_indexed o_fused].
  - reflexivity.
  - destruct ind as [[t rows]|]; [|exact Hi]. destruct Hi as (H1 & -> & H2). auto.
  - exact Hf.
Qed.

Lemma sides_snoc names bs b n : sides names (bs ++ [(b, n)]) = sides names bs ++ side names b n.
Proof. unfold sides. rewrite map_app, concat_app. cbn. rewrite app_nil_r. reflexivity. Qed.

Lemma compute_keys_app w r r' : compute_keys w (r ++ r') = compute_keys w r ++ compute_keys w r'.
Proof. unfold compute_keys. apply map_app. Qed.

Lemma gathered w b n d' names : batch_ok w b n -> (forall s, In s (h_managed H) -> lookup d' s = Ok (matrix b s)) ->
  names <> [] -> (forall s, In s names -> In s (h_managed H)) ->
  exists ms, mapM (lookup d') names = Ok ms /\ hcat ms = Ok (side names b n).
Proof.
  intros Hb Hl Hne Hn. exists (map (matrix b) names). split.
  - apply mapM_ok_map. intros s Hs. apply Hl, Hn, Hs.
  - destruct (hcat_ok n (map (matrix b) names)) as (r & E & Er).
    + intros E. apply map_eq_nil in E. congruence.
    + intros m Hm. apply in_map_iff in Hm. destruct Hm as (s & <- & Hs). apply (b_rows w b n Hb s (Hn s Hs)).
    + rewrite E, Er. f_equal. unfold side. apply map_ext. intros k. rewrite map_map. reflexivity.
Qed.

Lemma write_state w bs o b n : state w bs o -> batch_ok w b n ->
  exists o', write_data veq H o (fst b) (snd b) = Ok o' /\ state w (bs ++ [(b, n)]) o'.
Proof.
  intros Hs Hb. destruct (batch_converted w b n Hb) as (d & d' & Ep & Ed & Hl).
  unfold write_data. rewrite Ep. cbn [bind]. rewrite Ed. cbn [bind]. rewrite (st_raw w bs o Hs).
  rewrite (mapM_ok_map _ (fun kv : string * list (list Z) => (fst kv, snd kv ++ matrix b (fst kv)))).
  2: { intros [s rows] Hin. apply in_map_iff in Hin. destruct Hin as (s' & E & Hin). injection E as -> _.
       cbn [fst snd]. rewrite Hl by (apply (k_raw Hd); exact Hin). reflexivity. }
  cbn [bind]. rewrite map_map. cbn [fst snd].
  assert (Ei : exists ind : option (itype * list (list Z)), (match o_indexed o with
          | None => Ok None
          | Some (t, rows) =>
            ms <- mapM (lookup d') (h_non_fused H) ;;
            m <- hcat ms ;;
            Ok (Some (t, rows ++ map (map (cast t)) m))
          end) = Ok ind /\ match ind with
    | None => h_non_fused H = []
    | Some (t, rows) => h_non_fused H <> [] /\ rows = map (map (cast t)) (sides (h_non_fused H) (bs ++ [(b, n)])) /\
       exists levels, mapM (fun s => l <- lookup (h_indexes H) s ;; Ok (Z.of_nat (length l))) (h_non_fused H) = Ok levels /\
                      fit_integer_type (maxZ levels) false = Ok t
    end).
  { pose proof (st_indexed w bs o Hs) as Hi. destruct (o_indexed o) as [[t rows]|]; [|exists None; auto].
    destruct Hi as (H1 & -> & H2).
    destruct (gathered w b n d' (h_non_fused H) Hb Hl H1 non_fused_managed) as (ms & -> & E). cbn [bind]. rewrite E. cbn [bind].
    eexists. split; [reflexivity|]. cbn. split; [exact H1|]. split; [|exact H2]. rewrite sides_snoc, map_app. reflexivity. }
  destruct Ei as (ind & Ei & Hi). rewrite Ei. cbn [bind].
  assert (Ef : exists fused, mapM (fun nf =>
      members <- lookup (h_fused H) (fst nf) ;;
      ms <- mapM (lookup d') members ;;
      m <- hcat ms ;;
      let f := snd nf in
      Ok (fst nf, mk_fused (f_type f) (f_weights f)
                    (f_keys f ++ map (cast (f_type f)) (compute_keys (f_weights f) m)))) (o_fused o) = Ok fused /\
     Forall2 (fun nf p => fst p = fst nf /\ exists levels, lookup (h_nb_levels H) (fst nf) = Ok levels /\
                        fused_of w nf levels (bs ++ [(b, n)]) = Ok (snd p)) (h_fused H) fused).
  { pose proof (st_fused w bs o Hs) as F. 
    assert (Hin : forall nf, In nf (h_fused H) -> lookup (h_fused H) (fst nf) = Ok (snd nf) /\ snd nf <> [] /\ forall s, In s (snd nf) -> In s (h_managed H)).
    { intros [f members] Hf. cbn [fst snd]. split; [apply lookup_NoDup; [apply (k_fused Hd)|exact Hf]|].
      split; [apply (@k_some _ _ Hd _ _ Hf)|]. intros s. apply (member_managed _ _ _ Hf). }
    clear Hi Ei. revert Hin. generalize (lookup (h_fused H)) as lk. intros lk.
    induction F as [|nf p nfs ps (F1 & levels & F2 & F3) F IH]; intros Hin; [exists []; split; [reflexivity|constructor]|].
    destruct (Hin nf (or_introl eq_refl)) as (L1 & L2 & L3).
    destruct IH as (fused & E & F'); [intros; apply Hin; right; assumption|].
    cbn [mapM]. rewrite F1, L1. cbn [bind].
    destruct (gathered w b n d' (snd nf) Hb Hl L2 L3) as (ms & -> & Eh). cbn [bind]. rewrite Eh. cbn [bind].
    cbv zeta in E |- *. rewrite E. cbn [bind]. eexists. split; [reflexivity|]. constructor; [|exact F']. cbn [fst snd].
    split; [reflexivity|]. exists levels. split; [exact F2|]. unfold fused_of in F3 |- *.
    destruct (fit_integer_type _ false) as [t|e]; cbn [bind] in F3 |- *; [|discriminate]. injection F3 as F3.
    rewrite <- F3. cbn [f_type f_weights f_keys]. rewrite sides_snoc, compute_keys_app, map_app. reflexivity. }
  destruct Ef as (fused & Ef & Hf). cbv zeta in Ef |- *. rewrite Ef. cbn [bind]. eexists. split; [reflexivity|].
  constructor; cbn [o_raw o_indexed o_fused].
  - apply map_ext. intros s. rewrite map_app, concat_app. cbn. rewrite app_nil_r. reflexivity.
  - exact Hi.
  - exact Hf.
Qed.

Lemma write_all_state w : forall bs pre o, state w pre o -> Forall (fun bn => batch_ok w (fst bn) (snd bn)) bs ->
  exists o', write_all veq H (Some o) (map fst bs) = Ok (Some o') /\ state w (pre ++ bs) o'.
Proof.
  induction bs as [|[b n] bs IH]; intros pre o Hs F.
  - exists o. rewrite app_nil_r. auto.
  - inversion F as [|? ? F1 F2]; subst. cbn [fst snd] in F1.
    destruct (write_state w pre o b n Hs F1) as (o1 & E & Hs1).
    destruct (IH (pre ++ [(b, n)]) o1 Hs1 F2) as (o' & E' & Hs').
    exists o'. rewrite <- app_assoc in Hs'. split; [|exact Hs']. cbn [map fst write_all]. destruct b as [i f]. cbn [bind fst snd] in *.
    rewrite E. cbn [bind]. exact E'.
Qed.

Lemma write_ok w bs : bs <> [] -> Forall (fun bn => batch_ok w (fst bn) (snd bn)) bs ->
  exists o, write_all veq H None (map fst bs) = Ok (Some o) /\ state w bs o.
Proof.
  intros Hne F. destruct bs as [|[b n] bs]; [congruence|]. inversion F as [|? ? F1 F2]; subst. cbn [fst snd] in F1.
  destruct (initialize_state w b n F1) as (o0 & E0 & S0).
  destruct (write_all_state w ((b, n) :: bs) [] o0 S0 F) as (o & E & S). exists o. split; [|exact S].
  cbn [map fst write_all] in E |- *. destruct b as [i f]. cbn [fst bind] in *. rewrite E0. cbn [bind]. exact E.
Qed.

End Write.
