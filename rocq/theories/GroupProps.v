(** C24, C25: groupby by partial aggregation of every partition. *)
From Verif Require Import Base Table ChunkModel ChunkSpec ChunkProofs GridModel GridSpec FrameSpec
  GridProofs GridProofs2 GridProofs3 GridProofs5 SelModel GroupSpec GroupModel GroupProofs GroupProofs2 GroupProofs3 GroupProofs4
  GroupProofs5 GroupProofs6 GroupProofs7.
From Coq Require Import QArith Qcanon Sorted.
Open Scope nat_scope.

Section Labels.
  Context {A : Type}.
  Variable aeqb : A -> A -> bool.
  Hypothesis aeqb_ok : forall x y, aeqb x y = true <-> x = y.
  Definition rlabel_eqb (x y : rlabel A) : bool :=
    match x, y with
    | Key k, Key k' => list_eqb aeqb k k'
    | Pos n, Pos n' => n =? n'
    | _, _ => false
    end.
  Lemma rlabel_eqb_ok x y : rlabel_eqb x y = true <-> x = y.
  Proof.
    destruct x as [k|n], y as [k'|n']; cbn; try easy.
    - pose proof (keqb_ok aeqb aeqb_ok k k') as E. unfold keqb in E. rewrite E. split; [now intros ->|now intros [= ->]].
    - rewrite Nat.eqb_eq. split; [now intros ->|now intros [= ->]].
  Qed.
End Labels.

(** The keys of a result: exactly the keys that occur (without those having a missing cell when they are dropped),
    each once, and in order when sorted. *)
Theorem C24_keys_that_occur {A} (aeqb : A -> A -> bool) (na : A -> bool) (kle : list A -> list A -> bool) sort dropna ks :
  (forall x y, aeqb x y = true <-> x = y) ->
  (forall x y, kle x y = true \/ kle y x = true) ->
  (forall x y z, kle x y = true -> kle y z = true -> kle x z = true) ->
  let out := keys_of aeqb na kle sort dropna ks in
  (forall k, In k out <-> In k ks /\ (dropna = true -> Forall (fun a => na a = false) k))
  /\ NoDup out
  /\ (sort = true -> StronglySorted (fun x y => kle x y = true) out).
Proof.
  intros Ea Kt Ktr out. split; [|split].
  - intros k. unfold out. rewrite keys_of_in by assumption. unfold wanted. split; intros [H1 H2]; split; auto.
    + intros ->. cbn in H2. apply negb_true_iff in H2. apply Forall_forall. intros a Ha. destruct (na a) eqn:E; auto.
      rewrite <- H2. symmetry. apply existsb_exists. eauto.
    + destruct dropna; auto. cbn. apply negb_true_iff. apply not_true_iff_false. intros E. apply existsb_exists in E as (a & Ha & E).
      specialize (H2 eq_refl). rewrite Forall_forall in H2. rewrite H2 in E; easy.
  - now apply keys_of_nodup.
  - intros ->. now apply keys_of_sorted.
Qed.
Print Assumptions C24_keys_that_occur.

Section Props.
  Context {L H : Type}.
  Variable leqb : L -> L -> bool.
  Hypothesis leqb_ok : forall x y, leqb x y = true <-> x = y.
  Variable heqb : H -> H -> bool.
  Hypothesis heqb_ok : forall x y, heqb x y = true <-> x = y.

  Section Any.
    Context {N : Type}.
    Variable neqb : N -> N -> bool.
    Hypothesis neqb_ok : forall x y, neqb x y = true <-> x = y.
    Notation cell := (option N).
    Notation key := (list cell).
    Notation dframe := (df L H cell).
    Notation pf := (@pframe L H cell).
    (** the order of the keys *)
    Variable kle : key -> key -> bool.
    Hypothesis kle_total : forall x y, kle x y = true \/ kle y x = true.
    Hypothesis kle_trans : forall x y z, kle x y = true -> kle y z = true -> kle x z = true.
    Hypothesis kle_anti : forall x y, kle x y = true -> kle y x = true -> x = y.
    Definition cell_eqb (x y : cell) : bool :=
      match x, y with Some a, Some b => neqb a b | None, None => true | _, _ => false end.
    Lemma cell_eqb_ok x y : cell_eqb x y = true <-> x = y.
    Proof. destruct x, y; cbn; try easy. rewrite neqb_ok. split; [now intros ->|now intros [= ->]]. Qed.
    Definition missing (x : cell) : bool := match x with None => true | Some _ => false end.

    Definition grouped (agg : list cell -> cell) (sort dropna : bool) (ks : list key) (d : dframe) : df key H cell :=
      groupby cell_eqb missing kle agg sort dropna ks d.
    Definition groupby_call (nparts min_row : nat) bk im sort dropna as_index selection (f : pf) by_ :=
      groupby_reduce leqb heqb cell_eqb missing None kle nparts min_row bk im sort dropna as_index selection f by_.
    (** [r] is a partitioned frame with the content [g] *)
    Definition gives (r : res (@pframe (rlabel cell) H cell)) (g : df (rlabel cell) H cell) : Prop :=
      exists x rl cl, r = Ok x /\ holds x g rl cl /\ rl <> [] /\ cl <> []
        /\ (0 < nrows g -> 0 < ncols g -> pf_to_pandas (rlabel_eqb cell_eqb) heqb x = Ok g).

    Lemma gives_intro r g : (exists x rl cl, r = Ok x /\ holds x g rl cl /\ rl <> [] /\ cl <> []) -> gives r g.
    Proof.
      intros (x & rl & cl & E & Hh & N1 & N2). exists x, rl, cl. repeat split; auto; try apply Hh.
      intros P1 P2. apply (@pf_to_pandas_holds _ _ _ (rlabel_eqb cell_eqb) heqb (rlabel_eqb_ok cell_eqb cell_eqb_ok) heqb_ok x g rl cl Hh). intros [E1|E1]; lia.
    Qed.

    Variable im : impl (A := cell).
    Variable agg : list cell -> cell.
    Hypothesis law : impl_law im agg.
    Variables nparts min_row : nat.
    Hypothesis nparts_pos : 0 < nparts.
    Hypothesis min_row_pos : 0 < min_row.
    Variables sort dropna as_index : bool.

    Lemma own_gives (f b : pf) (d : dframe) by_ rl cl clb :
      holds f d rl cl -> holds b (columns_at heqb by_ d) rl clb -> rl <> [] -> cl <> [] -> clb <> [] ->
      NoDup (dcols d) -> NoDup by_ -> incl by_ (dcols d) ->
      (iplain im = true \/ keys_of cell_eqb missing kle true dropna (row_keys heqb by_ d) <> []) ->
      gives (groupby_call nparts min_row (ByFrame true) im sort dropna as_index None f (Some b))
            (let g := grouped agg true dropna (row_keys heqb by_ d) (without heqb by_ d) in
             if as_index then keyed g else numbered by_ g).
    Proof.
      intros H1 H2 H3 H4 H5 H6 H7 H8 H9. apply gives_intro.
      exact (@groupby_own L H cell leqb leqb_ok heqb heqb_ok cell_eqb cell_eqb_ok missing None kle kle_total kle_trans kle_anti im agg law
        nparts min_row nparts_pos min_row_pos sort dropna as_index f b d by_ rl cl clb H1 H2 H3 H4 H5 H6 H7 H8 H9).
    Qed.
    Lemma first_gives (f b : pf) (d : dframe) by_ s rl cl clb :
      holds f d rl cl -> holds b (columns_at heqb by_ d) rl clb -> rl <> [] -> cl <> [] -> clb <> [] ->
      NoDup (dcols d) -> NoDup by_ -> incl by_ (dcols d) -> nth_error (dcols d) 0 = Some s ->
      (iplain im = true \/ keys_of cell_eqb missing kle true dropna (row_keys heqb by_ d) <> []) ->
      gives (groupby_call nparts min_row (ByFrame true) im sort dropna as_index (Some s) f (Some b))
            (let g := grouped agg true dropna (row_keys heqb by_ d) (keep_cols (heqb s) d) in
             if as_index then keyed g else numbered by_ g).
    Proof.
      intros H1 H2 H3 H4 H5 H6 H7 H8 H9 H10. apply gives_intro.
      exact (@groupby_first L H cell leqb leqb_ok heqb heqb_ok cell_eqb cell_eqb_ok missing None kle kle_total kle_trans kle_anti im agg law
        nparts min_row nparts_pos min_row_pos sort dropna as_index f b d by_ s rl cl clb H1 H2 H3 H4 H5 H6 H7 H8 H9 H10).
    Qed.
    Lemma series_gives (f b : pf) (d s : dframe) rl cl clb :
      holds f d rl cl -> holds b s rl clb -> rl <> [] -> cl <> [] -> clb <> [] ->
      ncols s = 1 -> dindex s = dindex d ->
      (iplain im = true \/ keys_of cell_eqb missing kle true dropna (dcells s) <> []) ->
      gives (groupby_call nparts min_row (ByFrame false) im sort dropna as_index None f (Some b))
            (let g := grouped agg true dropna (dcells s) d in if as_index then keyed g else numbered [] g).
    Proof.
      intros H1 H2 H3 H4 H5 H6 H7 H8. apply gives_intro.
      exact (@groupby_series L H cell leqb leqb_ok heqb heqb_ok cell_eqb cell_eqb_ok missing None kle kle_total kle_trans kle_anti im agg law
        nparts min_row nparts_pos min_row_pos sort dropna as_index f b d s rl cl clb H1 H2 H3 H4 H5 H6 H7 H8).
    Qed.
    Lemma level_gives lkey (f : pf) (d : dframe) rl cl :
      holds f d rl cl -> rl <> [] -> cl <> [] -> pindex f = Some (dindex d) -> pcols f = Some (dcols d) ->
      0 < nrows d -> 0 < ncols d ->
      (iplain im = true \/ keys_of cell_eqb missing kle sort dropna (map lkey (dindex d)) <> []) ->
      gives (groupby_call nparts min_row (ByLevel lkey) im sort dropna as_index None f None)
            (let g := grouped agg sort dropna (map lkey (dindex d)) d in if as_index then keyed g else numbered [] g).
    Proof.
      intros H1 H2 H3 H4 H5 H6 H7 H8. apply gives_intro.
      exact (@groupby_level L H cell leqb heqb heqb_ok cell_eqb cell_eqb_ok missing None kle kle_total kle_trans kle_anti im agg law
        nparts min_row nparts_pos min_row_pos sort dropna as_index lkey f d rl cl H1 H2 H3 H4 H5 H6 H7 H8).
    Qed.
  End Any.

  (** The configuration *)
  Variables nparts min_row : nat.
  Hypothesis nparts_pos : 0 < nparts.
  Hypothesis min_row_pos : 0 < min_row.
  Variables sort dropna as_index : bool.

  Section Integers.
    Notation cell := (option Z).
    Variable kle : list cell -> list cell -> bool.
    Hypothesis kle_total : forall x y, kle x y = true \/ kle y x = true.
    Hypothesis kle_trans : forall x y z, kle x y = true -> kle y z = true -> kle x z = true.
    Hypothesis kle_anti : forall x y, kle x y = true -> kle y x = true -> x = y.
    Variables (name : agg_name) (min_count : nat).
    Hypothesis min_count_small : min_count <= 1.
    Variables (f : @pframe L H cell) (d : df L H cell) (rl cl : list nat).
    Hypothesis frame : holds f d rl cl.
    Hypothesis rl_ne : rl <> [].
    Hypothesis cl_ne : cl <> [].

    (** C24: [df.groupby(by).agg(name)], [by] a list of columns of the frame.  Partial: [min_count <= 1]; key columns
        and frame have the same row partitioning, as [df[by]] gives; the keys are always sorted (documented). *)
    Theorem C24_own_columns_partial b by_ clb :
      holds b (columns_at heqb by_ d) rl clb -> clb <> [] ->
      NoDup (dcols d) -> NoDup by_ -> incl by_ (dcols d) ->
      gives Z.eqb
        (groupby_call Z.eqb kle nparts min_row (ByFrame true) (reduce_impl name min_count) sort dropna as_index None f (Some b))
        (let g := grouped Z.eqb kle (agg_of name min_count) true dropna (row_keys heqb by_ d) (without heqb by_ d) in
         if as_index then keyed g else numbered by_ g).
    Proof.
      intros Hb Nb Nd N2 I.
      eapply (@own_gives _ Z.eqb Z.eqb_eq kle kle_total kle_trans kle_anti _ _ (reduce_impl_law name min_count_small) _ _ nparts_pos min_row_pos sort dropna as_index); eauto.
      left. destruct name; reflexivity.
    Qed.

    (** C24: [df.groupby(by).size()]: the first column of the frame is counted, whatever it is. *)
    Theorem C24_size_partial b by_ s clb :
      holds b (columns_at heqb by_ d) rl clb -> clb <> [] ->
      NoDup (dcols d) -> NoDup by_ -> incl by_ (dcols d) -> nth_error (dcols d) 0 = Some s ->
      gives Z.eqb
        (groupby_call Z.eqb kle nparts min_row (ByFrame true) (reduce_impl GSize 0) sort dropna as_index (Some s) f (Some b))
        (let g := grouped Z.eqb kle p_size true dropna (row_keys heqb by_ d) (keep_cols (heqb s) d) in
         if as_index then keyed g else numbered by_ g).
    Proof.
      intros Hb Nb Nd N2 I Hs.
      eapply (@first_gives _ Z.eqb Z.eqb_eq kle kle_total kle_trans kle_anti _ _ (@reduce_impl_law GSize 0 (Nat.le_0_l 1)) _ _ nparts_pos min_row_pos sort dropna as_index); eauto.
    Qed.

    (** C24: [df.groupby(series).agg(name)], a Series of another frame with the same row labels.  Partial: the same
        row partitioning is needed (see the refuted cases below). *)
    Theorem C24_other_series_partial b s clb :
      holds b s rl clb -> clb <> [] -> ncols s = 1 -> dindex s = dindex d ->
      gives Z.eqb
        (groupby_call Z.eqb kle nparts min_row (ByFrame false) (reduce_impl name min_count) sort dropna as_index None f (Some b))
        (let g := grouped Z.eqb kle (agg_of name min_count) true dropna (dcells s) d in
         if as_index then keyed g else numbered [] g).
    Proof.
      intros Hb Nb N1 I.
      eapply (@series_gives _ Z.eqb Z.eqb_eq kle kle_total kle_trans kle_anti _ _ (reduce_impl_law name min_count_small) _ _ nparts_pos min_row_pos sort dropna as_index); eauto.
      left. destruct name; reflexivity.
    Qed.

    (** C24: [df.groupby(level=...).agg(name)]; [lkey] reads the levels of a row label. *)
    Theorem C24_index_level_partial lkey :
      pindex f = Some (dindex d) -> pcols f = Some (dcols d) -> 0 < nrows d -> 0 < ncols d ->
      gives Z.eqb
        (groupby_call Z.eqb kle nparts min_row (ByLevel lkey) (reduce_impl name min_count) sort dropna as_index None f None)
        (let g := grouped Z.eqb kle (agg_of name min_count) sort dropna (map lkey (dindex d)) d in
         if as_index then keyed g else numbered [] g).
    Proof.
      intros Hi Hc P1 P2.
      eapply (@level_gives _ Z.eqb Z.eqb_eq kle kle_total kle_trans kle_anti _ _ (reduce_impl_law name min_count_small) _ _ nparts_pos min_row_pos sort dropna as_index lkey); eauto.
      left. destruct name; reflexivity.
    Qed.
  End Integers.

  Section Rationals.
    Notation cell := (option Qc).
    Definition qeqb (x y : Qc) : bool := if Qc_eq_dec x y then true else false.
    Lemma qeqb_ok x y : qeqb x y = true <-> x = y.
    Proof. unfold qeqb. destruct (Qc_eq_dec x y); split; congruence. Qed.
    Variable kle : list cell -> list cell -> bool.
    Hypothesis kle_total : forall x y, kle x y = true \/ kle y x = true.
    Hypothesis kle_trans : forall x y z, kle x y = true -> kle y z = true -> kle x z = true.
    Hypothesis kle_anti : forall x y, kle x y = true -> kle y x = true -> x = y.
    Variables (f b : @pframe L H cell) (d : df L H cell) (rl cl clb : list nat) (by_ : list H).
    Hypothesis frame : holds f d rl cl.
    Hypothesis keys : holds b (columns_at heqb by_ d) rl clb.
    Hypothesis rl_ne : rl <> [].
    Hypothesis cl_ne : cl <> [].
    Hypothesis clb_ne : clb <> [].
    Hypothesis headers : NoDup (dcols d).
    Hypothesis by_once : NoDup by_.
    Hypothesis by_in : incl by_ (dcols d).
    (** some key is not missing, or missing keys are kept *)
    Hypothesis some_key : exists k, In k (row_keys heqb by_ d) /\ (dropna = true -> Forall (fun c => c <> None) k).

    Lemma keys_there : keys_of (cell_eqb qeqb) missing kle true dropna (row_keys heqb by_ d) <> [].
    Proof.
      destruct some_key as (k & Hk & Hd). intros E.
      assert (In k (keys_of (cell_eqb qeqb) missing kle true dropna (row_keys heqb by_ d))).
      { apply keys_of_in; [apply (cell_eqb_ok qeqb qeqb_ok)|]. split; auto. unfold wanted.
        destruct dropna; auto. cbn. apply negb_true_iff, not_true_iff_false. intros X. apply existsb_exists in X as (a & Ha & X).
        specialize (Hd eq_refl). rewrite Forall_forall in Hd. specialize (Hd a Ha). destruct a; easy. }
      rewrite E in H0. easy.
    Qed.

    (** C25: [df.groupby(by).mean()].  Partial: some key is left after dropping the missing ones. *)
    Theorem C25_mean_partial :
      gives qeqb
        (groupby_call qeqb kle nparts min_row (ByFrame true) mean_impl sort dropna as_index None f (Some b))
        (let g := grouped qeqb kle mean true dropna (row_keys heqb by_ d) (without heqb by_ d) in
         if as_index then keyed g else numbered by_ g).
    Proof.
      eapply (@own_gives _ qeqb qeqb_ok kle kle_total kle_trans kle_anti _ _ mean_law _ _ nparts_pos min_row_pos sort dropna as_index); eauto.
      right. apply keys_there.
    Qed.

    (** C25: [df.groupby(by).skew()], whatever the two root functions. *)
    Theorem C25_skew_partial root root3 :
      gives qeqb
        (groupby_call qeqb kle nparts min_row (ByFrame true) (skew_impl root root3) sort dropna as_index None f (Some b))
        (let g := grouped qeqb kle (skew root root3) true dropna (row_keys heqb by_ d) (without heqb by_ d) in
         if as_index then keyed g else numbered by_ g).
    Proof.
      eapply (@own_gives _ qeqb qeqb_ok kle kle_total kle_trans kle_anti _ _ (skew_law root root3) _ _ nparts_pos min_row_pos sort dropna as_index); eauto.
      right. apply keys_there.
    Qed.
  End Rationals.
End Props.
Print Assumptions C24_own_columns_partial.
Print Assumptions C24_size_partial.
Print Assumptions C24_other_series_partial.
Print Assumptions C24_index_level_partial.
Print Assumptions C25_mean_partial.
Print Assumptions C25_skew_partial.

(* ---------------- what does not hold, and the hypotheses met ---------------- *)
(** keys ordered cell by cell, missing cells last *)
Section Lex.
  Context {N : Type}.
  Variables neqb nle : N -> N -> bool.
  Hypothesis neqb_ok : forall x y, neqb x y = true <-> x = y.
  Hypothesis nle_total : forall x y, nle x y = true \/ nle y x = true.
  Hypothesis nle_trans : forall x y z, nle x y = true -> nle y z = true -> nle x z = true.
  Hypothesis nle_anti : forall x y, nle x y = true -> nle y x = true -> x = y.
  Notation ceqb := (cell_eqb neqb).
  Definition cell_le (x y : option N) : bool :=
    match x, y with _, None => true | None, Some _ => false | Some a, Some b => nle a b end.
  Fixpoint key_lex (x y : list (option N)) : bool :=
    match x, y with
    | [], _ => true
    | _ :: _, [] => false
    | a :: x, b :: y => if ceqb a b then key_lex x y else cell_le a b
    end.
  Lemma ceqb_ok x y : ceqb x y = true <-> x = y.
  Proof. apply (cell_eqb_ok neqb neqb_ok). Qed.
  Lemma ceqb_false x y : ceqb x y = false <-> x <> y.
  Proof. rewrite <- ceqb_ok. symmetry. apply not_true_iff_false. Qed.
  Lemma cell_le_total x y : cell_le x y = true \/ cell_le y x = true.
  Proof. destruct x as [a|], y as [b|]; cbn; auto. Qed.
  Lemma cell_le_trans x y z : cell_le x y = true -> cell_le y z = true -> cell_le x z = true.
  Proof. destruct x as [a|], y as [b|], z as [c|]; cbn; try easy. apply nle_trans. Qed.
  Lemma cell_le_anti x y : cell_le x y = true -> cell_le y x = true -> x = y.
  Proof. destruct x as [a|], y as [b|]; cbn; try easy. intros. f_equal. auto. Qed.
  Lemma key_lex_total x y : key_lex x y = true \/ key_lex y x = true.
  Proof. revert y. induction x as [|a x IH]; intros [|b y]; cbn; auto. destruct (ceqb a b) eqn:E.
    - apply ceqb_ok in E. subst b. rewrite (proj2 (ceqb_ok a a) eq_refl). apply IH.
    - replace (ceqb b a) with false by (symmetry; apply ceqb_false; apply ceqb_false in E; congruence). apply cell_le_total. Qed.
  Lemma key_lex_trans x y z : key_lex x y = true -> key_lex y z = true -> key_lex x z = true.
  Proof. revert y z. induction x as [|a x IH]; intros [|b y] [|c z]; cbn; try easy.
    destruct (ceqb a b) eqn:E1.
    - apply ceqb_ok in E1. subst b. destruct (ceqb a c); eauto.
    - destruct (ceqb b c) eqn:E2.
      + apply ceqb_ok in E2. subst c. rewrite E1. auto.
      + intros H1 H2. destruct (ceqb a c) eqn:E3.
        * apply ceqb_ok in E3. subst c. apply ceqb_false in E1. elim E1. now apply cell_le_anti.
        * eapply cell_le_trans; eauto. Qed.
  Lemma key_lex_anti x y : key_lex x y = true -> key_lex y x = true -> x = y.
  Proof. revert y. induction x as [|a x IH]; intros [|b y]; cbn; try easy. destruct (ceqb a b) eqn:E.
    - apply ceqb_ok in E. subst b. rewrite (proj2 (ceqb_ok a a) eq_refl). intros. f_equal. auto.
    - replace (ceqb b a) with false by (symmetry; apply ceqb_false; apply ceqb_false in E; congruence).
      intros H1 H2. apply ceqb_false in E. elim E. now apply cell_le_anti. Qed.
End Lex.
Notation ceqb := (cell_eqb Z.eqb).
Notation key_le := (key_lex Z.eqb Z.leb).
Lemma zle_total x y : (x <=? y)%Z = true \/ (y <=? x)%Z = true.
Proof. rewrite !Z.leb_le. lia. Qed.
Lemma zle_trans x y z : (x <=? y)%Z = true -> (y <=? z)%Z = true -> (x <=? z)%Z = true.
Proof. rewrite !Z.leb_le. lia. Qed.
Lemma zle_anti x y : (x <=? y)%Z = true -> (y <=? x)%Z = true -> x = y.
Proof. rewrite !Z.leb_le. lia. Qed.
Notation key_le_total := (key_lex_total Z.eqb Z.leb Z.eqb_eq zle_total).
Notation key_le_trans := (key_lex_trans Z.eqb Z.leb Z.eqb_eq zle_trans zle_anti).
Notation key_le_anti := (key_lex_anti Z.eqb Z.leb Z.eqb_eq zle_anti).

Notation table := (df nat nat (option Z)).
Definition framed (rl cl : list nat) (d : table) : @pframe nat nat (option Z) :=
  mkpf (cut_table rl cl d) (Some (dindex d)) (Some (dcols d)) (Some rl) (Some cl).
Lemma framed_holds rl cl d : wf d -> list_sum rl = nrows d -> list_sum cl = ncols d -> holds (framed rl cl d) d rl cl.
Proof. intros. apply holds_intro; auto. Qed.
Definition int (n : Z) : option Z := Some n.
Definition gb (nparts : nat) bk im := groupby_call Nat.eqb Nat.eqb Z.eqb key_le nparts 32 bk im true.

(** columns 0 = key, 1, 2; six rows *)
Definition d1 : table := mkdf [10; 11; 12; 13; 14; 15] [0; 1; 2]
  [[int 2; int 5; None]; [int 1; int 7; int 1]; [None; int 9; int 1];
   [int 2; int 4; None]; [int 1; None; int 6]; [int 2; None; None]].
Definition f1 := framed [3; 3] [2; 1] d1.
Definition b1 := framed [3; 3] [1] (columns_at Nat.eqb [0] d1).

(** sum of the groups 1 (rows 11, 14) and 2 (rows 10, 13, 15); both occur in both row partitions *)
Example ex_groupby_sum :
  exists r, gb 4 (ByFrame true) (reduce_impl GSum 0) true true None f1 (Some b1) = Ok r
    /\ pf_to_pandas (rlabel_eqb ceqb) Nat.eqb r
       = Ok (mkdf [Key [int 1]; Key [int 2]] [1; 2] [[int 7; int 7]; [int 9; int 0]]).
Proof. vm_compute. eexists. split; reflexivity. Qed.
Example ex_groupby_min_keep_missing :
  exists r, gb 4 (ByFrame true) (reduce_impl GMin 1) false false None f1 (Some b1) = Ok r
    /\ pf_to_pandas (rlabel_eqb ceqb) Nat.eqb r
       = Ok (mkdf [Pos 0; Pos 1; Pos 2] [0; 1; 2] [[int 1; int 7; int 1]; [int 2; int 4; None]; [None; int 9; int 1]]).
Proof. vm_compute. eexists. split; reflexivity. Qed.
Example ex_hypotheses :
  gives Nat.eqb Z.eqb (gb 4 (ByFrame true) (reduce_impl GProd 1) true true None f1 (Some b1))
    (keyed (grouped Z.eqb key_le (agg_of GProd 1) true true (row_keys Nat.eqb [0] d1) (without Nat.eqb [0] d1)))
  /\ gives Nat.eqb Z.eqb (gb 4 (ByFrame true) (reduce_impl GSize 0) true false (Some 0) f1 (Some b1))
    (numbered [0] (grouped Z.eqb key_le p_size true true (row_keys Nat.eqb [0] d1) (keep_cols (Nat.eqb 0) d1)))
  /\ gives Nat.eqb Z.eqb (gb 4 (ByFrame false) (reduce_impl GMax 1) true true None f1 (Some (framed [3; 3] [1] (columns_at Nat.eqb [2] d1))))
    (keyed (grouped Z.eqb key_le (agg_of GMax 1) true true (dcells (columns_at Nat.eqb [2] d1)) d1))
  /\ gives Nat.eqb Z.eqb (gb 4 (ByLevel (fun l => [int (Z.of_nat (l / 4))])) (reduce_impl GCount 0) true true None f1 None)
    (keyed (grouped Z.eqb key_le (agg_of GCount 0) true true (map (fun l => [int (Z.of_nat (l / 4))]) (dindex d1)) d1)).
Proof.
  assert (W : wf d1) by (repeat constructor).
  assert (F : holds f1 d1 [3; 3] [2; 1]) by (apply framed_holds; auto).
  assert (B : forall c, In c [0; 1; 2] -> holds (framed [3; 3] [1] (columns_at Nat.eqb [c] d1)) (columns_at Nat.eqb [c] d1) [3; 3] [1]).
  { intros c Hc. cbn in Hc. destruct Hc as [<-|[<-|[<-|[]]]]; (apply framed_holds; [repeat constructor|reflexivity|reflexivity]). }
  split; [|split; [|split]].
  - apply (@C24_own_columns_partial nat nat Nat.eqb Nat.eqb_eq Nat.eqb Nat.eqb_eq 4 32 ltac:(lia) ltac:(lia) true true true
      key_le key_le_total key_le_trans key_le_anti GProd 1 ltac:(lia) f1 d1 [3; 3] [2; 1] F ltac:(easy) ltac:(easy) b1 [0] [1]); try easy.
    + apply B. now left.
    + repeat constructor; cbn; intuition discriminate.
    + repeat constructor; easy.
    + intros x [<-|[]]. now left.
  - apply (@C24_size_partial nat nat Nat.eqb Nat.eqb_eq Nat.eqb Nat.eqb_eq 4 32 ltac:(lia) ltac:(lia) true true false
      key_le key_le_total key_le_trans key_le_anti f1 d1 [3; 3] [2; 1] F ltac:(easy) ltac:(easy) b1 [0] 0 [1]); try easy.
    + apply B. now left.
    + repeat constructor; cbn; intuition discriminate.
    + repeat constructor; easy.
    + intros x [<-|[]]. now left.
  - apply (@C24_other_series_partial nat nat Nat.eqb Nat.eqb_eq Nat.eqb Nat.eqb_eq 4 32 ltac:(lia) ltac:(lia) true true true
      key_le key_le_total key_le_trans key_le_anti GMax 1 ltac:(lia) f1 d1 [3; 3] [2; 1] F ltac:(easy) ltac:(easy) _ _ [1]); try easy.
    apply B. cbn; auto.
  - apply (@C24_index_level_partial nat nat Nat.eqb Nat.eqb Nat.eqb_eq 4 32 ltac:(lia) ltac:(lia) true true true
      key_le key_le_total key_le_trans key_le_anti GCount 0 ltac:(lia) f1 d1 [3; 3] [2; 1] F ltac:(easy) ltac:(easy)); cbn; auto; lia.
Qed.

(** [df.groupby(by).sum(min_count=2)]: group 2 has the two values 5 and 4 in column 1, in different row partitions;
    neither partition reaches [min_count], so the sum is missing instead of 9. *)
Theorem C24_min_count_refuted :
  exists (f b : @pframe nat nat (option Z)) d by_ rl cl clb,
    holds f d rl cl /\ holds b (columns_at Nat.eqb by_ d) rl clb /\ NoDup (dcols d) /\ NoDup by_ /\ incl by_ (dcols d)
    /\ exists r g, gb 4 (ByFrame true) (reduce_impl GSum 2) true true None f (Some b) = Ok r
       /\ pf_to_pandas (rlabel_eqb ceqb) Nat.eqb r = Ok g
       /\ g <> keyed (grouped Z.eqb key_le (agg_of GSum 2) true true (row_keys Nat.eqb by_ d) (without Nat.eqb by_ d)).
Proof.
  exists f1, b1, d1, [0], [3; 3], [2; 1], [1].
  split; [apply framed_holds; [repeat constructor|reflexivity|reflexivity]|].
  split; [apply framed_holds; [repeat constructor|reflexivity|reflexivity]|].
  split; [repeat constructor; cbn; intuition discriminate|]. split; [repeat constructor; easy|].
  split; [intros x [<-|[]]; now left|].
  vm_compute. eexists _, _. split; [reflexivity|]. split; [reflexivity|]. discriminate.
Qed.

Definition s1 : table := mkdf (dindex d1) [7] [[int 1]; [int 1]; [int 1]; [int 1]; [int 2]; [int 2]].
(** [df.groupby(series)], the labels of [series] equal those of [df], the same number of row partitions but of other
    lengths: the key of row 12 is looked up in the wrong partition, and the row is lost. *)
Theorem C24_other_lengths_refuted :
  exists (f b : @pframe nat nat (option Z)) d s rl cl rlb clb,
    holds f d rl cl /\ holds b s rlb clb /\ length rlb = length rl /\ ncols s = 1 /\ dindex s = dindex d
    /\ exists r g, gb 4 (ByFrame false) (reduce_impl GCount 0) true true None f (Some b) = Ok r
       /\ pf_to_pandas (rlabel_eqb ceqb) Nat.eqb r = Ok g
       /\ g <> keyed (grouped Z.eqb key_le (agg_of GCount 0) true true (dcells s) d).
Proof.
  exists f1, (framed [2; 4] [1] s1), d1, s1, [3; 3], [2; 1], [2; 4], [1].
  split; [apply framed_holds; [repeat constructor|reflexivity|reflexivity]|].
  split; [apply framed_holds; [repeat constructor|reflexivity|reflexivity]|].
  split; [reflexivity|]. split; [reflexivity|]. split; [reflexivity|].
  vm_compute. eexists _, _. split; [reflexivity|]. split; [reflexivity|]. discriminate.
Qed.

(** ... and another number of row partitions is an AssertionError. *)
Theorem C24_other_number_refuted :
  exists (f b : @pframe nat nat (option Z)) d s rl cl rlb clb,
    holds f d rl cl /\ holds b s rlb clb /\ ncols s = 1 /\ dindex s = dindex d
    /\ gb 4 (ByFrame false) (reduce_impl GCount 0) true true None f (Some b) = Err AssertionError.
Proof.
  exists f1, (framed [6] [1] s1), d1, s1, [3; 3], [2; 1], [6], [1].
  split; [apply framed_holds; [repeat constructor|reflexivity|reflexivity]|].
  split; [apply framed_holds; [repeat constructor|reflexivity|reflexivity]|].
  split; [reflexivity|]. split; [reflexivity|]. vm_compute. reflexivity.
Qed.

(** [df.groupby(by).mean()] when every key is missing: the empty result has every column once per partial
    aggregate. *)
Definition q (n : Z) : option Qc := Some (Q2Qc (inject_Z n)).
Definition dq : df nat nat (option Qc) := mkdf [10; 11; 12] [0; 1; 2] [[None; q 5; None]; [None; q 7; q 1]; [None; q 3; q 1]].
Definition qframed (rl cl : list nat) (d : df nat nat (option Qc)) : @pframe nat nat (option Qc) :=
  mkpf (cut_table rl cl d) (Some (dindex d)) (Some (dcols d)) (Some rl) (Some cl).
(** any order of the keys *)
Theorem C25_no_key_refuted (kle : list (option Qc) -> list (option Qc) -> bool) :
  exists (f b : @pframe nat nat (option Qc)) d by_ rl cl clb,
    holds f d rl cl /\ holds b (columns_at Nat.eqb by_ d) rl clb /\ NoDup (dcols d) /\ NoDup by_ /\ incl by_ (dcols d)
    /\ exists r, groupby_call Nat.eqb Nat.eqb qeqb kle 4 32 (ByFrame true) mean_impl true true true None f (Some b) = Ok r
       /\ dcols (grouped qeqb kle mean true true (row_keys Nat.eqb by_ d) (without Nat.eqb by_ d)) = [1; 2]
       /\ forall g rl' cl', holds r g rl' cl' -> dcols g = [1; 1; 2; 2].
Proof.
  exists (qframed [2; 1] [2; 1] dq), (qframed [2; 1] [1] (columns_at Nat.eqb [0] dq)), dq, [0], [2; 1], [2; 1], [1].
  split; [apply holds_intro; auto; repeat constructor|].
  split; [apply holds_intro; auto; repeat constructor|].
  split; [repeat constructor; cbn; intuition discriminate|]. split; [repeat constructor; easy|].
  split; [intros x [<-|[]]; now left|].
  eexists. split; [vm_compute; reflexivity|]. split; [reflexivity|].
  intros g rl' cl' Hh. assert (N : rl' <> []).
  { destruct Hh as [(W & Sr & Sc & G & _) _]. intros ->. discriminate. }
  rewrite <- (first_row_names Hh N). reflexivity.
Qed.

Definition qle (x y : Qc) : bool := if Qclt_le_dec y x then false else true.
Lemma qle_ok x y : qle x y = true <-> (x <= y)%Qc.
Proof. unfold qle. destruct (Qclt_le_dec y x) as [E|E]; split; auto; try easy. intros X. now apply Qcle_not_lt in X. Qed.
Lemma qle_total x y : qle x y = true \/ qle y x = true.
Proof. rewrite !qle_ok. destruct (Qclt_le_dec x y) as [E|E]; auto. left. now apply Qclt_le_weak. Qed.
Lemma qle_trans x y z : qle x y = true -> qle y z = true -> qle x z = true.
Proof. rewrite !qle_ok. apply Qcle_trans. Qed.
Lemma qle_anti x y : qle x y = true -> qle y x = true -> x = y.
Proof. rewrite !qle_ok. apply Qcle_antisym. Qed.

(** group 1: values 2, 3 and 10 in column 1, from both row partitions; group 2: a single value *)
Definition dm : df nat nat (option Qc) :=
  mkdf [10; 11; 12; 13; 14] [0; 1; 2] [[q 1; q 2; None]; [q 2; q 7; q 1]; [None; q 3; q 1]; [q 1; q 3; None]; [q 1; q 10; None]].
Definition fm := qframed [2; 3] [2; 1] dm.
Definition bm := qframed [2; 3] [1] (columns_at Nat.eqb [0] dm).
Definition kq := key_lex qeqb qle.
Definition shown (r : res (@pframe (rlabel (option Qc)) nat (option Qc))) : option (list (list (option Q))) :=
  match r with
  | Ok f => match pf_to_pandas (rlabel_eqb (cell_eqb qeqb)) Nat.eqb f with
            | Ok g => Some (map (map (option_map this)) (dcells g))
            | Err _ => None
            end
  | Err _ => None
  end.
Example ex_mean :
  shown (groupby_call Nat.eqb Nat.eqb qeqb kq 4 32 (ByFrame true) mean_impl true true true None fm (Some bm))
  = Some [[Some (5 # 1)%Q; None]; [Some (7 # 1)%Q; Some (1 # 1)%Q]].
Proof. vm_compute. reflexivity. Qed.
(** with the identity for the roots: m2 = 38, m3 = 90, 3 * 2 / 1 * 90 / 38 *)
Example ex_skew :
  shown (groupby_call Nat.eqb Nat.eqb qeqb kq 4 32 (ByFrame true) (skew_impl (fun x => x) (fun x => x)) true true true None fm (Some bm))
  = Some [[Some (270 # 19)%Q; None]; [None; None]].
Proof. vm_compute. reflexivity. Qed.
Example ex_moment_hypotheses :
  gives Nat.eqb qeqb (groupby_call Nat.eqb Nat.eqb qeqb kq 4 32 (ByFrame true) mean_impl true true true None fm (Some bm))
    (keyed (grouped qeqb kq mean true true (row_keys Nat.eqb [0] dm) (without Nat.eqb [0] dm))).
Proof.
  apply (@C25_mean_partial nat nat Nat.eqb Nat.eqb_eq Nat.eqb Nat.eqb_eq 4 32 ltac:(lia) ltac:(lia) true true true
    kq (key_lex_total qeqb qle qeqb_ok qle_total) (key_lex_trans qeqb qle qeqb_ok qle_trans qle_anti) (key_lex_anti qeqb qle qeqb_ok qle_anti)
    fm bm dm [2; 3] [2; 1] [1] [0]); try easy.
  - apply holds_intro; auto; repeat constructor.
  - apply holds_intro; auto; repeat constructor.
  - repeat constructor; cbn; intuition discriminate.
  - repeat constructor; easy.
  - intros x [<-|[]]; now left.
  - exists [q 1]. split; [now left|]. intros _. repeat constructor. discriminate.
Qed.

Print Assumptions C24_min_count_refuted.
Print Assumptions C24_other_lengths_refuted.
Print Assumptions C24_other_number_refuted.
Print Assumptions C25_no_key_refuted.
