(** The mapped blocks of every kind of grouping keys, and the grid of the result. *)
From Verif Require Import Base Table ChunkModel ChunkSpec ChunkProofs GridSpec FrameSpec GridModel GridProofs GridProofs2 GridProofs3 SelModel GroupSpec GroupModel GroupProofs GroupProofs2 GroupProofs3 GroupProofs4.
Open Scope nat_scope.

Lemma combine_seq_map {X Y} (f : X -> Y) s l :
  combine (seq s (length l)) (map f l) = map (fun jc => (fst jc, f (snd jc))) (combine (seq s (length l)) l).
Proof. revert s. induction l as [|x l IH]; intros s; cbn; auto. now rewrite IH. Qed.
Lemma grid_width_map {R C X} (f : R -> C -> X) rs cs : rs <> [] -> grid_width (map (fun r => map (f r) cs) rs) = length cs.
Proof. destruct rs; [easy|]. intros _. cbn. apply map_length. Qed.

Section Keys.
  Context {L H A : Type}.
  Notation dframe := (df L H A).
  Notation key := (list A).
  Variable leqb : L -> L -> bool.
  Hypothesis leqb_ok : forall x y, leqb x y = true <-> x = y.
  Variable heqb : H -> H -> bool.
  Hypothesis heqb_ok : forall x y, heqb x y = true <-> x = y.

  Lemma heqb_self h : heqb h h = true.
  Proof. now apply heqb_ok. Qed.
  Lemma inb_in h l : inb heqb h l = true <-> In h l.
  Proof. unfold inb. rewrite existsb_exists. split; [intros (x & Hx & E); apply heqb_ok in E; now subst|].
    intros Hin. exists h. split; auto. apply heqb_self. Qed.
  Lemma inb_out h l : inb heqb h l = false <-> ~ In h l.
  Proof. rewrite <- inb_in. symmetry. apply not_true_iff_false. Qed.

  Lemma keepl_none {X Y} (p : X -> bool) (c : list X) (l : list Y) : (forall h, In h c -> p h = false) -> keepl p c l = [].
  Proof. unfold keepl. revert l. induction c as [|x c IH]; intros [|y l] E; cbn; auto.
    rewrite E by now left. apply IH. intros; apply E; now right. Qed.

  (** the one cell under a header *)
  Lemma keepl_one {Y} (cols : list H) (r : list Y) h : NoDup cols -> In h cols -> length cols = length r ->
    exists v, keepl (heqb h) cols r = [v].
  Proof. revert r. induction cols as [|c cols IH]; intros [|y r] Nd Hin El; try easy.
    inversion_clear Nd as [|? ? Hc Nd']. unfold keepl. cbn [combine filter fst]. destruct (heqb h c) eqn:E.
    - apply heqb_ok in E. subst c. cbn [map snd]. exists y. f_equal. fold (keepl (heqb h) cols r).
      apply keepl_none. intros x Hx. apply not_true_iff_false. intros E. apply heqb_ok in E. now subst.
    - fold (keepl (heqb h) cols r). apply IH; auto. destruct Hin as [->|]; auto. rewrite heqb_self in E. discriminate. Qed.

  Lemma key_of_app by_ c1 c2 (r1 r2 : list A) : length c1 = length r1 ->
    key_of heqb by_ (c1 ++ c2) (r1 ++ r2) = flat_map (fun h => keepl (heqb h) c1 r1 ++ keepl (heqb h) c2 r2) by_.
  Proof. intros E. unfold key_of. induction by_ as [|h t IH]; cbn; auto. rewrite IH. f_equal. now apply keepl_app. Qed.

  Lemma key_of_length by_ cols (r : list A) : NoDup cols -> incl by_ cols -> length cols = length r ->
    length (key_of heqb by_ cols r) = length by_.
  Proof. intros Nd I El. unfold key_of. induction by_ as [|h t IH]; cbn; auto.
    destruct (@keepl_one A cols r h Nd (I h (or_introl eq_refl)) El) as (v & ->). cbn. f_equal. apply IH. intros x Hx. apply I. now right. Qed.

  Lemma keepl_sub {Y} (p q : H -> bool) (c : list H) (l : list Y) :
    keepl p (filter q c) (keepl q c l) = keepl (fun h => q h && p h) c l.
  Proof. unfold keepl. revert l. induction c as [|x c IH]; intros [|y l]; cbn; auto.
    - destruct (q x); [reflexivity|]. destruct (filter q c); reflexivity.
    - destruct (q x) eqn:Eq; cbn; [|apply IH]. destruct (p x); cbn; rewrite IH; reflexivity. Qed.

  (** a cell of the key row, looked up by its header *)
  Lemma keepl_key by_ cols (r : list A) h : NoDup by_ -> NoDup cols -> incl by_ cols -> length cols = length r -> In h by_ ->
    keepl (heqb h) by_ (key_of heqb by_ cols r) = keepl (heqb h) cols r.
  Proof.
    intros Nb Nd I El. unfold key_of. induction by_ as [|b by_ IH]; [easy|]. intros Hin.
    inversion_clear Nb as [|? ? Hb Nb']. cbn [flat_map].
    destruct (@keepl_one A cols r b Nd (I b (or_introl eq_refl)) El) as (v & Ev). rewrite Ev.
    cbn [app]. unfold keepl at 1. cbn [combine filter fst]. fold (keepl (heqb h) by_ (flat_map (fun h0 => keepl (heqb h0) cols r) by_)).
    destruct (heqb h b) eqn:E.
    - apply heqb_ok in E. subst b. rewrite Ev. cbn [map snd]. f_equal.
      apply keepl_none. intros x Hx. apply not_true_iff_false. intros E. apply heqb_ok in E. now subst.
    - fold (keepl (heqb h) by_ (flat_map (fun h0 => keepl (heqb h0) cols r) by_)).
      apply IH; auto; [intros x Hx; apply I; now right|]. destruct Hin as [->|]; auto. rewrite heqb_self in E. discriminate.
  Qed.

  Lemma slice_split {X} (l : list X) a b : l = firstn a l ++ slice l a b ++ skipn (b - a) (skipn a l).
  Proof. unfold slice. now rewrite firstn_skipn, firstn_skipn. Qed.
  Lemma NoDup_app_l {X} (l1 l2 : list X) : NoDup (l1 ++ l2) -> NoDup l1.
  Proof. induction l1 as [|x l1 IH]; cbn; intros Nd; constructor; inversion_clear Nd; auto.
    intros Hx. apply H0. apply in_or_app. now left. Qed.
  Lemma NoDup_app_r {X} (l1 l2 : list X) : NoDup (l1 ++ l2) -> NoDup l2.
  Proof. induction l1 as [|x l1 IH]; cbn; auto. intros Nd. inversion_clear Nd. auto. Qed.
  Lemma NoDup_slice {X} (l : list X) a b : NoDup l -> NoDup (slice l a b).
  Proof. intros Nd. rewrite (slice_split l a b) in Nd. apply NoDup_app_r in Nd. now apply NoDup_app_l in Nd. Qed.
  Lemma incl_slice {X} (l : list X) a b : incl (slice l a b) l.
  Proof. intros x Hx. rewrite (slice_split l a b). apply in_or_app. right. apply in_or_app. now left. Qed.
  Lemma NoDup_app_out {X} (l1 l2 : list X) x : NoDup (l1 ++ l2) -> In x l1 -> In x l2 -> False.
  Proof. induction l1 as [|y l1 IH]; cbn; [easy|]. intros Nd [->|Hin] H2; inversion_clear Nd as [|? ? Hy Nd'].
    - apply Hy. apply in_or_app. now right.
    - now apply IH. Qed.

  Lemma keepl_slice {Y} (cols : list H) (r : list Y) a b h : NoDup cols -> length cols = length r -> In h (slice cols a b) ->
    keepl (heqb h) (slice cols a b) (slice r a b) = keepl (heqb h) cols r.
  Proof.
    intros Nd El Hin. rewrite (slice_split cols a b) in Nd. rewrite (slice_split cols a b) at 2. rewrite (slice_split r a b) at 2.
    rewrite !keepl_app by (rewrite ?slice_length, ?firstn_length, ?El; reflexivity).
    rewrite (@keepl_none _ _ (heqb h) (firstn a cols)), (@keepl_none _ _ (heqb h) (skipn _ _)), app_nil_r; auto.
    - intros x Hx. apply not_true_iff_false. intros E. apply heqb_ok in E. subst x.
      apply NoDup_app_r in Nd. eapply NoDup_app_out; eauto.
    - intros x Hx. apply not_true_iff_false. intros E. apply heqb_ok in E. subst x.
      eapply NoDup_app_out; [exact Nd|exact Hx|]. apply in_or_app. now left.
  Qed.

  (** a block with the missing key columns appended has the keys of the whole rows *)
  Lemma block_key by_ cols (r : list A) a b : NoDup by_ -> NoDup cols -> incl by_ cols -> length cols = length r ->
    let bc := slice cols a b in
    let p := fun h => negb (inb heqb h bc) in
    key_of heqb by_ (bc ++ filter p by_) (slice r a b ++ keepl p by_ (key_of heqb by_ cols r)) = key_of heqb by_ cols r.
  Proof.
    intros Nb Nd I El bc p.
    rewrite key_of_app by (unfold bc; rewrite !slice_length, El; reflexivity).
    unfold key_of at 2.
    assert (G : forall l, incl l by_ ->
      flat_map (fun h => keepl (heqb h) bc (slice r a b) ++ keepl (heqb h) (filter p by_) (keepl p by_ (key_of heqb by_ cols r))) l
      = flat_map (fun h => keepl (heqb h) cols r) l).
    { induction l as [|h l IH]; intros Il; cbn; auto. rewrite IH by (intros x Hx; apply Il; now right). f_equal.
      rewrite keepl_sub. destruct (inb heqb h bc) eqn:E.
      - rewrite (@keepl_none _ _ (fun h0 => p h0 && heqb h h0)).
        + rewrite app_nil_r. apply keepl_slice; auto. now apply inb_in.
        + intros x _. destruct (heqb h x) eqn:Ex; [|now rewrite andb_false_r]. apply heqb_ok in Ex. subst x. unfold p. now rewrite E.
      - rewrite (@keepl_none _ _ (heqb h) bc).
        + cbn [app]. rewrite <- (@keepl_key by_ cols r h Nb Nd I El (Il h (or_introl eq_refl))).
          unfold keepl. f_equal. apply filter_ext. intros (x & y). cbn [fst].
          destruct (heqb h x) eqn:Ex; [|now rewrite andb_false_r]. apply heqb_ok in Ex. subst x. unfold p. now rewrite E.
        + intros x Hx. apply not_true_iff_false. intros Ex. apply heqb_ok in Ex. subst x. apply inb_in in Hx. congruence. }
    apply G. apply incl_refl.
  Qed.
End Keys.

Section Mapped.
  Context {L H A : Type}.
  Notation dframe := (df L H A).
  Notation key := (list A).
  Variable leqb : L -> L -> bool.
  Hypothesis leqb_ok : forall x y, leqb x y = true <-> x = y.
  Variable heqb : H -> H -> bool.
  Hypothesis heqb_ok : forall x y, heqb x y = true <-> x = y.
  Variable aeqb : A -> A -> bool.
  Variable na : A -> bool.
  Variable nan : A.
  Variable kle : key -> key -> bool.
  Notation grouped_map := (grouped_map aeqb na kle).
  Notation map_part := (map_part leqb heqb aeqb na nan kle).

  Definition chosen (selection : option H) (by_ : list H) (h : H) : bool :=
    match selection with Some s => heqb s h | None => negb (inb heqb h by_) end.

  Lemma map_part_own im sort dropna selection (d : dframe) by_ ri ci :
    wf d -> NoDup (dcols d) -> NoDup by_ -> incl by_ (dcols d) ->
    (forall s, selection = Some s -> In s (slice (dcols d) (fst ci) (snd ci))) ->
    map_part (ByFrame true) im sort dropna selection (block d ri ci) (Some (iloc_rows (columns_at heqb by_ d) (fst ri) (snd ri)))
    = Ok (grouped_map im sort dropna (slice (row_keys heqb by_ d) (fst ri) (snd ri)) (keep_cols (chosen selection by_) (block d ri ci))).
  Proof.
    intros [W1 W2] Nd Nb I Hsel. unfold map_part, GroupModel.map_part. cbn [orb].
    set (bc := slice (dcols d) (fst ci) (snd ci)). set (p := fun h => negb (inb heqb h bc)).
    set (t := slice (dcells d) (fst ri) (snd ri)).
    assert (Wt : Forall (fun r => length r = length (dcols d)) t) by (apply Forall_slice; exact W2).
    assert (Ec : concat_cols leqb [block d ri ci; keep_cols (fun h => negb (inb heqb h (dcols (block d ri ci)))) (iloc_rows (columns_at heqb by_ d) (fst ri) (snd ri))]
      = Ok (mkdf (slice (dindex d) (fst ri) (snd ri)) (bc ++ filter p by_)
             (map (fun r => slice r (fst ci) (snd ci) ++ keepl p by_ (key_of heqb by_ (dcols d) r)) t))).
    { unfold concat_cols. cbn [block dindex dcols dcells columns_at keep_cols iloc_rows forallb map concat].
      rewrite (list_eqb_refl leqb leqb_ok). cbn [andb]. f_equal. f_equal; [now rewrite app_nil_r|].
      unfold row_keys. rewrite slice_map, map_map. fold bc. fold p. fold t.
      pose proof (fold_zipapp_map [fun r => slice r (fst ci) (snd ci); fun r => keepl p by_ (key_of heqb by_ (dcols d) r)] t) as E.
      cbn [map concat] in E. unfold nrows. cbn [dindex block].
      replace (length (slice (dindex d) (fst ri) (snd ri))) with (length t) by (unfold t; rewrite !slice_length; now rewrite W1).
      etransitivity; [exact E|]. apply map_ext. intros r. now rewrite app_nil_r. }
    rewrite Ec. cbn [rbind dcols iloc_rows columns_at]. f_equal.
    assert (Ek : row_keys heqb by_ (mkdf (slice (dindex d) (fst ri) (snd ri)) (bc ++ filter p by_)
             (map (fun r => slice r (fst ci) (snd ci) ++ keepl p by_ (key_of heqb by_ (dcols d) r)) t)) = slice (row_keys heqb by_ d) (fst ri) (snd ri)).
    { unfold row_keys. cbn [dcols dcells]. rewrite slice_map, map_map. fold t. apply map_ext_in. intros r Hr.
      rewrite Forall_forall in Wt. apply (@block_key H A heqb heqb_ok); auto. symmetry. now apply Wt. }
    rewrite Ek. f_equal. unfold keep_cols. cbn [dindex dcols dcells block]. fold bc.
    assert (E0 : filter (chosen selection by_) (filter p by_) = []).
    { apply filter_nil. intros h Hh. apply filter_In in Hh as [Hh Hp]. destruct selection as [s|]; cbn.
      - apply not_true_iff_false. intros E. apply heqb_ok in E. subst s. unfold p in Hp. apply negb_true_iff, (inb_out heqb heqb_ok) in Hp.
        apply Hp. now apply Hsel.
      - apply negb_false_iff. now apply (inb_in heqb heqb_ok). }
    f_equal.
    - change (fun h => match selection with Some s => heqb s h | None => negb (inb heqb h by_) end) with (chosen selection by_).
      rewrite filter_app, E0, app_nil_r. reflexivity.
    - change (fun h => match selection with Some s => heqb s h | None => negb (inb heqb h by_) end) with (chosen selection by_).
      rewrite !map_map. fold t. apply map_ext_in. intros r Hr. rewrite Forall_forall in Wt. specialize (Wt r Hr).
      rewrite keepl_app by (unfold bc; rewrite !slice_length, Wt; reflexivity).
      rewrite (@keepl_none _ _ _ (filter p by_)); [apply app_nil_r|]. intros h Hh.
      destruct (chosen selection by_ h) eqn:E; auto. exfalso.
      assert (In h (filter (chosen selection by_) (filter p by_))) by (apply filter_In; auto). rewrite E0 in H0. easy.
  Qed.

  (** keys from another frame with the same row labels *)
  Lemma map_part_series im sort dropna (d : dframe) (s : dframe) ri ci :
    ncols s = 1 -> dindex s = dindex d ->
    map_part (ByFrame false) im sort dropna None (block d ri ci) (Some (iloc_rows s (fst ri) (snd ri)))
    = Ok (grouped_map im sort dropna (slice (dcells s) (fst ri) (snd ri)) (keep_cols (chosen None []) (block d ri ci))).
  Proof.
    intros E1 Ei. unfold map_part, GroupModel.map_part, ncols. cbn [iloc_rows dcols]. unfold ncols in E1. rewrite E1. cbn [Nat.eqb negb orb].
    unfold series_keys. cbn [dindex block iloc_rows dcells]. rewrite Ei, (list_eqb_refl leqb leqb_ok). reflexivity.
  Qed.

  Lemma map_part_level im sort dropna lkey (d : dframe) ri ci :
    map_part (ByLevel lkey) im sort dropna None (block d ri ci) None
    = Ok (grouped_map im sort dropna (slice (map lkey (dindex d)) (fst ri) (snd ri)) (keep_cols (chosen None []) (block d ri ci))).
  Proof. unfold map_part, GroupModel.map_part. cbn [dindex block]. now rewrite slice_map. Qed.
End Mapped.
