(** C60: reindexing.  C61: assignment by label ([df.loc[rows, cols] = value]). *)
From Verif Require Import Base Table ChunkModel ChunkSpec GridModel GridSpec FrameSpec GridProofs GridProofs2 GridProofs3 GridProofs5 SelSpec SelModel
  SelProofs SelProofs2 SelProofs3 SelProofs4 SelProofs5 SelProofs6 SelProofs7
  SetSpec SetModel SetProofs SetProofs2 SetProofs3 SetProofs4 SetProofs5 SetProofs6 SetProofs7 SetProofs8
  LocSpec LocModel LocProofs LocProofs2 LocProps CatProofs DefProofs2 EnlSpec EnlModel EnlProofs EnlProofs2.

Section C60.
  Context {L A : Type}.
  Variable leqb : L -> L -> bool.
  Hypothesis leqb_ok : forall x y, leqb x y = true <-> x = y.
  Variables min_row min_col nparts : nat.
  Hypothesis mr : 0 < min_row.
  Hypothesis mc : 0 < min_col.
  Hypothesis np : 0 < nparts.
  Notation dframe := (df L L A).
  Notation pf := (@pframe L L A).
  Notation reindex := (df_reindex leqb min_row min_col nparts).

  Lemma to_pandas (f : pf) d rl cl : shows f d rl cl -> pf_to_pandas leqb leqb f = Ok d.
  Proof. intros (Hh & _ & _ & Xi & Xc). eapply pf_to_pandas_holds; [exact leqb_ok|exact leqb_ok|exact Hh|]. intros _. split; congruence. Qed.

  Lemma reindexed_rows_self fill (d : dframe) : wf d -> NoDup (dindex d) -> reindexed_rows fill (dindex d) d d.
  Proof. intros W N. pose proof (reindex_rows_meaning leqb leqb_ok fill (dindex d) W N) as M. unfold reindex_rows in M. rewrite list_eqb_refl in M; auto. Qed.
  Lemma reindexed_cols_self fill (d : dframe) : wf d -> NoDup (dcols d) -> reindexed_cols fill (dcols d) d d.
  Proof. intros W N. pose proof (reindex_cols_meaning leqb leqb_ok fill (dcols d) W N) as M. unfold reindex_cols in M. rewrite list_eqb_refl in M; auto. Qed.

  (** df.reindex(index=ls): whatever the partitioning, the rows of the result are the labels asked for, in the
      order asked for; df is not changed. *)
  Theorem C60_reindex_rows x fill (f : pf) d rl cl : shows f d rl cl -> NoDup (dindex d) ->
    exists f' d', reindex (Some x) None fill None f = Ok (Some f', f) /\ pf_to_pandas leqb leqb f' = Ok d'
      /\ reindexed_rows fill (labels_of x) d d'.
  Proof.
    intros Sh N. assert (Sh' := Sh). destruct Sh' as ((G & _) & _ & _ & Hi & Hc). assert (W := proj1 G). unfold df_reindex. rewrite Hi, Hc. cbn [labels rbind].
    destruct (@qc_reindex_rows_ok L A leqb leqb_ok min_row min_col nparts mr mc np fill (labels_of x) f d rl cl Sh (or_introl N)) as (f' & rl' & cl' & E & S').
    destruct (match x with AnIndex ls => list_eqb leqb ls (dindex d) | AList _ => false end) eqn:Ex.
    - destruct x as [ls|ls]; [|discriminate]. apply list_eqb_spec in Ex; auto. subst ls. cbn [rbind labels_of]. exists f, d. split; auto. split; [eapply to_pandas; eauto|now apply reindexed_rows_self].
    - rewrite E. cbn [rbind]. exists f', (reindex_rows leqb fill (labels_of x) d). split; auto. split; [eapply to_pandas; eauto|now apply reindex_rows_meaning].
  Qed.

  (** df.reindex(columns=ls) *)
  Theorem C60_reindex_columns y fill (f : pf) d rl cl : shows f d rl cl -> NoDup (dcols d) ->
    exists f' d', reindex None (Some y) fill None f = Ok (Some f', f) /\ pf_to_pandas leqb leqb f' = Ok d'
      /\ reindexed_cols fill (labels_of y) d d'.
  Proof.
    intros Sh N. assert (Sh' := Sh). destruct Sh' as ((G & _) & _ & _ & Hi & Hc). assert (W := proj1 G). unfold df_reindex. rewrite Hi, Hc. cbn [labels rbind].
    destruct (@qc_reindex_cols_ok L A leqb leqb_ok min_row min_col nparts mr mc np fill (labels_of y) f d rl cl Sh (or_introl N)) as (f' & rl' & cl' & E & S').
    rewrite E. cbn [rbind]. exists f', (reindex_cols leqb fill (labels_of y) d). split; auto. split; [eapply to_pandas; eauto|now apply reindex_cols_meaning].
  Qed.

  (** df.reindex(index=.., columns=..), both pandas.Index or the index another sequence: first the rows, then the columns. *)
  Definition same_kind (x y : @new_labels L) : Prop := match x, y with AnIndex _, AList _ => False | _, _ => True end.
  Theorem C60_reindex_both_partial x y fill (f : pf) d rl cl : shows f d rl cl -> NoDup (dindex d) -> NoDup (dcols d) -> same_kind x y ->
    exists f' d1 d', reindex (Some x) (Some y) fill None f = Ok (Some f', f) /\ pf_to_pandas leqb leqb f' = Ok d'
      /\ reindexed_rows fill (labels_of x) d d1 /\ reindexed_cols fill (labels_of y) d1 d'.
  Proof.
    intros Sh N Nc K. assert (Sh' := Sh). destruct Sh' as ((G & _) & _ & _ & Hi & Hc). assert (W := proj1 G). unfold df_reindex. rewrite Hi, Hc. cbn [labels rbind].
    set (step1 := if match x with AnIndex ls => list_eqb leqb ls (dindex d) | AList _ => false end then Ok f else qc_reindex leqb min_row min_col nparts false fill (labels_of x) f).
    assert (S1 : exists f1 d1 rl1 cl1, step1 = Ok f1 /\ shows f1 d1 rl1 cl1 /\ reindexed_rows fill (labels_of x) d d1).
    { unfold step1. destruct (match x with AnIndex ls => list_eqb leqb ls (dindex d) | AList _ => false end) eqn:Ex.
      - destruct x as [ls|ls]; [|discriminate]. apply list_eqb_spec in Ex; auto. subst ls. exists f, d, rl, cl. split; auto. split; auto. now apply reindexed_rows_self.
      - destruct (@qc_reindex_rows_ok L A leqb leqb_ok min_row min_col nparts mr mc np fill (labels_of x) f d rl cl Sh (or_introl N)) as (f' & rl' & cl' & E & S').
        exists f', (reindex_rows leqb fill (labels_of x) d), rl', cl'. split; auto. split; auto. now apply reindex_rows_meaning. }
    destruct S1 as (f1 & d1 & rl1 & cl1 & -> & Sh1 & M1). cbn [rbind].
    assert (Ec1 : dcols d1 = dcols d) by apply M1. assert (W1 : wf d1) by apply M1. assert (N1 : NoDup (dcols d1)) by now rewrite Ec1.
    destruct (@qc_reindex_cols_ok L A leqb leqb_ok min_row min_col nparts mr mc np fill (labels_of y) f1 d1 rl1 cl1 Sh1 (or_introl N1)) as (f' & rl' & cl' & E & S').
    assert (Gen : exists f2 d2, qc_reindex leqb min_row min_col nparts true fill (labels_of y) f1 = Ok f2 /\ pf_to_pandas leqb leqb f2 = Ok d2 /\ reindexed_cols fill (labels_of y) d1 d2).
    { exists f', (reindex_cols leqb fill (labels_of y) d1). split; auto. split; [eapply to_pandas; eauto|now apply reindex_cols_meaning]. }
    destruct Gen as (f2 & d2 & E2 & P2 & M2). destruct x as [xs|xs], y as [ys|ys]; try contradiction; cbn [labels_of] in *.
    - destruct (list_eqb leqb ys (dcols d)) eqn:Ey.
      + apply list_eqb_spec in Ey; auto. subst ys. cbn [rbind]. exists f1, d1, d1. split; auto. split; [eapply to_pandas; eauto|]. split; auto. rewrite <- Ec1. now apply reindexed_cols_self.
      + rewrite E2. cbn [rbind]. exists f2, d1, d2. auto.
    - rewrite E2. cbn [rbind]. exists f2, d1, d2. auto.
    - rewrite E2. cbn [rbind]. exists f2, d1, d2. auto.
  Qed.

  (** Repeated row (column) labels: reindexing to other labels raises ValueError, as in pandas. *)
  Theorem C60_duplicates x fill (f : pf) d rl cl : shows f d rl cl -> labels_of x <> dindex d -> ~ NoDup (dindex d) ->
    reindex (Some x) None fill None f = Err ValueError.
  Proof.
    intros (_ & _ & _ & Hi & Hc) Nx N. unfold df_reindex. rewrite Hi, Hc. cbn [labels rbind].
    assert (Ne : forall ls, ls <> dindex d -> list_eqb leqb ls (dindex d) = false).
    { intros ls X. apply not_true_iff_false. intros E. apply X. now apply list_eqb_spec in E. }
    assert (E : qc_reindex leqb min_row min_col nparts false fill (labels_of x) f = Err ValueError).
    { unfold qc_reindex. rewrite Hi, Hc. cbn [labels rbind]. unfold index_reindex.
      replace (list_eqb leqb (dindex d) (labels_of x)) with false.
      - replace (distinct leqb (dindex d)) with false; auto. symmetry. apply not_true_iff_false. intros X. apply N. now apply (distinct_ok leqb leqb_ok).
      - symmetry. apply not_true_iff_false. intros X. apply Nx. apply list_eqb_spec in X; auto. }
    destruct x as [ls|ls]; cbn [labels_of] in *; [rewrite (Ne ls Nx)|]; rewrite E; reflexivity.
  Qed.
  Theorem C60_duplicate_columns y fill (f : pf) d rl cl : shows f d rl cl -> labels_of y <> dcols d -> ~ NoDup (dcols d) ->
    reindex None (Some y) fill None f = Err ValueError.
  Proof.
    intros (_ & _ & _ & Hi & Hc) Nx N. unfold df_reindex. rewrite Hi, Hc. cbn [labels rbind].
    unfold qc_reindex. rewrite Hi, Hc. cbn [labels rbind]. unfold index_reindex.
    replace (list_eqb leqb (dcols d) (labels_of y)) with false.
    - replace (distinct leqb (dcols d)) with false; auto. symmetry. apply not_true_iff_false. intros X. apply N. now apply (distinct_ok leqb leqb_ok).
    - symmetry. apply not_true_iff_false. intros X. apply Nx. apply list_eqb_spec in X; auto.
  Qed.
End C60.

Section C61.
  Context {L A : Type}.
  Variables leqb leb : L -> L -> bool.
  Hypothesis leqb_ok : forall x y, leqb x y = true <-> x = y.
  Variable of_Z : Z -> L.
  Variable of_bool : bool -> L.
  Variable num : L -> option Z.
  Hypothesis num_ok : forall l z, num l = Some z <-> l = of_Z z.
  Hypothesis leb_Z : forall a b, leb (of_Z a) (of_Z b) = (a <=? b)%Z.
  Variables coerce : L -> res L.
  Variables min_row min_col nparts : nat.
  Hypothesis mr : 0 < min_row.
  Hypothesis mc : 0 < min_col.
  Hypothesis np : 0 < nparts.
  Variables known_l known_w : nat -> nat -> bool.
  Variable argsort : list Z -> list nat.
  Hypothesis argsort_ok : forall l, sorts l (argsort l).
  Variable join : list (list L) -> list L * list (list (option nat)).
  Variables nan zero : A.
  Variable fk : bool.
  Notation dframe := (df L L A).
  Notation pf := (@pframe L L A).
  Notation lset := (loc_setitem leqb leb of_Z of_bool num coerce min_row min_col nparts known_l known_w argsort join nan zero fk).
  Notation located := (located leqb leb of_Z).
  Notation plain := (plain leqb leb of_Z num coerce).

  Lemma existing_positions rk ck (f : pf) d rl cl rows cols it : shows f d rl cl ->
    located (dindex d) rk = Some rows -> plain (dindex d) rk -> located (dcols d) ck = Some cols -> plain (dcols d) ck ->
    exists rix cix, selects (nrows d) rix rows /\ selects (ncols d) cix cols
      /\ positions_from_labels leqb leb of_Z num coerce (dcols d) ck = Ok cix
      /\ positions_from_labels leqb leb of_Z num coerce (dindex d) rk = Ok rix
      /\ set_item_existing_loc leqb leb of_Z num coerce min_row min_col nparts known_l known_w argsort join nan fk rk ck it f
         = setitem_positional leqb min_row min_col nparts known_l known_w argsort join nan fk (scalar rk) (scalar ck) rix cix it f.
  Proof.
    intros (_ & _ & _ & Hi & Hc) Er Pr Ec Pc.
    destruct (positions_ok leqb leb leqb_ok of_Z num num_ok leb_Z coerce (dindex d) rk Er Pr) as (rix & E1 & S1).
    destruct (positions_ok leqb leb leqb_ok of_Z num num_ok leb_Z coerce (dcols d) ck Ec Pc) as (cix & E2 & S2).
    exists rix, cix. split; [exact S1|]. split; [exact S2|]. split; [exact E2|]. split; [exact E1|]. unfold set_item_existing_loc. rewrite Hi, Hc. cbn [labels rbind]. rewrite E1, E2. reflexivity.
  Qed.

  (** df.loc[rows, cols] = a, all labels present: exactly the cells addressed are replaced, whatever the
      partitioning.  Missing: values other than one scalar; nothing selected; one-cell frames; lists of
      booleans for columns; repeated positions; the keys excluded by [plain] (see C59). *)
  Theorem C61_existing_partial rk ck a (f : pf) d rl cl rows cols : shows f d rl cl ->
    0 < ncols d -> ~ (nrows d = 1 /\ ncols d = 1) ->
    located (dindex d) rk = Some rows -> plain (dindex d) rk -> located (dcols d) ck = Some cols -> plain (dcols d) ck ->
    rows <> [] -> NoDup rows -> NoDup cols -> (forall m, ck <> KMask m) ->
    (length rows = nrows d -> length cols = 1 -> NoDup (dcols d)) ->
    (length cols = ncols d -> length rows = 1 -> NoDup (dindex d)) ->
    exists f' d', lset rk ck (Scalar a) f = (f', None) /\ pf_to_pandas leqb leqb f' = Ok d' /\ assigned rows cols (fun _ _ => a) d d'.
  Proof.
    intros Sh Hm N1 Er Pr Ec Pc Nr Dr Dc Nm Uc Ur. assert (Sh' := Sh). destruct Sh' as ((G & _) & _ & _ & Hi & Hc). assert (W := proj1 G).
    destruct (@existing_positions rk ck f d rl cl rows cols (Scalar a) Sh Er Pr Ec Pc) as (rix & cix & Sr & Sc & _ & _ & E).
    assert (Hn : 0 < nrows d). { pose proof (selects_bound _ _ _ Sr) as B. destruct rows as [|p rows]; [congruence|]. apply Forall_inv in B. lia. }
    destruct (@spos_scalar L A leqb leqb_ok min_row min_col nparts mr mc np known_l known_w argsort join nan fk f d rl cl (scalar rk) (scalar ck) rix cix rows cols a)
      as (f' & rl' & cl' & E2 & Sh2); auto.
    exists f', (put rows cols (fun _ _ => a) d). split; [|split; [eapply (to_pandas leqb leqb_ok); eauto|now apply assigned_put]].
    unfold loc_setitem. rewrite (empty_no Sh Hn Hm). cbn [rbind]. rewrite Hi, Hc. cbn [labels rbind].
    rewrite (@nothing_missing L leqb leqb_ok leb of_Z of_bool (dindex d) (dcols d) rk ck rows cols Er Ec Nr Nm). cbn [rbind]. rewrite E, E2. now destruct (negb (scalar rk && scalar ck)).
  Qed.

  Lemma all_labels labels : located labels KAll = Some (seq 0 (length labels)).
  Proof. unfold KAll. cbn [LocSpec.located]. unfold sliced. cbn [Z.eqb Z.ltb Z.compare first_of past_of option_map]. f_equal. change (Z.of_nat 0) with 0%Z. rewrite range_all, map_map.
    rewrite (map_ext _ (fun k => k)) by (intros k; lia). apply map_id. Qed.
  Lemma all_plain labels : plain labels KAll.
  Proof. split; [discriminate|]. cbn. intros lo hi _ [= <-] [= <-]. lia. Qed.

  (** df.loc[new_label] = value: one more row at the end, holding the value; all else stays.  The value is one
      scalar, or (two columns at least) one value for each column.  Missing: lists for a one-column frame,
      repeated row labels. *)
  Theorem C61_new_row_partial l it v (f : pf) d rl cl : shows f d rl cl ->
    0 < nrows d -> 0 < ncols d -> NoDup (dindex d) -> ~ In l (dindex d) ->
    wanted 1 (ncols d) it = Some v -> (exists a, it = Scalar a) \/ 1 < ncols d ->
    exists f', lset (KLabel l) KAll it f = (f', None)
      /\ pf_to_pandas leqb leqb f' = Ok (with_row l (map (v 0) (seq 0 (ncols d))) d).
  Proof.
    intros Sh Hn Hm Di Ni Wt H1. assert (Sh' := Sh). destruct Sh' as ((G & _) & _ & _ & Hi & Hc). assert (W := proj1 G).
    destruct (@qc_reindex_rows_ok L A leqb leqb_ok min_row min_col nparts mr mc np zero (dindex d ++ [l]) f d rl cl Sh (or_introl Di)) as (f1 & rl1 & cl1 & E1 & Sh1).
    rewrite (reindex_row_added leqb leqb_ok zero l W Di Ni) in Sh1. set (d1 := with_row l (repeat zero (ncols d)) d) in *.
    assert (D1 : NoDup (dindex d1)) by (unfold d1; cbn; now apply NoDup_snoc).
    assert (Er : located (dindex d1) (KLabel l) = Some [nrows d]).
    { cbn [LocSpec.located all_of]. rewrite (@everywhere_unique L leqb leqb_ok (dindex d1) l (nrows d) D1); [reflexivity|]. unfold d1, nrows. cbn. rewrite nth_error_app2 by lia. now rewrite Nat.sub_diag. }
    destruct (@existing_positions (KLabel l) KAll f1 d1 rl1 cl1 [nrows d] (seq 0 (length (dcols d1))) it Sh1 Er I (all_labels (dcols d1)) (all_plain (dcols d1))) as (rix & cix & Sr & Sc & Xc & _ & E).
    cbn in Xc. injection Xc as <-.
    assert (Hn1 : nrows d1 = S (nrows d)) by (unfold d1, nrows; cbn; rewrite app_length; cbn; lia).
    assert (S2 : exists f' rl' cl', setitem_positional leqb min_row min_col nparts known_l known_w argsort join nan fk (scalar (KLabel l)) (scalar (@KAll L)) rix None it f1 = Ok f'
              /\ shows f' (put [nrows d] (seq 0 (ncols d)) v d1) rl' cl').
    { assert (Sca : forall a, it = Scalar a -> exists f' rl' cl', setitem_positional leqb min_row min_col nparts known_l known_w argsort join nan fk (scalar (KLabel l)) (scalar (@KAll L)) rix None it f1 = Ok f'
              /\ shows f' (put [nrows d] (seq 0 (ncols d)) v d1) rl' cl').
      { intros a ->. cbn [wanted] in Wt. injection Wt as <-.
        eapply (@spos_scalar L A leqb leqb_ok min_row min_col nparts mr mc np known_l known_w argsort join nan fk f1 d1); eauto; try (rewrite Hn1; cbn; lia).
        - repeat constructor. intros [].
        - apply seq_NoDup. }
      destruct it as [a|n w|r c w]; [eauto| |]; (destruct H1 as [[a Ha]|H1]; [discriminate|]);
        eapply (@spos_row L A leqb leqb_ok min_row min_col nparts mr mc np known_l known_w argsort join nan fk f1 d1); eauto; discriminate. }
    destruct S2 as (f' & rl' & cl' & E2 & Sh2). unfold d1 in Sh2. rewrite (put_new_row leqb leqb_ok zero l v W) in Sh2.
    exists f'. split; [|eapply (to_pandas leqb leqb_ok); eauto].
    unfold loc_setitem. rewrite (empty_no Sh Hn Hm). cbn [rbind]. rewrite Hi, Hc. cbn [labels rbind check_missing_loc].
    rewrite (proj2 (has_not leqb leqb_ok (dindex d) l) Ni). unfold KAll in *. cbn [rbind scalar andb negb]. rewrite E1, E. cbn [scalar] in E2 |- *. rewrite E2. reflexivity.
  Qed.

  (** Columns addressed one by one. *)
  Definition named (ck : key L) : option (list L) := match ck with KLabel l => Some [l] | KList ls => Some ls | _ => None end.

  Lemma columns_added ck ls (d : dframe) : NoDup (dcols d) -> NoDup ls -> named ck = Some ls ->
    exists cs, located (dcols d ++ added leqb (dcols d) ls) (KIndex ls) = Some cs /\ NoDup cs /\ length cs = length ls /\ NoDup (dcols d ++ added leqb (dcols d) ls).
  Proof.
    intros Dc Dl _. assert (D1 : NoDup (dcols d ++ added leqb (dcols d) ls)).
    { apply NoDup_app_intro; auto. { unfold added. now apply NoDup_filter. } intros x I1 I2. now apply (added_new leqb leqb_ok) in I2. }
    assert (In1 : forall x, In x ls -> In x (dcols d ++ added leqb (dcols d) ls)).
    { intros x I. apply in_app_iff. destruct (has leqb (dcols d) x) eqn:X; [left; now apply (has_in leqb leqb_ok)|]. right. apply filter_In. split; auto. unfold has in X. now rewrite X. }
    destruct (@all_of_unique L leqb leqb_ok (dcols d ++ added leqb (dcols d) ls) ls D1 Dl In1) as (cs & E & N & Hl & _). exists cs. auto.
  Qed.

  (** df.loc[rows, cols] = a where some columns are new and the rows exist (and are not given by one label): the
      new columns are added on the right, filled with missing values, and exactly the cells addressed are
      replaced.  Missing: values other than one scalar (see the next theorem); keys other than a label or a list;
      repeated column labels. *)
  Theorem C61_new_columns_partial rk ck ls a (f : pf) d rl cl rows : shows f d rl cl ->
    0 < ncols d -> NoDup (dcols d) -> NoDup ls -> named ck = Some ls -> added leqb (dcols d) ls <> [] ->
    located (dindex d) rk = Some rows -> plain (dindex d) rk -> rows <> [] -> NoDup rows -> (forall l, rk <> KLabel l) ->
    (length rows = 1 -> NoDup (dindex d)) ->
    exists f' d' cols, lset rk ck (Scalar a) f = (f', None) /\ pf_to_pandas leqb leqb f' = Ok d'
      /\ located (dcols d ++ added leqb (dcols d) ls) (KIndex ls) = Some cols
      /\ assigned rows cols (fun _ _ => a) (with_cols nan (added leqb (dcols d) ls) d) d'.
  Proof.
    intros Sh Hm Dc Dl Nk Na Er Pr Nr Dr Nl Ur. assert (Sh' := Sh). destruct Sh' as ((G & _) & _ & _ & Hi & Hc). assert (W := proj1 G).
    destruct (@columns_added ck ls d Dc Dl Nk) as (cs & Ec & Dcs & Lcs & D1).
    destruct (@qc_reindex_cols_ok L A leqb leqb_ok min_row min_col nparts mr mc np nan (dcols d ++ added leqb (dcols d) ls) f d rl cl Sh (or_introl Dc)) as (f1 & rl1 & cl1 & E1 & Sh1).
    rewrite (reindex_cols_added leqb leqb_ok nan _ W Dc (fun l => @added_new L leqb leqb_ok (dcols d) ls l)) in Sh1. set (d1 := with_cols nan (added leqb (dcols d) ls) d) in *.
    destruct (@existing_positions rk (KIndex ls) f1 d1 rl1 cl1 rows cs (Scalar a) Sh1 Er Pr Ec I) as (rix & cix & Sr & Sc & _ & _ & E).
    assert (Hn : 0 < nrows d). { pose proof (selects_bound _ _ _ Sr) as B. destruct rows as [|p rows]; [congruence|]. apply Forall_inv in B. change (nrows d1) with (nrows d) in B. lia. }
    assert (Hm1 : 1 < ncols d1). { unfold d1, ncols in *. cbn. rewrite app_length. destruct (added leqb (dcols d) ls); [congruence|]. cbn. lia. }
    destruct (@spos_scalar L A leqb leqb_ok min_row min_col nparts mr mc np known_l known_w argsort join nan fk f1 d1 rl1 cl1 (scalar rk) (scalar (KIndex ls)) rix cix rows cs a)
      as (f' & rl' & cl' & E2 & Sh2); auto; [lia|].
    exists f', (put rows cs (fun _ _ => a) d1), cs. split; [|split; [eapply (to_pandas leqb leqb_ok); eauto|split; [exact Ec|apply assigned_put, with_cols_wf, W]]].
    unfold loc_setitem. rewrite (empty_no Sh Hn Hm). cbn [rbind]. rewrite Hi, Hc. cbn [labels rbind].
    assert (Ex : existsb (fun l => negb (has leqb (dcols d) l)) ls = true).
    { destruct (added leqb (dcols d) ls) as [|x t] eqn:Ea; [congruence|]. assert (I0 : In x (added leqb (dcols d) ls)) by (rewrite Ea; now left).
      apply filter_In in I0 as [I1 I2]. apply existsb_exists. exists x. split; auto. }
    rewrite (@columns_missing L leqb leqb_ok leb of_Z of_bool (dindex d) (dcols d) rk ck ls rows Er Nr Nl Nk Ex). cbn [rbind].
    assert (Sk : scalar rk = false) by (destruct rk; auto; now destruct (Nl l)). rewrite Sk. cbn [andb negb].
    unfold setitem_with_new_columns. rewrite Hc. cbn [labels].
    assert (Ek : match ck with KLabel l => [l] | KList l => l | KMask m => map of_bool m | _ => [] end = ls) by (destruct ck; cbn in Nk; congruence).
    rewrite Ek. change (filter (fun l => negb (has leqb (dcols d) l)) ls) with (added leqb (dcols d) ls).
    destruct (Nat.eqb_spec (length (added leqb (dcols d) ls)) 0) as [Z0|_]; [now apply length_zero_iff_nil in Z0|]. rewrite E1.
    replace (match ck with KMask m => KMask m | _ => KIndex ls end) with (KIndex ls) by (destruct ck; cbn in Nk; congruence).
    rewrite E, E2. reflexivity.
  Qed.

  (** df.loc[:, new_label] = values: a new column on the right holding the values. *)
  Theorem C61_new_column_values l w (f : pf) d rl cl : shows f d rl cl ->
    1 < nrows d -> 0 < ncols d -> NoDup (dcols d) -> ~ In l (dcols d) ->
    exists f' d', lset KAll (KLabel l) (Vector (nrows d) w) f = (f', None) /\ pf_to_pandas leqb leqb f' = Ok d'
      /\ assigned (seq 0 (nrows d)) [ncols d] (fun i _ => w i) (with_cols nan [l] d) d'.
  Proof.
    intros Sh Hn Hm Dc Ni. assert (Sh' := Sh). destruct Sh' as ((G & _) & _ & _ & Hi & Hc). assert (W := proj1 G).
    assert (Ha : added leqb (dcols d) [l] = [l]). { unfold added. cbn [filter]. fold (has leqb (dcols d) l). now rewrite (proj2 (has_not leqb leqb_ok (dcols d) l) Ni). }
    destruct (@qc_reindex_cols_ok L A leqb leqb_ok min_row min_col nparts mr mc np nan (dcols d ++ [l]) f d rl cl Sh (or_introl Dc)) as (f1 & rl1 & cl1 & E1 & Sh1).
    rewrite (reindex_cols_added leqb leqb_ok nan [l] W Dc) in Sh1. 2:{ intros x [<-|[]]. exact Ni. } set (d1 := with_cols nan [l] d) in *.
    assert (D1 : NoDup (dcols d1)) by (unfold d1; cbn; now apply NoDup_snoc).
    assert (Ec : located (dcols d1) (KIndex [l]) = Some [ncols d]).
    { cbn [LocSpec.located all_of]. rewrite (@everywhere_unique L leqb leqb_ok (dcols d1) l (ncols d) D1); [reflexivity|]. unfold d1, ncols. cbn. rewrite nth_error_app2 by lia. now rewrite Nat.sub_diag. }
    destruct (@existing_positions KAll (KIndex [l]) f1 d1 rl1 cl1 (seq 0 (length (dindex d1))) [ncols d] (Vector (nrows d) w) Sh1 (all_labels (dindex d1)) (all_plain (dindex d1)) Ec I) as (rix & cix & Sr & Sc & _ & Xr & E).
    cbn in Xr. injection Xr as <-.
    destruct (@spos_column L A leqb leqb_ok min_row min_col nparts mr mc np known_l known_w argsort argsort_ok join nan fk f1 d1 rl1 cl1 (scalar (@KAll L)) (scalar (KIndex [l])) cix (ncols d) (nrows d) w)
      as (f' & rl' & cl' & E2 & Sh2); auto.
    exists f', (put (seq 0 (nrows d)) [ncols d] (fun i _ => w i) d1). split; [|split; [eapply (to_pandas leqb leqb_ok); eauto|apply assigned_put, with_cols_wf, W]].
    unfold loc_setitem. rewrite (empty_no Sh) by lia. cbn [rbind]. rewrite Hi, Hc. cbn [labels rbind check_missing_loc KAll]. change (1 <? 0) with false. cbv beta iota.
    rewrite (proj2 (has_not leqb leqb_ok (dcols d) l) Ni). cbn [rbind scalar andb negb].
    unfold setitem_with_new_columns. cbn [length Nat.eqb negb]. rewrite Hc. cbn [labels].
    change (filter (fun l => negb (has leqb (dcols d) l)) [l]) with (added leqb (dcols d) [l]). rewrite Ha. cbn [length Nat.eqb]. rewrite E1.
    unfold KAll in *. rewrite E, E2. reflexivity.
  Qed.
End C61.

(** ** Where the current code departs from pandas *)
Section Concrete.
  (** three rows labelled 0, 1, 2 in blocks of two and one; columns "1" and "2" *)
  Definition yd (ls : list xlab) : df xlab xlab Z := mkdf ls [inr 1; inr 2] [[1;2];[3;4];[5;6]]%Z.
  Definition yf (ls : list xlab) : @pframe xlab xlab Z := mkpf (cut_table [2;1] [1;1] (yd ls)) (Some ls) (Some (dcols (yd ls))) (Some [2;1]) (Some [1;1]).
  Lemma yf_shows ls : length ls = 3 -> shows (yf ls) (yd ls) [2;1] [1;1].
  Proof. intros H. split; [|repeat split; easy]. apply holds_intro; cbn; auto. split; [exact (eq_sym H)|repeat constructor]. Qed.
  Definition three : list xlab := xint_labels [0;1;2]%Z.
  Definition missing : Z := -99.
  Definition ycoerce (a : xlab) : res xlab := Ok a.
  Definition ytrue (b : bool) : xlab := inl (if b then 1 else 0)%Z.
  Definition yset := @loc_setitem xlab Z xeqb xleb inl ytrue xnum ycoerce 1 1 2 (fun _ _ => true) (fun _ _ => true) zargsort (fun _ => ([], [])) missing 0%Z true.
  Definition yrun (ls : list xlab) rk ck v := let r := yset rk ck v (yf ls) in (pf_to_pandas xeqb xeqb (fst r), snd r).
  Definition yre := @df_reindex xlab Z xeqb 1 1 2.
  Definition vec (l : list Z) : item Z := Vector (length l) (fun i => nth i l 0%Z).

  (** df.reindex(index=pandas.Index([2]), columns=["1"]) raises AttributeError (pandas: one row, one column): the
      type of [index] is looked at to decide how to compare [columns] *)
  Theorem C60_index_and_list_refuted :
    yre (Some (AnIndex [inl 2%Z])) (Some (AList [inr 1])) missing None (yf three) = Err AttributeError.
  Proof. repeat split; vm_compute; reflexivity. Qed.

  (** df.reindex([2, 7], copy=False) returns nothing and changes df (pandas returns the reindexed frame) *)
  Theorem C60_in_place_refuted :
    (do x <- yre (Some (AList [inl 2; inl 7]%Z)) None missing (Some false) (yf three); Ok (fst x, pf_to_pandas xeqb xeqb (snd x)))
    = Ok (None, Ok (mkdf [inl 2; inl 7]%Z [inr 1; inr 2] [[5;6];[missing;missing]]%Z)).
  Proof. repeat split; vm_compute; reflexivity. Qed.

  (** df.loc[7, "1"] = 8 raises KeyError (pandas adds row 7); so does a new column for one row *)
  Theorem C61_new_row_one_cell_refuted :
    yrun three (KLabel (inl 7%Z)) (KLabel (inr 1)) (Scalar 8%Z) = (Ok (yd three), Some KeyError)
    /\ yrun three (KLabel (inl 1%Z)) (KLabel (inr 7)) (Scalar 8%Z) = (Ok (yd three), Some KeyError)
    /\ yrun three (KLabel (inl 1%Z)) (KList [inr 1; inr 7]) (Scalar 8%Z) = (Ok (yd three), Some KeyError).
  Proof. repeat split; vm_compute; reflexivity. Qed.

  (** df.loc[7, ["1"]] = 8 writes 0 into the other columns (pandas: missing) *)
  Theorem C61_new_row_zero_refuted :
    yrun three (KLabel (inl 7%Z)) (KList [inr 1]) (Scalar 8%Z)
    = (Ok (with_row (inl 7%Z) [8;0]%Z (yd three)), None).
  Proof. repeat split; vm_compute; reflexivity. Qed.

  (** An assignment that raises has added a row of zeros already: a new row with a new column (pandas accepts it), and
      a row of the wrong length (pandas raises and leaves df alone) *)
  Theorem C61_half_done_refuted :
    yrun three (KLabel (inl 7%Z)) (KList [inr 1; inr 7]) (Scalar 8%Z) = (Ok (with_row (inl 7%Z) [0;0]%Z (yd three)), Some KeyError)
    /\ yrun three (KLabel (inl 7%Z)) KAll (vec [1;2;3]%Z) = (Ok (with_row (inl 7%Z) [0;0]%Z (yd three)), Some ValueError).
  Proof. repeat split; vm_compute; reflexivity. Qed.

  (** df.loc[7] = [1, 2] raises ValueError when other row labels repeat (pandas adds the row) *)
  Theorem C61_repeated_labels_refuted :
    let twice := xint_labels [0;0;2]%Z in yrun twice (KLabel (inl 7%Z)) KAll (vec [1;2]%Z) = (Ok (yd twice), Some ValueError).
  Proof. repeat split; vm_compute; reflexivity. Qed.

  (** df.loc[[], "1"] = 8 and df.loc[[False, False, False], "1"] = 8 raise KeyError (pandas does nothing) *)
  Theorem C61_nothing_selected_refuted :
    yrun three (KList []) (KLabel (inr 1)) (Scalar 8%Z) = (Ok (yd three), Some KeyError)
    /\ yrun three (KMask [false;false;false]) (KLabel (inr 1)) (Scalar 8%Z) = (Ok (yd three), Some KeyError).
  Proof. repeat split; vm_compute; reflexivity. Qed.

  (** df.loc[:, [True, False]] = 8 adds columns named True and False (pandas sets the first column only) *)
  Theorem C61_boolean_columns_refuted :
    yrun three KAll (KMask [true;false]) (Scalar 8%Z)
    = (Ok (mkdf three [inr 1; inr 2; ytrue true; ytrue false] [[8;2;missing;missing];[8;4;missing;missing];[8;6;missing;missing]]%Z), None).
  Proof. repeat split; vm_compute; reflexivity. Qed.

  (** df.loc[:, pandas.Index(["1", "7"])] = 8 raises KeyError (pandas adds column "7", as for a list) *)
  Theorem C61_new_columns_index_refuted :
    yrun three KAll (KIndex [inr 1; inr 7]) (Scalar 8%Z) = (Ok (yd three), Some KeyError).
  Proof. repeat split; vm_compute; reflexivity. Qed.

  (** df.loc[:, ["1", "7"]] = [8, 9] raises ValueError (pandas writes 8 down "1" and 9 down "7") *)
  Theorem C61_one_row_of_values_refuted :
    yrun three KAll (KList [inr 1; inr 7]) (vec [8;9]%Z) = (Ok (yd three), Some ValueError).
  Proof. repeat split; vm_compute; reflexivity. Qed.

  (** ** Ordinary cases meet the hypotheses *)
  Lemma three_nodup : NoDup three.
  Proof. apply (distinct_ok xeqb xeqb_ok). reflexivity. Qed.
  Lemma ycols_nodup : NoDup (dcols (yd three)).
  Proof. apply (distinct_ok xeqb xeqb_ok). reflexivity. Qed.
  (** df.reindex([2, 7, 0]) *)
  Example reindex_ex : shows (yf three) (yd three) [2;1] [1;1] /\ NoDup (dindex (yd three))
    /\ (do x <- yre (Some (AList [inl 2; inl 7; inl 0]%Z)) (Some (AList [inr 2; inr 9])) missing None (yf three); rbind (match fst x with Some g => Ok g | None => Err InternalBug end) (pf_to_pandas xeqb xeqb))
       = Ok (mkdf [inl 2; inl 7; inl 0]%Z [inr 2; inr 9] [[6;missing];[missing;missing];[2;missing]]%Z).
  Proof. split; [now apply yf_shows|]. split; [exact three_nodup|]. vm_compute. reflexivity. Qed.
  Example reindex_ex_duplicates : ~ NoDup (dindex (yd (xint_labels [0;0;2]%Z))) /\ yre (Some (AList [inl 2%Z])) None missing None (yf (xint_labels [0;0;2]%Z)) = Err ValueError.
  Proof. split; [|vm_compute; reflexivity]. intros N. apply (distinct_ok xeqb xeqb_ok) in N. discriminate. Qed.
  (** df.loc[1:, ["2"]] = 8 *)
  Example loc_set_ex : xlocated three (KSlice (Some (inl 1%Z)) None None) = Some [1;2] /\ xlocated (dcols (yd three)) (KList [inr 2]) = Some [1]
    /\ plain xeqb xleb (@inl Z nat) xnum ycoerce three (KSlice (Some (inl 1%Z)) None None)
    /\ yrun three (KSlice (Some (inl 1%Z)) None None) (KList [inr 2]) (Scalar 8%Z) = (Ok (mkdf three [inr 1; inr 2] [[1;2];[3;8];[5;8]]%Z), None).
  Proof. split; [reflexivity|]. split; [reflexivity|]. split; [|vm_compute; reflexivity]. split; [discriminate|]. intros lo hi _ E1 E2. vm_compute in E1, E2. injection E1 as <-. injection E2 as <-. lia. Qed.
  (** df.loc[7] = [8, 9] *)
  Example loc_new_row_ex : ~ In (inl 7%Z) three /\ wanted 1 2 (vec [8;9]%Z) <> None
    /\ yrun three (KLabel (inl 7%Z)) KAll (vec [8;9]%Z) = (Ok (with_row (inl 7%Z) [8;9]%Z (yd three)), None).
  Proof. split; [|split; [discriminate|vm_compute; reflexivity]]. intros [E|[E|[E|[]]]]; discriminate. Qed.
  (** df.loc[[2, 0], ["7", "1"]] = 8 *)
  Example loc_new_columns_ex : added xeqb (dcols (yd three)) [inr 7; inr 1] = [inr 7] /\ NoDup [inr 7; inr 1 : xlab]
    /\ yrun three (KList [inl 2; inl 0]%Z) (KList [inr 7; inr 1]) (Scalar 8%Z) = (Ok (mkdf three [inr 1; inr 2; inr 7] [[8;2;8];[3;4;missing];[8;6;8]]%Z), None).
  Proof. split; [reflexivity|]. split; [apply (distinct_ok xeqb xeqb_ok); reflexivity|vm_compute; reflexivity]. Qed.
  (** df.loc[:, "7"] = [8, 9, 10] *)
  Example loc_new_column_values_ex :
    yrun three KAll (KLabel (inr 7)) (vec [8;9;10]%Z) = (Ok (mkdf three [inr 1; inr 2; inr 7] [[1;2;8];[3;4;9];[5;6;10]]%Z), None).
  Proof. vm_compute. reflexivity. Qed.
End Concrete.

Print Assumptions C60_reindex_rows.
Print Assumptions C60_reindex_columns.
Print Assumptions C60_reindex_both_partial.
Print Assumptions C60_duplicates.
Print Assumptions C60_duplicate_columns.
Print Assumptions C61_existing_partial.
Print Assumptions C61_new_row_partial.
Print Assumptions C61_new_columns_partial.
Print Assumptions C61_new_column_values.
Print Assumptions C60_index_and_list_refuted.
Print Assumptions C60_in_place_refuted.
Print Assumptions C61_new_row_one_cell_refuted.
Print Assumptions C61_new_row_zero_refuted.
Print Assumptions C61_half_done_refuted.
Print Assumptions C61_repeated_labels_refuted.
Print Assumptions C61_nothing_selected_refuted.
Print Assumptions C61_boolean_columns_refuted.
Print Assumptions C61_new_columns_index_refuted.
Print Assumptions C61_one_row_of_values_refuted.
