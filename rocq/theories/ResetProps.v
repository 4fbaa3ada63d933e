(** C65: [reset_index].

    [reset] (ResetSpec.v) is what pandas answers: the rows numbered from 0, the former labels in a new first column
    unless [drop=True], ValueError if a column of that name is there already.  [holds f d rl cl] (FrameSpec.v): the
    partitioned frame [f] stands for the table [d], its blocks cut at row lengths [rl] and column widths [cl], its
    labels known or not.  [look] (ResetModel.v): the table a user gets from a frame. *)
From Verif Require Import Base Table ChunkModel ChunkSpec GridModel GridSpec FrameSpec JoinModel ResetSpec ResetModel ResetProofs.

Section C65.
  Context {L H A : Type}.
  Variable leqb : L -> L -> bool.
  Variable heqb : H -> H -> bool.
  Hypothesis leqb_ok : forall x y, leqb x y = true <-> x = y.
  Hypothesis heqb_ok : forall x y, heqb x y = true <-> x = y.
  Variable num : nat -> L.
  Variable cell : L -> A.
  Variables hindex hlevel : H.
  Variables min_col nparts : nat.
  Hypothesis min_col_pos : 0 < min_col.
  Hypothesis nparts_pos : 0 < nparts.
  Notation reset := (reset heqb num cell hindex hlevel).
  Notation df_reset_index := (df_reset_index leqb heqb num cell hindex hlevel min_col nparts).

  (** C65 (partial): whenever pandas answers with a table, so does Modin, with the same one, whatever the blocks and
      whether or not the labels are known.
      Missing: an index with a name over columns among which are both "level_0" and "index" (refuted); several index
      levels, [level=], [names=], [allow_duplicates=]. *)
  Theorem C65_reset_partial :
    forall (drop : bool) (name : option H) (f : @pframe L H A) (d t : df L H A) rl cl,
      holds f d rl cl -> rl <> [] -> cl <> [] ->
      reset drop name d = Ok t ->
      drop = true \/ name = None \/ pindex f = None \/ ~ (In hlevel (dcols d) /\ In hindex (dcols d)) ->
      exists f', df_reset_index drop name f = Ok f' /\ look leqb heqb f' = Ok t.
  Proof.
    intros drop name f d t rl cl Hh Hr Hc E K.
    apply (@reset_ok L H A leqb heqb leqb_ok heqb_ok num cell hindex hlevel min_col nparts min_col_pos nparts_pos drop name f d t rl cl Hh Hr Hc E).
    destruct K as [K|[K|[K|K]]]; auto. right. right. right. apply not_true_is_false. intros X. apply K.
    apply andb_true_iff in X as [X1 X2]. unfold has in X1, X2. apply existsb_exists in X1 as (x & I1 & Q1). apply existsb_exists in X2 as (y & I2 & Q2).
    apply heqb_ok in Q1, Q2. subst x y. now split. Qed.

  (** The numbers without the labels: never refused. *)
  Theorem C65_drop :
    forall (name : option H) (f : @pframe L H A) (d : df L H A) rl cl,
      holds f d rl cl -> rl <> [] -> cl <> [] ->
      exists f', df_reset_index true name f = Ok f'
        /\ look leqb heqb f' = Ok (mkdf (map num (seq 0 (nrows d))) (dcols d) (dcells d)).
  Proof. intros name f d rl cl Hh Hr Hc. now apply (@C65_reset_partial true name f d (numbered num d) rl cl Hh Hr Hc eq_refl); left. Qed.

  (** C65, the conflict (partial): if pandas refuses, so does Modin, when the row labels are not known, or the index has
      no name and the columns are known.  Missing: the other cases (refuted). *)
  Theorem C65_conflict_partial :
    forall (drop : bool) (name : option H) (f : @pframe L H A) (d : df L H A) rl cl e,
      holds f d rl cl -> rl <> [] -> cl <> [] ->
      reset drop name d = Err e ->
      pindex f = None \/ (name = None /\ pcols f <> None) ->
      df_reset_index drop name f = Err ValueError.
  Proof. intros drop name f d rl cl e Hh Hr Hc E K. now apply (@reset_conflict L H A leqb heqb leqb_ok num cell hindex hlevel min_col nparts drop name f d rl cl e Hh Hr Hc E K). Qed.

  (** The labels are not lost: from the result one can read off the labels and cells of the table. *)
  Theorem C65_labels_kept_partial :
    forall (name : option H) (f : @pframe L H A) (d t : df L H A) rl cl,
      holds f d rl cl -> rl <> [] -> cl <> [] ->
      reset false name d = Ok t ->
      name = None \/ pindex f = None \/ ~ (In hlevel (dcols d) /\ In hindex (dcols d)) ->
      exists f' u, df_reset_index false name f = Ok f' /\ look leqb heqb f' = Ok u
        /\ dindex u = map num (seq 0 (nrows d))
        /\ (forall i l r, nth_error (dindex d) i = Some l -> nth_error (dcells d) i = Some r -> nth_error (dcells u) i = Some (cell l :: r))
        /\ exists h, dcols u = h :: dcols d /\ ~ In h (dcols d) /\ (forall n, name = Some n -> h = n).
  Proof.
    intros name f d t rl cl Hh Hr Hc E K. destruct (@C65_reset_partial false name f d t rl cl Hh Hr Hc E) as (f' & E1 & E2); [tauto|].
    exists f', t. split; [exact E1|]. split; [exact E2|]. cbn [ResetSpec.reset] in E.
    destruct (has heqb (label_header heqb hindex hlevel name (dcols d)) (dcols d)) eqn:Q; [discriminate|]. injection E as <-.
    cbn [numbered with_labels dindex dcols dcells]. split; [reflexivity|]. split.
    - generalize (dindex d), (dcells d). intros ls rs i. revert ls rs. induction i as [|i IH]; intros [|l0 ls] [|r0 rs] l r; cbn; try discriminate; [now intros [= ->] [= ->]|apply IH].
    - eexists. split; [reflexivity|]. split.
      + intros I. apply not_true_iff_false in Q. apply Q. apply existsb_exists. exists (label_header heqb hindex hlevel name (dcols d)). split; [exact I|now apply heqb_ok].
      + intros n ->. reflexivity. Qed.
End C65.

Print Assumptions C65_reset_partial.
Print Assumptions C65_drop.
Print Assumptions C65_conflict_partial.
Print Assumptions C65_labels_kept_partial.

(** * Concrete cases *)
Section Concrete.
  (** "index" is 100, "level_0" 101 *)
  Definition rd (cols : list nat) : df nat nat nat := mkdf [7;5;7] cols [[1;2];[3;4];[5;6]].
  Definition rf (known : bool) (cols : list nat) : @pframe nat nat nat :=
    mkpf (cut_table [2;1] [1;1] (rd cols)) (if known then Some [7;5;7] else None) (Some cols) (Some [2;1]) (Some [1;1]).
  Definition rr := @reset nat nat nat Nat.eqb id id 100 101.
  Definition rm drop name f := do x <- @df_reset_index nat nat nat Nat.eqb Nat.eqb id id 100 101 1 2 drop name f; look Nat.eqb Nat.eqb x.

  Example C65_case : forall known, rm false None (rf known [1;100]) = Ok (mkdf [0;1;2] [101;1;100] [[7;1;2];[5;3;4];[7;5;6]]).
  Proof. intros [|]; vm_compute; reflexivity. Qed.
  Example C65_name_case : forall known, rm false (Some 8) (rf known [1;2]) = Ok (mkdf [0;1;2] [8;1;2] [[7;1;2];[5;3;4];[7;5;6]]).
  Proof. intros [|]; vm_compute; reflexivity. Qed.
  Example C65_drop_case : forall known, rm true None (rf known [1;2]) = Ok (mkdf [0;1;2] [1;2] [[1;2];[3;4];[5;6]]).
  Proof. intros [|]; vm_compute; reflexivity. Qed.
  Example C65_conflict_case : forall known, rm false None (rf known [100;101]) = Err ValueError.
  Proof. intros [|]; vm_compute; reflexivity. Qed.
  Lemma rf_holds known a b : holds (rf known [a;b]) (rd [a;b]) [2;1] [1;1].
  Proof. unfold holds, gridded, rf. cbn [pgrid pindex pcols prl pcl]. repeat split; auto.
    - repeat constructor.
    - destruct known; [|discriminate]. now intros ? [= <-].
    - now intros ? [= <-].
    - destruct known; auto. Qed.
  Example C65_hypotheses : forall known, exists f', @df_reset_index nat nat nat Nat.eqb Nat.eqb id id 100 101 1 2 false None (rf known [1;100]) = Ok f'
    /\ look Nat.eqb Nat.eqb f' = Ok (mkdf [0;1;2] [101;1;100] [[7;1;2];[5;3;4];[7;5;6]]).
  Proof. intros known. apply (@C65_reset_partial nat nat nat Nat.eqb Nat.eqb PeanoNat.Nat.eqb_eq PeanoNat.Nat.eqb_eq id id 100 101 1 2 Nat.lt_0_1 Nat.lt_0_2 false None _ (rd [1;100]) _ [2;1] [1;1]); auto; try discriminate. apply rf_holds. Qed.
  Example C65_conflict_hypotheses : @df_reset_index nat nat nat Nat.eqb Nat.eqb id id 100 101 1 2 false (Some 1) (rf false [1;2]) = Err ValueError.
  Proof. apply (@C65_conflict_partial nat nat nat Nat.eqb Nat.eqb PeanoNat.Nat.eqb_eq id id 100 101 1 2 false (Some 1) _ (rd [1;2]) [2;1] [1;1] ValueError); auto; try discriminate. apply rf_holds. Qed.

  (** An index named like a column.  pandas raises ValueError ("cannot insert ..., already exists"), and so does Modin
      when the row labels are not known; when they are, Modin returns a frame with the column twice. *)
  Theorem C65_named_like_column_refuted :
    rr false (Some 1) (rd [1;2]) = Err ValueError
    /\ rm false (Some 1) (rf true [1;2]) = Ok (mkdf [0;1;2] [1;1;2] [[7;1;2];[5;3;4];[7;5;6]])
    /\ rm false (Some 1) (rf false [1;2]) = Err ValueError.
  Proof. repeat split; vm_compute; reflexivity. Qed.
  (** Columns "level_0" and "index" and an index with another name.  pandas has no objection; Modin raises ValueError
      ("cannot insert level_0, already exists"), but not if the row labels are not known. *)
  Theorem C65_named_index_refuted :
    rr false (Some 8) (rd [100;101]) = Ok (mkdf [0;1;2] [8;100;101] [[7;1;2];[5;3;4];[7;5;6]])
    /\ rm false (Some 8) (rf true [100;101]) = Err ValueError
    /\ rm false (Some 8) (rf false [100;101]) = Ok (mkdf [0;1;2] [8;100;101] [[7;1;2];[5;3;4];[7;5;6]]).
  Proof. repeat split; vm_compute; reflexivity. Qed.
End Concrete.
Print Assumptions C65_named_like_column_refuted.
Print Assumptions C65_named_index_refuted.
