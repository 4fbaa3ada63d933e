(** C68: [sort_index], [nlargest] and [nsmallest].

    OrdSpec.v: [rows_at ps d] has the rows of [d] at the positions [ps], with their labels, [columns_at] likewise.
    [holds f d rl cl] (FrameSpec.v): the partitioned frame [f] stands for the table [d], its blocks cut at row lengths [rl] and
    column widths [cl].  [look] (ResetModel.v): the table a user gets from a frame.  [order] stands for pandas' sorting of
    labels, [best] for its choice of rows by the values of some columns. *)
From Coq Require Import Permutation Sorted.
From Verif Require Import Base Table ChunkModel ChunkSpec ChunkProofs GridModel GridSpec FrameSpec GridProofs GridProofs2 GridProofs3 GridProofs4 GridProofs5 SelSpec SelModel SelProofs SelProofs4 SelProofs5 SelProofs6
  JoinSpec JoinModel JoinProofs3 JoinProps ResetModel ResetProofs DupProofs OrdSpec OrdModel.

Section Kernels.
  Context {L H A : Type}.
  Lemma perm_below n ps : Permutation ps (seq 0 n) -> Forall (fun p => p < n) ps /\ length ps = n.
  Proof. intros P. split.
    - apply Forall_forall. intros p Hp. apply (Permutation_in _ P), in_seq in Hp. lia.
    - rewrite (Permutation_length P). apply seq_length. Qed.

  Lemma sort_rows_wise order num ignore : (forall ls, Permutation (order ls) (seq 0 (length ls))) ->
    column_wise (@kernel_sort_rows L H A order num ignore).
  Proof.
    intros Ho d [W1 W2]. destruct (perm_below _ (Ho (dindex d))) as [F E]. unfold kernel_sort_rows.
    assert (F' : Forall (fun p => p < length (dcells d)) (order (dindex d))) by (rewrite W1; exact F).
    split; [|split; [reflexivity|]].
    - split; cbn [dindex dcols dcells].
      + rewrite pick_length by assumption. destruct ignore; [now rewrite map_length, seq_length|]. now rewrite pick_length by assumption.
      + now apply Forall_pick.
    - intros a b. unfold iloc_cols. cbn [dindex dcols dcells]. f_equal. apply pick_map. Qed.
  Lemma sort_columns_wise order num ignore : (forall ls, Permutation (order ls) (seq 0 (length ls))) ->
    row_wise (@kernel_sort_columns L H A order num ignore).
  Proof.
    intros Ho d [W1 W2]. destruct (perm_below _ (Ho (dcols d))) as [F E]. unfold kernel_sort_columns.
    split; [|split; [reflexivity|]].
    - split; cbn [dindex dcols dcells].
      + now rewrite map_length.
      + unfold ncols. cbn [dcols]. apply Forall_map, Forall_forall. intros r Hr. rewrite Forall_forall in W2.
        assert (Fr : Forall (fun p => p < length r) (order (dcols d))) by (rewrite (W2 _ Hr); exact F).
        rewrite (pick_length r Fr). destruct ignore; [now rewrite map_length, seq_length|]. rewrite pick_length; [reflexivity|exact F].
    - intros a b. unfold iloc_rows. cbn [dindex dcols dcells]. f_equal. symmetry; apply slice_map. Qed.

End Kernels.

Section C68.
  Context {L H A : Type}.
  Variable leqb : L -> L -> bool.
  Variable heqb : H -> H -> bool.
  Hypothesis leqb_ok : forall x y, leqb x y = true <-> x = y.
  Hypothesis heqb_ok : forall x y, heqb x y = true <-> x = y.
  Variables min_row min_col nparts : nat.
  Hypothesis min_row_pos : 0 < min_row.
  Hypothesis min_col_pos : 0 < min_col.
  Hypothesis nparts_pos : 0 < nparts.
  Notation dframe := (df L H A).
  Notation pf := (@pframe L H A).
  Notation sort_index_rows := (sort_index_rows leqb heqb min_row min_col nparts).
  Notation sort_index_columns := (sort_index_columns leqb heqb min_row min_col nparts).
  Notation nsort := (nsort leqb heqb min_row min_col nparts).
  Notation look := (look leqb heqb).

  (** C68, [sort_index()]: the rows of the whole table, each with its label, in the order pandas gives to all labels,
      numbered if asked for; whatever the blocks. *)
  Theorem C68_sort_rows :
    forall (order : list L -> list nat) (num : nat -> L) (ignore : bool) (f : pf) (d : dframe) rl cl,
      (forall ls, Permutation (order ls) (seq 0 (length ls))) ->
      holds f d rl cl -> rl <> [] -> cl <> [] ->
      exists f', sort_index_rows order num ignore f = Ok f'
        /\ look f' = Ok (let t := rows_at (order (dindex d)) d in if ignore then rows_numbered num t else t).
  Proof.
    intros order num ignore f d rl cl Ho Hh Hr Hc. unfold OrdModel.sort_index_rows.
    rewrite (row_labels_holds Hh Hc), (col_labels_holds Hh (or_introl Hr)). destruct (perm_below _ (Ho (dindex d))) as [F E].
    assert (G : gridded f d rl cl) by apply Hh. assert (W : wf d) by apply Hh.
    set (D := kernel_sort_rows order num ignore d).
    assert (Ln : length (dindex D) = nrows d).
    { cbn. rewrite E. destruct ignore; [now rewrite map_length, seq_length|]. rewrite pick_length by assumption. exact E. }
    destruct (@apply_full_axis_columns L H A L H A leqb heqb heqb_ok (@kernel_sort_rows L H A order num ignore) (@sort_rows_wise L H A order num ignore Ho) nparts min_row min_col
       (Some (dindex D)) (Some (dcols d)) false None f d rl cl) as (x & rl' & cl' & E1 & G' & N1 & N2 & P1 & P2); auto; try discriminate.
    { now intros i [= <-]. } { now intros i [= <-]. }
    fold (dindex D). exists x. split; [exact E1|].
    rewrite (@look_gridded _ _ _ leqb heqb leqb_ok heqb_ok x D rl' cl' (dindex D) (dcols d)); auto.
    - f_equal. unfold D, kernel_sort_rows, rows_at, rows_numbered. cbn [dcells dindex dcols nrows]. destruct ignore; cbn; [|reflexivity].
      unfold nrows. cbn. now rewrite pick_length by assumption.
    - unfold row_labels. now rewrite P1.
    - unfold col_labels. now rewrite P2. Qed.

  (** C68, [sort_index(axis=1)] *)
  Theorem C68_sort_columns :
    forall (order : list H -> list nat) (num : nat -> H) (ignore : bool) (f : pf) (d : dframe) rl cl,
      (forall ls, Permutation (order ls) (seq 0 (length ls))) ->
      holds f d rl cl -> rl <> [] -> cl <> [] ->
      exists f', sort_index_columns order num ignore f = Ok f'
        /\ look f' = Ok (let t := columns_at (order (dcols d)) d in if ignore then columns_numbered num t else t).
  Proof.
    intros order num ignore f d rl cl Ho Hh Hr Hc. unfold OrdModel.sort_index_columns.
    rewrite (row_labels_holds Hh Hc), (col_labels_holds Hh (or_introl Hr)). destruct (perm_below _ (Ho (dcols d))) as [F E].
    assert (G : gridded f d rl cl) by apply Hh. assert (W : wf d) by apply Hh.
    set (D := kernel_sort_columns order num ignore d).
    destruct (@apply_full_axis_rows L H A L H A leqb heqb leqb_ok (@kernel_sort_columns L H A order num ignore) (@sort_columns_wise L H A order num ignore Ho) nparts min_row min_col
       (Some (dindex d)) (Some (dcols D)) false None f d rl cl) as (x & rl' & cl' & E1 & G' & N1 & N2 & P1 & P2); auto; try discriminate.
    { now intros i [= <-]. } { now intros i [= <-]. }
    fold (dcols D). exists x. split; [exact E1|].
    rewrite (@look_gridded _ _ _ leqb heqb leqb_ok heqb_ok x D rl' cl' (dindex d) (dcols D)); auto.
    - f_equal. unfold D, kernel_sort_columns, columns_at, columns_numbered. cbn [dcells dindex dcols]. destruct ignore; cbn; [|reflexivity].
      unfold ncols. cbn. now rewrite pick_length by assumption.
    - unfold row_labels. now rewrite P1.
    - unfold col_labels. now rewrite P2. Qed.

  (** In particular: the labels are in order, and the rows are those of the table, each with its label. *)
  Theorem C68_sorted :
    forall (le : L -> L -> Prop) (order : list L -> list nat) (num : nat -> L) (f : pf) (d : dframe) rl cl,
      (forall ls, Permutation (order ls) (seq 0 (length ls)) /\ StronglySorted le (pick ls (order ls))) ->
      holds f d rl cl -> rl <> [] -> cl <> [] ->
      exists f' t, sort_index_rows order num false f = Ok f' /\ look f' = Ok t
        /\ StronglySorted le (dindex t) /\ dcols t = dcols d
        /\ Permutation (combine (dindex t) (dcells t)) (combine (dindex d) (dcells d)).
  Proof.
    intros le order num f d rl cl Ho Hh Hr Hc.
    destruct (@C68_sort_rows order num false f d rl cl (fun ls => proj1 (Ho ls)) Hh Hr Hc) as (f' & E & El).
    exists f', (rows_at (order (dindex d)) d). split; [exact E|]. split; [exact El|]. split; [apply Ho|]. split; [reflexivity|].
    destruct Hh as ((W & _) & _). destruct W as [W1 _]. destruct (Ho (dindex d)) as [P _]. cbn [rows_at dindex dcells].
    assert (X : forall ps, Forall (fun p => p < length (dindex d)) ps -> combine (pick (dindex d) ps) (pick (dcells d) ps) = pick (combine (dindex d) (dcells d)) ps).
    { clear - W1. induction ps as [|p ps IH]; intros F; [reflexivity|]. inversion F as [|? ? Hp F']; subst. rewrite !pick_cons.
      destruct (nth_error (dindex d) p) as [x|] eqn:Ex; [|apply nth_error_None in Ex; lia].
      destruct (nth_error (dcells d) p) as [r|] eqn:Er; [|apply nth_error_None in Er; lia].
      assert (Ec : nth_error (combine (dindex d) (dcells d)) p = Some (x, r)).
      { clear - Ex Er. revert Ex Er. generalize (dindex d) (dcells d). induction p as [|p IH]; intros [|y l] [|z m] Ex Er; try discriminate; cbn in *.
        - now injection Ex as ->; injection Er as ->.
        - now apply IH. }
      rewrite Ec. cbn [app combine]. f_equal. now apply IH. }
    rewrite X by apply (perm_below _ P).
    transitivity (pick (combine (dindex d) (dcells d)) (seq 0 (length (dindex d)))).
    - clear - P. revert P. generalize (seq 0 (length (dindex d))) (order (dindex d)). intros qs ps P. induction P as [|x l l' P IH|x y l|l l' l'' P1 IH1 P2 IH2].
      + constructor.
      + rewrite !pick_cons. now apply Permutation_app_head.
      + rewrite !pick_cons, !app_assoc. apply Permutation_app_tail. apply Permutation_app_comm.
      + now transitivity (pick (combine (dindex d) (dcells d)) l').
    - rewrite pick_all; [reflexivity|]. rewrite combine_length. lia. Qed.

  (** C68, [nlargest(n, columns)], [nsmallest(n, columns)] (partial): the rows pandas chooses, in their order, if the frame
      is one block wide; an unknown column is a KeyError.
      Missing: wider frames (refuted: a KeyError whatever the columns); repeated column labels. *)
  Theorem C68_best_rows_partial :
    forall (best : list (list A) -> list nat) (columns : list H) (ps : list nat) (f : pf) (d : dframe) rl w,
      (forall rows, Forall (fun p => p < length rows) (best rows)) ->
      holds f d rl [w] -> rl <> [] -> NoDup (dcols d) ->
      Forall2 (fun h p => nth_error (dcols d) p = Some h) columns ps ->
      exists f', nsort best columns f = Ok f' /\ look f' = Ok (rows_at (best (cells_of ps d)) d).
  Proof.
    intros best columns ps f d rl w Hb Hh Hr Nd Fc. unfold OrdModel.nsort. rewrite (col_labels_holds Hh (or_introl Hr)).
    assert (G : gridded f d rl [w]) by apply Hh. assert (W : wf d) by apply Hh.
    assert (Ek : kernel_nsort heqb best columns d = Ok (rows_at (best (cells_of ps d)) d)).
    { unfold kernel_nsort. assert (E : rmap (fun h => match position heqb h (dcols d) with Some p => Ok p | None => Err KeyError end) columns = Ok ps).
      { clear - Fc Nd heqb_ok. induction Fc as [|h p hs ps Hp Fc IH]; [reflexivity|]. cbn [rmap]. rewrite (position_nth heqb_ok _ Nd Hp), IH. reflexivity. }
      rewrite E. reflexivity. }
    assert (Fb : Forall (fun p => p < length (dcells d)) (best (cells_of ps d))).
    { specialize (Hb (cells_of ps d)). unfold cells_of in Hb at 1. rewrite map_length in Hb. exact Hb. }
    assert (Fi : Forall (fun p => p < length (dindex d)) (best (cells_of ps d))). { destruct W as [W1 _]. rewrite <- W1. exact Fb. }
    set (D := rows_at (best (cells_of ps d)) d) in *.
    assert (WD : wf D). { split; cbn; [rewrite !pick_length by assumption; reflexivity|apply Forall_pick; apply W]. }
    destruct (@apply_full_axis_one_at L H A L H A leqb heqb heqb_ok (kernel_nsort heqb best columns) D nparts min_row min_col None (dcols d) false f d rl w)
      as (x & rl' & cl' & E1 & G' & N1 & N2 & P1 & P2); auto; try discriminate.
    exists x. split; [exact E1|]. rewrite (@look_gridded _ _ _ leqb heqb leqb_ok heqb_ok x D rl' cl' (dindex D) (dcols D)); auto.
    - assert (Hx : holds x D rl' cl'). { split; [exact G'|]. rewrite P1, P2. auto. } exact (row_labels_holds Hx N2).
    - unfold col_labels. now rewrite P2. Qed.

  Theorem C68_unknown_column :
    forall (best : list (list A) -> list nat) (columns : list H) h (f : pf) (d : dframe) rl w,
      holds f d rl [w] -> rl <> [] -> In h columns -> ~ In h (dcols d) -> nsort best columns f = Err KeyError.
  Proof.
    intros best columns h f d rl w Hh Hr Hi Hn. unfold OrdModel.nsort.
    assert (G : gridded f d rl [w]) by apply Hh. destruct G as (W & Sr & Sc & Gr & _).
    assert (Hw : w = ncols d) by (rewrite <- Sc; unfold list_sum; cbn; lia). subst w.
    assert (Ek : kernel_nsort heqb best columns d = Err KeyError).
    { unfold kernel_nsort. set (g := fun h => match position heqb h (dcols d) with Some p => Ok p | None => Err KeyError end).
      assert (E : rmap g columns = Err KeyError).
      { clear - Hi Hn heqb_ok. induction columns as [|y hs IH]; [easy|]. cbn [rmap]. destruct (position heqb y (dcols d)) as [p|] eqn:Ep; unfold g at 1; rewrite Ep; cbn [rbind]; [|reflexivity].
        destruct Hi as [-> | Hi]; [exfalso; apply Hn; apply (position_some heqb_ok) in Ep as [_ Ep]; now apply nth_error_In in Ep|]. now rewrite IH. }
      now rewrite E. }
    unfold apply_full_axis. rewrite Gr. unfold map_axis_partitions. rewrite andb_false_r.
    assert (HT : transp (grid_width (cut_table rl [ncols d] d)) (cut_table rl [ncols d] d) = [map (fun ri => block d ri (0, ncols d)) (bounds 0 rl)]).
    { assert (Hw : grid_width (cut_table rl [ncols d] d) = 1). { unfold cut_table. apply grid_width_map; [now rewrite bounds_nil_iff|]. intros; now rewrite map_length, bounds_length. }
      rewrite Hw. exact (transp_fun (fun ri ci => block d ri ci) (bounds 0 rl) [(0, ncols d)]). }
    rewrite HT. cbn [rmap]. unfold deploy_axis_func. rewrite (concat_rows_blocks _ _ heqb_ok) by assumption. cbn [rbind].
    rewrite Nat.add_0_l, Sr, block_rows_full by assumption. cbn [fst snd]. rewrite iloc_cols_full, Ek by exact W. reflexivity. Qed.
End C68.
Print Assumptions C68_sort_rows.
Print Assumptions C68_sort_columns.
Print Assumptions C68_sorted.
Print Assumptions C68_best_rows_partial.
Print Assumptions C68_unknown_column.

(** * Where the claim fails, and concrete cases *)
Definition ord_frame (d : df nat nat nat) rl cl : @pframe nat nat nat := mkpf (cut_table rl cl d) (Some (dindex d)) (Some (dcols d)) (Some rl) (Some cl).
(** the rows with the largest first value, best first *)
Fixpoint ord_put (x : nat * nat) (l : list (nat * nat)) : list (nat * nat) :=
  match l with [] => [x] | y :: l' => if snd y <? snd x then x :: y :: l' else y :: ord_put x l' end.
Definition ord_largest (n : nat) (rows : list (list nat)) : list nat :=
  map fst (firstn n (fold_left (fun acc x => ord_put x acc) (combine (seq 0 (length rows)) (map (fun r => nth 0 r 0) rows)) [])).

(** df.nlargest(2, "a") on a frame of two block columns: KeyError; in one block column it is the two rows. *)
Theorem C68_wide_refuted : exists (d : df nat nat nat) f g f',
  look Nat.eqb Nat.eqb f = Ok d /\ look Nat.eqb Nat.eqb g = Ok d
  /\ nsort Nat.eqb Nat.eqb 1 1 2 (ord_largest 2) [10] f = Err KeyError
  /\ nsort Nat.eqb Nat.eqb 1 1 2 (ord_largest 2) [10] g = Ok f'
  /\ look Nat.eqb Nat.eqb f' = Ok (mkdf [2;1] [10;11] [[7;6];[5;4]]).
Proof.
  set (d := mkdf [0;1;2] [10;11] [[1;2];[5;4];[7;6]]).
  exists d, (ord_frame d [2;1] [1;1]), (ord_frame d [2;1] [2]). eexists. repeat split; vm_compute; reflexivity.
Qed.
Print Assumptions C68_wide_refuted.

Section OrdExamples.
  Let d := mkdf [3;1;2] [12;11] [[1;2];[5;4];[7;6]].
  Let order (ls : list nat) := map fst (fold_left (fun acc x => ord_put x acc) (combine (seq 0 (length ls)) (map (fun l => 10 - l) ls)) []).
  Example ord_ex_holds : holds (ord_frame d [2;1] [1;1]) d [2;1] [1;1] /\ Permutation (order (dindex d)) (seq 0 (length (dindex d))).
  Proof. split; [apply holds_intro; cbn; auto; split; [reflexivity|repeat constructor]|]. vm_compute.
    apply Permutation_sym. change [0;1;2] with ([0] ++ [1;2]). apply (Permutation_app_comm [0] [1;2]). Qed.
  Example ord_ex_sort : exists f', sort_index_rows Nat.eqb Nat.eqb 1 1 2 order (fun n => n) false (ord_frame d [2;1] [1;1]) = Ok f'
    /\ look Nat.eqb Nat.eqb f' = Ok (mkdf [1;2;3] [12;11] [[5;4];[7;6];[1;2]]).
  Proof. eexists. split; vm_compute; reflexivity. Qed.
  Example ord_ex_best : exists f', nsort Nat.eqb Nat.eqb 1 1 2 (ord_largest 2) [11;12] (ord_frame d [2;1] [2]) = Ok f'
    /\ look Nat.eqb Nat.eqb f' = Ok (mkdf [2;1] [12;11] [[7;6];[5;4]]).
  Proof. eexists. split; vm_compute; reflexivity. Qed.
End OrdExamples.
