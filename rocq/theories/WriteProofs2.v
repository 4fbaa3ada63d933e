(** The row partitions of a frame are its table cut at row boundaries. *)
From Coq Require Import String Ascii.
From Verif Require Import Base Table ChunkSpec ChunkProofs GridSpec GridModel FrameSpec GridProofs GridProofs2 GridProofs3 WriteSpec WriteModel WriteProofs.

Section Pieces.
  Context {L H A C : Type}.
  Variable leqb : L -> L -> bool.
  Variable heqb : H -> H -> bool.
  Hypothesis leqb_ok : forall x y, leqb x y = true <-> x = y.
  Hypothesis heqb_ok : forall x y, heqb x y = true <-> x = y.
  Notation dframe := (df L H A).

  Definition row_cut (rl : list nat) (d : dframe) : list dframe :=
    map (fun ri => iloc_rows d (fst ri) (snd ri)) (bounds 0 rl).

  Lemma row_pieces_ok (f : pframe (L:=L) (H:=H) (A:=A)) d rl cl idx cols :
    gridded f d rl cl -> rl <> [] -> cl <> [] -> pindex f = Some idx -> pcols f = Some cols ->
    exists rl', rl' <> [] /\ list_sum rl' = nrows d
      /\ row_pieces leqb heqb f = Ok (row_cut rl' (relabel None idx cols d)).
  Proof. intros G Hr Hc Hi Hcc.
    destruct (propagate_ok_ne None G Hr Hc Hi Hcc) as (rl' & cl' & N1 & N2 & S1 & S2 & E).
    exists rl'. split; [exact N1|]. split; [exact S1|].
    unfold row_pieces. rewrite E. cbn [rbind].
    set (D := relabel None idx cols d).
    assert (W : wf D).
    { destruct G as (W & _ & _ & _ & Gi & Gc & _). specialize (Gi _ Hi). specialize (Gc _ Hcc).
      destruct W as [W1 W2]. split; cbn.
      - unfold nrows in Gi. congruence.
      - unfold ncols in Gc. eapply Forall_impl; [|exact W2]. cbn. intros a ->. congruence. }
    assert (NC : ncols D = ncols d) by (cbn; exact (proj1 (proj2 (proj2 (proj2 (proj2 (proj2 G))))) _ Hcc)).
    unfold cut_table, row_cut.
    rewrite (rmap_map_ok _ _ (fun ri => iloc_rows D (fst ri) (snd ri))); [reflexivity|].
    intros ri _. rewrite (concat_cols_blocks_bounds leqb heqb leqb_ok); auto.
    rewrite Nat.add_0_l, S2, <- NC. f_equal. now apply block_cols_full. Qed.

  Lemma rows_of_iloc (d : dframe) a b : rows_of (iloc_rows d a b) = slice (rows_of d) a b.
  Proof. change (combine (slice (dindex d) a b) (slice (dcells d) a b) = slice (combine (dindex d) (dcells d)) a b). unfold slice.
    rewrite <- combine_firstn. f_equal. generalize (dindex d), (dcells d). clear.
    induction a as [|a IH]; intros [|x l] [|y m]; cbn; auto. now destruct (skipn a l). Qed.

  Lemma rows_of_cut rl (d : dframe) : wf d -> list_sum rl = nrows d -> concat (map rows_of (row_cut rl d)) = rows_of d.
  Proof. intros [W _] S. unfold row_cut. rewrite map_map.
    rewrite (map_ext _ (fun ri => slice (rows_of d) (fst ri) (snd ri))) by (intros; apply rows_of_iloc).
    rewrite concat_bounds. apply slice_full. unfold rows_of. rewrite combine_length. unfold nrows in S. cbn in *. lia. Qed.

  Lemma iloc_rows_wf (d : dframe) a b : wf d -> wf (iloc_rows d a b).
  Proof. intros [W1 W2]. split; cbn.
    - rewrite !slice_length. congruence.
    - unfold slice. apply Forall_forall. intros r Hr. rewrite Forall_forall in W2. apply W2.
      rewrite <- (firstn_skipn a (dcells d)). apply in_or_app. right.
      rewrite <- (firstn_skipn (b - a) (skipn a (dcells d))). apply in_or_app. now left. Qed.

  Variable render : bool -> dframe -> list C.

  Lemma contents_text head line header rl (d : dframe) :
    (forall h d, wf d -> render h d = table_text head line h d) ->
    wf d -> rl <> [] -> list_sum rl = nrows d ->
    concat (contents render header 0 (row_cut rl d)) = render header d.
  Proof. intros E W N S. rewrite E by assumption. unfold table_text.
    fold (rows_of d). rewrite <- (rows_of_cut _ W S).
    assert (WF : Forall wf (row_cut rl d)).
    { unfold row_cut. apply Forall_forall. intros p Hp. apply in_map_iff in Hp as (ri & <- & _). now apply iloc_rows_wf. }
    assert (CO : Forall (fun p => dcols p = dcols d) (row_cut rl d)).
    { unfold row_cut. apply Forall_forall. intros p Hp. apply in_map_iff in Hp as (ri & <- & _). reflexivity. }
    destruct (row_cut rl d) as [|p ps] eqn:Ep.
    { exfalso. apply N. unfold row_cut in Ep. apply map_eq_nil in Ep. destruct rl; [auto|discriminate]. }
    inversion WF; inversion CO; subst. cbn [contents concat map].
    unfold content at 1. cbn [task_header negb Nat.eqb]. rewrite E by assumption. unfold table_text at 1. rewrite H6.
    rewrite flat_map_app, <- app_assoc. fold (rows_of p). f_equal.
    clear - E H3. assert (G : forall k, concat (contents render header (Datatypes.S k) ps)
        = flat_map (fun q => line (fst q) (snd q)) (concat (map rows_of ps))).
    { induction ps as [|q ps IH]; intros k; [reflexivity|]. inversion H3; subst. cbn [contents concat map].
      unfold content at 1. cbn [task_header negb Nat.eqb]. rewrite E by assumption. unfold table_text at 1. cbn [app].
      rewrite flat_map_app. f_equal. now apply IH. }
    f_equal. apply G. Qed.
End Pieces.
