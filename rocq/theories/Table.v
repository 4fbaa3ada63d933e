(** A pandas DataFrame as a value, and the pandas primitives modin calls on it.
    pandas itself is not modelled from source: these definitions are the trusted
    reading of the pandas calls named beside them.

    [L] is the type of row labels, [H] the type of column headers (a label, or a
    label together with its dtype), [A] the type of cells.  Cells are stored row
    by row.  The row labels of a table without columns still exist. *)
From Verif Require Import Base.

Record df (L H A : Type) := mkdf {
  dindex : list L;
  dcols : list H;
  dcells : list (list A) }.
Arguments mkdf {L H A} dindex dcols dcells.
Arguments dindex {L H A} d.
Arguments dcols {L H A} d.
Arguments dcells {L H A} d.

Section Table.
  Context {L H A : Type}.
  Variable leqb : L -> L -> bool.
  Variable heqb : H -> H -> bool.
  Notation dframe := (df L H A).

  (** A table is rectangular and has one label per row and per column. *)
  Definition wf (d : dframe) : Prop :=
    length (dcells d) = length (dindex d) /\
    Forall (fun r => length r = length (dcols d)) (dcells d).

  Definition nrows (d : dframe) := length (dindex d).   (* len(df) *)
  Definition ncols (d : dframe) := length (dcols d).    (* len(df.columns) *)

  (** [df.iloc[a:b]] and [df.iloc[:, a:b]], 0 <= a, 0 <= b *)
  Definition iloc_rows (d : dframe) (a b : nat) : dframe :=
    mkdf (slice (dindex d) a b) (dcols d) (slice (dcells d) a b).
  Definition iloc_cols (d : dframe) (a b : nat) : dframe :=
    mkdf (dindex d) (slice (dcols d) a b) (map (fun r => slice r a b) (dcells d)).

  (** [df.empty] *)
  Definition df_empty (d : dframe) : bool := (nrows d =? 0) || (ncols d =? 0).

  (** [pandas.concat(ds, axis=1)] when all the row labels agree; pandas would align
      otherwise, which is outside the model.  Concatenating nothing is a ValueError. *)
  Definition concat_cols (ds : list dframe) : res dframe :=
    match ds with
    | [] => Err ValueError
    | d :: _ =>
        if forallb (fun e => list_eqb leqb (dindex e) (dindex d)) ds
        then Ok (mkdf (dindex d) (concat (map dcols ds))
                      (fold_right zipapp (repeat [] (nrows d)) (map dcells ds)))
        else Err Unmodelled
    end.

  (** core/dataframe/pandas/utils.py [concatenate] 24-71: asserts equal columns, then
      [pandas.concat] along rows.  Simplified: the category-union step only changes the
      storage of categorical columns, not the cell values, and is omitted. *)
  Definition concatenate (ds : list dframe) : res dframe :=
    match ds with
    | [] => Err IndexError
    | d :: _ =>
        if forallb (fun e => list_eqb heqb (dcols e) (dcols d)) ds
        then Ok (mkdf (concat (map dindex ds)) (dcols d) (concat (map dcells ds)))
        else Err AssertionError
    end.

  (** [pandas.DataFrame()] *)
  Definition empty_df : dframe := mkdf [] [] [].

  (** [pandas.DataFrame(columns=c, index=i)]: only used when one of the axes is empty, so
      there is no cell to fill. *)
  Definition df_of_labels (i : list L) (c : list H) : dframe :=
    mkdf i c (match c with [] => repeat [] (length i) | _ => [] end).

  (* ---------------- lemmas ---------------- *)

  Lemma df_eq (d e : dframe) :
    dindex d = dindex e -> dcols d = dcols e -> dcells d = dcells e -> d = e.
  Proof. destruct d, e; cbn; congruence. Qed.

  Lemma wf_iloc_rows d a b : wf d -> wf (iloc_rows d a b).
  Proof. intros [H1 H2]. split; cbn.
    - rewrite !slice_length. lia.
    - now apply Forall_slice. Qed.

  Lemma wf_iloc_cols d a b : wf d -> wf (iloc_cols d a b).
  Proof. intros [H1 H2]. split; cbn.
    - now rewrite map_length.
    - apply Forall_map. eapply Forall_impl; [|exact H2]. cbn. intros r Hr.
      now rewrite !slice_length, Hr. Qed.

  Lemma wf_empty_cells d : wf d -> df_empty d = true -> df_of_labels (dindex d) (dcols d) = d.
  Proof.
    intros [H1 H2] E. unfold df_empty in E. apply orb_true_iff in E.
    unfold df_of_labels. apply df_eq; cbn; auto.
    destruct (dcols d) as [|c cs] eqn:Ec.
    - rewrite <- H1. clear H1 E. induction H2 as [|r rs Hr _ IH]; cbn in *; [reflexivity|].
      destruct r; [|discriminate]. now rewrite IH.
    - destruct E as [E|E].
      + apply Nat.eqb_eq in E. unfold nrows in E. rewrite E in H1. now destruct (dcells d).
      + unfold ncols in E. rewrite Ec in E. discriminate.
  Qed.
End Table.
