(** pandas/dataframe.py [join] without [on], query_compiler.py [concat] (C87). *)
From Verif Require Import Base Table ChunkModel GridModel GroupSpec JoinSpec JoinModel MergeSpec InsModel.

Section Model.
  Context {L H A : Type}.
  Variable leqb : L -> L -> bool.
  Variable heqb : H -> H -> bool.
  Variable nan : A.
  Variable names : list H -> list H -> res (list H).
  Variables nparts min_row : nat.
  Notation pf := (@pframe L H A).

  (** dataframe.py [_join_index_objects] 1988-2075 for two lists of labels that differ: [Index.join] for how="left", "right" and
      "inner" with sort=False, and [reindex] by the joined labels.  Labels that repeat and differ between the frames are not
      modelled (pandas' indexers are used for them); equal lists are handled before this is called (JoinModel). *)
  Definition join_labels (h : how) (ls : list (list L)) : list L * list (list (option nat)) :=
    let l := nth 0 ls [] in
    let r := nth 1 ls [] in
    let joined := match h with
                  | HLeft => l
                  | HRight => r
                  | HInner => filter (fun x => inb leqb x r) l
                  end in
    (joined, indexers leqb joined ls).

  (** pandas/dataframe.py [join] 1274-1304 for one DataFrame without [on]: the headers come from joining two empty frames, which raises
      the errors; query_compiler.py [concat] 482-502 with axis=1, join=how, sort=False; then the headers are assigned *)
  Definition api_label_join (first_known : bool) (h : how) (left right : pf) : res pf :=
    do new_columns <- names (col_labels left) (col_labels right);
    do new_frame <- concat_frames_cols leqb heqb nan (join_labels h) nparts min_row first_known left [right];
    set_columns heqb new_columns new_frame.
End Model.
