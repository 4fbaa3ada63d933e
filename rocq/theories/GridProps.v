(** C04, C05, C06, C38, C39, C41: operations on the grid of blocks.

    [gridded f d rl cl] and [holds f d rl cl] (FrameSpec.v) say that the partitioned frame [f]
    stands for the table [d], cut at row lengths [rl] and column widths [cl]. *)
From Verif Require Import Base Table ChunkModel ChunkSpec ChunkProofs GridSpec GridModel FrameSpec
  GridProofs GridProofs2 GridProofs3 GridProofs4 GridProofs5.

(** C04: an element-wise map gives, block for block, the partitioned image of the table
    mapped cell by cell, in every mode of [map_partitions]. *)
Theorem C04_map_partitions_cellwise :
  forall (L H A H2 B : Type) (leqb : L -> L -> bool) (heqb : H -> H -> bool),
    (forall x y, leqb x y = true <-> x = y) -> (forall x y, heqb x y = true <-> x = y) ->
    forall (f : L -> H -> A -> B) (g : H -> H2) (dynamic : bool) (cpus nparts min_row min_col : nat)
           (d : df L H A) (rl cl : list nat),
      wf d -> rl <> [] -> cl <> [] -> list_sum rl = nrows d -> list_sum cl = ncols d ->
      0 < nparts -> 0 < min_row -> 0 < min_col ->
      map_partitions leqb heqb dynamic cpus nparts min_row min_col (cut_table rl cl d)
        (fun t => Ok (cellwise f g t))
      = Ok (cut_table rl cl (cellwise f g d)).
Proof. exact @map_partitions_cellwise. Qed.
Print Assumptions C04_map_partitions_cellwise.

(** C04 at the level of the frame: the result frame stands for the mapped table, so converting
    it to pandas gives that table. *)
Theorem C04_map_frame :
  forall (L H A B : Type) (leqb : L -> L -> bool) (heqb : H -> H -> bool),
    (forall x y, leqb x y = true <-> x = y) -> (forall x y, heqb x y = true <-> x = y) ->
    forall (f : L -> H -> A -> B) (dynamic : bool) (cpus nparts min_row min_col : nat)
           (x : pframe) (d : df L H A) (rl cl : list nat),
      holds x d rl cl -> rl <> [] -> cl <> [] ->
      pindex x = Some (dindex d) -> pcols x = Some (dcols d) ->
      0 < nparts -> 0 < min_row -> 0 < min_col ->
      exists x', frame_map leqb heqb dynamic cpus nparts min_row min_col
                   (fun t => Ok (cellwise f (fun h => h) t)) None x = Ok x'
        /\ pf_to_pandas leqb heqb x' = Ok (cellwise f (fun h => h) d).
Proof.
  intros L H A B leqb heqb Hl Hh f dyn cpus nparts mr mc x d rl cl [Hg _] Hr Hc Hi Hcc Hp Hmr Hmc.
  destruct (frame_map_ok leqb heqb Hl Hh f dyn cpus (nc:=None) Hg Hr Hc Hp Hmr Hmc) as (x' & rl' & cl' & E1 & G & _ & _ & Q1 & Q2);
    [discriminate|].
  exists x'. split; [exact E1|].
  rewrite Hi in Q1. cbn in Q2. rewrite Hcc in Q2.
  eapply pf_to_pandas_holds; eauto.
  - split; [exact G|]. rewrite Q1, Q2. cbn. rewrite map_id. auto.
  - rewrite Q1, Q2. easy.
Qed.
Print Assumptions C04_map_frame.

(** C05: a function applied to whole columns.  Whatever the grid, the partitioning options and
    the labels passed in, the result frame stands for [F d] with true length caches. *)
Theorem C05_full_axis_columns :
  forall (L H A L2 H2 B : Type) (leqb : L -> L -> bool) (heqb : H -> H -> bool),
    (forall x y, heqb x y = true <-> x = y) ->
    forall (F : df L H A -> df L2 H2 B), column_wise F ->
    forall (nparts min_row min_col : nat) (ni : option (list L2)) (nc : option (list H2))
           (keep : bool) (ns : option nat) (x : pframe) (d : df L H A) (rl cl : list nat),
      gridded x d rl cl -> rl <> [] -> cl <> [] -> 0 < nparts -> 0 < min_row -> 0 < min_col ->
      ns <> Some 0 -> (keep = true -> ns = None) ->
      (forall i, ni = Some i -> length i = nrows (F d)) ->
      (forall c, nc = Some c -> length c = ncols (F d)) ->
      exists x' rl' cl',
        apply_full_axis leqb heqb nparts min_row min_col false (fun t => Ok (F t)) ni nc keep ns x = Ok x'
        /\ gridded x' (F d) rl' cl' /\ rl' <> [] /\ cl' <> []
        /\ pindex x' = ni /\ pcols x' = nc.
Proof. exact @apply_full_axis_columns. Qed.
Print Assumptions C05_full_axis_columns.

(** C05, whole rows. *)
Theorem C05_full_axis_rows :
  forall (L H A L2 H2 B : Type) (leqb : L -> L -> bool) (heqb : H -> H -> bool),
    (forall x y, leqb x y = true <-> x = y) ->
    forall (F : df L H A -> df L2 H2 B), row_wise F ->
    forall (nparts min_row min_col : nat) (ni : option (list L2)) (nc : option (list H2))
           (keep : bool) (ns : option nat) (x : pframe) (d : df L H A) (rl cl : list nat),
      gridded x d rl cl -> rl <> [] -> cl <> [] -> 0 < nparts -> 0 < min_row -> 0 < min_col ->
      ns <> Some 0 -> (keep = true -> ns = None) ->
      (forall i, ni = Some i -> length i = nrows (F d)) ->
      (forall c, nc = Some c -> length c = ncols (F d)) ->
      exists x' rl' cl',
        apply_full_axis leqb heqb nparts min_row min_col true (fun t => Ok (F t)) ni nc keep ns x = Ok x'
        /\ gridded x' (F d) rl' cl' /\ rl' <> [] /\ cl' <> []
        /\ pindex x' = ni /\ pcols x' = nc.
Proof. exact @apply_full_axis_rows. Qed.
Print Assumptions C05_full_axis_rows.

(** C06: map each block, reduce the partial results: equal to reducing whole columns (rows),
    for every aggregation obeying the tree law, every grid and every mode. *)
Theorem C06_tree_reduce :
  forall (L H A : Type) (leqb : L -> L -> bool) (heqb : H -> H -> bool),
    (forall x y, leqb x y = true <-> x = y) -> (forall x y, heqb x y = true <-> x = y) ->
    forall (M B : Type) (ul : L) (uh : H) (axis dynamic : bool) (cpus nparts min_row min_col : nat)
           (magg : list A -> M) (ragg : list M -> B) (agg : list A -> B)
           (x : pframe) (d : df L H A) (rl cl : list nat),
      tree_law magg ragg agg ->
      holds x d rl cl -> rl <> [] -> cl <> [] -> 0 < nparts -> 0 < min_row -> 0 < min_col ->
      exists x',
        tree_reduce leqb heqb ul uh dynamic cpus nparts min_row min_col axis magg ragg x
          (dindex d) (dcols d) = Ok x'
        /\ pf_to_pandas leqb heqb x'
           = Ok (if axis then reduce_rows uh agg d else reduce_columns ul agg d).
Proof. exact @tree_reduce_ok. Qed.
Print Assumptions C06_tree_reduce.

(** The one-phase reduction (functions that need the whole column). *)
Theorem C06_reduce :
  forall (L H A : Type) (leqb : L -> L -> bool) (heqb : H -> H -> bool),
    (forall x y, leqb x y = true <-> x = y) -> (forall x y, heqb x y = true <-> x = y) ->
    forall (B : Type) (ul : L) (uh : H) (axis : bool) (nparts min_row min_col : nat)
           (agg : list A -> B) (x : pframe) (d : df L H A) (rl cl : list nat),
      holds x d rl cl -> rl <> [] -> cl <> [] -> 0 < nparts -> 0 < min_row -> 0 < min_col ->
      exists x',
        reduce leqb heqb ul uh nparts min_row min_col axis agg x (dindex d) (dcols d) = Ok x'
        /\ pf_to_pandas leqb heqb x'
           = Ok (if axis then reduce_rows uh agg d else reduce_columns ul agg d).
Proof. exact @reduce_ok. Qed.
Print Assumptions C06_reduce.

(** The aggregations modin registers as tree reductions obey the law; count adds up counts. *)
Theorem C06_standard_laws :
  tree_law p_sum p_sum p_sum /\ tree_law p_prod p_prod p_prod /\ tree_law p_count p_sum p_count
  /\ tree_law p_max p_max p_max /\ tree_law p_min p_min p_min
  /\ tree_law p_any p_any p_any /\ tree_law p_all p_all p_all.
Proof.
  exact (conj p_sum_law (conj p_prod_law (conj p_count_law (conj p_max_law (conj p_min_law
        (conj p_any_law p_all_law)))))).
Qed.
Print Assumptions C06_standard_laws.

(** C38: dropping empty blocks keeps the table, with at least one block and true lengths; when the
    lengths are known (or recomputed) and the table is not empty, no empty block is left. *)
Theorem C38_filter_empties :
  forall (L H A : Type) (cm : bool) (x : pframe) (d : df L H A) (rl cl : list nat),
    holds x d rl cl -> rl <> [] -> cl <> [] ->
    exists rl' cl',
      holds (filter_empties cm x) d rl' cl' /\ rl' <> [] /\ cl' <> []
      /\ pindex (filter_empties cm x) = pindex x /\ pcols (filter_empties cm x) = pcols x
      /\ (cm = true \/ (prl x <> None /\ pcl x <> None) -> 0 < nrows d -> 0 < ncols d ->
          Forall (fun n => 0 < n) rl' /\ Forall (fun n => 0 < n) cl').
Proof. exact @filter_empties_holds. Qed.
Print Assumptions C38_filter_empties.

(** C39: propagating labels gives the blocks of the relabelled table. *)
Theorem C39_propagate_labels :
  forall (L H A : Type) (axis : option bool) (x : pframe) (d : df L H A) (rl cl : list nat)
         (idx : list L) (cols : list H),
    gridded x d rl cl -> rl <> [] -> cl <> [] ->
    pindex x = Some idx -> pcols x = Some cols ->
    exists rl' cl', list_sum rl' = nrows d /\ list_sum cl' = ncols d
      /\ propagate_index_objs axis x = Ok (cut_table rl' cl' (relabel axis idx cols d)).
Proof. exact @propagate_ok. Qed.
Print Assumptions C39_propagate_labels.

(** C41: transposing gives a frame that stands for the transposed table; label and length
    caches swap. *)
Theorem C41_transpose :
  forall (L A : Type) (x : pframe) (d : df L L A) (rl cl : list nat),
    holds x d rl cl -> rl <> [] -> cl <> [] ->
    exists x' rl' cl',
      transpose x = Ok x' /\ holds x' (df_T d) cl' rl' /\ rl' <> [] /\ cl' <> []
      /\ pindex x' = pcols x /\ pcols x' = pindex x.
Proof. exact @transpose_holds. Qed.
Print Assumptions C41_transpose.

(** What "transposed" means: entry (j,i) is entry (i,j), labels swapped; twice is the identity. *)
Theorem C41_transposed_table :
  forall (L A : Type) (d : df L L A), wf d ->
    wf (df_T d) /\ dindex (df_T d) = dcols d /\ dcols (df_T d) = dindex d
    /\ (forall i j, cell (df_T d) j i = cell d i j)
    /\ df_T (df_T d) = d.
Proof.
  intros L A d W. repeat split; try now apply df_T_wf.
  - intros i j. now apply cell_T.
  - now apply df_T_involutive.
Qed.
Print Assumptions C41_transposed_table.

(** ** The hypotheses are met by ordinary frames *)
Section Examples.
  (** A 5x3 table with a missing cell, cut 2+0+3 by 2+1; the caches are partly unknown. *)
  Let d : df nat nat (option Z) :=
    mkdf [10;11;12;13;14] [100;101;102]
      [[Some 1;Some 2;Some 3]; [Some 4;None;Some 6]; [Some 7;Some 8;Some 9];
       [Some 0;Some 5;None]; [Some 2;Some 2;Some 2]]%Z.
  Let rl := [2;0;3].
  Let cl := [2;1].
  Let x := mkpf (cut_table rl cl d) (Some (dindex d)) (Some (dcols d)) None (Some cl).

  Example ex_holds : holds x d rl cl.
  Proof. apply holds_intro; cbn; auto. split; [reflexivity|repeat constructor]. Qed.

  Example ex_wf : wf d /\ list_sum rl = nrows d /\ list_sum cl = ncols d.
  Proof. repeat split; repeat constructor. Qed.

  (** the three modes really run *)
  Example ex_joined :
    map_partitions Nat.eqb Nat.eqb true 8 4 1 1 (cut_table rl cl d) (fun t => Ok (cellwise (fun l h c => (l, h, c)) S t))
    = Ok (cut_table rl cl (cellwise (fun l h c => (l, h, c)) S d)).
  Proof. vm_compute. reflexivity. Qed.

  Example ex_tree_sum :
    exists x', tree_reduce Nat.eqb Nat.eqb 0 0 false 4 4 1 1 false p_sum p_sum x (dindex d) (dcols d) = Ok x'
      /\ pf_to_pandas Nat.eqb Nat.eqb x' = Ok (mkdf [0] [100;101;102] [[Some 14;Some 17;Some 20]%Z]).
  Proof. eexists. split; [vm_compute; reflexivity|vm_compute; reflexivity]. Qed.

  Example ex_column_wise : column_wise (@reduce_columns nat nat (option Z) (option Z) 0 p_max)
    /\ row_wise (@reduce_rows nat nat (option Z) (option Z) 0 p_max).
  Proof. split; [apply reduce_columns_cw|apply reduce_rows_rw]. Qed.

  Example ex_transpose : exists x', transpose x = Ok x'
     /\ pf_to_pandas Nat.eqb Nat.eqb x' = Ok (df_T d).
  Proof. eexists. split; [vm_compute; reflexivity|vm_compute; reflexivity]. Qed.
End Examples.
