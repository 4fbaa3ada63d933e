(** Readers: parquet, HDF/feather, SQL. *)
From Coq Require Import ZArith.
From Verif Require Import Base Table ChunkSpec ChunkModel ChunkProofs GridModel FrameSpec GridProofs GridProofs2 GridProofs3 GridProofs5 ReadSpec ReadModel ReadProofs ReadProofs2 ReadProofs3 ReadProofs4.

(** C33: the requests of all partitions, in partition order, name every row group of every file exactly
    once and in file order; the number of partitions is min(NPartitions, number of row groups); their sizes
    differ by at most one. *)
Theorem C33_row_groups : forall nparts counts, 0 < nparts ->
  exists parts, determine_partitioning nparts counts = Ok parts
    /\ concat (map (flat_map named) parts) = all_groups counts
    /\ length parts = Nat.min nparts (list_sum counts)
    /\ Forall (fun p => p <> []) parts
    /\ Forall (fun p => let q := list_sum counts / Nat.min nparts (list_sum counts) in
                 q <= length (flat_map named p) <= S q) parts.
Proof. exact determine_ok. Qed.
Print Assumptions C33_row_groups.

(** The specification's list of row groups has no repetition and contains exactly the pairs (file, group). *)
Theorem C33_all_groups : forall counts,
  NoDup (all_groups counts)
  /\ forall f g, In (f, g) (all_groups counts) <-> g < nth f counts 0.
Proof.
  assert (In_ok : forall counts k f g, In (f, g) (groups_from k counts) <-> k <= f /\ g < nth (f - k) counts 0).
  { induction counts as [|n counts IH]; intros k f g; cbn [groups_from].
    - cbn. split; [easy|]. destruct (f - k); cbn; lia.
    - rewrite in_app_iff, IH, in_map_iff. split.
      + intros [(x & [= <- <-] & Hx)|[H1 H2]].
        * apply in_seq in Hx. rewrite Nat.sub_diag. cbn. lia.
        * split; [lia|]. replace (f - k) with (S (f - S k)) by lia. exact H2.
      + intros [H1 H2]. destruct (Nat.eq_dec f k) as [->|Ne].
        * left. rewrite Nat.sub_diag in H2. cbn in H2. exists g. split; [reflexivity|]. apply in_seq. lia.
        * right. split; [lia|]. replace (f - k) with (S (f - S k)) in H2 by lia. exact H2. }
  intros counts. split.
  - unfold all_groups. generalize 0. induction counts as [|n counts IH]; intros k; cbn [groups_from]; [constructor|].
    assert (Nd : NoDup (map (fun g => (k, g)) (seq 0 n))).
    { apply FinFun.Injective_map_NoDup; [intros a b [= ->]; reflexivity|apply seq_NoDup]. }
    revert Nd. generalize (seq 0 n) as s. induction s as [|x s IHs]; intros Nd; cbn; [apply IH|].
    inversion Nd; subst. constructor; [|auto]. rewrite in_app_iff. intros [Hx|Hx]; [auto|]. apply In_ok in Hx. lia.
  - intros f g. unfold all_groups. rewrite In_ok, Nat.sub_0_r. split; [easy|auto with arith]. Qed.
Print Assumptions C33_all_groups.

(** C34: the LIMIT/OFFSET windows, concatenated in order, are the whole result. *)
Theorem C34_sql_windows : forall (X : Type) nparts (rows : list X), 0 < nparts ->
  exists ws, sql_windows nparts (length rows) = Ok ws /\ length ws = nparts
    /\ concat (map (fun w => slice rows (snd w) (snd w + fst w)) ws) = rows.
Proof. intros X. exact sql_windows_ok. Qed.
Print Assumptions C34_sql_windows.

(** C34: the experimental bounded reader selects every integer key in [lower, upper] exactly once and no
    other integer key. *)
Theorem C34_bounded : forall nparts max_sessions lower upper v, 0 < nparts -> (lower <= upper)%Z ->
  times_selected (sql_bound_ranges nparts max_sessions lower upper) v
  = if (lower <=? v)%Z && (v <=? upper)%Z then 1 else 0.
Proof. exact sql_bound_ranges_ok. Qed.
Print Assumptions C34_bounded.

Section Parquet.
  Context {L H A : Type}.
  Variable leqb : L -> L -> bool.
  Variable heqb : H -> H -> bool.
  Hypothesis leqb_ok : forall x y, leqb x y = true <-> x = y.
  Hypothesis heqb_ok : forall x y, heqb x y = true <-> x = y.

  (** C45: the frame read_parquet builds is the dataset's table, and its cached partition sizes are true, for
      every division into files and row groups and every partitioning configuration.  Excluded: a dataset
      with columns but without any row group (see C45_no_row_groups_refuted). *)
  Theorem C45_read_parquet_partial : forall (cols : list H) (files : @dataset L A) nparts minrow mincol,
    0 < nparts -> 0 < minrow -> 0 < mincol ->
    Forall (fun r => length (snd r) = length cols) (concat (concat files)) ->
    cols = [] \/ concat files <> [] ->
    exists f, read_parquet leqb heqb cols files nparts minrow mincol = Ok f
      /\ pf_to_pandas leqb heqb f = Ok (dataset_table cols files)
      /\ (cols <> [] -> exists rl cl, holds f (dataset_table cols files) rl cl).
  Proof. intros. now apply read_parquet_table. Qed.

  (** C46: HDF and feather.  The frame has the stored cells in the right places and true partition sizes;
      its labels are 0..n-1, so converting it to pandas gives the stored table when those are its labels. *)
  Theorem C46_read_store_partial : forall (range_labels : nat -> list L) nparts minrow mincol (d : df L H A),
    0 < nparts -> 0 < minrow -> wf d -> dcols d <> [] ->
    length (range_labels (nrows d)) = nrows d ->
    exists f rl cl, read_store range_labels nparts minrow mincol d = Ok f
      /\ gridded f d rl cl
      /\ (dindex d = range_labels (nrows d) -> holds f d rl cl /\ pf_to_pandas leqb heqb f = Ok d).
  Proof. intros rg nparts minrow mincol d Hn Hm W Cn Rl.
    destruct (@read_store_ok _ _ _ heqb heqb_ok rg nparts minrow mincol d Hn Hm W Cn Rl) as (f & rl & cl & E & G & Pi & Pc).
    exists f, rl, cl. split; [exact E|]. split; [exact G|]. intros Hl.
    assert (Hd : holds f d rl cl) by (split; [exact G|]; rewrite Pi, Pc, <- Hl; auto).
    split; [exact Hd|]. eapply pf_to_pandas_holds; eauto. intros _. rewrite Pi, Pc. split; discriminate. Qed.
End Parquet.
Print Assumptions C45_read_parquet_partial.
Print Assumptions C46_read_store_partial.

Section Refuted.
  (** A dataset whose files hold no row group but have a column: the read fails. *)
  Theorem C45_no_row_groups_refuted :
    exists (cols : list nat) (files : @dataset nat nat),
      read_parquet Nat.eqb Nat.eqb cols files 4 32 32 = Err ZeroDivisionError.
  Proof. exists [7], [[]]. reflexivity. Qed.

  (** A stored table whose row labels are not 0..n-1: the frame cannot be converted to pandas. *)
  Theorem C46_store_labels_refuted :
    exists (d : df nat nat nat), wf d /\ dcols d <> [] /\
      rbind (read_store (seq 0) 2 1 1 d) (pf_to_pandas Nat.eqb Nat.eqb) = Err InternalBug.
  Proof. exists (mkdf [5; 6; 7] [0; 1] [[1; 2]; [3; 4]; [5; 6]]). split; [|split; [discriminate|reflexivity]].
    split; [reflexivity|]. repeat constructor. Qed.
End Refuted.
Print Assumptions C45_no_row_groups_refuted.
Print Assumptions C46_store_labels_refuted.

Section Examples.
  (** Five files, two of them without row groups, read into three partitions. *)
  Example C33_example : determine_partitioning 3 [2; 0; 1; 0; 4]
    = Ok [[(0, 0, 2)]; [(1, 0, 0); (2, 0, 1); (3, 0, 0); (4, 0, 1)]; [(4, 1, 4)]].
  Proof. reflexivity. Qed.
  Let files : @dataset nat nat :=
    [[ [(10, [1; 2; 3]); (11, [4; 5; 6])]; [] ]; []; [ [(20, [7; 8; 9])]; [(21, [0; 1; 0])] ]].
  Example C45_example :
    rbind (read_parquet Nat.eqb Nat.eqb [100; 101; 102] files 3 1 1) (fun f => Ok (prl f, pcl f, length (pgrid f)))
    = Ok (Some [2; 2], Some [1; 1; 1], 2)
    /\ Forall (fun r => length (snd r) = 3) (concat (concat files)) /\ concat files <> [].
  Proof. split; [reflexivity|]. split; [|discriminate]. repeat constructor. Qed.
  Example C46_example : let d := mkdf [0; 1; 2] [0; 1] [[1; 2]; [3; 4]; [5; 6]] in
    rbind (read_store (seq 0) 2 1 1 d) (pf_to_pandas Nat.eqb Nat.eqb) = Ok d /\ dindex d = seq 0 (nrows d).
  Proof. split; reflexivity. Qed.
  Example C34_example : sql_windows 4 10 = Ok [(3, 0); (3, 3); (3, 6); (3, 9)]
    /\ sql_bound_ranges 4 3 (-2) 5 = [((-2), 0); (1, 3); (4, 5)]%Z.
  Proof. split; reflexivity. Qed.
End Examples.
