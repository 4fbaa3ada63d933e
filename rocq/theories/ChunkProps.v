(** C01, C02, C03: cutting tables into blocks and putting them back. *)
From Verif Require Import Base Table ChunkModel ChunkSpec ChunkProofs.

(** C01: for every rectangular table (zero rows or columns included), every partition count
    and minimum block sizes, building the frame succeeds and converting it back is the
    identity. *)
Theorem C01_pandas_round_trip :
  forall (L H A : Type) (leqb : L -> L -> bool) (heqb : H -> H -> bool),
    (forall x y, leqb x y = true <-> x = y) ->
    (forall x y, heqb x y = true <-> x = y) ->
    forall (d : df L H A) (nparts minrow mincol : nat),
      wf d -> 0 < nparts -> 0 < minrow -> 0 < mincol ->
      exists f, from_pandas nparts minrow mincol d = Ok f
             /\ to_pandas leqb heqb f = Ok d.
Proof. exact @round_trip. Qed.
Print Assumptions C01_pandas_round_trip.

(** The conversion back works for every way of cutting the table, not only the one
    [from_pandas] picks. *)
Theorem C01_any_partitioning :
  forall (L H A : Type) (leqb : L -> L -> bool) (heqb : H -> H -> bool),
    (forall x y, leqb x y = true <-> x = y) ->
    (forall x y, heqb x y = true <-> x = y) ->
    forall (d : df L H A) (rl cl : list nat) (f : frame),
      wf d -> list_sum rl = nrows d -> list_sum cl = ncols d ->
      fgrid f = cut_table rl cl d -> findex f = dindex d -> fcols f = dcols d ->
      to_pandas leqb heqb f = Ok d.
Proof. exact @cut_table_round_trip. Qed.
Print Assumptions C01_any_partitioning.

(** C02: the reported lengths are the true block shapes.  (A table without columns has one
    column of blocks and an empty width list; a missing width reads as 0.)  There are never more
    than [NPartitions] blocks per axis, and no block is without rows. *)
Theorem C02_partition_shapes_exact :
  forall (L H A : Type) (d : df L H A) (nparts minrow mincol : nat) f,
    wf d -> 0 < nparts -> 0 < minrow -> 0 < mincol ->
    from_pandas nparts minrow mincol d = Ok f ->
    list_sum (frow_lengths f) = nrows d /\ list_sum (fcol_widths f) = ncols d
    /\ length (fgrid f) = length (frow_lengths f)
    /\ length (frow_lengths f) <= nparts /\ length (fcol_widths f) <= nparts
    /\ forall i row, nth_error (fgrid f) i = Some row ->
         length row = Nat.max 1 (length (fcol_widths f))
         /\ forall j b, nth_error row j = Some b ->
              nrows b = nth i (frow_lengths f) 0 /\ ncols b = nth j (fcol_widths f) 0
              /\ 0 < nrows b.
Proof. exact @report_exact. Qed.
Print Assumptions C02_partition_shapes_exact.

(** C03, sizes from the formula ([length_list=None]): [k] blocks come back, their sizes are the
    ones [get_length_list] predicts, and joining them gives the result back. *)
Theorem C03_split_lossless :
  forall (L H A : Type) (leqb : L -> L -> bool) (heqb : H -> H -> bool),
    (forall x y, leqb x y = true <-> x = y) ->
    (forall x y, heqb x y = true <-> x = y) ->
    forall (axis : bool) (k : nat) (d : df L H A) (m : nat),
      wf d -> 0 < k -> 0 < m ->
      exists lens bs,
        get_length_list (if axis then ncols d else nrows d) k m = Ok lens
        /\ split_result_of_axis_func axis k d m None = Ok bs
        /\ length bs = k
        /\ map (fun b => if axis then ncols b else nrows b) bs = lens
        /\ (if axis then concat_cols leqb bs else concatenate heqb bs) = Ok d
        /\ Forall wf bs.
Proof. exact @split_formula. Qed.
Print Assumptions C03_split_lossless.

(** C03, explicit sizes. *)
Theorem C03_split_given_lengths :
  forall (L H A : Type) (leqb : L -> L -> bool) (heqb : H -> H -> bool),
    (forall x y, leqb x y = true <-> x = y) ->
    (forall x y, heqb x y = true <-> x = y) ->
    forall (axis : bool) (k : nat) (d : df L H A) (m : nat) (lens : list nat),
      wf d -> 0 < k -> length lens = k ->
      list_sum lens = (if axis then ncols d else nrows d) ->
      exists bs,
        split_result_of_axis_func axis k d m (Some lens) = Ok bs
        /\ length bs = k
        /\ map (fun b => if axis then ncols b else nrows b) bs = lens
        /\ (if axis then concat_cols leqb bs else concatenate heqb bs) = Ok d
        /\ Forall wf bs.
Proof. exact @split_given. Qed.
Print Assumptions C03_split_given_lengths.

(** The predicted sizes: [k] of them, summing to the axis length. *)
Theorem C03_length_list_sums :
  forall n k m, 0 < k -> 0 < m ->
    exists lens, get_length_list n k m = Ok lens /\ length lens = k /\ list_sum lens = n.
Proof. exact get_length_list_ok. Qed.
Print Assumptions C03_length_list_sums.

(* ---- the hypotheses are met by a concrete 5x3 table ---- *)
Definition ex_table : df nat nat nat :=
  mkdf [10; 11; 12; 13; 14] [1; 2; 3]
       [[1;2;3]; [4;5;6]; [7;8;9]; [10;11;12]; [13;14;15]].

Example ex_wf : wf ex_table.
Proof. split; [reflexivity | repeat constructor]. Qed.

Example ex_C01 :
  exists f, from_pandas 3 1 1 ex_table = Ok f
    /\ length (fgrid f) = 3 /\ frow_lengths f = [2; 2; 1] /\ fcol_widths f = [1; 1; 1]
    /\ to_pandas Nat.eqb Nat.eqb f = Ok ex_table.
Proof. eexists; repeat split; reflexivity. Qed.

Example ex_C01_no_columns :
  exists f, from_pandas 3 1 1 (mkdf [7; 8; 9] (@nil nat) [[]; []; @nil nat]) = Ok f
    /\ to_pandas Nat.eqb Nat.eqb f = Ok (mkdf [7; 8; 9] (@nil nat) [[]; []; []]).
Proof. eexists; repeat split; reflexivity. Qed.

Example ex_C03 :
  split_result_of_axis_func false 4 ex_table 1 None
  = Ok [ mkdf [10; 11] [1; 2; 3] [[1;2;3]; [4;5;6]];
         mkdf [12; 13] [1; 2; 3] [[7;8;9]; [10;11;12]];
         mkdf [14] [1; 2; 3] [[13;14;15]];
         mkdf [] [1; 2; 3] [] ].
Proof. reflexivity. Qed.
