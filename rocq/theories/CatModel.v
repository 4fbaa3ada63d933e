(** Model of the range-partitioning groupby on categorical keys with observed=False
    (modin/core/dataframe/pandas/dataframe/dataframe.py [groupby], .../utils.py [add_missing_categories_to_groupby]).
    Simplifications: as_index=True, dropna=True, no user-defined aggregation ([is_udf_agg=False]); a result frame is
    the list of its rows (key, aggregates); [complete] are the possible keys in category order, the categories
    themselves for one key, the product of the levels (utils.py:846-854) for several. *)
From Verif Require Import Base CatSpec.

Section Model.
  Context {K V R A : Type}.
  Variable kdec : forall a b : K, {a = b} + {a <> b}.
  Variable lead : K -> V.              (* the value of the first key *)
  Variable vle : V -> V -> bool.       (* the order numpy compares values in *)
  Variable key : R -> option K.
  Variable agg : list R -> list A.
  Variable nan : A.
  Variable difference : list K -> list K.  (* the order in which [Index.difference] lists its result *)
  Variable complete : list K.
  Variable sort : bool.
  Variable ncols : nat.                (* the number of result columns *)
  Notation group := (group kdec key).

  Definition is_in (k : K) (l : list K) : bool := if in_dec kdec k l then true else false.

  (** [np.searchsorted(pivots, x, side="right")], pivots ascending *)
  Definition searchsorted_right (pivots : list V) (x : V) : nat := length (filter (fun p => vle p x) pivots).
  (** [np.searchsorted(bins, x)] (side="left"), bins ascending *)
  Definition searchsorted_left (bins : list V) (x : V) : nat := length (filter (fun b => negb (vle x b)) bins).

  Definition keys (rows : list R) : list K := flat_map (fun r => match key r with Some k => [k] | None => [] end) rows.
  Fixpoint uniques (l : list K) : list K :=
    match l with [] => [] | k :: l => k :: filter (fun k' => if kdec k k' then false else true) (uniques l) end.
  (** dataframe.py:4243 and 4297: pandas' groupby of one partition with observed=True; sorted results are in category
      order, the others in order of appearance. *)
  Definition groupby_observed (rows : list R) : list (K * list A) :=
    map (fun k => (k, agg (group k rows)))
        (if sort then filter (fun k => is_in k (keys rows)) complete else uniques (keys rows)).

  (** utils.py:387-388 and 466-475 [split_partitions_using_pivots_for_sort] into [n] groups; [code] is the number of
      the group of a key (for one key column [searchsorted_right pivots], utils.py:424-439).  Rows with a missing key
      go to the last group. *)
  Definition split_rows (code : K -> nat) (n : nat) (rows : list R) : list (list R) :=
    map (fun j => filter (fun r => match key r with Some k => code k =? j | None => false end) rows
                  ++ if S j =? n then filter (fun r => match key r with Some _ => false | None => true end) rows else [])
        (seq 0 n).
  (** partition_manager.py [shuffle_partitions]: the j-th new partition glues the j-th pieces of all partitions. *)
  Definition shuffle (code : K -> nat) (n : nat) (parts : list (list R)) : list (list R) :=
    map (fun j => concat (map (fun p => nth j (split_rows code n p) []) parts)) (seq 0 n).

  (** utils.py:827-863: the possible keys no partition has. *)
  Definition missing_index (dfs : list (list (K * list A))) : list K :=
    difference (filter (fun k => negb (is_in k (map fst (concat dfs)))) complete).
  (** utils.py:878-892 and 905-910: the aggregation of one empty group; its first value fills all columns. *)
  Definition fill_value : A := match agg [] with [] => nan | a :: _ => a end.
  Definition missing_values (ks : list K) : list (K * list A) := map (fun k => (k, repeat fill_value ncols)) ks.

  (** utils.py:934-950: [bins], and [old_bins_to_new] as the list of its values. *)
  Fixpoint bins_loop (indices : list (list K)) (bins : list V) (offs : list nat) (offset : nat) : list V * list nat :=
    match indices with
    | [] => (bins, offs ++ [offset])
    | idx :: rest =>
        match rev idx with
        | [] => bins_loop rest bins offs (S offset)
        | k :: _ => bins_loop rest (bins ++ [lead k]) (offs ++ [offset]) offset
        end
    end.
  (** utils.py:952-982: the partition a missing key goes to ([key + old_bins_to_new[key]]). *)
  Definition place (indices : list (list K)) (m : K) : nat :=
    let '(bins, offs) := bins_loop (removelast indices) [] [] 0 in
    match bins with
    | [] => nth 0 offs 0
    | _ => let p := searchsorted_left bins (lead m) in p + nth p offs 0
    end.
  (** utils.py:917-921 and 970-983: the missing rows for partition [j]. *)
  Definition mask (dfs : list (list (K * list A))) (j : nat) : list (K * list A) :=
    let indices := map (map fst) dfs in
    let miss := missing_values (missing_index dfs) in
    if negb sort then (if S j =? length dfs then miss else [])
    else filter (fun r => place indices (fst r) =? j) miss.

  (** [df.sort_index(axis=0)] on a categorical index with unique values *)
  Definition sort_index (rs : list (K * list A)) : list (K * list A) :=
    flat_map (fun k => filter (fun r => if kdec (fst r) k then true else false) rs) complete.
  (** dataframe.py:4448-4462 [apply_aligned] *)
  Definition apply_aligned (dfs : list (list (K * list A))) (j : nat) : list (K * list A) :=
    let df := nth j dfs [] in
    match mask dfs j with
    | [] => df
    | values => let df := df ++ values in if sort then sort_index df else df
    end.

  (** dataframe.py:4346-4470: the partitions of the result *)
  Definition groupby (code : K -> nat) (n : nat) (parts : list (list R)) : list (list (K * list A)) :=
    let dfs := map groupby_observed (shuffle code n parts) in
    map (apply_aligned dfs) (seq 0 n).
End Model.
