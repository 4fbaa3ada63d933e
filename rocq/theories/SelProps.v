(** C07, C08, C09: selecting rows and columns by position.

    [shows f d rl cl] (SelProofs5.v): the partitioned frame [f] stands for the table [d], its blocks
    are cut at row lengths [rl] and column widths [cl], and its labels are materialised.
    [positions n loc] (SelSpec.v) is what pandas selects; [take2d rows cols d] is the table of those
    rows and columns.  [sorts] is all that is assumed of NumPy's argsort. *)
From Verif Require Import Base Table ChunkModel ChunkSpec GridModel GridSpec FrameSpec GridProofs GridProofs2 GridProofs3 GridProofs5 SelSpec SelModel
  SelProofs SelProofs2 SelProofs3 SelProofs4 SelProofs5 SelProofs6 SelProofs7.

(** C07 (partial): [df.iloc[row_loc, col_loc]].  The frame returned shows exactly the requested rows
    and columns in the requested order, for every partitioning, every state of the length caches and
    every argsort.  Missing, because the code is wrong there (theorems [_refuted] below): repeated
    positions, unit-step slices that run backwards, ranges with negative entries. *)
Theorem C07_iloc_partial :
  forall (L H A : Type) (leqb : L -> L -> bool) (heqb : H -> H -> bool),
    (forall x y, leqb x y = true <-> x = y) -> (forall x y, heqb x y = true <-> x = y) ->
    forall (min_row min_col nparts : nat), 0 < min_row -> 0 < min_col -> 0 < nparts ->
    forall (known_l known_w : nat -> nat -> bool) (argsort : list Z -> list nat),
      (forall l, sorts l (argsort l)) ->
    forall (big : bool) (f : pframe) (d : df L H A) (rl cl : list nat) (row_loc col_loc : locator)
           (rows cols : list nat),
      shows f d rl cl ->
      positions (nrows d) row_loc = Some rows -> positions (ncols d) col_loc = Some cols ->
      supported (nrows d) row_loc -> supported (ncols d) col_loc ->
      NoDup rows -> NoDup cols ->
      exists f', iloc_getitem leqb heqb min_row min_col nparts known_l known_w argsort big row_loc col_loc f = Ok f'
        /\ pf_to_pandas leqb heqb f' = Ok (take2d rows cols d).
Proof.
  intros L H A leqb heqb Hl Hh mr mc np H1 H2 H3 kl kw ag Hag big f d rl cl rloc cloc rows cols Hs Pr Pc Sr Sc Nr Nc.
  destruct (@compute_lookup_ok _ _ _ Pr Sr) as (rix & Er & SSr).
  destruct (@compute_lookup_ok _ _ _ Pc Sc) as (cix & Ec & SSc).
  destruct (@take_2d_ok L H A leqb heqb Hl Hh mr mc np H1 H2 H3 kl kw ag Hag big f d rl cl rix cix rows cols Hs SSr SSc) as (f' & E1 & E2 & _); [right; auto|].
  exists f'. split; [|exact E2]. unfold iloc_getitem. destruct Hs as (_ & _ & _ & -> & ->). cbn [labels rbind].
  fold (nrows d) (ncols d). rewrite Er, Ec. exact E1.
Qed.
Print Assumptions C07_iloc_partial.

(** C07: row selection alone with unsorted positions, repetitions allowed (or with more than 90% of the
    rows, [big]): the direct path.  Here nothing is missing. *)
Theorem C07_iloc_rows_direct :
  forall (L H A : Type) (leqb : L -> L -> bool) (heqb : H -> H -> bool),
    (forall x y, leqb x y = true <-> x = y) -> (forall x y, heqb x y = true <-> x = y) ->
    forall (min_row min_col nparts : nat), 0 < min_row -> 0 < min_col -> 0 < nparts ->
    forall (known_l known_w : nat -> nat -> bool) (argsort : list Z -> list nat),
      (forall l, sorts l (argsort l)) ->
    forall (big : bool) (f : pframe) (d : df L H A) (rl cl : list nat) (zs : list Z) (rows : list nat),
      shows f d rl cl ->
      positions (nrows d) (LList zs) = Some rows ->
      big = true \/ ~ Sorted le rows ->
      exists f', iloc_getitem leqb heqb min_row min_col nparts known_l known_w argsort big
                   (LList zs) (LSlice None None None) f = Ok f'
        /\ pf_to_pandas leqb heqb f' = Ok (take2d rows (seq 0 (ncols d)) d).
Proof.
  intros L H A leqb heqb Hl Hh mr mc np H1 H2 H3 kl kw ag Hag big f d rl cl zs rows Hs Pr Hb.
  destruct (@compute_lookup_ok _ _ _ Pr I) as (rix & Er & SSr).
  destruct (@take_2d_ok L H A leqb heqb Hl Hh mr mc np H1 H2 H3 kl kw ag Hag big f d rl cl rix None rows (seq 0 (ncols d)) Hs SSr eq_refl) as (f' & E1 & E2 & _); [left; split; auto|].
  exists f'. split; [|exact E2]. unfold iloc_getitem. destruct Hs as (_ & _ & _ & -> & ->). cbn [labels rbind].
  fold (nrows d) (ncols d). rewrite Er. exact E1.
Qed.
Print Assumptions C07_iloc_rows_direct.

(** What [take2d] means: entry (i,j) is entry (rows[i], cols[j]), with the labels of that row and
    column, and there are as many rows and columns as requested. *)
Theorem C07_take2d_meaning :
  forall (L H A : Type) (d : df L H A) (rows cols : list nat), wf d ->
    Forall (fun p => p < nrows d) rows -> Forall (fun p => p < ncols d) cols ->
    nrows (take2d rows cols d) = length rows /\ ncols (take2d rows cols d) = length cols
    /\ forall i j p q, nth_error rows i = Some p -> nth_error cols j = Some q ->
         cell (take2d rows cols d) i j = cell d p q
         /\ nth_error (dindex (take2d rows cols d)) i = nth_error (dindex d) p
         /\ nth_error (dcols (take2d rows cols d)) j = nth_error (dcols d) q.
Proof.
  intros L H A d rows cols W Fr Fc. split; [now apply take2d_nrows|]. split; [now apply take2d_ncols|].
  intros. now apply take2d_cell.
Qed.
Print Assumptions C07_take2d_meaning.

(** Slices, masks, ints and ranges never repeat a position, so [NoDup] above only concerns lists. *)
Theorem C07_only_lists_repeat :
  forall n loc ps, positions n loc = Some ps -> supported n loc ->
    match loc with LList _ => False | _ => True end -> NoDup ps.
Proof. exact positions_nodup. Qed.
Print Assumptions C07_only_lists_repeat.

(** C08: the block dictionary.  Block number [i] starts at the sum of the lengths before it; reading
    the entries in order gives back the positions; every entry is inside its block; the keys are
    increasing, so no block is listed twice. *)
Theorem C08_block_index :
  forall (bins : list nat) (n : nat) (ix : indexer) (ps : list nat),
    bins <> [] -> list_sum bins = n -> ipos ix = map Z.of_nat ps ->
    Forall (fun p => p < n) ps -> Sorted le ps ->
    (forall a b s, ix = IRange a b s -> (s <> 0 /\ (s > 0 -> 0 <= a /\ 0 <= b) /\ (s = 1 -> a <= b))%Z) ->
    exists dict, block_index bins (length bins) n ix true = Ok dict
      /\ concat (map (fun e => map (fun o => list_sum (firstn (fst e) bins) + o)
                                   (expand (nth (fst e) bins 0) (snd e))) dict) = ps
      /\ (forall i b, In (i, b) dict -> i < length bins /\ Forall (fun o => o < nth i bins 0) (expand (nth i bins 0) b))
      /\ Sorted lt (map fst dict)
      /\ get_new_lengths bins dict = map (fun e => length (expand (nth (fst e) bins 0) (snd e))) dict.
Proof.
  intros bins n ix ps Hb Hn Hp F S R.
  assert (RO : range_ok ix). { destruct ix as [a b s|]; [|exact I]. destruct (R a b s eq_refl) as (R1 & R2 & R3). split; auto. }
  destruct (@block_index_ok bins n ix ps Hb Hn RO Hp F S) as (dict & E & D1 & D2 & _).
  exists dict. split; [exact E|]. split; [exact D1|]. split; [|split].
  - intros i b Hin. rewrite Forall_forall in D2. exact (D2 (i, b) Hin).
  - eapply block_index_keys; eauto. intros a b s -> ->. destruct (R a b 1%Z eq_refl) as (_ & R2 & R3). lia.
  - rewrite get_new_lengths_eq, map_map. apply map_ext. intros e. unfold entry_positions. now rewrite map_length.
Qed.
Print Assumptions C08_block_index.

(** C08 for a single position: the block that contains it and the offset inside. *)
Theorem C08_locate :
  forall (bins : list nat) (n x : nat), bins <> [] -> x < list_sum bins ->
    exists i o, locate bins n (Z.of_nat x) = Ok (i, o)
      /\ i < length bins /\ o < nth i bins 0 /\ list_sum (firstn i bins) + o = x.
Proof.
  intros bins n x Hb Hx. rewrite locate_ok by assumption. destruct (@digitize_spec bins x Hx) as (D1 & D2).
  do 2 eexists. split; [reflexivity|]. fold (start_of bins (digitize bins x)) in *. repeat split; lia.
Qed.
Print Assumptions C08_locate.

(** C09: after a selection that keeps something, the length caches are the true block sizes (the grid
    is the table cut at the cached lengths) and they sum to the numbers of selected rows and columns. *)
Theorem C09_caches_after_selection :
  forall (L H A : Type) (leqb : L -> L -> bool) (heqb : H -> H -> bool),
    (forall x y, leqb x y = true <-> x = y) -> (forall x y, heqb x y = true <-> x = y) ->
    forall (min_row min_col nparts : nat), 0 < min_row -> 0 < min_col -> 0 < nparts ->
    forall (known_l known_w : nat -> nat -> bool) (argsort : list Z -> list nat),
      (forall l, sorts l (argsort l)) ->
    forall (big : bool) (f : pframe) (d : df L H A) (rl cl : list nat) (row_loc col_loc : locator)
           (rows cols : list nat),
      shows f d rl cl ->
      positions (nrows d) row_loc = Some rows -> positions (ncols d) col_loc = Some cols ->
      supported (nrows d) row_loc -> supported (ncols d) col_loc ->
      NoDup rows -> NoDup cols -> rows <> [] -> cols <> [] ->
      exists f' rl' cl',
        iloc_getitem leqb heqb min_row min_col nparts known_l known_w argsort big row_loc col_loc f = Ok f'
        /\ row_lengths f' = rl' /\ column_widths f' = cl'
        /\ pgrid f' = cut_table rl' cl' (take2d rows cols d)
        /\ list_sum rl' = length rows /\ list_sum cl' = length cols
        /\ (prl f' = None \/ prl f' = Some rl') /\ (pcl f' = None \/ pcl f' = Some cl').
Proof.
  intros L H A leqb heqb Hl Hh mr mc np H1 H2 H3 kl kw ag Hag big f d rl cl rloc cloc rows cols Hs Pr Pc Sr Sc Nr Nc Zr Zc.
  destruct (@compute_lookup_ok _ _ _ Pr Sr) as (rix & Er & SSr).
  destruct (@compute_lookup_ok _ _ _ Pc Sc) as (cix & Ec & SSc).
  destruct (@take_2d_ok L H A leqb heqb Hl Hh mr mc np H1 H2 H3 kl kw ag Hag big f d rl cl rix cix rows cols Hs SSr SSc) as (f' & E1 & _ & E2); [right; auto|].
  destruct (E2 Zr Zc) as (rl' & cl' & ((G & _) & Hr' & Hc' & _)).
  exists f', rl', cl'. split.
  { unfold iloc_getitem. destruct Hs as (_ & _ & _ & -> & ->). cbn [labels rbind]. fold (nrows d) (ncols d). rewrite Er, Ec. exact E1. }
  split; [eapply gridded_row_lengths; eauto|]. split; [eapply gridded_column_widths; eauto|].
  destruct G as (W & G1 & G2 & G3 & _ & _ & G4 & G5).
  rewrite take2d_nrows in G1 by (eapply selects_bound; eauto). rewrite take2d_ncols in G2 by (eapply selects_bound; eauto).
  repeat split; assumption.
Qed.
Print Assumptions C09_caches_after_selection.

(** C09, one block: the length and width caches a block keeps after [mask] are its true sizes. *)
Theorem C09_block_caches :
  forall (L H A : Type) (known_l known_w : bool) (ri ci : bidx) (b b' : df L H A) (prev_l prev_w : option nat),
    wf b -> prev_l = None \/ prev_l = Some (nrows b) -> prev_w = None \/ prev_w = Some (ncols b) ->
    mask known_l known_w ri ci b = Ok b' ->
    (forall l, recompute_cache ri prev_l = Some l -> nrows b' = l)
    /\ (forall w, recompute_cache ci prev_w = Some w -> ncols b' = w).
Proof.
  intros L H A kl kw ri ci b b' pl pw W Hl Hw M. split; intros; [eapply recompute_ok|eapply recompute_width_ok]; eauto.
Qed.
Print Assumptions C09_block_caches.

(** ** Refutations: the full C07 is false of the code *)
Section Refuted.
  Let d : df nat nat Z := mkdf [10;11;12;13] [100;101] [[1;2];[3;4];[5;6];[7;8]]%Z.
  Let f : pframe := mkpf (cut_table [2;2] [2] d) (Some (dindex d)) (Some (dcols d)) (Some [2;2]) (Some [2]).

  Lemma f_shows : shows f d [2;2] [2].
  Proof. split; [|repeat split; easy]. apply holds_intro; cbn; auto. split; [reflexivity|repeat constructor]. Qed.

  (** df.iloc[[0, 0]] on four rows in two blocks: the list fills the first block, so the block is
      returned unmasked: the result holds rows 0 and 1 (and converting it to pandas fails an internal
      check because the labels say 0, 0). *)
  Theorem C07_repeated_positions_refuted :
    exists (f : @pframe nat nat Z) d rl cl rows f',
      shows f d rl cl /\ positions (nrows d) (LList [0;0]%Z) = Some rows
      /\ iloc_getitem Nat.eqb Nat.eqb 1 1 2 (fun _ _ => true) (fun _ _ => true) zargsort false
           (LList [0;0]%Z) (LSlice None None None) f = Ok f'
      /\ pf_to_pandas Nat.eqb Nat.eqb f' <> Ok (take2d rows (seq 0 (ncols d)) d)
      /\ pgrid f' = [[take2d [0;1] (seq 0 (ncols d)) d]].
  Proof.
    exists f, d, [2;2], [2], [0;0]. eexists. split; [apply f_shows|]. split; [reflexivity|].
    split; [vm_compute; reflexivity|]. split; vm_compute; [discriminate|reflexivity].
  Qed.
  Print Assumptions C07_repeated_positions_refuted.

  (** df.iloc[3:1] should be empty; with two blocks of two rows the rows of both ends come back. *)
  Theorem C07_backward_slice_refuted :
    exists (f : @pframe nat nat Z) d rl cl,
      shows f d rl cl /\ positions (nrows d) (LSlice (Some 3) (Some 1) None)%Z = Some []
      /\ forall f', iloc_getitem Nat.eqb Nat.eqb 1 1 2 (fun _ _ => true) (fun _ _ => true) zargsort false
           (LSlice (Some 3) (Some 1) None)%Z (LSlice None None None) f = Ok f' ->
         pf_to_pandas Nat.eqb Nat.eqb f' <> Ok (take2d [] (seq 0 (ncols d)) d).
  Proof.
    exists f, d, [2;2], [2]. split; [apply f_shows|]. split; [reflexivity|].
    intros f' E. vm_compute in E. first [discriminate E | injection E as <-; vm_compute; discriminate].
  Qed.
  Print Assumptions C07_backward_slice_refuted.

  (** df.iloc[range(-2, 2)] on four rows should give rows 2, 3, 0, 1; the frame itself comes back. *)
  Theorem C07_negative_range_refuted :
    exists (f : @pframe nat nat Z) d rl cl,
      shows f d rl cl /\ positions (nrows d) (LRange (-2) 2 1)%Z = Some [2;3;0;1]
      /\ exists f', iloc_getitem Nat.eqb Nat.eqb 1 1 2 (fun _ _ => true) (fun _ _ => true) zargsort true
           (LRange (-2) 2 1)%Z (LSlice None None None) f = Ok f'
         /\ pf_to_pandas Nat.eqb Nat.eqb f' = Ok d /\ d <> take2d [2;3;0;1] (seq 0 (ncols d)) d.
  Proof.
    exists f, d, [2;2], [2]. split; [apply f_shows|]. split; [reflexivity|].
    eexists. split; [vm_compute; reflexivity|]. split; [vm_compute; reflexivity|discriminate].
  Qed.
  Print Assumptions C07_negative_range_refuted.
End Refuted.

(** ** Ordinary cases meet the hypotheses *)
Section Examples.
  (** 5x3 in blocks 2+0+3 by 2+1, no cache known. *)
  Let d : df nat nat Z :=
    mkdf [10;11;12;13;14] [100;101;102] [[1;2;3];[4;5;6];[7;8;9];[0;5;0];[2;2;2]]%Z.
  Let f : pframe := mkpf (cut_table [2;0;3] [2;1] d) (Some (dindex d)) (Some (dcols d)) None (Some [2;1]).

  Example ex_shows : shows f d [2;0;3] [2;1].
  Proof. split; [|repeat split; easy]. apply holds_intro; cbn; auto. split; [reflexivity|repeat constructor]. Qed.
  Example ex_argsort : forall l, sorts l (zargsort l).
  Proof. exact zargsort_ok. Qed.
  (** df.iloc[[4, 0, -3], ::-2] *)
  Example ex_positions : positions (nrows d) (LList [4;0;-3]%Z) = Some [4;0;2]
    /\ positions (ncols d) (LSlice None None (Some (-2)%Z)) = Some [2;0]
    /\ supported (nrows d) (LList [4;0;-3]%Z) /\ supported (ncols d) (LSlice None None (Some (-2)%Z))
    /\ NoDup [4;0;2] /\ NoDup [2;0].
  Proof. repeat split; try (intros x y [=]); repeat constructor; cbn; lia. Qed.
  Example ex_run : exists f', iloc_getitem Nat.eqb Nat.eqb 1 1 2 (fun _ _ => true) (fun _ _ => false) zargsort false
      (LList [4;0;-3]%Z) (LSlice None None (Some (-2)%Z)) f = Ok f'
    /\ pf_to_pandas Nat.eqb Nat.eqb f' = Ok (mkdf [14;10;12] [102;100] [[2;2];[3;1];[9;7]]%Z).
  Proof. eexists. split; vm_compute; reflexivity. Qed.
  Example ex_block_index : block_index [2;0;3] 3 5 (IList [0;1;4]%Z) true = Ok [(0, BList [0;1]); (2, BList [2])].
  Proof. reflexivity. Qed.
End Examples.
