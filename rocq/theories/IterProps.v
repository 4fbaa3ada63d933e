(** C88, C89: looping over the rows, or the columns, of a frame that the body of the loop changes. *)
From Verif Require Import Base Table ChunkModel ChunkSpec GridModel GridSpec FrameSpec GridProofs GridProofs2 GridProofs3 SelSpec SelModel
  SelProofs5 SelProofs7 ResetModel IterSpec IterModel IterProofs.

(** C88 (partial): [for label, row in df.iterrows(): body] gives the body every row the frame had when the loop began, once and in order,
    for every division into blocks, at the start and after every step, if no step changes rows that are still to come: it may change
    rows already visited and add rows at the end.  Missing: other bodies (refuted), row types. *)
Theorem C88_iterrows_partial :
  forall (L H A : Type) (leqb : L -> L -> bool) (heqb : H -> H -> bool),
    (forall x y, leqb x y = true <-> x = y) -> (forall x y, heqb x y = true <-> x = y) ->
  forall (min_row min_col nparts : nat), 0 < min_row -> 0 < min_col -> 0 < nparts ->
  forall (known_l known_w : nat -> nat -> bool) (argsort : list Z -> list nat), (forall l, sorts l (argsort l)) ->
  forall (big : bool) (body : nat -> L * list A -> pframe -> pframe) (table_body : nat -> L * list A -> df L H A -> df L H A),
    (forall k x f d, (exists rl cl, shows f d rl cl) -> exists rl cl, shows (body k x f) (table_body k x d) rl cl) ->
  forall (f : pframe) (d : df L H A) rl cl, shows f d rl cl ->
    (forall k x e j, k < j -> j < nrows d -> nth_error (table_rows (table_body k x e)) j = nth_error (table_rows e) j) ->
    exists f' t rl' cl',
      iterrows leqb heqb min_row min_col nparts known_l known_w argsort big body f = (fst (p_iterrows table_body d), Ok f')
      /\ snd (p_iterrows table_body d) = Ok t /\ shows f' t rl' cl'.
Proof.
  intros L H A leqb heqb Hl Hh mr mc np H1 H2 H3 kl kw ag Hag big body tbody Hb f d rl cl Sh Keep.
  assert (Len : nrows d = length (table_rows d)).
  { unfold nrows, table_rows. rewrite combine_length. assert (W : wf d) by apply Sh. destruct W as [W _]. lia. }
  destruct (@loop_ok L H A leqb heqb Hl Hh mr mc np H1 H2 H3 kl kw ag Hag big body tbody Hb d Keep Len (nrows d) 0 f d) as (f' & E & rl' & cl' & S'); auto.
  - exists rl, cl. exact Sh.
  - unfold iterrows. destruct Sh as (_ & _ & _ & -> & _). fold (nrows d). rewrite E. cbn [skipn] in *.
    exists f'. eexists. exists rl', cl'. split; [reflexivity|]. split; [reflexivity|]. exact S'.
Qed.
Print Assumptions C88_iterrows_partial.

Definition itr_frame (d : df nat nat nat) : @pframe nat nat nat :=
  let cl := [ncols d] in
  mkpf (cut_table [1; nrows d - 1] cl d) (Some (dindex d)) (Some (dcols d)) (Some [1; nrows d - 1]) (Some cl).
(** a change of the table, made in place *)
Definition itr_body (change : nat -> nat * list nat -> df nat nat nat -> df nat nat nat) (k : nat) (x : nat * list nat) (f : @pframe nat nat nat) :=
  match look Nat.eqb Nat.eqb f with Ok d => itr_frame (change k x d) | Err _ => f end.
Definition itr_run change d :=
  let '(xs, e) := iterrows Nat.eqb Nat.eqb 1 1 2 (fun _ _ => true) (fun _ _ => true) zargsort false (itr_body change) (itr_frame d) in
  (xs, do f <- e; look Nat.eqb Nat.eqb f).
Definition itr_d : df nat nat nat := mkdf [5;6;7] [1;2] [[10;20];[11;21];[12;22]].
(** a body that appends a copy of the row it was given: the loop ends after the three rows of the start *)
Definition itr_append (k : nat) (x : nat * list nat) (d : df nat nat nat) : df nat nat nat :=
  mkdf (dindex d ++ [fst x + 10]) (dcols d) (dcells d ++ [snd x]).
Example C88_append : itr_run itr_append itr_d = p_iterrows itr_append itr_d
  /\ fst (itr_run itr_append itr_d) = [(5, [10;20]);(6, [11;21]);(7, [12;22])].
Proof. split; vm_compute; reflexivity. Qed.
(** a body that only reads: the hypotheses are met *)
Example C88_read : exists f' t rl' cl',
  iterrows Nat.eqb Nat.eqb 1 1 2 (fun _ _ => true) (fun _ _ => true) zargsort false (fun _ _ f => f) (itr_frame itr_d) = ([(5, [10;20]);(6, [11;21]);(7, [12;22])], Ok f')
  /\ Ok itr_d = Ok t /\ shows f' t rl' cl'.
Proof.
  refine (@C88_iterrows_partial nat nat nat Nat.eqb Nat.eqb Nat.eqb_eq Nat.eqb_eq 1 1 2 Nat.lt_0_1 Nat.lt_0_1 Nat.lt_0_2 (fun _ _ => true) (fun _ _ => true) zargsort zargsort_ok
    false (fun _ _ f => f) (fun _ _ d => d) (fun _ _ _ _ S => S) (itr_frame itr_d) itr_d [1;2] [2] _ (fun _ _ _ _ _ _ => eq_refl)).
  split; [apply holds_intro; auto; split; [reflexivity|repeat constructor]|]. repeat split; discriminate. Qed.

(** C88 refuted: the body drops the row it was given ([df.drop(label, inplace=True)]); every other row is skipped and the loop ends with
    an IndexError *)
Definition itr_drop (k : nat) (x : nat * list nat) (d : df nat nat nat) : df nat nat nat :=
  let rows := filter (fun y => negb (fst y =? fst x)) (table_rows d) in mkdf (map fst rows) (dcols d) (map snd rows).
Theorem C88_drop_refuted :
  p_iterrows itr_drop itr_d = ([(5, [10;20]);(6, [11;21]);(7, [12;22])], Ok (mkdf [] [1;2] []))
  /\ itr_run itr_drop itr_d = ([(5, [10;20]);(7, [12;22])], Err IndexError).
Proof. split; vm_compute; reflexivity. Qed.
(** C88 refuted: the body sorts the frame the other way round ([df.sort_index(ascending=False, inplace=True)] in the first round); the first row
    is given twice and the last one never *)
Definition itr_turn (k : nat) (x : nat * list nat) (d : df nat nat nat) : df nat nat nat :=
  if k =? 0 then mkdf (rev (dindex d)) (dcols d) (rev (dcells d)) else d.
Theorem C88_sort_refuted :
  fst (p_iterrows itr_turn itr_d) = [(5, [10;20]);(6, [11;21]);(7, [12;22])]
  /\ fst (itr_run itr_turn itr_d) = [(5, [10;20]);(6, [11;21]);(5, [10;20])].
Proof. split; vm_compute; reflexivity. Qed.
Print Assumptions C88_drop_refuted.
Print Assumptions C88_sort_refuted.

(** C89 (partial): [for header, column in df.items(): body] gives the body the headers of the start, in order, each with the column that is at
    that position when its turn comes, and leaves the frame the body leaves, for every division into blocks, at the start and after every step,
    if no step changes the headers still to come: it may overwrite any cell, add or drop rows and add columns at the end.
    Missing: bodies that change those headers (refuted), column types. *)
Theorem C89_items_partial :
  forall (L H A : Type) (leqb : L -> L -> bool) (heqb : H -> H -> bool),
    (forall x y, leqb x y = true <-> x = y) -> (forall x y, heqb x y = true <-> x = y) ->
  forall (min_row min_col nparts : nat), 0 < min_row -> 0 < min_col -> 0 < nparts ->
  forall (known_l known_w : nat -> nat -> bool) (argsort : list Z -> list nat), (forall l, sorts l (argsort l)) ->
  forall (big : bool) (body : nat -> H * list (L * A) -> pframe -> pframe) (table_body : nat -> H * list (L * A) -> df L H A -> df L H A),
    (forall k x f d, (exists rl cl, shows f d rl cl) -> exists rl cl, shows (body k x f) (table_body k x d) rl cl) ->
  forall (f : pframe) (d : df L H A) rl cl, shows f d rl cl ->
    (forall k x e j, k < j -> j < ncols d -> nth_error (dcols (table_body k x e)) j = nth_error (dcols e) j) ->
    exists f' t rl' cl',
      items leqb heqb min_row min_col nparts known_l known_w argsort big body f = (fst (p_items table_body d), Ok f')
      /\ snd (p_items table_body d) = Ok t /\ shows f' t rl' cl'.
Proof.
  intros L H A leqb heqb Hl Hh mr mc np H1 H2 H3 kl kw ag Hag big body tbody Hb f d rl cl Sh Keep.
  destruct (@items_ok L H A leqb heqb Hl Hh mr mc np H1 H2 H3 kl kw ag Hag big body tbody Hb (dcols d) Keep (dcols d) 0 f d) as (xs & f' & t & E1 & E2 & rl' & cl' & S'); auto.
  - exists rl, cl. exact Sh.
  - unfold items. destruct Sh as (_ & _ & _ & _ & ->). rewrite E2. unfold p_items. rewrite E1.
    exists f', t, rl', cl'. auto.
Qed.
Print Assumptions C89_items_partial.

Definition itm_run change (d : df nat nat nat) :=
  let body k x f := match look Nat.eqb Nat.eqb f with Ok d => itr_frame (change k x d) | Err _ => f end in
  let '(xs, e) := items Nat.eqb Nat.eqb 1 1 2 (fun _ _ => true) (fun _ _ => true) zargsort false body (itr_frame d) in
  (xs, do f <- e; look Nat.eqb Nat.eqb f).
(** a body that adds a column to the right, computed from the one it was given *)
Definition itm_add (k : nat) (x : nat * list (nat * nat)) (d : df nat nat nat) : df nat nat nat :=
  mkdf (dindex d) (dcols d ++ [fst x + 10]) (map (fun rc => fst rc ++ [S (snd (snd rc))]) (combine (dcells d) (snd x))).
Example C89_add : itm_run itm_add itr_d = p_items itm_add itr_d
  /\ fst (itm_run itm_add itr_d) = [(1, [(5,10);(6,11);(7,12)]);(2, [(5,20);(6,21);(7,22)])]
  /\ snd (itm_run itm_add itr_d) = Ok (mkdf [5;6;7] [1;2;11;12] [[10;20;11;21];[11;21;12;22];[12;22;13;23]]).
Proof. repeat split; vm_compute; reflexivity. Qed.
(** a body that only reads: the hypotheses are met *)
Example C89_read : exists f' t rl' cl',
  items Nat.eqb Nat.eqb 1 1 2 (fun _ _ => true) (fun _ _ => true) zargsort false (fun _ _ f => f) (itr_frame itr_d)
    = ([(1, [(5,10);(6,11);(7,12)]);(2, [(5,20);(6,21);(7,22)])], Ok f')
  /\ Ok itr_d = Ok t /\ shows f' t rl' cl'.
Proof.
  refine (@C89_items_partial nat nat nat Nat.eqb Nat.eqb Nat.eqb_eq Nat.eqb_eq 1 1 2 Nat.lt_0_1 Nat.lt_0_1 Nat.lt_0_2 (fun _ _ => true) (fun _ _ => true) zargsort zargsort_ok
    false (fun _ _ f => f) (fun _ _ d => d) (fun _ _ _ _ S => S) (itr_frame itr_d) itr_d [1;2] [2] _ (fun _ _ _ _ _ _ => eq_refl)).
  split; [apply holds_intro; auto; split; [reflexivity|repeat constructor]|]. repeat split; discriminate. Qed.
(** C89 refuted: the body renames the columns in place ([df.columns = [n + 100 for n in df.columns]]); the loop is given the new name of the
    second column, pandas gives the old one *)
Definition itm_rename (k : nat) (x : nat * list (nat * nat)) (d : df nat nat nat) : df nat nat nat :=
  mkdf (dindex d) (map (Nat.add 100) (dcols d)) (dcells d).
Theorem C89_rename_refuted :
  map fst (fst (p_items itm_rename itr_d)) = [1;2] /\ map fst (fst (itm_run itm_rename itr_d)) = [1;102]
  /\ snd (itm_run itm_rename itr_d) = snd (p_items itm_rename itr_d).
Proof. repeat split; vm_compute; reflexivity. Qed.
Print Assumptions C89_rename_refuted.
