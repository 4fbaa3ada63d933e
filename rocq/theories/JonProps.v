(** C86: join with the cells of a column on one side and row labels on the other. *)
From Verif Require Import Base Table ChunkModel ChunkSpec GridModel GridSpec FrameSpec GridProofs GridProofs2 GridProofs3 JoinModel GroupSpec MergeSpec MergeModel
  ResetModel JonSpec JonModel JonProofs.

Section C86.
  Context {L H A : Type}.
  Variable leqb : L -> L -> bool.
  Variable heqb : H -> H -> bool.
  Hypothesis leqb_ok : forall x y, leqb x y = true <-> x = y.
  Hypothesis heqb_ok : forall x y, heqb x y = true <-> x = y.
  Variable nan : A.
  Variable is_label : A -> L -> bool.
  Variable label_cell : L -> A.
  Variable nolabel : L.
  Variable names : list H -> list H -> res (list H).
  Hypothesis names_length : forall a b c, names a b = Ok c -> length c = length a + length b.
  Variables nparts min_row min_col : nat.
  Hypothesis (nparts_pos : 0 < nparts) (min_col_pos : 0 < min_col).
  Notation p_join := (p_join heqb nan is_label label_cell nolabel names).
  Notation qc_join := (qc_join leqb heqb nan is_label label_cell nolabel names nparts min_row min_col).

  (** The rows of an inner join are the pairs of a left row and a right row whose label is the left row's key. *)
  Theorem C86_inner_meaning : forall on (l r : df L H A) i row,
    In (i, row) (joined heqb nan is_label label_cell nolabel HInner on l r) <->
    exists a j b, In (i, a) (combine (dindex l) (dcells l)) /\ In (j, b) (combine (dindex r) (dcells r))
      /\ is_label (key heqb nan (dcols l) on a) j = true /\ row = a ++ b.
  Proof.
    intros on l r i row. unfold joined. rewrite in_flat_map. split.
    - intros ([i' a] & I & J). unfold left_rows in J. cbn [fst snd] in J.
      destruct (filter _ (rows r)) as [|z zs] eqn:E; [easy|]. rewrite <- E in J. apply in_map_iff in J as ([j b] & [= <- <-] & J).
      apply filter_In in J as [J K]. exists a, j, b. auto.
    - intros (a & j & b & I & J & K & ->). exists (i, a). split; [exact I|]. unfold left_rows. cbn [fst snd].
      assert (M : In (j, b) (filter (fun y => is_label (key heqb nan (dcols l) on a) (fst y)) (rows r))) by (apply filter_In; auto).
      destruct (filter _ (rows r)) as [|z zs] eqn:E; [easy|]. rewrite <- E in M |- *. apply in_map_iff. exists (j, b). auto. Qed.

  (** C86 (partial): [left.join(right, on=on, how="left" | "inner" | "right")] shows pandas' result, or raises what pandas raises, however
      both frames are divided into blocks.  Missing: sort=True, how="outer" and "cross", several keys, [on] as a header of
      both frames, frames without any block. *)
  Theorem C86_join_partial : forall (h : how) (on : H) (left right : @pframe L H A) (l r : df L H A) rows_l cols_l rows_r cols_r,
    holds left l rows_l cols_l -> holds right r rows_r cols_r ->
    rows_l <> [] -> cols_l <> [] -> rows_r <> [] -> cols_r <> [] -> 0 < ncols l -> 0 < ncols r -> ~ In on (dcols r) ->
    match p_join h on l r with
    | Ok t => exists f, qc_join h on left right = Ok f /\ look leqb heqb f = Ok t
    | Err e => qc_join h on left right = Err e
    end.
  Proof. intros. eapply (qc_join_ok leqb heqb leqb_ok heqb_ok nan is_label label_cell nolabel names names_length); eassumption. Qed.
End C86.
Print Assumptions C86_inner_meaning.
Print Assumptions C86_join_partial.

(** Headers are numbers; [jon_names] adds 100 and 200 to headers that occur on both sides, and fails without suffixes. *)
Definition jon_names (suffixes : bool) (a b : list nat) : res (list nat) :=
  let both h := inb Nat.eqb h a && inb Nat.eqb h b in
  if negb suffixes && existsb both a then Err ValueError
  else Ok (map (fun h => if both h then 100 + h else h) a ++ map (fun h => if both h then 200 + h else h) b).
Lemma jon_names_length s a b c : jon_names s a b = Ok c -> length c = length a + length b.
Proof. unfold jon_names. destruct (_ && _); [discriminate|]. intros [= <-]. now rewrite app_length, !map_length. Qed.
Definition jon_cell := option nat.
Definition jon_is (a : jon_cell) (l : nat) : bool := match a with Some x => x =? l | None => false end.
Definition jon_frame (rl cl : list nat) (d : df nat nat jon_cell) : @pframe nat nat jon_cell :=
  mkpf (cut_table rl cl d) (Some (dindex d)) (Some (dcols d)) (Some rl) (Some cl).
Definition jon_l : df nat nat jon_cell := mkdf [5;6;7] [1;2;3] [[Some 8;Some 0;Some 30];[Some 9;Some 1;None];[None;Some 2;Some 31]].
Definition jon_r : df nat nat jon_cell := mkdf [8;4;8] [3;11] [[Some 40;Some 41];[Some 42;None];[Some 43;Some 44]].
Definition jon_call s h on :=
  do f <- qc_join Nat.eqb Nat.eqb None jon_is (@Some nat) 999 (jon_names s) 2 1 1 h on (jon_frame [2;1] [2;1] jon_l) (jon_frame [1;2] [1;1] jon_r);
  look Nat.eqb Nat.eqb f.
Definition jon_left : df nat nat jon_cell := mkdf [5;5;6;7] [1;2;103;203;11]
  [[Some 8;Some 0;Some 30;Some 40;Some 41];[Some 8;Some 0;Some 30;Some 43;Some 44];[Some 9;Some 1;None;None;None];[None;Some 2;Some 31;None;None]].
Example C86_left : jon_call true HLeft 1 = Ok jon_left.
Proof. vm_compute. reflexivity. Qed.
Example C86_inner : jon_call true HInner 1 = Ok (mkdf [5;5] [1;2;103;203;11] (firstn 2 (dcells jon_left))).
Proof. vm_compute. reflexivity. Qed.
Example C86_right : jon_call true HRight 1 = Ok (mkdf [5;999;5] [1;2;103;203;11]
  [[Some 8;Some 0;Some 30;Some 40;Some 41];[Some 4;None;None;Some 42;None];[Some 8;Some 0;Some 30;Some 43;Some 44]]).
Proof. vm_compute. reflexivity. Qed.
Example C86_errors : jon_call false HLeft 1 = Err ValueError /\ jon_call true HRight 4 = Err KeyError.
Proof. split; vm_compute; reflexivity. Qed.
Lemma jon_holds rl cl d : wf d -> list_sum rl = nrows d -> list_sum cl = ncols d -> holds (jon_frame rl cl d) d rl cl.
Proof. intros W Sr Sc. apply holds_intro; auto. Qed.
(** the hypotheses of the theorem are met by these frames *)
Example C86_hypotheses : exists f, qc_join Nat.eqb Nat.eqb None jon_is (@Some nat) 999 (jon_names true) 2 1 1 HLeft 1
    (jon_frame [2;1] [2;1] jon_l) (jon_frame [1;2] [1;1] jon_r) = Ok f /\ look Nat.eqb Nat.eqb f = Ok jon_left.
Proof.
  assert (Wl : wf jon_l) by (split; [reflexivity|repeat constructor]). assert (Wr : wf jon_r) by (split; [reflexivity|repeat constructor]).
  refine (@C86_join_partial nat nat jon_cell Nat.eqb Nat.eqb Nat.eqb_eq Nat.eqb_eq None jon_is (@Some nat) 999 (jon_names true) (@jon_names_length true)
    2 1 1 Nat.lt_0_2 Nat.lt_0_1 HLeft 1 _ _ jon_l jon_r [2;1] [2;1] [1;2] [1;1] (@jon_holds [2;1] [2;1] jon_l Wl eq_refl eq_refl) (@jon_holds [1;2] [1;1] jon_r Wr eq_refl eq_refl) _ _ _ _ _ _ _);
  try discriminate; cbn; intuition (try discriminate; lia). Qed.
