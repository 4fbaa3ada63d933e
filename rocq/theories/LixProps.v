(** C87: join by row labels. *)
From Verif Require Import Base Table ChunkModel ChunkSpec GridModel GridSpec FrameSpec GridProofs GridProofs2 GridProofs3 SelProofs5
  GroupSpec JoinModel MergeSpec ResetModel LixSpec LixModel LixProofs.

Section C87.
  Context {L H A : Type}.
  Variable leqb : L -> L -> bool.
  Variable heqb : H -> H -> bool.
  Hypothesis leqb_ok : forall x y, leqb x y = true <-> x = y.
  Hypothesis heqb_ok : forall x y, heqb x y = true <-> x = y.
  Variable nan : A.
  Variable names : list H -> list H -> res (list H).
  Hypothesis names_length : forall a b c, names a b = Ok c -> length c = length a + length b.
  Variables nparts min_row : nat.
  Hypothesis (nparts_pos : 0 < nparts) (min_row_pos : 0 < min_row).

  (** Labels and rows of an inner join, without reference to positions. *)
  Theorem C87_inner_meaning : forall (l r : df L H A) x row,
    In (x, row) (matched leqb nan HInner l r) <->
    exists a b, In (x, a) (combine (dindex l) (dcells l)) /\ In (x, b) (combine (dindex r) (dcells r)) /\ row = a ++ b.
  Proof.
    clear - leqb_ok. intros l r x row. unfold matched. rewrite in_flat_map. split.
    - intros ([x' a] & I & J). unfold from_left, labelled in J. cbn [fst snd] in J.
      destruct (filter _ _) as [|z zs] eqn:E; [easy|]. rewrite <- E in J. apply in_map_iff in J as ([j b] & [= <- <-] & J).
      apply filter_In in J as [J K]. apply leqb_ok in K. cbn in K. subst j. exists a, b. auto.
    - intros (a & b & I & J & ->). exists (x, a). split; [exact I|]. unfold from_left, labelled. cbn [fst snd].
      assert (M : In (x, b) (filter (fun y => leqb x (fst y)) (combine (dindex r) (dcells r)))) by (apply filter_In; split; [exact J|]; now apply leqb_ok).
      destruct (filter _ _) as [|z zs] eqn:E; [easy|]. rewrite <- E in M |- *. apply in_map_iff. exists (x, b). auto. Qed.

  (** C87 (partial): [left.join(right, how="left" | "inner" | "right")] shows pandas' result, or raises ValueError where pandas does,
      however both frames are divided into blocks.  Missing: repeated labels (refuted if both frames have the same ones),
      how="outer", sort=True, several frames at once. *)
  Theorem C87_label_join_partial : forall (h : how) first_known (left right : @pframe L H A) (l r : df L H A) rows_l cols_l rows_r cols_r,
    shows left l rows_l cols_l -> shows right r rows_r cols_r -> NoDup (dindex l) -> NoDup (dindex r) ->
    match p_label_join leqb nan names h l r with
    | Ok t => exists f, api_label_join leqb heqb nan names nparts min_row first_known h left right = Ok f /\ look leqb heqb f = Ok t
    | Err e => api_label_join leqb heqb nan names nparts min_row first_known h left right = Err e
    end.
  Proof. intros. eapply (@label_join_ok L H A leqb heqb leqb_ok heqb_ok nan names names_length); eassumption. Qed.
End C87.
Print Assumptions C87_inner_meaning.
Print Assumptions C87_label_join_partial.

(** Headers are numbers; headers that occur on both sides are an error (no suffixes). *)
Definition lix_names (a b : list nat) : res (list nat) := if existsb (fun h => inb Nat.eqb h b) a then Err ValueError else Ok (a ++ b).
Lemma lix_names_length a b c : lix_names a b = Ok c -> length c = length a + length b.
Proof. unfold lix_names. destruct (existsb _ a); [discriminate|]. intros [= <-]. apply app_length. Qed.
Definition lix_frame (rl cl : list nat) (d : df nat nat (option nat)) : @pframe nat nat (option nat) :=
  mkpf (cut_table rl cl d) (Some (dindex d)) (Some (dcols d)) (Some rl) (Some cl).
Definition lix_l : df nat nat (option nat) := mkdf [5;6;7] [1;2;3] [[Some 8;Some 0;Some 30];[Some 9;Some 1;None];[None;Some 2;Some 31]].
Definition lix_r : df nat nat (option nat) := mkdf [7;4;5] [10;11] [[Some 40;Some 41];[Some 42;None];[Some 43;Some 44]].
Definition lix_call h := do f <- api_label_join Nat.eqb Nat.eqb None lix_names 2 1 true h (lix_frame [2;1] [2;1] lix_l) (lix_frame [1;2] [1;1] lix_r);
  look Nat.eqb Nat.eqb f.
Definition lix_left : df nat nat (option nat) := mkdf [5;6;7] [1;2;3;10;11]
  [[Some 8;Some 0;Some 30;Some 43;Some 44];[Some 9;Some 1;None;None;None];[None;Some 2;Some 31;Some 40;Some 41]].
Example C87_left : lix_call HLeft = Ok lix_left.
Proof. vm_compute. reflexivity. Qed.
Example C87_inner : lix_call HInner = Ok (mkdf [5;7] [1;2;3;10;11] [[Some 8;Some 0;Some 30;Some 43;Some 44];[None;Some 2;Some 31;Some 40;Some 41]]).
Proof. vm_compute. reflexivity. Qed.
Example C87_right : lix_call HRight = Ok (mkdf [7;4;5] [1;2;3;10;11]
  [[None;Some 2;Some 31;Some 40;Some 41];[None;None;None;Some 42;None];[Some 8;Some 0;Some 30;Some 43;Some 44]]).
Proof. vm_compute. reflexivity. Qed.
Lemma lix_shows rl cl d : wf d -> list_sum rl = nrows d -> list_sum cl = ncols d -> rl <> [] -> cl <> [] -> shows (lix_frame rl cl d) d rl cl.
Proof. intros W Sr Sc Nr Nc. split; [apply holds_intro; auto|]. auto. Qed.
(** the hypotheses of the theorem are met by these frames *)
Example C87_hypotheses : exists f, api_label_join Nat.eqb Nat.eqb None lix_names 2 1 true HLeft (lix_frame [2;1] [2;1] lix_l) (lix_frame [1;2] [1;1] lix_r) = Ok f
  /\ look Nat.eqb Nat.eqb f = Ok lix_left.
Proof.
  assert (Wl : wf lix_l) by (split; [reflexivity|repeat constructor]). assert (Wr : wf lix_r) by (split; [reflexivity|repeat constructor]).
  refine (@C87_label_join_partial nat nat (option nat) Nat.eqb Nat.eqb Nat.eqb_eq Nat.eqb_eq None lix_names lix_names_length 2 1 Nat.lt_0_2 Nat.lt_0_1 HLeft true _ _ lix_l lix_r
    [2;1] [2;1] [1;2] [1;1] (@lix_shows [2;1] [2;1] lix_l Wl eq_refl eq_refl _ _) (@lix_shows [1;2] [1;1] lix_r Wr eq_refl eq_refl _ _) _ _); try discriminate;
  repeat constructor; cbn; intuition discriminate. Qed.

(** C87 refuted: when both frames have the same row labels and a label repeats, rows are paired by position; pandas pairs each row with
    every row of the same label *)
Definition lix_a : df nat nat (option nat) := mkdf [5;5] [1] [[Some 1];[Some 2]].
Definition lix_b : df nat nat (option nat) := mkdf [5;5] [2] [[Some 3];[Some 4]].
Theorem C87_repeated_refuted :
  p_label_join Nat.eqb None lix_names HLeft lix_a lix_b = Ok (mkdf [5;5;5;5] [1;2] [[Some 1;Some 3];[Some 1;Some 4];[Some 2;Some 3];[Some 2;Some 4]])
  /\ (do f <- api_label_join Nat.eqb Nat.eqb None lix_names 2 1 true HLeft (lix_frame [2] [1] lix_a) (lix_frame [2] [1] lix_b); look Nat.eqb Nat.eqb f)
     = Ok (mkdf [5;5] [1;2] [[Some 1;Some 3];[Some 2;Some 4]]).
Proof. split; vm_compute; reflexivity. Qed.
Print Assumptions C87_repeated_refuted.
