(** C93: [df.truncate] along the rows. *)
From Verif Require Import Base Table ChunkModel ChunkSpec GridModel GridSpec FrameSpec GridProofs GridProofs2 GridProofs3 SelSpec SelModel SelProofs SelProofs5 SelProofs7 SelProps ResetModel
  TruSpec TruModel TruProofs.

Local Lemma map_fst_combine {X Y} (l : list X) : forall (m : list Y), length l = length m -> map fst (combine l m) = l.
Proof. induction l as [|x l IH]; intros [|y m] E; try discriminate E; [reflexivity|]. cbn. f_equal. apply IH. now injection E. Qed.
Local Lemma map_snd_combine {X Y} (l : list X) : forall (m : list Y), length l = length m -> map snd (combine l m) = m.
Proof. induction l as [|x l IH]; intros [|y m] E; try discriminate E; [reflexivity|]. cbn. f_equal. apply IH. now injection E. Qed.

(** C93 (partial): [df.truncate(before, after)] on increasing row labels gives the rows whose labels lie between the two, for every division into
    blocks; ValueError if [before] is after [after].  Missing: decreasing labels (refuted). *)
Theorem C93_truncate_partial :
  forall (L H A : Type) (leqb : L -> L -> bool) (heqb : H -> H -> bool) (leb : L -> L -> bool),
    (forall x y, leqb x y = true <-> x = y) -> (forall x y, heqb x y = true <-> x = y) ->
    (forall x y z, leb x y = true -> leb y z = true -> leb x z = true) -> (forall x y, leb x y = true \/ leb y x = true) ->
  forall (min_row min_col nparts : nat), 0 < min_row -> 0 < min_col -> 0 < nparts ->
  forall (known_l known_w : nat -> nat -> bool) (argsort : list Z -> list nat), (forall l, sorts l (argsort l)) ->
  forall (big : bool) (before after : option L) (f : pframe) (d : df L H A) rl cl, shows f d rl cl -> increasing leb (dindex d) = true ->
    match before, after with
    | Some b, Some a => leb b a = true
    | _, _ => True
    end ->
    exists f', truncate leqb heqb leb min_row min_col nparts known_l known_w argsort big before after f = Ok f'
      /\ pf_to_pandas leqb heqb f' = Ok (p_truncate leb before after d).
Proof.
  intros L H A leqb heqb leb Hl Hh Ht Htot mr mc np H1 H2 H3 kl kw ag Hag big before after f d rl cl Sh Inc Ord.
  unfold truncate. assert (Pi : pindex f = Some (dindex d)) by apply Sh. rewrite Pi. cbn [labels rbind]. rewrite Inc. cbn [negb andb].
  assert (match before, after with Some b, Some a => negb (leb b a) | _, _ => false end = false) as ->.
  { destruct before, after; auto. now rewrite Ord. }
  assert (W : wf d) by apply Sh. destruct W as [W1 W2].
  set (below := fun x => match before with Some b => negb (leb b x) | None => false end).
  set (upto := fun x => match after with Some a => leb x a | None => true end).
  set (rows := combine (dindex d) (dcells d)).
  assert (Ef : map fst rows = dindex d) by (apply map_fst_combine; first [exact (eq_sym W1)|exact W1]).
  assert (Es : map snd rows = dcells d) by (apply map_snd_combine; first [exact (eq_sym W1)|exact W1]).
  destruct (@middle L (list A) leb Ht below upto rows) as (B1 & B2 & B3).
  - intros x y Hxy. unfold below. destruct before as [b|]; [|auto]. intros Hb. destruct (leb b x) eqn:Y; [|reflexivity]. rewrite (Ht _ _ _ Y Hxy) in Hb. discriminate.
  - intros x y Hxy. unfold upto. destruct after as [a|]; [|auto]. intros Hy. exact (Ht _ _ _ Hxy Hy).
  - intros x. unfold below, upto. destruct before as [b|]; [|discriminate]. destruct after as [a|]; [|auto]. intros Hx.
    destruct (Htot x b) as [Y|Y]; [exact (Ht _ _ _ Y Ord)|]. rewrite Y in Hx. discriminate.
  - now rewrite Ef.
  - assert (C : forall p, count (fun r : L * list A => p (fst r)) rows = count p (dindex d)).
    { intros p. rewrite <- Ef. clear. unfold count. induction rows as [|r l IH]; [reflexivity|]. cbn. destruct (p (fst r)); cbn; now rewrite IH. }
    rewrite (C below), (C upto) in *.
    assert (Ln : length rows = nrows d) by (unfold nrows; rewrite <- Ef; now rewrite map_length).
    assert (E : slice_locs leb before after (dindex d) = (count below (dindex d), count upto (dindex d))).
    { unfold slice_locs. rewrite Inc. unfold below, upto. f_equal.
      - destruct before; [reflexivity|]. unfold count. clear. induction (dindex d); [reflexivity|]. assumption.
      - destruct after; [reflexivity|]. unfold count. clear. induction (dindex d); [reflexivity|]. cbn. now f_equal. }
    rewrite E. cbn [fst snd]. set (lo := count below (dindex d)) in *. set (hi := count upto (dindex d)) in *.
    destruct (@C07_iloc_partial L H A leqb heqb Hl Hh mr mc np H1 H2 H3 kl kw ag Hag big f d rl cl
      (LSlice (Some (Z.of_nat lo)) (Some (Z.of_nat hi)) None) (LSlice None None None) (seq lo (hi - lo)) (seq 0 (ncols d))) as (f' & E1 & E2); auto.
    + apply positions_slice; lia.
    + pose proof (@positions_slice (ncols d) 0 (ncols d)) as P. cbn [positions] in *. rewrite slice_clip in P by lia.
      rewrite Nat.sub_0_r in P. specialize (P (Nat.le_0_l _) (le_n _)). exact P.
    + intros x y. rewrite slice_clip by lia. intros [= <- <-]. lia.
    + cbn. intros x y [= <- <-]. lia.
    + apply seq_NoDup.
    + apply seq_NoDup.
    + exists f'. split; [exact E1|]. rewrite E2. f_equal. unfold take2d, p_truncate.
      assert (P3 : slice rows lo hi = filter (fun r => between leb before after (fst r)) rows).
      { rewrite B3. apply filter_ext. intros r. unfold below, upto, between. destruct before; [now rewrite negb_involutive|reflexivity]. }
      assert (Ni : length (dindex d) = length rows) by (rewrite <- Ef; apply map_length).
      assert (Nc : length (dcells d) = length rows) by (rewrite <- Es; apply map_length).
      fold rows. rewrite <- P3. f_equal.
      * rewrite pick_seq by lia. replace (lo + (hi - lo)) with hi by lia. rewrite <- Ef. unfold slice. now rewrite skipn_map, firstn_map.
      * rewrite pick_seq by (unfold ncols; lia). unfold slice. cbn [skipn]. rewrite Nat.sub_0_r. apply firstn_all.
      * assert (Q : slice (dcells d) lo hi = map snd (slice rows lo hi)) by (rewrite <- Es; unfold slice; now rewrite skipn_map, firstn_map).
        rewrite pick_seq by lia. replace (lo + (hi - lo)) with hi by lia. rewrite Q. unfold slice. rewrite map_map. apply map_ext_in. intros r Hr.
        apply pick_all. rewrite Forall_forall in W2. apply W2. rewrite <- Es. apply in_map.
        assert (X : forall (Y : Type) (l : list Y) n y, In y (firstn n l) -> In y l) by (clear; intros Y l n y I; rewrite <- (firstn_skipn n l); apply in_or_app; now left).
        assert (Z0 : forall (Y : Type) (l : list Y) n y, In y (skipn n l) -> In y l) by (clear; intros Y l n y I; rewrite <- (firstn_skipn n l); apply in_or_app; now right).
        apply (Z0 _ _ lo). exact (X _ _ _ _ Hr).
Qed.
Print Assumptions C93_truncate_partial.

(** C93: ValueError if the row labels are neither increasing nor decreasing, or if [before] is after [after] *)
Theorem C93_errors :
  forall (L H A : Type) (leqb : L -> L -> bool) (heqb : H -> H -> bool) (leb : L -> L -> bool) (min_row min_col nparts : nat)
    (known_l known_w : nat -> nat -> bool) (argsort : list Z -> list nat) (big : bool) (before after : option L) (f : pframe) (d : df L H A) rl cl, shows f d rl cl ->
    (increasing leb (dindex d) = false /\ decreasing leb (dindex d) = false) \/ (exists b a, before = Some b /\ after = Some a /\ leb b a = false) ->
    truncate leqb heqb leb min_row min_col nparts known_l known_w argsort big before after f = Err ValueError.
Proof.
  intros L H A leqb heqb leb mr mc np kl kw ag big before after f d rl cl Sh E. unfold truncate.
  assert (Pi : pindex f = Some (dindex d)) by apply Sh. rewrite Pi. cbn [labels rbind]. destruct E as [[E1 E2]|(b & a & -> & -> & E)].
  - now rewrite E1, E2.
  - rewrite E. cbn [negb]. now destruct (_ && _).
Qed.
Print Assumptions C93_errors.

(** C93 (partial): [df.truncate(before, after, axis=1)] likewise for increasing headers; ValueError as for the rows *)
Theorem C93_columns_partial :
  forall (L H A : Type) (leqb : L -> L -> bool) (heqb : H -> H -> bool) (leb : H -> H -> bool),
    (forall x y, leqb x y = true <-> x = y) -> (forall x y, heqb x y = true <-> x = y) ->
    (forall x y z, leb x y = true -> leb y z = true -> leb x z = true) -> (forall x y, leb x y = true \/ leb y x = true) ->
  forall (min_row min_col nparts : nat), 0 < min_row -> 0 < min_col -> 0 < nparts ->
  forall (known_l known_w : nat -> nat -> bool) (argsort : list Z -> list nat), (forall l, sorts l (argsort l)) ->
  forall (big : bool) (before after : option H) (f : pframe) (d : df L H A) rl cl, shows f d rl cl -> increasing leb (dcols d) = true ->
    match before, after with
    | Some b, Some a => leb b a = true
    | _, _ => True
    end ->
    exists f', truncate_cols leqb heqb leb min_row min_col nparts known_l known_w argsort big before after f = Ok f'
      /\ pf_to_pandas leqb heqb f' = Ok (p_truncate_cols leb before after d).
Proof.
  intros L H A leqb heqb leb Hl Hh Ht Htot mr mc np H1 H2 H3 kl kw ag Hag big before after f d rl cl Sh Inc Ord.
  unfold truncate_cols. assert (Pi : pcols f = Some (dcols d)) by apply Sh. rewrite Pi. cbn [labels rbind]. rewrite Inc. cbn [negb andb].
  assert (match before, after with Some b, Some a => negb (leb b a) | _, _ => false end = false) as ->.
  { destruct before, after; auto. now rewrite Ord. }
  assert (W : wf d) by apply Sh. destruct W as [W1 W2].
  destruct (@cut_between H H leb before after (dcols d) (dcols d) Ht Htot Inc eq_refl Ord) as (B1 & B2 & B3).
  destruct (slice_locs leb before after (dcols d)) as [lo hi] eqn:E. cbn [fst snd] in *.
  destruct (@C07_iloc_partial L H A leqb heqb Hl Hh mr mc np H1 H2 H3 kl kw ag Hag big f d rl cl
    (LSlice None None None) (LSlice (Some (Z.of_nat lo)) (Some (Z.of_nat hi)) None) (seq 0 (nrows d)) (seq lo (hi - lo))) as (f' & E1 & E2); auto.
  - pose proof (@positions_slice (nrows d) 0 (nrows d)) as P. cbn [positions] in *. rewrite slice_clip in P by lia.
    rewrite Nat.sub_0_r in P. specialize (P (Nat.le_0_l _) (le_n _)). exact P.
  - apply positions_slice; unfold ncols; lia.
  - cbn. intros x y [= <- <-]. lia.
  - intros x y. rewrite slice_clip by (unfold ncols; lia). intros [= <- <-]. lia.
  - apply seq_NoDup.
  - apply seq_NoDup.
  - exists f'. split; [exact E1|]. rewrite E2. f_equal. unfold take2d, p_truncate_cols. f_equal.
    + now apply pick_all.
    + rewrite pick_seq by lia. replace (lo + (hi - lo)) with hi by lia. rewrite B3. clear.
      induction (dcols d) as [|c l IH]; [reflexivity|]. cbn. destruct (between leb before after c); cbn; now rewrite IH.
    + rewrite (@pick_all _ (dcells d)) by (unfold nrows; lia). apply map_ext_in. intros r Hr. rewrite Forall_forall in W2. specialize (W2 r Hr).
      destruct (@cut_between H A leb before after (dcols d) r Ht Htot Inc W2 Ord) as (_ & _ & B4). rewrite E in B4. cbn [fst snd] in B4.
      rewrite pick_seq by lia. replace (lo + (hi - lo)) with hi by lia. exact B4.
Qed.
Print Assumptions C93_columns_partial.
Theorem C93_columns_errors :
  forall (L H A : Type) (leqb : L -> L -> bool) (heqb : H -> H -> bool) (leb : H -> H -> bool) (min_row min_col nparts : nat)
    (known_l known_w : nat -> nat -> bool) (argsort : list Z -> list nat) (big : bool) (before after : option H) (f : pframe) (d : df L H A) rl cl, shows f d rl cl ->
    (increasing leb (dcols d) = false /\ decreasing leb (dcols d) = false) \/ (exists b a, before = Some b /\ after = Some a /\ leb b a = false) ->
    truncate_cols leqb heqb leb min_row min_col nparts known_l known_w argsort big before after f = Err ValueError.
Proof.
  intros L H A leqb heqb leb mr mc np kl kw ag big before after f d rl cl Sh E. unfold truncate_cols.
  assert (Pi : pcols f = Some (dcols d)) by apply Sh. rewrite Pi. cbn [labels rbind]. destruct E as [[E1 E2]|(b & a & -> & -> & E)].
  - now rewrite E1, E2.
  - rewrite E. cbn [negb]. now destruct (_ && _).
Qed.
Print Assumptions C93_columns_errors.

Definition tru_frame (d : df nat nat nat) : @pframe nat nat nat :=
  mkpf (cut_table [2;2] [2;1] d) (Some (dindex d)) (Some (dcols d)) (Some [2;2]) (Some [2;1]).
Definition tru_d : df nat nat nat := mkdf [3;5;5;9] [1;2;3] [[10;20;30];[11;21;31];[12;22;32];[13;23;33]].
Definition tru_run before after d :=
  do f <- truncate Nat.eqb Nat.eqb Nat.leb 1 1 2 (fun _ _ => true) (fun _ _ => true) zargsort true before after (tru_frame d); pf_to_pandas Nat.eqb Nat.eqb f.
Lemma tru_shows : shows (tru_frame tru_d) tru_d [2;2] [2;1].
Proof. split; [apply holds_intro; cbn; auto; split; [reflexivity|repeat constructor]|]. repeat split; discriminate. Qed.
(** the hypotheses are met *)
Example C93_case : exists f', truncate Nat.eqb Nat.eqb Nat.leb 1 1 2 (fun _ _ => true) (fun _ _ => true) zargsort true (Some 4) (Some 5) (tru_frame tru_d) = Ok f'
  /\ pf_to_pandas Nat.eqb Nat.eqb f' = Ok (mkdf [5;5] [1;2;3] [[11;21;31];[12;22;32]]).
Proof.
  apply (@C93_truncate_partial nat nat nat Nat.eqb Nat.eqb Nat.leb Nat.eqb_eq Nat.eqb_eq) with (d := tru_d) (rl := [2;2]) (cl := [2;1]);
    try exact zargsort_ok; try exact tru_shows; try reflexivity; try (intros x y z X Y; apply Nat.leb_le in X, Y; apply Nat.leb_le; lia); try lia.
Qed.
Example C93_columns_case : exists f', truncate_cols Nat.eqb Nat.eqb Nat.leb 1 1 2 (fun _ _ => true) (fun _ _ => true) zargsort true (Some 2) None (tru_frame tru_d) = Ok f'
  /\ pf_to_pandas Nat.eqb Nat.eqb f' = Ok (mkdf [3;5;5;9] [2;3] [[20;30];[21;31];[22;32];[23;33]]).
Proof.
  apply (@C93_columns_partial nat nat nat Nat.eqb Nat.eqb Nat.leb Nat.eqb_eq Nat.eqb_eq) with (d := tru_d) (rl := [2;2]) (cl := [2;1]);
    try exact zargsort_ok; try exact tru_shows; try reflexivity; try exact I; try (intros x y z X Y; apply Nat.leb_le in X, Y; apply Nat.leb_le; lia); try lia.
Qed.
Example C93_errors_case : tru_run (Some 6) (Some 5) tru_d = Err ValueError
  /\ tru_run (Some 3) (Some 5) (mkdf [3;9;5;6] [1] [[10];[11];[12];[13]]) = Err ValueError.
Proof. split; vm_compute; reflexivity. Qed.
(** C93 refuted: on decreasing labels pandas swaps the two bounds before it looks for the rows, Modin does not, and loses the rows between them *)
Definition tru_down : df nat nat nat := mkdf [9;7;5;3] [1;2;3] [[10;20;30];[11;21;31];[12;22;32];[13;23;33]].
Theorem C93_decreasing_refuted :
  tru_run (Some 5) (Some 7) tru_down = Ok (mkdf [] [1;2;3] [])
  /\ p_truncate Nat.leb (Some 5) (Some 7) tru_down = mkdf [7;5] [1;2;3] [[11;21;31];[12;22;32]]
  /\ decreasing Nat.leb (dindex tru_down) = true.
Proof. repeat split; vm_compute; reflexivity. Qed.
Print Assumptions C93_decreasing_refuted.
