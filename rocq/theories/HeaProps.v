(** C94: [df.head] and [df.tail]. *)
From Verif Require Import Base Table ChunkModel ChunkSpec GridModel GridSpec FrameSpec GridProofs GridProofs2 GridProofs3 SelSpec SelModel SelProofs SelProofs5 SelProofs7 SelProps
  TruProofs HeaSpec HeaModel.

Section Rows.
  Context {L H A : Type}.
  Variable leqb : L -> L -> bool.
  Variable heqb : H -> H -> bool.
  Hypothesis Hl : forall x y, leqb x y = true <-> x = y.
  Hypothesis Hh : forall x y, heqb x y = true <-> x = y.
  Variables mr mc np : nat.
  Hypothesis H1 : 0 < mr.
  Hypothesis H2 : 0 < mc.
  Hypothesis H3 : 0 < np.
  Variables kl kw : nat -> nat -> bool.
  Variable ag : list Z -> list nat.
  Hypothesis Hag : forall l, sorts l (ag l).
  Variable big : bool.

  (** a slice of rows with step 1 *)
  Lemma rows_of_slice (f : pframe) (d : df L H A) rl cl a b lo hi : shows f d rl cl -> lo <= hi -> hi <= nrows d ->
    slice_indices (nrows d) a b None = Some (Z.of_nat lo, Z.of_nat hi, 1%Z) ->
    exists f', iloc_rows leqb heqb mr mc np kl kw ag big (LSlice a b None) f = Ok f'
      /\ pf_to_pandas leqb heqb f' = Ok (mkdf (slice (dindex d) lo hi) (dcols d) (slice (dcells d) lo hi)).
  Proof.
    intros Sh B1 B2 E. assert (W : wf d) by apply Sh. destruct W as [W1 W2]. unfold iloc_rows.
    destruct (@C07_iloc_partial L H A leqb heqb Hl Hh mr mc np H1 H2 H3 kl kw ag Hag big f d rl cl
      (LSlice a b None) (LSlice None None None) (seq lo (hi - lo)) (seq 0 (ncols d))) as (f' & E1 & E2); auto.
    - pose proof (@positions_slice (nrows d) lo hi B1 B2) as P. cbn [positions] in *. rewrite slice_clip in P by lia. now rewrite E.
    - pose proof (@positions_slice (ncols d) 0 (ncols d)) as P. cbn [positions] in *. rewrite slice_clip in P by lia.
      rewrite Nat.sub_0_r in P. specialize (P (Nat.le_0_l _) (le_n _)). exact P.
    - intros x y. rewrite E. intros [= <- <-]. lia.
    - cbn. intros x y [= <- <-]. lia.
    - apply seq_NoDup.
    - apply seq_NoDup.
    - exists f'. split; [exact E1|]. rewrite E2. f_equal. unfold take2d. unfold nrows in *.
      f_equal.
      + rewrite pick_seq by lia. now replace (lo + (hi - lo)) with hi by lia.
      + now apply pick_all.
      + rewrite pick_seq by lia. replace (lo + (hi - lo)) with hi by lia. rewrite <- (map_id (slice (dcells d) lo hi)) at 2. apply map_ext_in.
        intros r Hr. apply pick_all. rewrite Forall_forall in W2. apply W2. unfold slice in Hr.
        rewrite <- (firstn_skipn lo (dcells d)), <- (firstn_skipn (hi - lo) (skipn lo (dcells d))). apply in_or_app. right. apply in_or_app. now left.
  Qed.
End Rows.

(** C94: [df.head(n)] gives the first rows and [df.tail(n)] the last, for every division into blocks and every n, negative and too large included. *)
Theorem C94_head :
  forall (L H A : Type) (leqb : L -> L -> bool) (heqb : H -> H -> bool),
    (forall x y, leqb x y = true <-> x = y) -> (forall x y, heqb x y = true <-> x = y) ->
  forall (min_row min_col nparts : nat), 0 < min_row -> 0 < min_col -> 0 < nparts ->
  forall (known_l known_w : nat -> nat -> bool) (argsort : list Z -> list nat), (forall l, sorts l (argsort l)) ->
  forall (big : bool) (n : Z) (f : pframe) (d : df L H A) rl cl, shows f d rl cl ->
    exists f', head leqb heqb min_row min_col nparts known_l known_w argsort big n f = Ok f' /\ pf_to_pandas leqb heqb f' = Ok (p_head n d).
Proof.
  intros L H A leqb heqb Hl Hh mr mc np H1 H2 H3 kl kw ag Hag big n f d rl cl Sh. unfold head, p_head.
  set (k := if (0 <=? n)%Z then Z.to_nat n else nrows d - Z.to_nat (- n)).
  assert (W1 : length (dcells d) = length (dindex d)) by apply Sh.
  destruct (@rows_of_slice L H A leqb heqb Hl Hh mr mc np H1 H2 H3 kl kw ag Hag big f d rl cl None (Some n) 0 (Nat.min k (nrows d)) Sh) as (f' & E1 & E2); try lia.
  - unfold slice_indices, k. cbn [Z.eqb Z.ltb Z.compare]. do 2 f_equal. destruct (0 <=? n)%Z eqn:Y, (n <? 0)%Z eqn:Y2; try lia; do 2 f_equal; lia.
  - exists f'. split; [exact E1|]. rewrite E2. unfold slice. rewrite Nat.sub_0_r. cbn [skipn]. unfold nrows in *. do 2 f_equal.
    + now rewrite <- firstn_firstn, firstn_all.
    + rewrite <- W1. now rewrite <- firstn_firstn, firstn_all.
Qed.
Theorem C94_tail :
  forall (L H A : Type) (leqb : L -> L -> bool) (heqb : H -> H -> bool),
    (forall x y, leqb x y = true <-> x = y) -> (forall x y, heqb x y = true <-> x = y) ->
  forall (min_row min_col nparts : nat), 0 < min_row -> 0 < min_col -> 0 < nparts ->
  forall (known_l known_w : nat -> nat -> bool) (argsort : list Z -> list nat), (forall l, sorts l (argsort l)) ->
  forall (big : bool) (n : Z) (f : pframe) (d : df L H A) rl cl, shows f d rl cl ->
    exists f', tail leqb heqb min_row min_col nparts known_l known_w argsort big n f = Ok f' /\ pf_to_pandas leqb heqb f' = Ok (p_tail n d).
Proof.
  intros L H A leqb heqb Hl Hh mr mc np H1 H2 H3 kl kw ag Hag big n f d rl cl Sh. unfold tail, p_tail.
  set (k := if (0 <=? n)%Z then nrows d - Z.to_nat n else Z.to_nat (- n)).
  assert (W1 : length (dcells d) = length (dindex d)) by apply Sh. assert (Pi : pindex f = Some (dindex d)) by apply Sh.
  assert (F : forall X (l : list X), length l = nrows d -> slice l (Nat.min k (nrows d)) (nrows d) = skipn k l).
  { intros X l E. unfold slice. rewrite firstn_all2 by (rewrite skipn_length; lia). destruct (Nat.le_ge_cases k (nrows d)); [now rewrite Nat.min_l|].
    rewrite Nat.min_r by assumption. now rewrite !skipn_all2 by lia. }
  assert (G : forall a, slice_indices (nrows d) (Some a) None None = Some (Z.of_nat (Nat.min k (nrows d)), Z.of_nat (nrows d), 1%Z) ->
    exists f', iloc_rows leqb heqb mr mc np kl kw ag big (LSlice (Some a) None None) f = Ok f'
      /\ pf_to_pandas leqb heqb f' = Ok (mkdf (skipn k (dindex d)) (dcols d) (skipn k (dcells d)))).
  { intros a E. destruct (@rows_of_slice L H A leqb heqb Hl Hh mr mc np H1 H2 H3 kl kw ag Hag big f d rl cl (Some a) None (Nat.min k (nrows d)) (nrows d) Sh) as (f' & E1 & E2); [lia|lia|exact E|].
    exists f'. split; [exact E1|]. rewrite E2. now rewrite !F. }
  destruct (n =? 0)%Z eqn:N0; cbn [negb].
  - rewrite Pi. cbn [labels rbind]. fold (nrows d). apply G. unfold slice_indices, k. cbn [Z.eqb Z.ltb Z.compare].
    destruct (0 <=? n)%Z eqn:Y, (Z.of_nat (nrows d) <? 0)%Z eqn:Y2; try lia; do 3 f_equal; lia.
  - apply G. unfold slice_indices, k. cbn [Z.eqb Z.ltb Z.compare]. destruct (0 <=? n)%Z eqn:Y, (- n <? 0)%Z eqn:Y2; try lia; do 3 f_equal; lia.
Qed.
Print Assumptions C94_head.
Print Assumptions C94_tail.

(** a check of the specification: head and tail divide the rows: [df.head(n)] above [df.tail(len(df) - n)] is [df] *)
Lemma head_tail_whole : forall (L H A : Type) (n : nat) (d : df L H A), n <= nrows d ->
  dindex (p_head (Z.of_nat n) d) ++ dindex (p_tail (Z.of_nat (nrows d) - Z.of_nat n) d) = dindex d
  /\ dcells (p_head (Z.of_nat n) d) ++ dcells (p_tail (Z.of_nat (nrows d) - Z.of_nat n) d) = dcells d.
Proof.
  intros L H A n d B. unfold p_head, p_tail. assert ((0 <=? Z.of_nat n)%Z = true) as -> by lia. assert ((0 <=? Z.of_nat (nrows d) - Z.of_nat n)%Z = true) as -> by lia.
  cbn [dindex dcells]. replace (nrows d - Z.to_nat (Z.of_nat (nrows d) - Z.of_nat n)) with n by lia. rewrite Nat2Z.id. split; apply firstn_skipn. Qed.

Definition hea_d : df nat nat nat := mkdf [3;5;5;9] [1;2;3] [[10;20;30];[11;21;31];[12;22;32];[13;23;33]].
Definition hea_frame : @pframe nat nat nat := mkpf (cut_table [2;2] [2;1] hea_d) (Some (dindex hea_d)) (Some (dcols hea_d)) (Some [2;2]) (Some [2;1]).
Lemma hea_shows : shows hea_frame hea_d [2;2] [2;1].
Proof. split; [apply holds_intro; cbn; auto; split; [reflexivity|repeat constructor]|]. repeat split; discriminate. Qed.
(** the hypotheses are met *)
Example C94_case : exists f', tail Nat.eqb Nat.eqb 1 1 2 (fun _ _ => true) (fun _ _ => true) zargsort true 3 hea_frame = Ok f'
  /\ pf_to_pandas Nat.eqb Nat.eqb f' = Ok (mkdf [5;5;9] [1;2;3] [[11;21;31];[12;22;32];[13;23;33]]).
Proof. apply (@C94_tail nat nat nat Nat.eqb Nat.eqb Nat.eqb_eq Nat.eqb_eq 1 1 2 Nat.lt_0_1 Nat.lt_0_1 Nat.lt_0_2 (fun _ _ => true) (fun _ _ => true) zargsort zargsort_ok
  true 3%Z hea_frame hea_d [2;2] [2;1] hea_shows). Qed.
Definition hea_run (r : res (@pframe nat nat nat)) := do f <- r; do d <- pf_to_pandas Nat.eqb Nat.eqb f; Ok (dindex d).
Example C94_cases :
  map (fun n => hea_run (head Nat.eqb Nat.eqb 1 1 2 (fun _ _ => true) (fun _ _ => true) zargsort true n hea_frame)) [0; 3; 9; -1; -9]%Z
    = [Ok []; Ok [3;5;5]; Ok [3;5;5;9]; Ok [3;5;5]; Ok []]
  /\ map (fun n => hea_run (tail Nat.eqb Nat.eqb 1 1 2 (fun _ _ => true) (fun _ _ => true) zargsort true n hea_frame)) [0; 1; 9; -3; -9]%Z
    = [Ok []; Ok [9]; Ok [3;5;5;9]; Ok [9]; Ok []].
Proof. split; vm_compute; reflexivity. Qed.
