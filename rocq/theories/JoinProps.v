(** Theorems about rebalancing (C11), concatenation (C12) and alignment of operands (C13). *)
From Verif Require Import Base Table ChunkModel ChunkSpec ChunkProofs GridSpec GridModel FrameSpec GridProofs GridProofs2 GridProofs3 GridProofs4 GridProofs5 JoinSpec JoinModel JoinProofs JoinProofs2 JoinProofs3 JoinProofs4 JoinProofs5 JoinProofs6.

Definition decides {X} (eqb : X -> X -> bool) : Prop := forall x y, eqb x y = true <-> x = y.

(** * C11: rebalancing keeps every row in order and reports the true lengths; when it acts there are at most
    NPartitions row partitions. *)
Theorem C11_rebalance : forall L H A (leqb : L -> L -> bool) (heqb : H -> H -> bool) (d : df L H A) rl cl nparts known,
  decides leqb -> decides heqb ->
  wf d -> list_sum rl = nrows d -> list_sum cl = ncols d -> rl <> [] -> cl <> [] -> 0 < nparts ->
  exists rl' lens,
    rebalance_partitions leqb heqb nparts known (cut_table rl cl d) = Ok (cut_table rl' cl d, lens)
    /\ list_sum rl' = nrows d
    /\ (lens = None \/ lens = Some rl')
    /\ (known = true -> rl' <> rl -> lens = Some rl')
    /\ (2 * length rl <= 3 * nparts -> rl' = rl)
    /\ (3 * nparts < 2 * length rl -> length rl' <= nparts).
Proof.
  intros L H A leqb heqb d rl cl nparts known Hl Hh W Sr Sc Nr Nc Hn.
  destruct (@rebalance_ok L H A leqb heqb Hh d cl nparts known rl W Hn Nr Nc Sr) as (rl' & lens & R1 & R2 & R3 & R4 & R5 & R6 & R7 & R8).
  exists rl', lens. repeat split; auto.
  - intros Hk Hne. destruct (Nat.le_gt_cases (2 * length rl) (3 * nparts)) as [Hle|Hgt]; [|auto].
    destruct (R6 Hle). congruence.
  - intros Hle. now apply R6.
Qed.
Print Assumptions C11_rebalance.

(** What the user sees afterwards is the same table. *)
Theorem C11_same_data : forall L H A (leqb : L -> L -> bool) (heqb : H -> H -> bool) (d : df L H A) rl cl nparts known,
  decides leqb -> decides heqb ->
  wf d -> list_sum rl = nrows d -> list_sum cl = ncols d -> rl <> [] -> cl <> [] -> 0 < nparts ->
  exists grid lens, rebalance_partitions leqb heqb nparts known (cut_table rl cl d) = Ok (grid, lens)
    /\ pf_to_pandas leqb heqb (mkpf grid (Some (dindex d)) (Some (dcols d)) lens (Some cl)) = Ok d.
Proof.
  intros L H A leqb heqb d rl cl nparts known Hl Hh W Sr Sc Nr Nc Hn.
  destruct (@C11_rebalance L H A leqb heqb d rl cl nparts known Hl Hh W Sr Sc Nr Nc Hn) as (rl' & lens & R1 & R2 & R3 & _).
  exists (cut_table rl' cl d), lens. split; [exact R1|].
  apply (@pf_to_pandas_holds L H A leqb heqb Hl Hh _ d rl' cl); [|cbn; split; discriminate].
  apply holds_intro; cbn; auto.
Qed.
Print Assumptions C11_same_data.

(** * C12: concatenation *)
(** The frame stands for the table; a frame without rows has its column labels cached. *)
Definition stands_for {L H A} (f : @pframe L H A) (d : df L H A) : Prop :=
  exists rl cl, holds f d rl cl /\ cl <> [] /\ (rl <> [] \/ pcols f <> None).
Definition has_blocks {L H A} (f : @pframe L H A) : Prop := pgrid f <> [].

Section Lists.
  Context {L H A : Type}.
  Notation slot := (@slot L H A).

  Lemma slots_rows (fs : list (@pframe L H A)) (ds : list (df L H A)) : Forall2 stands_for fs ds ->
    exists ts : list slot, map sf ts = fs /\ map sd ts = ds /\ Forall good_row_operand ts.
  Proof. induction 1 as [|f d fs ds (rl & cl & H1 & H2 & H3) _ (ts & <- & <- & F)].
    - exists []. repeat split. constructor.
    - exists (mkslot f d cl rl :: ts). repeat split. constructor; [|assumption]. split; auto. Qed.

  Lemma map2_its {X Y Z} (g : X -> Y -> Z) (ixs : list X) (dx : X) (ys : list Y) : length ixs = length ys ->
    map (fun it => g (nth (fst it) ixs dx) (snd it)) (combine (seq 0 (length ys)) ys) = map2 g ixs ys.
  Proof. intros E. apply nth_error_ext. intros i. rewrite nth_error_map, nth_error_map2.
    destruct (nth_error ys i) as [y|] eqn:Ey.
    - rewrite (nth_error_combine_seq 0 _ _ Ey). cbn. destruct (nth_error ixs i) as [x|] eqn:Ex.
      + now rewrite (nth_error_nth _ _ _ Ex).
      + apply nth_error_None in Ex. assert (i < length ys) by (apply nth_error_Some; congruence). lia.
    - rewrite (proj2 (nth_error_None _ _)).
      + now destruct (nth_error ixs i).
      + apply nth_error_None in Ey. rewrite combine_length, seq_length. lia. Qed.

  Lemma its_map {X Y Z W} (g : X -> Y -> Z) (h : W -> Y) (ixs : list X) (dx : X) (ts : list W) : length ixs = length ts ->
    map (fun it => g (nth (fst it) ixs dx) (h (snd it))) (combine (seq 0 (length ts)) ts) = map2 g ixs (map h ts).
  Proof. intros E. rewrite <- (@map2_its X Y Z g ixs dx (map h ts)) by now rewrite map_length. rewrite map_length.
    generalize 0 as k. clear E. induction ts as [|t ts IH]; intros k; cbn; [reflexivity|]. now rewrite IH. Qed.

  Lemma jio_cases {X} (xeqb : X -> X -> bool) join i0 rest joined ixs : decides xeqb ->
    join_index_objects xeqb join (i0 :: rest) = (joined, ixs) ->
    join (i0 :: rest) = (joined, ixs) \/ Forall (fun l => l = joined) (i0 :: rest).
  Proof. intros Hx E. unfold join_index_objects in E. destruct (forallb (list_eqb xeqb i0) rest) eqn:Ef; [|now left].
    right. injection E as <- _. constructor; [reflexivity|]. rewrite forallb_forall in Ef. apply Forall_forall. intros l Hl.
    apply Ef, (list_eqb_spec xeqb Hx) in Hl. now symmetry. Qed.
End Lists.

(** Along rows: all rows of the first frame, then of the second, and so on, columns aligned by pandas'
    join of the headers; the cached lengths of the result are unknown or true. *)
Theorem C12_concat_rows : forall L H A (leqb : L -> L -> bool) (heqb : H -> H -> bool) (fill : A) join
    nparts min_col known first_known f0 fs d0 ds,
  decides leqb -> decides heqb -> 0 < nparts -> 0 < min_col ->
  Forall2 stands_for (f0 :: fs) (d0 :: ds) -> Exists has_blocks (f0 :: fs) ->
  join_ok (map dcols (d0 :: ds)) (fst (join (map dcols (d0 :: ds)))) (snd (join (map dcols (d0 :: ds)))) ->
  exists f' rl' cl' joined at_,
    concat_frames_rows leqb heqb fill join nparts min_col known first_known f0 fs = Ok f'
    /\ (join (map dcols (d0 :: ds)) = (joined, at_) \/ Forall (fun c => c = joined) (map dcols (d0 :: ds)))
    /\ join_ok (map dcols (d0 :: ds)) joined at_
    /\ holds f' (stack joined (map2 (pick_cols fill joined) at_ (d0 :: ds))) rl' cl'
    /\ (Forall (fun f => pindex f <> None) (f0 :: fs) -> pcols f0 <> None ->
        pf_to_pandas leqb heqb f' = Ok (stack joined (map2 (pick_cols fill joined) at_ (d0 :: ds)))).
Proof.
  intros L H A leqb heqb fill join nparts min_col known fk f0 fs d0 ds Hl Hh Hn Hm F Ex Hj.
  destruct (slots_rows F) as (ts' & Ef & Ed & G). destruct ts' as [|t0 ts]; [discriminate|].
  cbn [map] in Ef, Ed. injection Ef as Ef0 Efs. injection Ed as Ed0 Eds. subst f0 fs d0 ds.
  destruct (join_index_objects heqb join (map dcols (sd t0 :: map sd ts))) as [joined ixs] eqn:E.
  assert (El : map dcols (sd t0 :: map sd ts) = map (fun t => dcols (sd t)) (t0 :: ts)).
  { change (sd t0 :: map sd ts) with (map sd (t0 :: ts)). apply map_map. }
  assert (Ex' : Exists (fun t => so t <> []) (t0 :: ts)).
  { change (sf t0 :: map sf ts) with (map sf (t0 :: ts)) in Ex. rewrite Exists_exists in *.
    destruct Ex as (f & Hf & Hb). apply in_map_iff in Hf as (t & <- & Ht). exists t. split; [assumption|].
    rewrite Forall_forall in G. apply G in Ht as ([(_ & _ & _ & Gr & _) _] & _). unfold has_blocks in Hb. rewrite Gr in Hb.
    intros E0. rewrite E0 in Hb. now apply Hb. }
  assert (E' := E). rewrite El in E'. assert (Hj' := Hj). rewrite El in Hj'.
  destruct (@concat_rows_ok L H A leqb heqb Hl Hh fill join nparts min_col known fk t0 ts joined ixs Hn Hm G Ex' Hj' E')
    as (f' & rl' & cl' & K1 & K2 & K3 & K4 & K5 & K6).
  assert (JO := @jio_ok H heqb Hh join _ _ _ Hj E ltac:(easy)).
  assert (Elen : length ixs = length (t0 :: ts)).
  { destruct JO as [JO _]. rewrite JO. cbn. now rewrite !map_length. }
  rewrite (@its_map _ _ _ _ (pick_cols fill joined) sd ixs [] (t0 :: ts) Elen) in K2.
  exists f', rl', cl', joined, ixs. split; [exact K1|]. split; [|split; [exact JO|split; [exact K2|]]].
  - cbn [map] in E |- *. exact (@jio_cases H heqb join _ _ _ _ Hh E).
  - intros Hi Hc. apply (@pf_to_pandas_holds L H A leqb heqb Hl Hh f' _ rl' cl' K2). intros _. split; [|auto].
    apply K5. change (sf t0 :: map sf ts) with (map sf (t0 :: ts)) in Hi. exact (proj1 (Forall_map sf _ _) Hi).
Qed.
Print Assumptions C12_concat_rows.

(** When all frames have the same columns there is nothing to align: the result is exactly the rows in turn. *)
Theorem C12_concat_rows_same_columns : forall L H A (leqb : L -> L -> bool) (heqb : H -> H -> bool) (fill : A) join
    nparts min_col known first_known cols f0 fs d0 ds,
  decides leqb -> decides heqb -> 0 < nparts -> 0 < min_col ->
  Forall2 stands_for (f0 :: fs) (d0 :: ds) -> Exists has_blocks (f0 :: fs) ->
  Forall (fun d => dcols d = cols) (d0 :: ds) ->
  exists f' rl' cl',
    concat_frames_rows leqb heqb fill join nparts min_col known first_known f0 fs = Ok f'
    /\ holds f' (stack cols (d0 :: ds)) rl' cl'
    /\ (Forall (fun f => pindex f <> None) (f0 :: fs) -> pcols f0 <> None ->
        pf_to_pandas leqb heqb f' = Ok (stack cols (d0 :: ds))).
Proof.
  intros L H A leqb heqb fill join nparts min_col known fk cols f0 fs d0 ds Hl Hh Hn Hm F Ex Hc.
  (* the join is not used: any function will do *)
  set (join' := fun ls : list (list H) => (nth 0 ls [], map (fun l => map Some (seq 0 (length l))) ls)).
  assert (Ej : concat_frames_rows leqb heqb fill join nparts min_col known fk f0 fs
               = concat_frames_rows leqb heqb fill join' nparts min_col known fk f0 fs).
  { unfold concat_frames_rows, copartition_cols, copartition.
    destruct (slots_rows F) as (ts' & Ef & Ed & G).
    assert (Elb : map col_labels (f0 :: fs) = map (fun _ => cols) (f0 :: fs)).
    { rewrite <- Ef, !map_map. apply map_ext_in. intros t Ht. rewrite Forall_forall in G. apply G in Ht as Gt.
      destruct Gt as (Hh' & _ & Ho). rewrite (col_labels_holds Hh' Ho). rewrite <- Ed in Hc. apply Forall_map in Hc.
      rewrite Forall_forall in Hc. now apply Hc. }
    rewrite Elb. unfold join_index_objects. cbn [map].
    replace (forallb (list_eqb heqb cols) (map (fun _ => cols) fs)) with true; [reflexivity|].
    symmetry. apply forallb_forall. intros y Hy. apply in_map_iff in Hy as (? & <- & _). apply (list_eqb_refl heqb Hh). }
  rewrite Ej.
  assert (Eall : map dcols (d0 :: ds) = map (fun _ => cols) (d0 :: ds)).
  { apply map_ext_in. rewrite Forall_forall in Hc. exact Hc. }
  assert (JO' : forall ls, Forall (fun l => l = cols) ls -> join_ok ls cols (map (fun l => map Some (seq 0 (length l))) ls)).
  { intros ls Fl. rewrite Forall_forall in Fl. split; [now rewrite map_length|]. intros i lab ix Hlab Hix.
    rewrite nth_error_map, Hlab in Hix. injection Hix as <-. apply nth_error_In, Fl in Hlab. subst lab.
    rewrite map_length, seq_length. split; [reflexivity|]. split; [|split; [|reflexivity]].
    - intros k p Hk. rewrite nth_error_map in Hk. destruct (nth_error (seq 0 (length cols)) k) as [q|] eqn:Eq; [|discriminate].
      cbn in Hk. injection Hk as ->. assert (Hk : k < length (seq 0 (length cols))) by (apply nth_error_Some; congruence).
      rewrite seq_length in Hk. apply (nth_error_nth _ _ 0) in Eq. rewrite seq_nth in Eq by assumption. cbn in Eq. subst p. auto.
    - intros k x Hk. rewrite nth_error_map in Hk. destruct (nth_error (seq 0 (length cols)) k); discriminate. }
  destruct (@C12_concat_rows L H A leqb heqb fill join' nparts min_col known fk f0 fs d0 ds Hl Hh Hn Hm F Ex)
    as (f' & rl' & cl' & joined & at_ & K1 & K2 & K3 & K4 & K5).
  { rewrite Eall. apply JO'. apply Forall_map. apply Forall_forall. reflexivity. }
  assert (joined = cols) as ->.
  { destruct K2 as [K2|K2]; [rewrite Eall in K2; unfold join' in K2; cbn in K2; now injection K2|].
    rewrite Eall in K2. cbn in K2. inversion K2. congruence. }
  assert (Ep : map2 (pick_cols fill cols) at_ (d0 :: ds) = d0 :: ds).
  { apply nth_error_ext. intros i. rewrite nth_error_map2. destruct K3 as [J1 J2]. rewrite map_length in J1.
    destruct (nth_error (d0 :: ds) i) as [d|] eqn:Ed.
    - assert (Hi : i < length (d0 :: ds)) by (apply nth_error_Some; congruence).
      destruct (nth_error at_ i) as [ix|] eqn:Ei; [|apply nth_error_None in Ei; lia]. f_equal.
      assert (Hlab : nth_error (map dcols (d0 :: ds)) i = Some (dcols d)) by now rewrite nth_error_map, Ed.
      destruct (J2 _ _ _ Hlab Ei) as (_ & _ & _ & J4). rewrite Forall_forall in Hc.
      assert (Edc : dcols d = cols) by (apply Hc; eapply nth_error_In; eauto). rewrite (J4 Edc), <- Edc. apply pick_cols_id.
      clear - F Ed. revert i Ed. induction F as [|f d' fs' ds' (rl & cl & [[W _] _] & _) F IH]; intros [|i] Ed; try discriminate; cbn in Ed.
      + injection Ed as <-. exact W.
      + eauto.
    - destruct (nth_error at_ i); reflexivity. }
  rewrite Ep in *. exists f', rl', cl'. auto.
Qed.
Print Assumptions C12_concat_rows_same_columns.

(** Along columns, rows aligned by pandas' join of the row labels.  Partial: frames without rows (or without
    columns) are excluded; with them the claim fails, see [C12_empty_frame_refuted]. *)
Theorem C12_concat_cols_partial : forall L H A (leqb : L -> L -> bool) (heqb : H -> H -> bool) (fill : A) join
    nparts min_row first_known f0 fs d0 ds,
  decides leqb -> decides heqb -> 0 < nparts -> 0 < min_row ->
  Forall2 (fun f d => exists rl cl, holds f d rl cl /\ rl <> [] /\ cl <> []) (f0 :: fs) (d0 :: ds) ->
  join_ok (map dindex (d0 :: ds)) (fst (join (map dindex (d0 :: ds)))) (snd (join (map dindex (d0 :: ds)))) ->
  exists f' rl' cl' joined at_,
    concat_frames_cols leqb heqb fill join nparts min_row first_known f0 fs = Ok f'
    /\ (join (map dindex (d0 :: ds)) = (joined, at_) \/ Forall (fun c => c = joined) (map dindex (d0 :: ds)))
    /\ join_ok (map dindex (d0 :: ds)) joined at_
    /\ holds f' (glue joined (map2 (pick_rows fill joined) at_ (d0 :: ds))) rl' cl'
    /\ (Forall (fun f => pcols f <> None) (f0 :: fs) -> pindex f0 <> None ->
        pf_to_pandas leqb heqb f' = Ok (glue joined (map2 (pick_rows fill joined) at_ (d0 :: ds)))).
Proof.
  intros L H A leqb heqb fill join nparts min_row fk f0 fs d0 ds Hl Hh Hn Hm F Hj.
  assert (Hs : exists ts : list (@slot L H A), map sf ts = f0 :: fs /\ map sd ts = d0 :: ds /\ Forall good_operand ts).
  { clear Hj. induction F as [|f d fs' ds' (rl & cl & H1 & H2 & H3) _ (ts & <- & <- & G)].
    - exists []. repeat split. constructor.
    - exists (mkslot f d rl cl :: ts). repeat split. constructor; [|assumption]. split; auto. }
  destruct Hs as (ts' & Ef & Ed & G). destruct ts' as [|t0 ts]; [discriminate|].
  cbn [map] in Ef, Ed. injection Ef as Ef0 Efs. injection Ed as Ed0 Eds. subst f0 fs d0 ds.
  destruct (join_index_objects leqb join (map dindex (sd t0 :: map sd ts))) as [joined ixs] eqn:E.
  assert (El : map dindex (sd t0 :: map sd ts) = map (fun t => dindex (sd t)) (t0 :: ts)).
  { change (sd t0 :: map sd ts) with (map sd (t0 :: ts)). apply map_map. }
  assert (E' := E). rewrite El in E'. assert (Hj' := Hj). rewrite El in Hj'.
  destruct (@concat_cols_ok L H A leqb heqb Hl Hh fill join nparts min_row fk t0 ts joined ixs Hn Hm G Hj' E')
    as (f' & rl' & cl' & K1 & K2 & K3 & K4 & K5 & K6).
  assert (JO := @jio_ok L leqb Hl join _ _ _ Hj E ltac:(easy)).
  assert (Elen : length ixs = length (t0 :: ts)).
  { destruct JO as [JO _]. rewrite JO. cbn. now rewrite !map_length. }
  rewrite (@its_map _ _ _ _ (pick_rows fill joined) sd ixs [] (t0 :: ts) Elen) in K2.
  exists f', rl', cl', joined, ixs. split; [exact K1|]. split; [|split; [exact JO|split; [exact K2|]]].
  - cbn [map] in E |- *. exact (@jio_cases L leqb join _ _ _ _ Hl E).
  - intros Hi Hc. apply (@pf_to_pandas_holds L H A leqb heqb Hl Hh f' _ rl' cl' K2). intros _. split; [auto|].
    apply K5. change (sf t0 :: map sf ts) with (map sf (t0 :: ts)) in Hi. exact (proj1 (Forall_map sf _ _) Hi).
Qed.
Print Assumptions C12_concat_cols_partial.

(** * C13: operands of a binary operation are aligned *)
(** Aligning any number of frames along the rows cuts all of them at the same row lengths, each holding its
    own rows taken by label. *)
Theorem C13_equal_blocks : forall L H A (leqb : L -> L -> bool) (heqb : H -> H -> bool) (fill : A) join
    nparts min_row f0 fs d0 ds,
  decides leqb -> decides heqb -> 0 < nparts -> 0 < min_row ->
  Forall2 (fun f dc => exists rl, holds f (fst dc) rl (snd dc) /\ rl <> [] /\ snd dc <> []) (f0 :: fs) (d0 :: ds) ->
  let labs := map (fun dc => dindex (fst dc)) (d0 :: ds) in
  join_ok labs (fst (join labs)) (snd (join labs)) ->
  exists base joined at_ jc lc,
    copartition_rows leqb heqb fill join nparts min_row f0 fs
    = Ok (map2 (fun ix dc => cut_table base (snd dc) (pick_rows fill joined ix (fst dc))) at_ (d0 :: ds), jc, lc)
    /\ join_ok labs joined at_ /\ (join labs = (joined, at_) \/ Forall (fun c => c = joined) labs)
    /\ list_sum base = length joined
    /\ (jc = None \/ jc = Some joined) /\ (lc = None \/ lc = Some base).
Proof.
  intros L H A leqb heqb fill join nparts min_row f0 fs d0 ds Hl Hh Hn Hm F labs Hj.
  assert (Hs : exists ts : list (@slot L H A), map sf ts = f0 :: fs /\ map (fun t => (sd t, so t)) ts = d0 :: ds /\ Forall good_operand ts).
  { clear Hj labs. induction F as [|f d fs' ds' (rl & H1 & H2 & H3) _ (ts & <- & <- & G)].
    - exists []. repeat split. constructor.
    - exists (mkslot f (fst d) rl (snd d) :: ts). cbn. split; [reflexivity|]. split; [now destruct d|]. constructor; [|assumption]. split; auto. }
  destruct Hs as (ts' & Ef & Ed & G). destruct ts' as [|t0 ts]; [discriminate|].
  cbn [map] in Ef, Ed. injection Ef as Ef0 Efs. injection Ed as Ed0 Eds. subst f0 fs d0 ds.
  assert (El : labs = map (fun t => dindex (sd t)) (t0 :: ts)).
  { unfold labs. change ((sd t0, so t0) :: map (fun t => (sd t, so t)) ts) with (map (fun t => (sd t, so t)) (t0 :: ts)).
    now rewrite map_map. }
  clearbody labs. subst labs.
  destruct (join_index_objects leqb join (map (fun t => dindex (sd t)) (t0 :: ts))) as [joined ixs] eqn:E.
  assert (JO := @jio_ok L leqb Hl join _ _ _ Hj E ltac:(easy)).
  destruct (@copartition_rows_ok L H A leqb heqb Hl Hh fill nparts min_row Hn Hm join t0 ts joined ixs) as (base & jc & lc & C1 & C2 & C3 & C4 & C5 & _); auto.
  { eapply Forall_impl; [|exact G]. intros t (Hh' & Hl' & Ho). destruct t. now apply (row_rep_holds Hh'). }
  { apply Exists_cons_hd. apply Forall_cons_iff in G as [(_ & _ & Ho) _]. exact Ho. }
  exists base, joined, ixs, jc, lc. split.
  - rewrite C1. do 3 f_equal.
    change ((sd t0, so t0) :: map (fun t => (sd t, so t)) ts) with (map (fun t => (sd t, so t)) (t0 :: ts)).
    rewrite <- (@its_map _ _ _ _ (fun ix dc => cut_table base (snd dc) (pick_rows fill joined ix (fst dc))) (fun t => (sd t, so t)) ixs [] (t0 :: ts)).
    + reflexivity.
    + destruct JO as [JO _]. rewrite JO. now rewrite map_length.
  - split; [exact JO|]. split; [cbn [map] in E |- *; exact (@jio_cases L leqb join _ _ _ _ Hl E)|].
    split; [exact C2|]. split; [destruct C4 as [-> | [-> _]]; auto|destruct C5 as [[-> _] | ->]; auto].
Qed.
Print Assumptions C13_equal_blocks.

(** The rows so taken are those with the joined labels: where the operand has the label (once), its row; where
    it does not have it, a missing row. *)
Theorem C13_by_label : forall L H A (fill : A) (d : df L H A) labels i joined at_ ix,
  wf d -> NoDup (dindex d) -> join_ok labels joined at_ ->
  nth_error labels i = Some (dindex d) -> nth_error at_ i = Some ix ->
  dindex (pick_rows fill joined ix d) = joined
  /\ length (dcells (pick_rows fill joined ix d)) = length joined
  /\ forall k x, nth_error joined k = Some x ->
     (forall r, row_is d x r -> nth_error (dcells (pick_rows fill joined ix d)) k = Some r)
     /\ (~ In x (dindex d) -> nth_error (dcells (pick_rows fill joined ix d)) k = Some (repeat fill (ncols d))).
Proof.
  intros L H A fill d labels i joined at_ ix W Nd [J1 J2] Hl Hi. destruct (J2 _ _ _ Hl Hi) as (K1 & K2 & K3 & _).
  split; [reflexivity|]. split; [cbn; now rewrite map_length|]. intros k x Hk. cbn [pick_rows dcells].
  rewrite nth_error_map.
  destruct (nth_error ix k) as [o|] eqn:Eo.
  2:{ apply nth_error_None in Eo. assert (k < length joined) by (apply nth_error_Some; congruence). lia. }
  cbn [option_map]. destruct o as [p|].
  - destruct (K2 _ _ Eo) as [Hp Ep]. rewrite Hk in Ep. split.
    + intros r (q & Eq & Er). assert (p = q) as ->.
      { apply (proj1 (NoDup_nth_error _) Nd p q Hp). congruence. }
      f_equal. now apply nth_error_nth.
    + intros Hn. exfalso. apply Hn. eapply nth_error_In; eauto.
  - split.
    + intros r (q & Eq & _). exfalso. apply (K3 _ _ Eo Hk). eapply nth_error_In; eauto.
    + reflexivity.
Qed.
Print Assumptions C13_by_label.

(** The binary operation [f] applied by two frames, partitioned in any way: cell by cell on the rows and columns
    aligned by label.  Partial: either both frames' column widths are known, both have columns and the left
    frame has no empty row block before a non-empty one; or the rows need no re-indexing of the left frame and
    none of its row blocks is empty.  Otherwise the claim fails: [C13_empty_block_refuted],
    [C13_unknown_widths_refuted]. *)
Theorem C13_binary_op_partial : forall L H A B (leqb : L -> L -> bool) (heqb : H -> H -> bool) (fill : A) joinr joinc
    nparts min_row min_col (f : A -> A -> B) lf rf dl dr rll cll rlr clr,
  decides leqb -> decides heqb -> 0 < nparts -> 0 < min_row -> 0 < min_col ->
  holds lf dl rll cll -> rll <> [] -> cll <> [] -> holds rf dr rlr clr -> rlr <> [] -> clr <> [] ->
  join_ok [dindex dl; dindex dr] (fst (joinr [dindex dl; dindex dr])) (snd (joinr [dindex dl; dindex dr])) ->
  join_ok [dcols dl; dcols dr] (fst (joinc [dcols dl; dcols dr])) (snd (joinc [dcols dl; dcols dr])) ->
  (0 < ncols dl /\ 0 < ncols dr /\ fst (joinc [dcols dl; dcols dr]) <> [] /\ pcl lf <> None /\ pcl rf <> None
   /\ no_inner_zero rll)
  \/ (dindex dl = dindex dr /\ Forall (fun n => 0 < n) rll) ->
  exists f' rl' cl' jr ixl ixr jc ixcl ixcr,
    n_ary_op leqb heqb fill joinr joinc nparts min_row min_col f lf rf = Ok f'
    /\ join_ok [dindex dl; dindex dr] jr [ixl; ixr]
    /\ (joinr [dindex dl; dindex dr] = (jr, [ixl; ixr]) \/ dindex dl = jr /\ dindex dr = jr)
    /\ join_ok [dcols dl; dcols dr] jc [ixcl; ixcr]
    /\ (joinc [dcols dl; dcols dr] = (jc, [ixcl; ixcr]) \/ dcols dl = jc /\ dcols dr = jc)
    /\ holds f' (zip_cells f (pick_cols fill jc ixcl (pick_rows fill jr ixl dl))
                             (pick_cols fill jc ixcr (pick_rows fill jr ixr dr))) rl' cl'
    /\ (pindex lf <> None -> pcols lf <> None ->
        pf_to_pandas leqb heqb f'
        = Ok (zip_cells f (pick_cols fill jc ixcl (pick_rows fill jr ixl dl))
                          (pick_cols fill jc ixcr (pick_rows fill jr ixr dr)))).
Proof.
  intros L H A B leqb heqb fill joinr joinc nparts min_row min_col f lf rf dl dr rll cll rlr clr Hl Hh Hn Hmr Hmc HL N1 N2 HR N3 N4 Jr Jc Hyp.
  destruct (join_index_objects leqb joinr [dindex dl; dindex dr]) as [jr ixs] eqn:Er.
  destruct (join_index_objects heqb joinc [dcols dl; dcols dr]) as [jc ixcs] eqn:Ec.
  assert (JOr := @jio_ok L leqb Hl joinr _ _ _ Jr Er ltac:(easy)).
  assert (JOc := @jio_ok H heqb Hh joinc _ _ _ Jc Ec ltac:(easy)).
  destruct ixs as [|ixl [|ixr [|? ?]]]; try (destruct JOr as [JO _]; discriminate).
  destruct ixcs as [|ixcl [|ixcr [|? ?]]]; try (destruct JOc as [JO _]; discriminate).
  pose proof (@jio_cases L leqb joinr _ _ _ _ Hl Er) as Cr.
  pose proof (@jio_cases H heqb joinc _ _ _ _ Hh Ec) as Cc.
  destruct (@n_ary_ok L H A B leqb heqb Hl Hh fill joinr joinc nparts min_row min_col f lf rf dl dr rll cll rlr clr jr ixl ixr jc ixcl ixcr)
    as (f' & rl' & cl' & K1 & K2 & K3 & K4 & K5 & K6); auto.
  { destruct Hyp as [(H1 & H2 & H3 & H4 & H5 & H6)|[H1 H2]].
    - left. repeat split; auto. destruct Cc as [Cc|Cc]; [now rewrite Cc in H3|].
      inversion Cc; subst. intros E0. unfold ncols in H1. rewrite E0 in H1. cbn in H1. lia.
    - right. split; [|assumption]. unfold join_index_objects in Er. cbn [forallb] in Er.
      rewrite <- H1, (list_eqb_refl leqb Hl) in Er. cbn in Er. now injection Er. }
  exists f', rl', cl', jr, ixl, ixr, jc, ixcl, ixcr.
  split; [exact K1|]. split; [exact JOr|]. split.
  { destruct Cr as [Cr|Cr]; [now left|]. right. inversion Cr as [|? ? R1 R2]; subst. inversion R2; subst. auto. }
  split; [exact JOc|]. split.
  { destruct Cc as [Cc|Cc]; [now left|]. right. inversion Cc as [|? ? R1 R2]; subst. inversion R2; subst. auto. }
  split; [exact K2|]. intros Hi Hc. apply (@pf_to_pandas_holds L H B leqb heqb Hl Hh f' _ rl' cl' K2). auto.
Qed.
Print Assumptions C13_binary_op_partial.

(** The contract of the join is met by every join of unique labels, whatever the joined labels are. *)
Lemma position_some {X} (eqb : X -> X -> bool) (Hx : decides eqb) x l p : position eqb x l = Some p ->
  p < length l /\ nth_error l p = Some x.
Proof. revert p. induction l as [|y l IH]; intros p E; [discriminate|]. cbn in E.
  destruct (eqb x y) eqn:Exy.
  - injection E as <-. apply Hx in Exy. subst. split; [cbn; lia|reflexivity].
  - destruct (position eqb x l) as [q|]; [|discriminate]. injection E as <-. destruct (IH q eq_refl). split; [cbn; lia|assumption]. Qed.
Lemma position_none {X} (eqb : X -> X -> bool) (Hx : decides eqb) x l : position eqb x l = None -> ~ In x l.
Proof. induction l as [|y l IH]; intros E; [easy|]. cbn in E. destruct (eqb x y) eqn:Exy; [discriminate|].
  destruct (position eqb x l); [discriminate|]. intros [->|Hi]; [|now apply IH]. assert (eqb x x = true) by now apply Hx. congruence. Qed.
Lemma position_nth {X} (eqb : X -> X -> bool) (Hx : decides eqb) l k x : NoDup l -> nth_error l k = Some x -> position eqb x l = Some k.
Proof. intros Nd Hk. destruct (position eqb x l) as [p|] eqn:E.
  - destruct (position_some Hx _ _ E) as [Hp Ep]. f_equal. apply (proj1 (NoDup_nth_error _) Nd p k Hp). congruence.
  - exfalso. apply (position_none Hx _ _ E). eapply nth_error_In; eauto. Qed.

Theorem C13_unique_labels_join : forall X (eqb : X -> X -> bool) (labels : list (list X)) (joined : list X),
  decides eqb -> Forall (@NoDup X) labels -> join_ok labels joined (indexers eqb joined labels).
Proof.
  intros X eqb labels joined Hx Nd. split; [unfold indexers; now rewrite map_length|].
  intros i lab ix Hl Hi. unfold indexers in Hi. rewrite nth_error_map, Hl in Hi. injection Hi as <-.
  rewrite Forall_forall in Nd. apply nth_error_In in Hl. specialize (Nd _ Hl).
  split; [now rewrite map_length|]. split; [|split].
  - intros k p Hk. rewrite nth_error_map in Hk. destruct (nth_error joined k) as [x|] eqn:Ek; [|discriminate].
    cbn in Hk. injection Hk as Hk. now apply (position_some Hx).
  - intros k x Hk Ek. rewrite nth_error_map, Ek in Hk. cbn in Hk. injection Hk as Hk. now apply (position_none Hx).
  - intros <-. apply nth_error_ext. intros k. rewrite !nth_error_map.
    destruct (nth_error lab k) as [x|] eqn:Ek.
    + cbn. rewrite (position_nth Hx _ Nd Ek). assert (k < length lab) by (apply nth_error_Some; congruence).
      rewrite (nth_error_nth' (seq 0 (length lab)) 0) by now rewrite seq_length. now rewrite seq_nth.
    + cbn. rewrite (proj2 (nth_error_None (seq 0 (length lab)) k)); [reflexivity|]. rewrite seq_length. now apply nth_error_None.
Qed.
Print Assumptions C13_unique_labels_join.

(** * Where the claims fail *)
(** The outer join used in the counterexamples: the labels of the first, then the new ones of the others. *)
Definition outer (ls : list (list nat)) : list nat * list (list (option nat)) :=
  let j := fold_left (fun acc l => acc ++ filter (fun x => negb (existsb (Nat.eqb x) acc)) l) ls [] in
  (j, indexers Nat.eqb j ls).

(** pd.concat([df, no_rows], axis=1), where [no_rows] has two columns and no rows: its columns stay in the
    labels although it has no blocks, and the result cannot be converted. *)
Theorem C12_empty_frame_refuted : exists (f g : @pframe nat nat nat) d e f',
  holds f d [2] [1] /\ holds g e [] [2]
  /\ concat_frames_cols Nat.eqb Nat.eqb 99 outer 4 1 true f [g] = Ok f'
  /\ pf_to_pandas Nat.eqb Nat.eqb f' = Err InternalBug.
Proof.
  set (d := mkdf [0;1] [10] [[5];[6]]). set (e := @mkdf nat nat nat [] [11;12] []).
  exists (mkpf (cut_table [2] [1] d) (Some [0;1]) (Some [10]) (Some [2]) (Some [1])),
         (mkpf [] (Some []) (Some [11;12]) (Some []) (Some [2])), d, e.
  eexists. split; [|split; [|split]].
  - apply holds_intro; cbn; auto. split; [reflexivity|repeat constructor].
  - apply holds_intro; cbn; auto. split; [reflexivity|constructor].
  - vm_compute. reflexivity.
  - vm_compute. reflexivity.
Qed.
Print Assumptions C12_empty_frame_refuted.

(** x + x where [x] has an empty row block in the middle (lengths [2;0;1], as after a query): the last row is lost
    and the result cannot be converted. *)
Theorem C13_empty_block_refuted : exists (f : @pframe nat nat nat) d f',
  holds f d [2;0;1] [1]
  /\ n_ary_op Nat.eqb Nat.eqb 99 outer outer 4 1 1 Nat.add f f = Ok f'
  /\ pf_to_pandas Nat.eqb Nat.eqb f' = Err InternalBug.
Proof.
  set (d := mkdf [0;1;2] [10] [[5];[6];[7]]).
  exists (mkpf (cut_table [2;0;1] [1] d) (Some [0;1;2]) (Some [10]) (Some [2;0;1]) (Some [1])), d. eexists. split; [|split].
  - apply holds_intro; cbn; auto. split; [reflexivity|repeat constructor].
  - vm_compute. reflexivity.
  - vm_compute. reflexivity.
Qed.
Print Assumptions C13_empty_block_refuted.

(** Two frames with different row labels, none of their blocks empty; the left one's column widths are not
    known, the right one's are: after re-indexing, the empty row blocks at the end are dropped from the right
    frame only, and looking up the right block raises IndexError. *)
Theorem C13_unknown_widths_refuted : exists (f g : @pframe nat nat nat) d e,
  holds f d [1] [1] /\ holds g e [1] [1]
  /\ n_ary_op Nat.eqb Nat.eqb 99 outer outer 3 1 1 Nat.add f g = Err IndexError.
Proof.
  set (d := mkdf [0] [10] [[5]]). set (e := mkdf [1] [10] [[6]]).
  exists (mkpf (cut_table [1] [1] d) (Some [0]) (Some [10]) (Some [1]) None),
         (mkpf (cut_table [1] [1] e) (Some [1]) (Some [10]) (Some [1]) (Some [1])), d, e. split; [|split].
  - apply holds_intro; cbn; auto. split; [reflexivity|repeat constructor].
  - apply holds_intro; cbn; auto. split; [reflexivity|repeat constructor].
  - vm_compute. reflexivity.
Qed.
Print Assumptions C13_unknown_widths_refuted.

(** * The hypotheses are met by ordinary frames *)
Section Examples.
  Let d1 := mkdf [0;1;2;3;4] [10;11] [[1;2];[3;4];[5;6];[7;8];[9;10]].
  Let d2 := mkdf [4;3;7] [11;10] [[21;22];[23;24];[25;26]].
  Let f1 := mkpf (cut_table [1;1;0;3] [1;1] d1) (Some (dindex d1)) (Some (dcols d1)) (Some [1;1;0;3]) (Some [1;1]).
  Let f2 := mkpf (cut_table [2;1] [2] d2) (Some (dindex d2)) (Some (dcols d2)) None (Some [2]).

  Example ex_join_holds : holds f1 d1 [1;1;0;3] [1;1] /\ holds f2 d2 [2;1] [2].
  Proof. split; (apply holds_intro; cbn; auto; split; [reflexivity|repeat constructor]). Qed.

  Example ex_outer_ok : join_ok [dcols d1; dcols d2] (fst (outer [dcols d1; dcols d2])) (snd (outer [dcols d1; dcols d2]))
    /\ join_ok [dindex d1; dindex d2] (fst (outer [dindex d1; dindex d2])) (snd (outer [dindex d1; dindex d2])).
  Proof. split; (apply (@C13_unique_labels_join nat Nat.eqb); [intros x y; apply Nat.eqb_eq|];
    repeat constructor; cbn; intuition discriminate). Qed.

  (** rebalancing really splits blocks: lengths 1,1,0,3,... with two partitions allowed *)
  Example ex_rebalance : rebalance_partitions Nat.eqb Nat.eqb 2 true (cut_table [1;1;0;3] [1;1] d1)
    = Ok (cut_table [3;2] [1;1] d1, Some [3;2]).
  Proof. vm_compute. reflexivity. Qed.

  Example ex_concat : exists f', concat_frames_rows Nat.eqb Nat.eqb 99 outer 4 1 true true f1 [f2] = Ok f'
    /\ pf_to_pandas Nat.eqb Nat.eqb f'
       = Ok (mkdf [0;1;2;3;4;4;3;7] [10;11] [[1;2];[3;4];[5;6];[7;8];[9;10];[22;21];[24;23];[26;25]]).
  Proof. eexists. split; [vm_compute; reflexivity|vm_compute; reflexivity]. Qed.

  Example ex_binary : exists f', n_ary_op Nat.eqb Nat.eqb 99 outer outer 2 1 1 Nat.add f2 f1 = Ok f'
    /\ pf_to_pandas Nat.eqb Nat.eqb f'
       = Ok (mkdf [4;3;7;0;1;2] [11;10] [[31;31];[31;31];[124;125];[101;100];[103;102];[105;104]]).
  Proof. eexists. split; [vm_compute; reflexivity|vm_compute; reflexivity]. Qed.
End Examples.
