(** Proofs for C58: [corr] and [cov] of a frame. *)
From Verif Require Import Base Table ChunkSpec GridSpec GridModel FrameSpec JoinSpec LabSpec LabModel LabProofs PartSpec PartModel PartProofs
  ChunkProofs GridProofs GridProofs2 GridProofs3 GridProofs4 GridProofs5 JoinProofs4 ReadProofs2 ReadProofs3
  GroupSpec CorrSpec CorrModel GroupProofs7 CorrProofs CorrProofs2 CorrProofs3 CorrProofs4 CorrProofs5.
From Verif Require GroupProofs2.
From Coq Require Import QArith Qcanon Permutation Sorted.
Open Scope nat_scope.

Section Parts.
  Context {L : Type}.
  Variable leqb : L -> L -> bool.
  Hypothesis leqb_ok : forall x y, leqb x y = true <-> x = y.
  Notation num := (option Qc).
  Notation dframe := (df L L num).
  Notation lframe := (@lframe L num).

  Lemma parts_ok (x : lframe) (d : dframe) : sees x d -> exists x', before MBoth x = Ok x'
    /\ (exists rl, row_parts leqb x' = Ok (map (fun ri => iloc_rows d (fst ri) (snd ri)) (bounds 0 rl)) /\ rl <> [] /\ list_sum rl = nrows d)
    /\ (exists cl, col_parts leqb x' = Ok (map (fun ci => iloc_cols d (fst ci) (snd ci)) (bounds 0 cl)) /\ cl <> [] /\ list_sum cl = ncols d).
  Proof.
    intros Sx. destruct (before_both Sx) as (x' & E & S' & F1 & F2). exists x'. split; [exact E|].
    destruct (sees_holds S' F1 F2) as (rl & cl & Hh & N1 & N2). pose proof (sees_wf S') as W.
    assert (G : gridded (lf x') d rl cl) by apply Hh. destruct G as (_ & S1 & S2 & Hg & _). split.
    - exists rl. repeat split; auto. unfold row_parts. rewrite Hg. unfold cut_table.
      rewrite (rmap_map_ok _ _ (fun ri => iloc_rows d (fst ri) (snd ri))); [reflexivity|].
      intros ri _. rewrite (concat_cols_blocks_bounds leqb leqb leqb_ok); auto. rewrite Nat.add_0_l, S2. f_equal. now apply block_cols_full.
    - exists cl. repeat split; auto. unfold col_parts. rewrite Hg.
      rewrite cut_table_width by exact N1. rewrite <- (bounds_length 0 cl) at 1. unfold cut_table. rewrite transp_fun.
      rewrite (rmap_map_ok _ _ (fun ci => iloc_cols d (fst ci) (snd ci))); [reflexivity|].
      intros ci _. rewrite (concat_rows_blocks leqb leqb leqb_ok); auto. rewrite Nat.add_0_l, S1. f_equal. now apply block_rows_full.
  Qed.
End Parts.

(** * Whole tables *)
Section Whole.
  Lemma whole_rows {L} (d : df L L (option Qc)) : wf d -> whole (dcells d) = true -> existsb (existsb (fun t : bool => t)) (map (map is_nan) (columns_of d)) = false.
  Proof. intros [_ F] Hw. apply not_true_iff_false. intros X. apply existsb_exists in X. destruct X as (m & Hm & X).
    apply existsb_exists in X. destruct X as (t & Ht & Et). subst t. apply in_map_iff in Hm. destruct Hm as (c & <- & Hc).
    apply in_map_iff in Ht. destruct Ht as (o & Eo & Ho). destruct o; [discriminate|].
    unfold columns_of, ncols in Hc. rewrite (GroupProofs2.transp_col None F) in Hc. apply in_map_iff in Hc. destruct Hc as (j & <- & Hj). apply in_seq in Hj.
    unfold GroupProofs2.col in Ho. apply in_map_iff in Ho. destruct Ho as (r & Er & Hr). unfold whole in Hw. rewrite forallb_forall in Hw.
    specialize (Hw r Hr). rewrite forallb_forall in Hw. rewrite Forall_forall in F. specialize (F r Hr).
    assert (Hi : In (nth j r None) r) by (apply nth_In; lia). specialize (Hw _ Hi). now rewrite Er in Hw. Qed.

  Lemma nanp_whole {L} (d : df L L (option Qc)) : wf d -> nanp d = false -> whole (dcells d) = true.
  Proof. intros [_ F] X. unfold whole. apply forallb_forall. intros r Hr. apply forallb_forall. intros o Ho. destruct o as [v|]; auto. exfalso.
    rewrite <- not_true_iff_false in X. apply X. clear X. unfold nanp. apply existsb_exists.
    destruct (In_nth r None None Ho) as (j & Hj & Ej). rewrite Forall_forall in F. pose proof (F r Hr) as Er.
    exists (map is_nan (GroupProofs2.col None j (dcells d))). split.
    - apply in_map. unfold columns_of, ncols. rewrite (GroupProofs2.transp_col None (proj2 (Forall_forall _ _) F)). apply in_map_iff. exists j. split; auto. apply in_seq. lia.
    - apply existsb_exists. exists true. split; auto. apply in_map_iff. exists None. split; auto. unfold GroupProofs2.col. apply in_map_iff. exists r. auto. Qed.
End Whole.

Section CorrProofs6.
  Context {L : Type}.
  Variable leqb leb : L -> L -> bool.
  Hypothesis leqb_ok : forall x y, leqb x y = true <-> x = y.
  Hypothesis antisym : forall x y, leb x y = true -> leb y x = true -> x = y.
  Variable root : Qc -> Qc.
  Hypothesis root_0 : root (Q2Qc 0) = Q2Qc 0.
  Variable shared : bool.
  Notation num := (option Qc).
  Notation dframe := (df L L num).
  Notation lframe := (@lframe L num).

  Lemma parts_whole (d : dframe) ps : Forall (fun q => wf q /\ dcols q = dcols d) ps -> d = stack (dcols d) ps -> whole (dcells d) = true -> existsb (@nanp L) ps = false.
  Proof. intros Hps Hd Hw. apply not_true_iff_false. intros X. apply existsb_exists in X. destruct X as (p & Hp & X).
    rewrite Forall_forall in Hps. destruct (Hps p Hp) as [Wp _]. unfold nanp in X. rewrite whole_rows in X; [discriminate|exact Wp|].
    rewrite Hd in Hw. cbn [stack dcells] in Hw. unfold whole in *. apply forallb_forall. intros r Hr. rewrite forallb_forall in Hw. apply Hw.
    apply in_concat. exists (dcells p). split; auto. now apply in_map. Qed.

  Lemma kernel_after p : (shared = false \/ nanp p = false) -> snd (@kernel_map L shared p) = p.
  Proof. intros H. unfold kernel_map. cbn [snd]. fold (nanp p). destruct H as [-> | ->]; [now rewrite andb_false_r|reflexivity]. Qed.

  Lemma corr_ok (x : lframe) (d : dframe) min_periods : sees x d -> NoDup (dcols d) -> dcols d <> [] ->
    (whole (dcells d) = true \/ ascending leb (dcols d)) ->
    exists after, corr leqb leb root shared min_periods x = Ok (correlations root min_periods d, after)
      /\ (shared = false \/ whole (dcells d) = true -> pieces (Rows after) d).
  Proof.
    intros Sx N Hc Hcase. pose proof (sees_wf Sx) as W. destruct (parts_ok leqb leqb_ok Sx) as (x' & E & (rl & Er & Hr & Hs) & _).
    pose proof (@rows_of_cut L num d rl W Hr Hs) as Hp. set (ps := map (fun ri => iloc_rows d (fst ri) (snd ri)) (bounds 0 rl)) in *.
    exists (map (fun p => snd (kernel_map shared p)) ps). unfold corr. rewrite E. cbn [rbind]. rewrite Er. cbn [rbind]. rewrite !map_map.
    destruct Hp as (Hne & Hps & Hd).
    rewrite (reduce_ok leqb leqb_ok antisym root root_0 shared (d := d)); auto.
    - cbn [rbind]. split; [reflexivity|]. intros Hk. cbn [pieces].
      rewrite (map_ext_in (fun p => snd (kernel_map shared p)) (fun p => p)).
      + rewrite map_id. auto.
      + intros p Hp. apply kernel_after. destruct Hk as [Hk|Hk]; auto. right. pose proof (parts_whole Hps Hd Hk) as X.
        destruct (nanp p) eqn:En; auto. exfalso. rewrite <- not_true_iff_false in X. apply X. apply existsb_exists. eauto.
    - destruct Hcase as [Hw|Ha]; auto. left. now apply (parts_whole Hps Hd).
  Qed.

  (** * cov *)
  Lemma valid_fst (x y : list num) : length x = length y ->
    map zero_nan (map fst (filter snd (combine x (map2 (fun a b => negb (is_nan a) && negb (is_nan b)) x y)))) = map fst (both x y).
  Proof. revert y. induction x as [|a x IH]; intros [|b y] E; try discriminate; auto. injection E as E. rewrite map2_cons, both_cons. cbn [combine filter snd].
    rewrite map_app, <- IH by exact E. destruct a, b; reflexivity. Qed.
  Lemma valid_snd (x y : list num) : length x = length y ->
    map zero_nan (map fst (filter snd (combine y (map2 (fun a b => negb (is_nan a) && negb (is_nan b)) x y)))) = map snd (both x y).
  Proof. revert y. induction x as [|a x IH]; intros [|b y] E; try discriminate; auto. injection E as E. rewrite map2_cons, both_cons. cbn [combine filter snd].
    rewrite map_app, <- IH by exact E. destruct a, b; reflexivity. Qed.

  Lemma cov_cell (x y : list num) least ddof : length x = length y ->
    nancov least ddof [y] [x] = [[ (let ps := both x y in let denom := (Z.of_nat (length ps) - ddof)%Z in
      if length ps <? least then None else if (denom =? 0)%Z then None else Some (deviations ps / qz denom)%Qc) ]].
  Proof. intros E. unfold nancov. cbn [map]. rewrite (valid_fst x y E), (valid_snd x y E). rewrite !map_length. cbn zeta. do 2 f_equal.
    destruct (length (both x y) <? least); auto. destruct (Z.of_nat (length (both x y)) - ddof =? 0)%Z; auto. do 2 f_equal.
    unfold deviations. rewrite !qlen_map. rewrite !map_map. now rewrite map2_map. Qed.

  Lemma nancov_app least ddof others (a b : list (list num)) : nancov least ddof others (a ++ b) = nancov least ddof others a ++ nancov least ddof others b.
  Proof. unfold nancov. apply map_app. Qed.
  Lemma nancov_concat least ddof others (l : list (list (list num))) : concat (map (nancov least ddof others) l) = nancov least ddof others (concat l).
  Proof. induction l as [|a l IH]; auto. cbn [map concat]. now rewrite nancov_app, IH. Qed.

  Lemma nancov_cells least ddof others xs : Forall (fun x => Forall (fun y => length x = length y) others) xs ->
    nancov least ddof others xs = map (fun x => map (fun y => let ps := both x y in let denom := (Z.of_nat (length ps) - ddof)%Z in
      if length ps <? least then None else if (denom =? 0)%Z then None else Some (deviations ps / qz denom)%Qc) others) xs.
  Proof. intros F. unfold nancov. apply map_ext_in. intros x Hx. apply map_ext_in. intros y Hy. rewrite Forall_forall in F. specialize (F x Hx). rewrite Forall_forall in F.
    pose proof (cov_cell x y least ddof (F y Hy)) as C. unfold nancov in C. cbn [map] in C. injection C as C. exact C. Qed.

  Lemma columns_iloc (d : dframe) a b : columns_of (iloc_cols d a b) = slice (columns_of d) a b.
  Proof. unfold columns_of, ncols, iloc_cols. cbn [dcols dcells]. rewrite slice_length. apply transp_map_slice. Qed.
  Lemma columns_length (d : dframe) : wf d -> length (columns_of d) = ncols d.
  Proof. intros [_ F]. now apply transp_length. Qed.
  Lemma columns_rows (d : dframe) : wf d -> Forall (fun x => length x = nrows d) (columns_of d).
  Proof. intros [E F]. unfold nrows. rewrite <- E. now apply transp_rows. Qed.

  Lemma glue_parts (d : dframe) cl : wf d -> cl <> [] -> list_sum cl = ncols d ->
    concat_axis leqb leqb true (map (fun ci => iloc_cols d (fst ci) (snd ci)) (bounds 0 cl)) = Ok d.
  Proof. intros W Hn Hs. pose proof (@cols_of_cut L num d cl W Hn Hs) as (Hne & F & Hd). cbn [concat_axis]. unfold concat_cols.
    destruct (map (fun ci => iloc_cols d (fst ci) (snd ci)) (bounds 0 cl)) as [|q qs] eqn:E; [easy|].
    pose proof F as F'. inversion F' as [|? ? [_ Eq] _]; subst.
    assert (forallb (fun e => list_eqb leqb (dindex e) (dindex q)) (q :: qs) = true) as ->.
    { apply forallb_forall. intros e He. rewrite Forall_forall in F. destruct (F e He) as [_ Ee]. rewrite Ee, Eq. apply list_eqb_refl. intros z. now apply leqb_ok. }
    f_equal. rewrite Eq. unfold nrows. rewrite Eq. symmetry. exact Hd. Qed.

  Lemma whole_len (d : dframe) x y : wf d -> whole (dcells d) = true -> In x (columns_of d) -> In y (columns_of d) -> length (both x y) = nrows d.
  Proof. intros W Hw Hx Hy. pose proof (whole_rows W Hw) as X. pose proof (columns_rows W) as F. rewrite Forall_forall in F.
    assert (C : forall z, In z (columns_of d) -> complete z).
    { intros z Hz. unfold complete. apply not_true_iff_false. intros E. rewrite <- not_true_iff_false in X. apply X. apply existsb_exists. exists (map is_nan z).
      split; [now apply in_map|]. apply existsb_exists in E. destruct E as (o & Ho & Eo). apply existsb_exists. exists true. split; auto. rewrite <- Eo. now apply in_map. }
    rewrite len_complete; auto. now rewrite (F x Hx), (F y Hy). Qed.

  Lemma cov_ok of_pos (x : lframe) (d : dframe) min_periods ddof : sees x d -> 1 <= nrows d ->
    (forall n, min_periods = Some n -> n <= nrows d) ->
    (ddof = 1%Z \/ (whole (dcells d) = true /\ (ddof < Z.of_nat (nrows d))%Z)) ->
    cov leqb of_pos min_periods ddof x = Ok (covariances min_periods ddof d).
  Proof.
    intros Sx H1 Hm Hd. pose proof (sees_wf Sx) as W. destruct (parts_ok leqb leqb_ok Sx) as (x' & E & _ & (cl & Ec & Hc & Hs)).
    unfold cov. rewrite E. cbn [rbind]. rewrite Ec. cbn [rbind]. rewrite glue_parts by auto. cbn [rbind].
    assert (Few : match min_periods with Some n => nrows d <? n | None => false end = false).
    { destruct min_periods as [n|]; auto. apply Nat.ltb_ge. now apply Hm. }
    cbn zeta. rewrite Few. unfold covariances. f_equal. f_equal. rewrite map_map.
    rewrite <- (map_map (fun p => columns_of (iloc_cols d (fst p) (snd p))) (nancov _ ddof (columns_of d))). rewrite nancov_concat.
    rewrite (map_ext (fun p => columns_of (iloc_cols d (fst p) (snd p))) (fun p => slice (columns_of d) (fst p) (snd p))) by (intros; apply columns_iloc).
    rewrite (concat_bounds (columns_of d) 0 cl). rewrite Nat.add_0_l, Hs, slice_full by now rewrite columns_length.
    pose proof (columns_rows W) as F. rewrite nancov_cells.
    2:{ rewrite Forall_forall in *. intros z Hz. apply Forall_forall. intros y Hy. now rewrite (F z Hz), (F y Hy). }
    apply map_ext_in. intros a Ha. apply map_ext_in. intros b Hb. unfold covariance. cbn zeta.
    destruct (whole (dcells d)) eqn:Hw.
    - rewrite (whole_len a b W Hw Ha Hb). cbn [andb].
      assert (nrows d <? match min_periods with Some n => n | None => 1 end = false) as ->. { apply Nat.ltb_ge. destruct min_periods; auto. }
      assert (nrows d <? match min_periods with Some n => n | None => 0 end = false) as ->. { apply Nat.ltb_ge. destruct min_periods; auto. lia. }
      destruct (Z.leb_spec (Z.of_nat (nrows d) - ddof) 0) as [Hz|Hz]; [|reflexivity].
      destruct (Z.eqb_spec (Z.of_nat (nrows d) - ddof) 0) as [Hz'|Hz']; [reflexivity|]. destruct Hd as [->|[_ Hd]]; lia.
    - destruct Hd as [->|[Hd _]]; [|discriminate]. reflexivity.
  Qed.
End CorrProofs6.
