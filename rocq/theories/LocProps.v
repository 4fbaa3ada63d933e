(** C59: selecting by label.

    [located labels k] (LocSpec.v) lists the positions pandas selects for the key [k]; [take2d rows cols d]
    (SelSpec.v) is the table of those rows and columns; [shows f d rl cl] (SelProofs5.v): the partitioned frame
    [f] stands for the table [d], its blocks cut at row lengths [rl] and column widths [cl].  [plain] (LocSpec.v)
    describes the keys for which the current code follows pandas; the theorems [_refuted] below show what happens
    with the others. *)
From Verif Require Import Base Table ChunkModel ChunkSpec GridModel GridSpec FrameSpec GridProofs GridProofs2 GridProofs3 GridProofs5 SelSpec SelModel
  SelProofs SelProofs2 SelProofs3 SelProofs4 SelProofs5 SelProofs6 SelProofs7 LabModel LabProofs LocSpec LocModel LocProofs LocProofs2.

Section Loc.
  Context {L A : Type}.
  Variables leqb leb : L -> L -> bool.
  Hypothesis leqb_ok : forall x y, leqb x y = true <-> x = y.
  Variable of_Z : Z -> L.
  Variable num : L -> option Z.
  Hypothesis num_ok : forall l z, num l = Some z <-> l = of_Z z.
  Hypothesis leb_Z : forall a b, leb (of_Z a) (of_Z b) = (a <=? b)%Z.
  Variable coerce : L -> res L.
  Variables min_row min_col nparts : nat.
  Hypothesis min_row_pos : 0 < min_row.
  Hypothesis min_col_pos : 0 < min_col.
  Hypothesis nparts_pos : 0 < nparts.
  Variables known_l known_w : nat -> nat -> bool.
  Variable argsort : list Z -> list nat.
  Hypothesis argsort_ok : forall l, sorts l (argsort l).
  Notation loc_both := (loc_both leqb leb of_Z num coerce min_row min_col nparts known_l known_w argsort).
  Notation loc_rows := (loc_rows leqb leb of_Z num coerce min_row min_col nparts known_l known_w argsort).
  Notation located := (located leqb leb of_Z).
  Notation plain := (plain leqb leb of_Z num coerce).

  (** C59 (partial): [df.loc[rows, columns]] shows exactly the rows and columns pandas would select, in the same
      order, whatever the blocks.  Missing: keys that are not [plain] and selections in which a row or column
      comes twice (both refuted), MultiIndex labels, boolean Series, squeezing of scalars. *)
  Theorem C59_loc_partial :
    forall (big : bool) (f : @pframe L L A) (d : df L L A) rl cl (rk ck : key L) (rows cols : list nat),
      shows f d rl cl -> 0 < nrows d -> 0 < ncols d ->
      located (dindex d) rk = Some rows -> plain (dindex d) rk -> NoDup rows ->
      located (dcols d) ck = Some cols -> plain (dcols d) ck -> NoDup cols ->
      exists x x', loc_both big rk ck f = Ok x /\ read leqb x = Ok (x', take2d rows cols d).
  Proof. intros big f d rl cl rk ck rows cols S H1 H2 Er Pr Nr Ec Pc Nc. unfold LocModel.loc_both. rewrite (empty_no S H1 H2). cbn [rbind].
    edestruct (take_2d_labels_ok leqb leb leqb_ok of_Z num num_ok leb_Z coerce min_row_pos min_col_pos nparts_pos known_l known_w argsort argsort_ok big rk ck S Er Pr Ec Pc Nr Nc) as (f' & -> & E & _).
    cbn [rbind]. do 2 eexists. split; [reflexivity|]. unfold read. cbn [before defi defc andb rbind lf]. rewrite E. reflexivity. Qed.

  Lemma located_all labels : located labels KAll = Some (seq 0 (length labels)).
  Proof. unfold KAll. cbn [LocSpec.located]. unfold sliced. cbn [Z.eqb Z.ltb Z.compare first_of past_of option_map]. f_equal. unfold py_range. rewrite range_len_1. change (Z.of_nat 0) with 0%Z.
    rewrite Z.sub_0_r, Nat2Z.id, map_map. rewrite (map_ext _ (fun k => k)) by (intros k; lia). apply map_id. Qed.
  Lemma all_of_pick labels ls ps : NoDup labels -> all_of leqb labels ls = Some ps -> pick labels ps = ls.
  Proof. intros N. revert ps. induction ls as [|l ls IH]; intros ps E; cbn [all_of] in E; [injection E as <-; reflexivity|].
    pose proof (everywhere_in leqb leqb_ok labels l) as EI. assert (ND : NoDup (everywhere leqb labels l)).
    { unfold everywhere. assert (X : NoDup (map fst (combine (seq 0 (length labels)) labels))) by (rewrite SetProofs4.combine_fst by (now rewrite seq_length); apply seq_NoDup).
      revert X. generalize (combine (seq 0 (length labels)) labels). intros c. induction c as [|x c IHc]; cbn; intros X; [constructor|]. inversion X as [|? ? X1 X2]; subst.
      destruct (leqb (snd x) l); cbn; auto. constructor; auto. intros I. apply X1. apply in_map_iff in I. destruct I as (y & <- & [I _]%filter_In). now apply in_map. }
    destruct (everywhere leqb labels l) as [|p q]; [discriminate|]. destruct (all_of leqb labels ls) as [qs|]; [|discriminate]. injection E as <-.
    assert (Hp : nth_error labels p = Some l) by (apply EI; now left).
    assert (q = []) as ->. { destruct q as [|p' q]; auto. exfalso. assert (Hp' : nth_error labels p' = Some l) by (apply EI; right; now left).
      inversion ND as [|? ? X _]; subst. apply X. left. apply (proj1 (NoDup_nth_error labels) N); [apply nth_error_Some; congruence|congruence]. }
    unfold pick. cbn [app map concat]. rewrite Hp. cbn [app]. f_equal. exact (IH qs eq_refl). Qed.

  (** [df.loc[rows]] *)
  Theorem C59_loc_rows :
    forall (big : bool) (f : @pframe L L A) (d : df L L A) rl cl (rk : key L) (rows : list nat),
      shows f d rl cl -> 0 < nrows d -> 0 < ncols d ->
      located (dindex d) rk = Some rows -> plain (dindex d) rk -> NoDup rows ->
      match rk with KIndex _ | KRangeIndex _ _ _ => NoDup (dindex d) /\ rows <> [] | _ => True end ->
      exists x x', loc_rows big rk f = Ok x /\ read leqb x = Ok (x', take2d rows (seq 0 (ncols d)) d).
  Proof. intros big f d rl cl rk rows S H1 H2 Er Pr Nr Hk. unfold LocModel.loc_rows. rewrite (empty_no S H1 H2). cbn [rbind].
    edestruct (take_2d_labels_ok leqb leb leqb_ok of_Z num num_ok leb_Z coerce min_row_pos min_col_pos nparts_pos known_l known_w argsort argsort_ok big rk KAll S Er Pr (located_all (dcols d))) as (f' & -> & E & Sh); auto.
    { cbn. split; [now left|]. intros lo hi _ X Y. injection X as <-. injection Y as <-. lia. }
    { apply seq_NoDup. }
    cbn [rbind]. fold (ncols d) in E, Sh.
    assert (IX : forall ls, pick (dindex d) rows = ls -> rows <> [] ->
      exists x x', set_index ls (mklf f' false false) = Ok x /\ read leqb x = Ok (x', take2d rows (seq 0 (ncols d)) d)).
    { intros ls Els Hne. destruct Sh as (rl' & cl' & Sh); auto. { intros X. apply (f_equal (@length _)) in X. rewrite seq_length in X. cbn in X. lia. }
      apply shows_sees in Sh. destruct (@set_index_sees L A ls _ _ Sh) as (x & E1 & Sx). { unfold nrows. cbn [take2d dindex]. now rewrite Els. }
      destruct (read_sees leqb leqb_ok Sx) as (x' & E2 & _). exists x, x'. split; auto. rewrite E2. do 2 f_equal. cbn [take2d dcols dcells]. unfold take2d. now rewrite Els. }
    destruct rk as [l|ls|ls|a b s|x y s|x y s|m];
      try (do 2 eexists; split; [reflexivity|]; unfold read; cbn [before defi defc andb rbind lf]; rewrite E; reflexivity).
    - destruct Hk as [N Hne]. apply IX; auto. now apply all_of_pick.
    - destruct Hk as [N Hne]. apply IX; auto. cbn [LocSpec.located] in Er. destruct (s =? 0)%Z; [discriminate|]. now apply all_of_pick. Qed.

  (** A label that is not there raises KeyError, on either axis. *)
  Definition names (k : key L) (l : L) : Prop :=
    match k with KLabel l' => l = l' | KList ls | KIndex ls => In l ls | _ => False end.
  Theorem C59_missing :
    forall (big : bool) (f : @pframe L L A) (d : df L L A) rl cl (rk ck : key L) (l : L),
      shows f d rl cl -> 0 < nrows d -> 0 < ncols d ->
      (plain (dindex d) rk /\ names rk l /\ ~ In l (dindex d)
       \/ (exists rows, located (dindex d) rk = Some rows) /\ plain (dindex d) rk
          /\ plain (dcols d) ck /\ names ck l /\ ~ In l (dcols d)) ->
      loc_both big rk ck f = Err KeyError.
  Proof. assert (X : forall labels k l, plain labels k -> names k l -> ~ In l labels -> positions_from_labels leqb leb of_Z num coerce labels k = Err KeyError).
    { intros labels k l P Nm Ni. destruct k; cbn [names plain LocSpec.plain positions_from_labels] in *; try contradiction.
      - subst. apply (all_of_missing leqb leqb_ok) with l0; auto. now left.
      - rewrite (rmap_coerce coerce P). cbn [rbind]. now apply (all_of_missing leqb leqb_ok) with l.
      - now apply (all_of_missing leqb leqb_ok) with l. }
    intros big f d rl cl rk ck l S H1 H2 H. unfold LocModel.loc_both. rewrite (empty_no S H1 H2). cbn [rbind]. unfold take_2d_labels. pose proof S as (_ & _ & _ & Hi & Hc). rewrite Hi, Hc. cbn [labels rbind].
    destruct H as [(P & Nm & Ni)|((rows & Er) & Pr & P & Nm & Ni)]; [now rewrite (X _ _ _ P Nm Ni)|].
    destruct (@positions_ok L leqb leb leqb_ok of_Z num num_ok leb_Z coerce _ _ _ Er Pr) as (ri & -> & _). cbn [rbind]. now rewrite (X _ _ _ P Nm Ni). Qed.
End Loc.
Print Assumptions C59_loc_partial.
Print Assumptions C59_loc_rows.
Print Assumptions C59_missing.

(** What [located] means.  A list of labels, the labels of the axis being distinct: one position per label asked
    for, in the same order, and it carries that label. *)
Theorem C59_list_meaning :
  forall (L : Type) (eqb leb : L -> L -> bool) (of_Z : Z -> L), (forall x y, eqb x y = true <-> x = y) ->
    forall (labels ls : list L) (ps : list nat), NoDup labels -> located eqb leb of_Z labels (KList ls) = Some ps ->
      Forall2 (fun l p => nth_error labels p = Some l) ls ps.
Proof. intros L eqb leb of_Z eqb_ok labels ls ps N E. cbn [located] in E. pose proof (all_of_pick eqb eqb_ok ls N E) as P. pose proof (all_of_bound eqb eqb_ok _ _ E) as B. clear E.
  revert ls P. induction B as [|p ps Hp F IH]; intros ls P; [cbn in P; subst; constructor|]. unfold pick in P. cbn [map concat] in P.
  destruct (nth_error labels p) as [x|] eqn:E; [|apply nth_error_None in E; lia]. subst ls. cbn [app]. constructor; auto. Qed.
Print Assumptions C59_list_meaning.

(** A slice of labels [a:b], the labels of the axis being in order: the positions of the labels from [a] to [b],
    both included, from left to right. *)
Theorem C59_slice_meaning :
  forall (L : Type) (eqb leb : L -> L -> bool) (of_Z : Z -> L), (forall x y, eqb x y = true <-> x = y) ->
    (forall x, leb x x = true) -> (forall x y z, leb x y = true -> leb y z = true -> leb x z = true) ->
    (forall x y, leb x y = true -> leb y x = true -> x = y) -> (forall x y, leb x y = true \/ leb y x = true) ->
    forall (labels : list L) (a b : option L) (ps : list nat), in_order leb labels = true ->
      located eqb leb of_Z labels (KSlice a b None) = Some ps ->
      Sorted lt ps
      /\ forall p, In p ps <-> exists x, nth_error labels p = Some x
           /\ (forall l, a = Some l -> leb l x = true) /\ (forall l, b = Some l -> leb x l = true).
Proof. intros L eqb leb of_Z eqb_ok R T AS TT labels a b ps O E. cbn [located] in E. unfold sliced in E. cbn [Z.eqb Z.ltb Z.compare] in E.
  destruct (first_of eqb leb labels a) as [lo|] eqn:E1; [|discriminate]. destruct (past_of eqb leb labels b) as [hi|] eqn:E2; [|discriminate]. cbn [option_map] in E. injection E as <-.
  assert (M1 : forall i x, nth_error labels i = Some x -> ((forall l, a = Some l -> leb l x = true) <-> lo <= i)).
  { intros i x Hi. destruct a as [l|]; cbn [first_of] in E1; [|injection E1 as <-; split; [lia|discriminate]]. destruct (place eqb leb labels l) as [[u v]|] eqn:P; [|discriminate]. injection E1 as <-. cbn [fst].
    destruct (place_meaning eqb leb eqb_ok R T AS TT _ _ O P i Hi) as [X _]. rewrite <- X. split; [now intros Y; apply Y|]. intros Y ? [= <-]. exact Y. }
  assert (M2 : forall i x, nth_error labels i = Some x -> ((forall l, b = Some l -> leb x l = true) <-> i < hi)).
  { intros i x Hi. destruct b as [l|]; cbn [past_of] in E2.
    - destruct (place eqb leb labels l) as [[u v]|] eqn:P; [|discriminate]. injection E2 as <-. cbn [snd].
      destruct (place_meaning eqb leb eqb_ok R T AS TT _ _ O P i Hi) as [_ X]. rewrite <- X. split; [now intros Y; apply Y|]. intros Y ? [= <-]. exact Y.
    - injection E2 as <-. split; [|discriminate]. intros _. apply nth_error_Some. congruence. }
  pose proof (past_bound eqb eqb_ok leb _ _ E2) as Hh.
  unfold py_range. rewrite range_len_1, map_map.
  assert (EQ : map (fun k => Z.to_nat (Z.of_nat lo + Z.of_nat k * 1)) (seq 0 (Z.to_nat (Z.of_nat hi - Z.of_nat lo))) = seq lo (hi - lo)).
  { replace (Z.to_nat (Z.of_nat hi - Z.of_nat lo)) with (hi - lo) by lia. rewrite (map_ext _ (fun k => lo + k)) by (intros k; lia). clear. generalize (hi - lo). intros n.
    assert (Q : forall m, map (fun k => lo + k) (seq m n) = seq (lo + m) n); [|rewrite Q; f_equal; lia]. induction n as [|n IH]; intros m; auto. cbn [seq map]. rewrite IH. do 2 f_equal. lia. }
  rewrite EQ. split.
  { generalize (hi - lo). intros n. generalize lo. induction n as [|n IH]; intros m; cbn [seq]; constructor; auto. destruct n; cbn [seq]; constructor. lia. }
  intros p. rewrite in_seq. split.
  - intros Hp. destruct (nth_error labels p) as [x|] eqn:Hx; [|apply nth_error_None in Hx; lia]. exists x. split; auto. rewrite (M1 _ _ Hx), (M2 _ _ Hx). lia.
  - intros (x & Hx & Y & Z). rewrite (M1 _ _ Hx) in Y. rewrite (M2 _ _ Hx) in Z. lia. Qed.
Print Assumptions C59_slice_meaning.

(** ** What is false of the code *)
Section Concrete.
  (** labels are integers ([inl]) and strings ([inr k]: the digits of [k]) *)
  Definition xlab := (Z + nat)%type.
  Definition xeqb (a b : xlab) : bool := match a, b with inl x, inl y => (x =? y)%Z | inr x, inr y => x =? y | _, _ => false end.
  Definition xleb (a b : xlab) : bool := match a, b with inl x, inl y => (x <=? y)%Z | inr x, inr y => x <=? y | inl _, inr _ => true | inr _, inl _ => false end.
  Definition xnum (a : xlab) : option Z := match a with inl z => Some z | inr _ => None end.
  (** [np.array(labels, dtype=int)] *)
  Definition xint (a : xlab) : res xlab := match a with inl z => Ok (inl z) | inr k => Ok (inl (Z.of_nat k)) end.
  Lemma xeqb_ok x y : xeqb x y = true <-> x = y.
  Proof. destruct x, y; cbn; try (split; discriminate); [rewrite Z.eqb_eq|rewrite Nat.eqb_eq]; split; congruence. Qed.
  Lemma xnum_ok (l : xlab) z : xnum l = Some z <-> l = inl z.
  Proof. destruct l; cbn; split; congruence. Qed.

  Definition xint_labels (ls : list Z) : list xlab := map inl ls.
  (** five rows labelled 0 to 4, or [ls], in blocks of two and three rows *)
  Definition xd (ls : list xlab) : df xlab xlab Z := mkdf ls [inr 1; inr 2] [[1;2];[3;4];[5;6];[7;8];[9;0]]%Z.
  Definition xf (ls : list xlab) : @pframe xlab xlab Z := mkpf (cut_table [2;3] [2] (xd ls)) (Some ls) (Some (dcols (xd ls))) (Some [2;3]) (Some [2]).
  Lemma xf_shows ls : length ls = 5 -> shows (xf ls) (xd ls) [2;3] [2].
  Proof. intros H. split; [|repeat split; easy]. apply holds_intro; cbn; auto. split; [exact (eq_sym H)|repeat constructor]. Qed.
  Definition xloc := @loc_rows xlab Z xeqb xleb inl xnum xint 1 1 2 (fun _ _ => true) (fun _ _ => true) zargsort false.
  Definition xlocated := located xeqb xleb (@inl Z nat).
  Definition xrun (ls : list xlab) (k : key xlab) : res (df xlab xlab Z) := do x <- xloc k (xf ls); do p <- read xeqb x; Ok (snd p).
  Definition five : list xlab := xint_labels [0;1;2;3;4]%Z.

  (** df.loc[0:4:2]: pandas includes the end label, Modin loses row 4 *)
  Theorem C59_step_slice_refuted :
    xlocated five (KSlice (Some (inl 0)) (Some (inl 4)) (Some 2))%Z = Some [0;2;4]
    /\ xrun five (KSlice (Some (inl 0)) (Some (inl 4)) (Some 2))%Z = Ok (take2d [0;2] [0;1] (xd five)).
  Proof. split; vm_compute; reflexivity. Qed.

  (** df.loc[range(0, 5, 2)] loses row 4 *)
  Theorem C59_step_range_refuted :
    xlocated five (KRange 0 5 2)%Z = Some [0;2;4]
    /\ xrun five (KRange 0 5 2)%Z = Ok (take2d [0;2] [0;1] (xd five)).
  Proof. split; vm_compute; reflexivity. Qed.

  (** df.loc[range(0, 3)] on labels 0, 5, 1, 2, 7 also gives row 5; on 0, 10, 20, 30, 40 pandas raises KeyError
      because 1 is missing *)
  Theorem C59_range_refuted :
    let gapped := xint_labels [0;5;1;2;7]%Z in
    let tens := xint_labels [0;10;20;30;40]%Z in
    xlocated gapped (KRange 0 3 1)%Z = Some [0;2;3]
    /\ xrun gapped (KRange 0 3 1)%Z = Ok (take2d [0;1;2;3] [0;1] (xd gapped))
    /\ xlocated tens (KRange 0 3 1)%Z = None
    /\ xrun tens (KRange 0 3 1)%Z = Ok (take2d [0] [0;1] (xd tens)).
  Proof. repeat split; vm_compute; reflexivity. Qed.

  (** df.loc[pandas.RangeIndex(0, 2)] takes positions for labels, and renames the rows *)
  Theorem C59_rangeindex_refuted :
    let shifted := xint_labels [3;2;1;0;4]%Z in
    xlocated shifted (KRangeIndex 0 2 1)%Z = Some [3;2]
    /\ xrun shifted (KRangeIndex 0 2 1)%Z = Ok (mkdf (xint_labels [0;1]%Z) (dcols (xd shifted)) [[1;2];[3;4]]%Z).
  Proof. split; vm_compute; reflexivity. Qed.

  (** df.loc[["1"]] on integer labels: KeyError in pandas, row 1 in Modin *)
  Theorem C59_coerced_refuted :
    xlocated five (KList [inr 1]) = None /\ xrun five (KList [inr 1]) = Ok (take2d [1] [0;1] (xd five)).
  Proof. split; vm_compute; reflexivity. Qed.

  (** df.loc[[True, False, True]] on five rows: pandas raises, Modin pads with False *)
  Theorem C59_mask_length_refuted :
    xlocated five (KMask [true;false;true]) = None /\ xrun five (KMask [true;false;true]) = Ok (take2d [0;2] [0;1] (xd five)).
  Proof. split; vm_compute; reflexivity. Qed.

  (** df.loc[pandas.Index([1])] where label 1 occurs twice *)
  Theorem C59_index_duplicates_refuted :
    let twice := xint_labels [0;1;2;1;4]%Z in
    xlocated twice (KIndex [inl 1%Z]) = Some [1;3] /\ xrun twice (KIndex [inl 1%Z]) = Err ValueError
    /\ xrun twice (KList [inl 1%Z]) = Ok (take2d [1;3] [0;1] (xd twice)).
  Proof. repeat split; vm_compute; reflexivity. Qed.

  (** df.loc[3:0] (no step): pandas gives no rows, Modin fails an internal check *)
  Theorem C59_backward_slice_refuted :
    xlocated five (KSlice (Some (inl 3)) (Some (inl 0)) None)%Z = Some []
    /\ xrun five (KSlice (Some (inl 3)) (Some (inl 0)) None)%Z = Err InternalBug.
  Proof. split; vm_compute; reflexivity. Qed.

  (** df.loc[[0, 0]] *)
  Theorem C59_repeated_refuted :
    xlocated five (KList [inl 0; inl 0])%Z = Some [0;0]
    /\ xrun five (KList [inl 0; inl 0])%Z <> Ok (take2d [0;0] [0;1] (xd five)).
  Proof. split; vm_compute; [reflexivity|discriminate]. Qed.

  (** ** Ordinary cases meet the hypotheses *)
  Let letters : list xlab := [inr 3; inr 5; inr 6; inr 6; inr 9].
  Example ex_loc_slice : xlocated letters (KSlice (Some (inr 4)) (Some (inr 6)) None) = Some [1;2;3]
    /\ plain xeqb xleb inl xnum xint letters (KSlice (Some (inr 4)) (Some (inr 6)) None)
    /\ xrun letters (KSlice (Some (inr 4)) (Some (inr 6)) None) = Ok (take2d [1;2;3] [0;1] (xd letters)).
  Proof. repeat split; try (vm_compute; reflexivity); [now left|]. intros lo hi _ X Y. vm_compute in X, Y. injection X as <-. injection Y as <-. lia. Qed.
  Example ex_loc_down : xlocated letters (KSlice (Some (inr 6)) None (Some (-2)%Z)) = Some [3;1]
    /\ plain xeqb xleb inl xnum xint letters (KSlice (Some (inr 6)) None (Some (-2)%Z))
    /\ xrun letters (KSlice (Some (inr 6)) None (Some (-2)%Z)) = Ok (take2d [3;1] [0;1] (xd letters)).
  Proof. repeat split; try (vm_compute; reflexivity); [discriminate|]. intros lo hi X. discriminate. Qed.
  Example ex_loc_list : xlocated five (KList [inl 4; inl 0])%Z = Some [4;0]
    /\ plain xeqb xleb inl xnum xint five (KList [inl 4; inl 0])%Z /\ NoDup [4;0]
    /\ xrun five (KIndex [inl 4; inl 0])%Z = Ok (take2d [4;0] [0;1] (xd five)).
  Proof. split; [reflexivity|]. split; [repeat constructor|]. split; [repeat constructor; cbn; lia|]. vm_compute; reflexivity. Qed.
  Example ex_loc_range : plain xeqb xleb inl xnum xint five (KRange 1 4 1)%Z /\ xlocated five (KRange 1 4 1)%Z = Some [1;2;3]
    /\ plain xeqb xleb inl xnum xint five (KRangeIndex 4 (-1) (-3))%Z /\ xlocated five (KRangeIndex 4 (-1) (-3))%Z = Some [4;1]
    /\ xrun five (KRangeIndex 4 (-1) (-3))%Z = Ok (take2d [4;1] [0;1] (xd five)).
  Proof. cbn [plain]. repeat split; try (vm_compute; reflexivity); try (cbn; lia); try lia. Qed.
  Example ex_loc_missing : names (KList [inl 4%Z; inr 0]) (inr 0) /\ ~ In (inr 0 : xlab) five /\ xrun five (KLabel (inr 0)) = Err KeyError.
  Proof. split; [right; now left|]. split; [|vm_compute; reflexivity]. intros I. cbn in I. intuition discriminate. Qed.
End Concrete.
Print Assumptions C59_step_slice_refuted.
Print Assumptions C59_step_range_refuted.
Print Assumptions C59_range_refuted.
Print Assumptions C59_rangeindex_refuted.
Print Assumptions C59_coerced_refuted.
Print Assumptions C59_mask_length_refuted.
Print Assumptions C59_index_duplicates_refuted.
Print Assumptions C59_backward_slice_refuted.
Print Assumptions C59_repeated_refuted.
