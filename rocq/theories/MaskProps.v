(** C64: selecting rows with a mask.

    [aligned] (MaskSpec.v) is the mask pandas uses for a boolean Series; [keep_rows m d] (RemSpec.v) the rows of [d]
    marked in [m].  [holds f d rl cl] (FrameSpec.v): the partitioned frame [f] stands for the table [d], its blocks cut
    at row lengths [rl] and column widths [cl]; [shows]: moreover its labels are known.  [sorted] stands for pandas'
    sorting of labels. *)
From Coq Require Import Permutation Sorted.
From Verif Require Import Base Table ChunkModel ChunkSpec GridModel GridSpec FrameSpec GridProofs GridProofs3 SelSpec SelModel
  SelProofs SelProofs4 SelProofs5 SelProofs6 SelProofs7 JoinSpec JoinModel JoinProofs2 JoinProofs3 RemSpec RemModel RemProofs RemProofs2 RemProofs3
  SetModel MaskSpec MaskModel MaskProofs MaskProofs2.

Section Mask.
  Context {L H A : Type}.
  Variable leqb : L -> L -> bool.
  Variable heqb : H -> H -> bool.
  Hypothesis leqb_ok : forall x y, leqb x y = true <-> x = y.
  Hypothesis heqb_ok : forall x y, heqb x y = true <-> x = y.
  Variable truth : A -> option bool.
  Variable fill : A.
  Hypothesis truth_fill : truth fill = None.
  Variable sorted : list L -> list nat.
  Hypothesis sorted_ok : forall ls, Permutation (sorted ls) (seq 0 (length ls)).
  Hypothesis sorted_stable : forall ls, pick ls (sorted ls) = ls -> sorted ls = seq 0 (length ls).
  Variables min_row min_col nparts : nat.
  Hypothesis min_row_pos : 0 < min_row.
  Hypothesis min_col_pos : 0 < min_col.
  Hypothesis nparts_pos : 0 < nparts.
  Notation df_getitem_mask := (df_getitem_mask leqb heqb truth fill sorted min_row nparts).

  (** the frame [key] is a boolean Series with labels [labels] and values [m] *)
  Definition is_mask (key : @pframe L H A) (labels : list L) (m : list bool) : Prop :=
    exists (e : df L H A) rk ck, holds key e rk ck /\ rk <> [] /\ ck <> []
      /\ dindex e = labels /\ ncols e = 1 /\ map (map truth) (dcells e) = map (fun b => [Some b]) m.
  Lemma is_mask_says key labels m : is_mask key labels m -> length m = length labels.
  Proof. intros (e & rk & ck & Hk & _ & _ & <- & _ & E). destruct Hk as [((W & _) & _) _]. rewrite <- W. apply (f_equal (@length _)) in E. now rewrite !map_length in E. Qed.

  (** C64 (partial): [df[mask]] with a boolean Series as long as the frame shows the rows the mask marks, whatever the
      blocks of both, if the labels are the same, or those of the mask are distinct and those of the frame ascend.
      Missing: a frame whose labels do not ascend and differ from those of the mask (refuted), a longer mask
      (refuted), repeated labels in a mask with other labels than the frame. *)
  Theorem C64_series_mask_partial :
    forall (f key : @pframe L H A) (d : df L H A) rl cl (labels : list L) (m m' : list bool),
      holds f d rl cl -> rl <> [] -> cl <> [] -> is_mask key labels m -> length m = nrows d ->
      labels = dindex d \/ NoDup labels /\ sorted (dindex d) = seq 0 (nrows d) ->
      aligned leqb (dindex d) labels m = Some m' ->
      exists f', df_getitem_mask f key = Ok f' /\ shown leqb heqb f' = Ok (keep_rows m' d).
  Proof.
    intros f key d rl cl labels m m' Hf Hr Hc Hm Hlen Hl Ea. pose proof (is_mask_says Hm) as Lm.
    destruct Hm as (e & rk & ck & Hk & Hrk & Hck & <- & H1 & Em).
    assert (We : wf e) by apply Hk. assert (Wd : wf d) by apply Hf.
    destruct (@getitem_mask_ok L H A leqb heqb leqb_ok heqb_ok truth fill sorted sorted_ok sorted_stable min_row min_col nparts min_row_pos min_col_pos nparts_pos
      f key d e rl cl rk ck m m') as (f' & rl' & cl' & E & Hh & N1 & N2); auto.
    - repeat split; auto; apply We.
    - unfold nrows in *. congruence.
    - destruct Hl as [Hl|Hl]; [left; congruence|right; apply Hl].
    - exists f'. split; [exact E|]. rewrite (shown_holds leqb heqb leqb_ok heqb_ok Hh N1 N2). f_equal.
      unfold joined_marks, joined_mask. destruct (list_eqb leqb (dindex d) (dindex e)) eqn:El; [reflexivity|]. cbn [fst].
      destruct Hl as [Hl|[_ Hl]]; [rewrite Hl, (proj2 (list_eqb_spec leqb leqb_ok _ _) eq_refl) in El; discriminate|].
      unfold aligned in Ea. rewrite El in Ea. apply all_given_length in Ea. rewrite Hl. rewrite !pick_all by auto. f_equal.
      now apply pick_rows_id. Qed.

  (** In general the rows are those the mask marks, but in another order. *)
  Theorem C64_same_rows :
    forall (f key : @pframe L H A) (d : df L H A) rl cl (labels : list L) (m m' : list bool),
      holds f d rl cl -> rl <> [] -> cl <> [] -> is_mask key labels m -> length m = nrows d -> NoDup labels ->
      aligned leqb (dindex d) labels m = Some m' ->
      exists f' r, df_getitem_mask f key = Ok f' /\ shown leqb heqb f' = Ok r
        /\ dcols r = dcols d /\ length (dindex r) = length (dcells r)
        /\ Permutation (combine (dindex r) (dcells r)) (combine (kept m' (dindex d)) (kept m' (dcells d))).
  Proof.
    intros f key d rl cl labels m m' Hf Hr Hc Hm Hlen Hl Ea. pose proof (is_mask_says Hm) as Lm.
    destruct Hm as (e & rk & ck & Hk & Hrk & Hck & <- & H1 & Em).
    assert (We : wf e) by apply Hk. assert (Wd : wf d) by apply Hf. assert (Wd' := Wd). destruct Wd' as [W1 _].
    destruct (@getitem_mask_ok L H A leqb heqb leqb_ok heqb_ok truth fill sorted sorted_ok sorted_stable min_row min_col nparts min_row_pos min_col_pos nparts_pos
      f key d e rl cl rk ck m m') as (f' & rl' & cl' & E & Hh & N1 & N2); auto.
    - repeat split; auto; apply We.
    - unfold nrows in *. congruence.
    - exists f', (keep_rows (joined_marks leqb sorted d e m') (fst (joined_mask leqb fill sorted d e))). split; [exact E|].
      split; [exact (shown_holds leqb heqb leqb_ok heqb_ok Hh N1 N2)|].
      split; [unfold joined_mask; now destruct (list_eqb leqb (dindex d) (dindex e))|].
      split; [destruct Hh as [((X & _) & _) _]; now symmetry|].
      unfold joined_marks, joined_mask. destruct (list_eqb leqb (dindex d) (dindex e)) eqn:El; [reflexivity|]. cbn [fst keep_rows dindex dcells pick_rows].
      unfold aligned in Ea. rewrite El in Ea. apply all_given_length in Ea.
      assert (F : Forall (fun p => p < length (dindex d)) (sorted (dindex d))) by (apply (@sorted_bound L sorted sorted_ok sorted_stable min_row min_col nparts); auto).
      assert (EC : map (fun o => match o with Some p => nth p (dcells d) (repeat fill (ncols d)) | None => repeat fill (ncols d) end) (map Some (sorted (dindex d))) = pick (dcells d) (sorted (dindex d))).
      { rewrite map_map. revert F. generalize (sorted (dindex d)). intros ps F. induction F as [|p ps Hp F IH]; [reflexivity|]. cbn [map]. rewrite pick_cons, IH.
        destruct (nth_error (dcells d) p) as [r|] eqn:Er; [now rewrite (nth_error_nth _ _ _ Er)|]. apply nth_error_None in Er. unfold nrows in W1. lia. }
      rewrite EC. rewrite !kept_combine; [|unfold nrows in W1; congruence|rewrite !pick_length; auto; rewrite W1; exact F].
      rewrite combine_pick by (auto; unfold nrows in W1; congruence). apply kept_reordered.
      + rewrite combine_length, W1. unfold nrows. lia.
      + rewrite combine_length, W1. unfold nrows. rewrite Nat.min_id. apply sorted_ok. Qed.

  (** A row whose label the mask does not have raises. *)
  Theorem C64_unalignable :
    forall (f key : @pframe L H A) (d : df L H A) rl cl (labels : list L) (m : list bool),
      holds f d rl cl -> rl <> [] -> cl <> [] -> is_mask key labels m -> length m = nrows d -> NoDup labels ->
      aligned leqb (dindex d) labels m = None -> exists x, df_getitem_mask f key = Err x.
  Proof.
    intros f key d rl cl labels m Hf Hr Hc Hm Hlen Hl Ea. pose proof (is_mask_says Hm) as Lm.
    destruct Hm as (e & rk & ck & Hk & Hrk & Hck & <- & H1 & Em).
    apply (@getitem_mask_unalignable L H A leqb heqb leqb_ok heqb_ok truth fill truth_fill sorted sorted_ok sorted_stable min_row min_col nparts min_row_pos min_col_pos nparts_pos
      f key d e rl cl rk ck m); auto. unfold nrows in *. congruence. Qed.

  Theorem C64_wrong_length :
    forall (f key : @pframe L H A) (d : df L H A) rl cl (labels : list L) (m : list bool),
      holds f d rl cl -> cl <> [] -> is_mask key labels m -> length m <> nrows d -> df_getitem_mask f key = Err ValueError.
  Proof.
    intros f key d rl cl labels m Hf Hc Hm Hlen. pose proof (is_mask_says Hm) as Lm.
    destruct Hm as (e & rk & ck & Hk & Hrk & Hck & <- & H1 & Em).
    unfold MaskModel.df_getitem_mask. rewrite (row_labels_holds Hf Hc), (row_labels_holds Hk Hck). rewrite <- Lm.
    destruct (Nat.eqb_spec (length m) (length (dindex d))) as [X|]; [now elim Hlen|reflexivity]. Qed.

  Variables known_l known_w : nat -> nat -> bool.
  Variable argsort : list Z -> list nat.
  Hypothesis argsort_ok : forall l, sorts l (argsort l).
  Notation df_getitem_list := (df_getitem_list leqb heqb min_row min_col nparts known_l known_w argsort).
  Notation series_getitem_mask := (series_getitem_mask leqb heqb truth min_row min_col nparts known_l known_w argsort).

  (** [df[bools]] with a list of booleans shows the rows marked; a list of another length raises ValueError. *)
  Theorem C64_list :
    forall (big : bool) (f : @pframe L H A) (d : df L H A) rl cl (m : list bool), shows f d rl cl ->
      (length m = nrows d -> exists f', df_getitem_list big m f = Ok f' /\ pf_to_pandas leqb heqb f' = Ok (keep_rows m d))
      /\ (length m <> nrows d -> df_getitem_list big m f = Err ValueError).
  Proof. intros big f d rl cl m S. split.
    - apply (@getitem_list_ok L H A leqb heqb leqb_ok heqb_ok min_row min_col nparts min_row_pos min_col_pos nparts_pos known_l known_w argsort argsort_ok big f d rl cl m S).
    - intros N. unfold MaskModel.df_getitem_list. destruct S as (Hh & Hr & Hc & Hi & Hcs). unfold row_labels. rewrite Hi.
      destruct (Nat.eqb_spec (length m) (length (dindex d))) as [X|]; [now elim N|reflexivity]. Qed.

  (** [series[mask]] (partial): the same if the mask has the labels of the series.  Missing: other labels (refuted). *)
  Theorem C64_series_getitem_partial :
    forall (big : bool) (f : @pframe L H A) (d key : df L H A) rl cl (m : list bool), shows f d rl cl ->
      dindex key = dindex d -> map (map truth) (dcells key) = map (fun b => [Some b]) m -> length m = nrows d ->
      exists f', series_getitem_mask big f key = Ok f' /\ pf_to_pandas leqb heqb f' = Ok (keep_rows m d).
  Proof. intros big f d key rl cl m S El Em Lm. unfold MaskModel.series_getitem_mask. rewrite (@truths_ok L H A truth key m Em). cbn [rbind].
    assert (S' := S). destruct S' as (Hh & Hr & Hc & Hi & Hcs). unfold row_labels. rewrite Hi. unfold nrows in Lm. rewrite Lm, Nat.eqb_refl. cbn [negb].
    now apply (@take_marked L H A leqb heqb leqb_ok heqb_ok min_row min_col nparts min_row_pos min_col_pos nparts_pos known_l known_w argsort argsort_ok big f d rl cl m S). Qed.
End Mask.
Print Assumptions C64_series_mask_partial.
Print Assumptions C64_same_rows.
Print Assumptions C64_unalignable.
Print Assumptions C64_wrong_length.
Print Assumptions C64_list.
Print Assumptions C64_series_getitem_partial.

(** What [aligned] means for distinct labels: row [i] takes the value under its label. *)
Theorem C64_aligned_meaning :
  forall (L : Type) (eqb : L -> L -> bool), (forall x y, eqb x y = true <-> x = y) ->
  forall (index labels : list L) (m m' : list bool), NoDup labels -> length m = length labels -> aligned eqb index labels m = Some m' ->
    length m' = length index
    /\ forall i k l, nth_error index i = Some l -> nth_error labels k = Some l -> nth_error m' i = nth_error m k.
Proof. intros L eqb eqb_ok index labels m m' N Lm E. unfold aligned in E. destruct (list_eqb eqb index labels) eqn:El.
  - apply (list_eqb_spec eqb eqb_ok) in El. subst. injection E as <-. split; [exact Lm|]. intros i k l Ei Ek. f_equal.
    apply (proj1 (NoDup_nth_error labels) N); [apply nth_error_Some; congruence|congruence].
  - split; [now apply all_given_length in E|]. intros i k l Ei Ek. pose proof (all_given_nth _ _ _ _ _ E Ei) as G. rewrite given_position in G by exact Lm.
    destruct (position eqb l labels) as [q|] eqn:Eq.
    + apply (position_found eqb eqb_ok) in Eq. rewrite <- G. f_equal. apply (proj1 (NoDup_nth_error labels) N); [apply nth_error_Some; congruence|congruence].
    + apply (position_absent eqb eqb_ok) in Eq. apply nth_error_In in Ek. contradiction. Qed.
Print Assumptions C64_aligned_meaning.

Section Concrete.
  Definition msorted (l : list nat) : list nat :=
    let zs := map Z.of_nat l in if increasing zs then seq 0 (length l) else zargsort zs.
  Lemma msorted_ok l : Permutation (msorted l) (seq 0 (length l)).
  Proof. unfold msorted. destruct (increasing _); [reflexivity|]. destruct (zargsort_ok (map Z.of_nat l)) as [P _]. now rewrite map_length in P. Qed.
  Lemma increasing_sorted l : Sorted Z.le l -> increasing l = true.
  Proof. induction 1 as [|x l S IH Hd]; [reflexivity|]. destruct Hd as [|y l Hxy]; [reflexivity|]. cbn [increasing]. apply andb_true_iff. split; [now apply Z.leb_le|exact IH]. Qed.
  Lemma msorted_stable l : pick l (msorted l) = l -> msorted l = seq 0 (length l).
  Proof. unfold msorted. destruct (increasing _) eqn:I; [reflexivity|]. intros E. destruct (zargsort_ok (map Z.of_nat l)) as [_ S].
    rewrite pick_map, E in S. apply increasing_sorted in S. congruence. Qed.
  Definition mtruth (x : option Z) : option bool := match x with None => None | Some z => Some (z =? 1)%Z end.
  Definition md (index : list nat) : df nat nat (option Z) := mkdf index [1;2] [[Some 11;Some 12];[Some 21;Some 22];[Some 31;Some 32]]%Z.
  Definition mf index : @pframe nat nat (option Z) := mkpf (cut_table [2;1] [1;1] (md index)) (Some index) (Some [1;2]) (Some [2;1]) (Some [1;1]).
  Definition mk (index : list nat) (m : list Z) : @pframe nat nat (option Z) :=
    mkpf (cut_table [1;length index - 1] [1] (mkdf index [0] (map (fun z => [Some z]) m))) (Some index) (Some [0]) (Some [1;length index - 1]) (Some [1]).
  Definition mget := @df_getitem_mask nat nat (option Z) Nat.eqb Nat.eqb mtruth None msorted 1 2.
  Definition mshow (x : res (@pframe nat nat (option Z))) := do f <- x; shown Nat.eqb Nat.eqb f.
  Lemma mf_shows index : length index = 3 -> shows (mf index) (md index) [2;1] [1;1].
  Proof. intros E. destruct index as [|a [|b [|c [|]]]]; try discriminate. split; [|repeat split; easy]. apply holds_intro; cbn; auto. split; [reflexivity|repeat constructor]. Qed.
  Lemma mk_mask (a b c : nat) : is_mask mtruth (mk [a;b;c] [1;0;1]%Z) [a;b;c] [true;false;true].
  Proof. exists (mkdf [a;b;c] [0] (map (fun z => [Some z]) [1;0;1]%Z)), [1;2], [1]. split; [apply holds_intro; cbn; auto; split; [reflexivity|repeat constructor]|]. repeat split; try discriminate. Qed.

  Example C64_case : mshow (mget (mf [5;6;7]) (mk [5;7;6] [1;0;1]%Z)) = Ok (mkdf [5;6] [1;2] [[Some 11;Some 12];[Some 21;Some 22]]%Z).
  Proof. vm_compute. reflexivity. Qed.
  Example C64_hypotheses : exists f', mget (mf [5;6;7]) (mk [5;7;6] [1;0;1]%Z) = Ok f' /\ shown Nat.eqb Nat.eqb f' = Ok (keep_rows [true;true;false] (md [5;6;7])).
  Proof. destruct (mf_shows [5;6;7] eq_refl) as (Hh & Hr & Hc & _).
    apply (C64_series_mask_partial Nat.eqb Nat.eqb Nat.eqb_eq Nat.eqb_eq None msorted msorted_ok msorted_stable Nat.lt_0_1 Nat.lt_0_1 Nat.lt_0_2 Hh Hr Hc (mk_mask 5 7 6)).
    - reflexivity.
    - right. split; [|reflexivity]. repeat constructor; cbn; intuition discriminate.
    - reflexivity. Qed.
  Example C64_list_case : let m := [false;false;false] in
    mshow (@df_getitem_list nat nat (option Z) Nat.eqb Nat.eqb 1 1 2 (fun _ _ => true) (fun _ _ => true) zargsort false m (mf [5;6;7])) = Ok (mkdf [] [1;2] []).
  Proof. vm_compute. reflexivity. Qed.

  (** df[mask], rows labelled 7, 5, 6, the mask labelled 5, 6, 7 and all true: pandas returns df, Modin its rows
      sorted by label *)
  Theorem C64_order_refuted :
    aligned Nat.eqb [7;5;6] [5;6;7] [true;true;true] = Some [true;true;true]
    /\ keep_rows [true;true;true] (md [7;5;6]) = md [7;5;6]
    /\ mshow (mget (mf [7;5;6]) (mk [5;6;7] [1;1;1]%Z)) = Ok (mkdf [5;6;7] [1;2] [[Some 21;Some 22];[Some 31;Some 32];[Some 11;Some 12]]%Z).
  Proof. repeat split; vm_compute; reflexivity. Qed.
  Print Assumptions C64_order_refuted.
  (** a mask with values for more labels than the frame has: pandas takes those it needs, Modin raises *)
  Theorem C64_longer_mask_refuted :
    aligned Nat.eqb [5;6;7] [5;6;7;8] [true;false;true;true] = Some [true;false;true]
    /\ mget (mf [5;6;7]) (mk [5;6;7;8] [1;0;1;1]%Z) = Err ValueError.
  Proof. split; vm_compute; reflexivity. Qed.
  Print Assumptions C64_longer_mask_refuted.
  (** series[mask] with the labels of the mask in another order: pandas returns the row labelled 7, Modin the row at
      the position of the true value *)
  Definition ms : df nat nat (option Z) := mkdf [5;6;7] [0] [[Some 11];[Some 21];[Some 31]]%Z.
  Definition msf : @pframe nat nat (option Z) := mkpf (cut_table [2;1] [1] ms) (Some [5;6;7]) (Some [0]) (Some [2;1]) (Some [1]).
  Theorem C64_series_labels_refuted :
    aligned Nat.eqb [5;6;7] [7;6;5] [true;false;false] = Some [false;false;true]
    /\ keep_rows [false;false;true] ms = mkdf [7] [0] [[Some 31%Z]]
    /\ mshow (@series_getitem_mask nat nat (option Z) Nat.eqb Nat.eqb mtruth 1 1 2 (fun _ _ => true) (fun _ _ => true) zargsort false msf
        (mkdf [7;6;5] [0] [[Some 1];[Some 0];[Some 0]]%Z)) = Ok (mkdf [5] [0] [[Some 11%Z]]).
  Proof. repeat split; vm_compute; reflexivity. Qed.
  Print Assumptions C64_series_labels_refuted.
End Concrete.
