(** C67: [DataFrame.insert].

    InsSpec.v: [with_column p c vals d] is the table with a further column before the column number [p]; [aligned fill d e
    vals]: [vals] are the values of the one-column table [e] in the order of the labels of [d].  InsModel.v: a [store]
    gives the frame behind each object the user holds; [df_insert loc column value allow_duplicates r s] is
    [r.insert(loc, column, value, allow_duplicates)].  [shows f d rl cl] (SelProofs5.v): the frame [f] stands for the table
    [d], its blocks cut at row lengths [rl] and column widths [cl], its labels known. *)
From Verif Require Import Base Table ChunkModel ChunkSpec ChunkProofs GridModel GridSpec FrameSpec GridProofs GridProofs3 SelSpec SelModel
  SelProofs SelProofs5 SelProofs7 JoinSpec JoinModel JoinProofs2 SetModel SetProofs7 InsSpec InsModel InsProofs InsProofs2.

Section C67.
  Context {L H A : Type}.
  Variable leqb : L -> L -> bool.
  Variable heqb : H -> H -> bool.
  Hypothesis leqb_ok : forall x y, leqb x y = true <-> x = y.
  Hypothesis heqb_ok : forall x y, heqb x y = true <-> x = y.
  Variables min_row min_col nparts : nat.
  Hypothesis min_row_pos : 0 < min_row.
  Hypothesis min_col_pos : 0 < min_col.
  Hypothesis nparts_pos : 0 < nparts.
  Variables known_l known_w : nat -> nat -> bool.
  Variable argsort : list Z -> list nat.
  Hypothesis argsort_ok : forall l, sorts l (argsort l).
  Variable fill : A.
  Variable first_known : bool.
  Notation df_insert := (df_insert leqb heqb min_row min_col nparts known_l known_w argsort fill first_known).
  Notation seen := (pf_to_pandas leqb heqb).

  Lemma shows_seen (f : @pframe L H A) d rl cl : shows f d rl cl -> seen f = Ok d.
  Proof. intros (Hh & _ & _ & P1 & P2). apply (@pf_to_pandas_holds L H A leqb heqb leqb_ok heqb_ok f d rl cl Hh). intros _. rewrite P1, P2. now split. Qed.

  Lemma assign_same (s : store L H A) k f : assign s k f k = f.
  Proof. unfold assign. now rewrite Nat.eqb_refl. Qed.
  Lemma assign_other (s : store L H A) k f i : i <> k -> assign s k f i = s i.
  Proof. intros Hi. unfold assign. destruct (Nat.eqb_spec i k); [easy|reflexivity]. Qed.

  Lemma in_bounds (d : df L H A) loc : (0 <= loc <= Z.of_nat (ncols d))%Z ->
    negb ((- Z.of_nat (length (dcols d)) <=? loc) && (loc <=? Z.of_nat (length (dcols d))))%Z = false /\ (loc <? 0)%Z = false /\ Z.to_nat loc <= ncols d.
  Proof using. clear. unfold ncols. intros Hl. split; [|split; [apply Z.ltb_ge; lia|lia]].
    apply negb_false_iff, andb_true_iff. split; apply Z.leb_le; lia. Qed.
  Lemma not_there (d : df L H A) c : ~ In c (dcols d) -> existsb (heqb c) (dcols d) = false.
  Proof using heqb_ok. clear - heqb_ok. intros Hc. apply not_true_is_false. rewrite existsb_exists. intros (h & Hin & E%heqb_ok). now subst h. Qed.
  Lemma not_empty (d : df L H A) : 0 < nrows d -> 0 < ncols d -> (length (dindex d) =? 0) || (length (dcols d) =? 0) = false.
  Proof using. clear. unfold nrows, ncols. intros. apply orb_false_iff. split; apply Nat.eqb_neq; lia. Qed.

  (** C67, a scalar (partial): the table with the column where it was asked for, the value in every row.
      Missing: a label the frame has already, with allow_duplicates=True (refuted); frames without rows or columns. *)
  Theorem C67_scalar_partial :
    forall (s : store L H A) r d rl cl loc c a allow,
      shows (s r) d rl cl -> 0 < nrows d -> 0 < ncols d ->
      (0 <= loc <= Z.of_nat (ncols d))%Z -> ~ In c (dcols d) ->
      exists s', df_insert loc c (IScalar a) allow r s = Ok s'
        /\ seen (s' r) = Ok (with_column (Z.to_nat loc) c (repeat a (nrows d)) d)
        /\ forall i, i <> r -> s' i = s i.
  Proof.
    intros s r d rl cl loc c a allow Sh Hn Hm Hl Hc. destruct (@in_bounds d loc Hl) as (B1 & B2 & B3).
    assert (Pi : pindex (s r) = Some (dindex d)) by apply Sh. assert (Pc : pcols (s r) = Some (dcols d)) by apply Sh.
    unfold InsModel.df_insert. rewrite Pi, Pc. cbn [labels rbind]. change (negb (1 =? 1)) with false. cbv iota.
    rewrite not_empty, not_there by assumption. rewrite andb_false_r, B1, B2.
    destruct (@insert_scalar_ok L H A leqb heqb heqb_ok min_row min_row_pos (s r) d rl cl (Z.to_nat loc) c a Sh B3 Hc) as (f' & rl' & cl' & E & Sh').
    rewrite E. cbn [rbind]. eexists. split; [reflexivity|]. rewrite assign_same. split; [now apply shows_seen in Sh'|]. intros i Hi. now apply assign_other. Qed.

  (** C67, a list of values, one for each row: the table with the column where it was asked for; also under a label the
      frame has already if the caller allows it. *)
  Theorem C67_list :
    forall (s : store L H A) r d rl cl loc c l allow,
      shows (s r) d rl cl -> 0 < nrows d -> 0 < ncols d -> length l = nrows d ->
      (0 <= loc <= Z.of_nat (ncols d))%Z -> allow = true \/ ~ In c (dcols d) ->
      exists s', df_insert loc c (IValues l) allow r s = Ok s'
        /\ seen (s' r) = Ok (with_column (Z.to_nat loc) c l d)
        /\ forall i, i <> r -> s' i = s i.
  Proof.
    intros s r d rl cl loc c l allow Sh Hn Hm Hv Hl Hc. destruct (@in_bounds d loc Hl) as (B1 & B2 & B3).
    assert (Pi : pindex (s r) = Some (dindex d)) by apply Sh. assert (Pc : pcols (s r) = Some (dcols d)) by apply Sh.
    unfold InsModel.df_insert. rewrite Pi, Pc. cbn [labels rbind]. change (negb (1 =? 1)) with false. cbv iota.
    rewrite not_empty by assumption. fold (nrows d). rewrite Hv, Nat.eqb_refl. cbn [negb].
    replace (negb allow && existsb (heqb c) (dcols d)) with false.
    2:{ symmetry. destruct Hc as [-> | Hc]; [reflexivity|]. rewrite not_there by assumption. apply andb_false_r. }
    rewrite B1, B2.
    set (e := mkdf (dindex d) [c] (map (fun x => [x]) l)).
    assert (We : wf e). { split; cbn; [rewrite map_length; exact Hv|]. apply Forall_map, Forall_forall. reflexivity. }
    destruct (@distribute_shows L H A min_row min_col nparts min_row_pos min_col_pos nparts_pos known_l known_w e We Hn eq_refl) as (v & rl1 & cl1 & E1 & S1).
    rewrite E1. cbn [rbind].
    destruct (@insert_column_ok L H A leqb heqb leqb_ok heqb_ok min_row min_col nparts min_row_pos min_col_pos nparts_pos known_l known_w argsort argsort_ok fill first_known
                (s r) v d e rl cl rl1 cl1 (Z.to_nat loc) c Sh S1 eq_refl Hn B3 (or_introl eq_refl)) as (f' & rl' & cl' & vals & E2 & Sh' & Al).
    rewrite E2. cbn [rbind]. eexists. split; [reflexivity|]. rewrite assign_same.
    assert (vals = l) as ->.
    { destruct Al as (_ & Al & _). specialize (Al eq_refl). cbn in Al. revert Al. clear. revert l.
      induction vals as [|v vals IH]; intros [|x l] E; try discriminate; [reflexivity|]. injection E as -> E. f_equal. auto. }
    split; [now apply shows_seen in Sh'|]. intros i Hi. now apply assign_other. Qed.

  (** C67, a Series or a frame of one column (partial): the table with its values at their labels; every other object
      stays as it is, and the inserted one keeps its values.
      Missing: that the inserted object keeps its own name (refuted); inserting the frame into itself (refuted); repeated
      labels that differ from the frame's. *)
  Theorem C67_object_partial :
    forall (s : store L H A) r k d e rl cl rl1 cl1 loc c allow,
      k <> r -> shows (s r) d rl cl -> shows (s k) e rl1 cl1 -> 0 < nrows d -> 0 < ncols d -> ncols e = 1 ->
      dindex e = dindex d \/ NoDup (dindex d) /\ NoDup (dindex e) ->
      (0 <= loc <= Z.of_nat (ncols d))%Z -> allow = true \/ ~ In c (dcols d) ->
      exists s' vals, df_insert loc c (IObject k) allow r s = Ok s'
        /\ aligned fill d e vals
        /\ seen (s' r) = Ok (with_column (Z.to_nat loc) c vals d)
        /\ seen (s' k) = Ok (mkdf (dindex e) [c] (dcells e))
        /\ forall i, i <> r -> i <> k -> s' i = s i.
  Proof.
    intros s r k d e rl cl rl1 cl1 loc c allow Nk Sh She Hn Hm He Hi Hl Hc. destruct (@in_bounds d loc Hl) as (B1 & B2 & B3).
    assert (Pi : pindex (s r) = Some (dindex d)) by apply Sh. assert (Pc : pcols (s r) = Some (dcols d)) by apply Sh.
    assert (Pe : pcols (s k) = Some (dcols e)) by apply She.
    unfold InsModel.df_insert. rewrite Pi, Pc, Pe. cbn [labels rbind]. fold (ncols e). rewrite He. change (negb (1 =? 1)) with false. cbv iota.
    rewrite not_empty by assumption.
    replace (negb allow && existsb (heqb c) (dcols d)) with false.
    2:{ symmetry. destruct Hc as [-> | Hc]; [reflexivity|]. rewrite not_there by assumption. apply andb_false_r. }
    rewrite B1, B2.
    destruct (@set_columns_ok L H A heqb heqb_ok (s k) e rl1 cl1 [c] She) as (v & rl2 & cl2 & E1 & S1); [now rewrite He|].
    rewrite E1. cbn [rbind]. rewrite assign_same, assign_other by auto.
    set (e' := mkdf (dindex e) [c] (dcells e)) in *.
    destruct (@insert_column_ok L H A leqb heqb leqb_ok heqb_ok min_row min_col nparts min_row_pos min_col_pos nparts_pos known_l known_w argsort argsort_ok fill first_known
                (s r) v d e' rl cl rl2 cl2 (Z.to_nat loc) c Sh S1 eq_refl Hn B3 Hi) as (f' & rl' & cl' & vals & E2 & Sh' & Al).
    rewrite E2. cbn [rbind]. eexists; exists vals. split; [reflexivity|]. rewrite assign_same. split; [exact Al|].
    split; [now apply shows_seen in Sh'|]. split.
    - rewrite assign_other, assign_same by auto. now apply shows_seen in S1.
    - intros i H1 H2. now rewrite !assign_other by auto. Qed.

  (** C67, errors: a wrong number of values, a label that is there already, several columns at once and a negative
      position are ValueErrors, a position out of bounds is an IndexError; no object is changed, as no store is
      returned. *)
  Theorem C67_rejected :
    forall (s : store L H A) r d rl cl loc c value allow,
      shows (s r) d rl cl -> 0 < nrows d -> 0 < ncols d ->
      (forall k, value = IObject k -> exists e rl1 cl1, shows (s k) e rl1 cl1) ->
      (forall k e rl1 cl1, value = IObject k -> shows (s k) e rl1 cl1 -> ncols e <> 1 -> df_insert loc c value allow r s = Err ValueError)
      /\ (forall l, value = IValues l -> length l <> nrows d -> df_insert loc c value allow r s = Err ValueError)
      /\ ((forall k e rl1 cl1, value = IObject k -> shows (s k) e rl1 cl1 -> ncols e = 1) -> (forall l, value = IValues l -> length l = nrows d) ->
          (allow = false -> In c (dcols d) -> df_insert loc c value allow r s = Err ValueError)
          /\ (allow = true \/ ~ In c (dcols d) ->
              ((- Z.of_nat (ncols d) <= loc < 0)%Z -> df_insert loc c value allow r s = Err ValueError)
              /\ ((loc < - Z.of_nat (ncols d) \/ Z.of_nat (ncols d) < loc)%Z -> df_insert loc c value allow r s = Err IndexError))).
  Proof.
    intros s r d rl cl loc c value allow Sh Hn Hm Hk.
    assert (Pi : pindex (s r) = Some (dindex d)) by apply Sh. assert (Pc : pcols (s r) = Some (dcols d)) by apply Sh.
    unfold InsModel.df_insert. rewrite Pi, Pc. cbn [labels rbind].
    split; [|split].
    - intros k e rl1 cl1 -> She He. assert (Pe : pcols (s k) = Some (dcols e)) by apply She. rewrite Pe. cbn [labels rbind].
      fold (ncols e). destruct (Nat.eqb_spec (ncols e) 1); [easy|reflexivity].
    - intros l -> Hl. cbn [rbind]. change (negb (1 =? 1)) with false. cbv iota. rewrite not_empty by assumption.
      fold (nrows d). destruct (Nat.eqb_spec (length l) (nrows d)); [easy|reflexivity].
    - intros Ho Hv.
      assert (Eo : (do shape <- match value with IObject k => do cs <- labels (pcols (s k)); Ok (length cs) | _ => Ok 1 end; Ok shape) = Ok 1).
      { destruct value as [a|l|k]; try reflexivity. destruct (Hk k eq_refl) as (e & rl1 & cl1 & She). assert (Pe : pcols (s k) = Some (dcols e)) by apply She.
        rewrite Pe. cbn [labels rbind]. f_equal. apply (Ho k e rl1 cl1 eq_refl She). }
      destruct (match value with IObject k => do cs <- labels (pcols (s k)); Ok (length cs) | _ => Ok 1 end) as [shape|] eqn:Es; [|discriminate].
      cbn [rbind] in Eo |- *. injection Eo as ->. change (negb (1 =? 1)) with false. cbv iota. rewrite not_empty by assumption.
      replace (match value with IValues l => negb (length l =? length (dindex d)) | _ => false end) with false.
      2:{ symmetry. destruct value as [a|l|k]; try reflexivity. rewrite (Hv l eq_refl). fold (nrows d). now rewrite Nat.eqb_refl. }
      split.
      + intros -> Hc. replace (existsb (heqb c) (dcols d)) with true; [reflexivity|]. symmetry. apply existsb_exists. exists c. split; [exact Hc|now apply heqb_ok].
      + intros Hc. replace (negb allow && existsb (heqb c) (dcols d)) with false.
        2:{ symmetry. destruct Hc as [-> | Hc]; [reflexivity|]. rewrite not_there by assumption. apply andb_false_r. }
        fold (ncols d). split; intros Hl.
        * replace ((- Z.of_nat (ncols d) <=? loc) && (loc <=? Z.of_nat (ncols d)))%Z with true.
          2:{ symmetry. apply andb_true_iff. split; apply Z.leb_le; lia. }
          cbn [negb]. now rewrite (proj2 (Z.ltb_lt loc 0)) by lia.
        * replace ((- Z.of_nat (ncols d) <=? loc) && (loc <=? Z.of_nat (ncols d)))%Z with false; [reflexivity|].
          symmetry. apply andb_false_iff. rewrite !Z.leb_gt. lia.
  Qed.
End C67.
Print Assumptions C67_scalar_partial.
Print Assumptions C67_list.
Print Assumptions C67_object_partial.
Print Assumptions C67_rejected.

(** * Where the claim fails, and concrete cases *)
Definition ins_frame (d : df nat nat nat) rl cl : @pframe nat nat nat := mkpf (cut_table rl cl d) (Some (dindex d)) (Some (dcols d)) (Some rl) (Some cl).
Definition ins_store (fs : list (@pframe nat nat nat)) : store nat nat nat := fun i => nth i fs (mkpf [] None None None None).
Definition ins_run := @df_insert nat nat nat Nat.eqb Nat.eqb 1 1 2 (fun _ _ => true) (fun _ _ => true) zargsort 99 true.
Notation ins_seen := (pf_to_pandas Nat.eqb Nat.eqb).

(** df.insert(1, 7, s) with a Series [s] called 5: the user's [s] is called 7 afterwards. *)
Theorem C67_value_renamed_refuted : exists (s s' : store nat nat nat) d e,
  ins_seen (s 0) = Ok d /\ ins_seen (s 1) = Ok e /\ ins_run 1%Z 7 (IObject 1) false 0 s = Ok s'
  /\ dcols e = [5] /\ ins_seen (s' 1) = Ok (mkdf (dindex e) [7] (dcells e)).
Proof.
  set (d := mkdf [0;1;2] [10;11] [[1;2];[3;4];[5;6]]). set (e := mkdf [0;1;2] [5] [[21];[22];[23]]).
  exists (ins_store [ins_frame d [2;1] [1;1]; ins_frame e [1;2] [1]]). eexists. exists d, e.
  repeat split; vm_compute; reflexivity.
Qed.
Print Assumptions C67_value_renamed_refuted.

(** df.insert(1, 7, df) on a frame with the one column 5: pandas gives the columns 5 and 7. *)
Theorem C67_into_itself_refuted : exists (s s' : store nat nat nat) d,
  ins_seen (s 0) = Ok d /\ dcols d = [5] /\ ins_run 1%Z 7 (IObject 0) false 0 s = Ok s'
  /\ ins_seen (s' 0) = Ok (mkdf (dindex d) [7;7] (map (fun r => r ++ r) (dcells d))).
Proof.
  set (d := mkdf [0;1;2] [5] [[21];[22];[23]]).
  exists (ins_store [ins_frame d [2;1] [1]]). eexists. exists d. repeat split; vm_compute; reflexivity.
Qed.
Print Assumptions C67_into_itself_refuted.

(** df.insert(0, 10, 8, allow_duplicates=True): an error or not, depending on the blocks of the frame. *)
Theorem C67_allow_duplicates_refuted : exists (d : df nat nat nat) f g s',
  ins_seen f = Ok d /\ ins_seen g = Ok d
  /\ ins_run 0%Z 11 (IScalar 8) true 0 (ins_store [f]) = Err ValueError
  /\ ins_run 0%Z 11 (IScalar 8) true 0 (ins_store [g]) = Ok s'
  /\ ins_seen (s' 0) = Ok (with_column 0 11 (repeat 8 (nrows d)) d).
Proof.
  set (d := mkdf [0;1;2] [10;11] [[1;2];[3;4];[5;6]]).
  exists d, (ins_frame d [2;1] [2]), (ins_frame d [2;1] [1;1]). eexists. repeat split; vm_compute; reflexivity.
Qed.
Print Assumptions C67_allow_duplicates_refuted.

Section InsExamples.
  Let d := mkdf [0;1;2] [10;11] [[1;2];[3;4];[5;6]].
  Let e := mkdf [2;9;0] [5] [[21];[22];[23]].
  Let s := ins_store [ins_frame d [2;1] [1;1]; ins_frame e [1;2] [1]].
  Example ins_ex_shows : shows (s 0) d [2;1] [1;1] /\ shows (s 1) e [1;2] [1] /\ ~ In 7 (dcols d) /\ NoDup (dindex d) /\ NoDup (dindex e) /\ dindex e <> dindex d.
  Proof.
    split; [|split; [|split; [|split; [|split]]]].
    - split; [|repeat split; discriminate]. apply holds_intro; cbn; auto. split; [reflexivity|repeat constructor].
    - split; [|repeat split; discriminate]. apply holds_intro; cbn; auto. split; [reflexivity|repeat constructor].
    - cbn. intuition discriminate.
    - repeat constructor; cbn; intuition discriminate.
    - repeat constructor; cbn; intuition discriminate.
    - discriminate.
  Qed.
  Example ins_ex_scalar : exists s', ins_run 1%Z 7 (IScalar 8) false 0 s = Ok s' /\ ins_seen (s' 0) = Ok (mkdf [0;1;2] [10;7;11] [[1;8;2];[3;8;4];[5;8;6]]).
  Proof. eexists. split; vm_compute; reflexivity. Qed.
  Example ins_ex_object : exists s', ins_run 2%Z 7 (IObject 1) false 0 s = Ok s' /\ ins_seen (s' 0) = Ok (mkdf [0;1;2] [10;11;7] [[1;2;23];[3;4;99];[5;6;21]]).
  Proof. eexists. split; vm_compute; reflexivity. Qed.
End InsExamples.
