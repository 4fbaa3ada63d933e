(** C96: [df.assign]. *)
From Verif Require Import Base Table ChunkModel ChunkSpec ChunkProofs GridModel GridSpec FrameSpec GridProofs GridProofs2 GridProofs3 GridProofs5 SelSpec SelModel
  SelProofs SelProofs2 SelProofs3 SelProofs4 SelProofs5 SelProofs6 SelProofs7 JoinSpec JoinModel JoinProofs JoinProofs2 JoinProofs3 JoinProofs4 JoinProofs5 JoinProps
  SetSpec SetModel SetProofs SetProofs2 SetProofs3 SetProofs4 SetProofs5 SetProofs6 SetProofs7 InsSpec InsModel InsProofs InsProofs2 InsProps ItmSpec ItmModel ItmProofs ItmProps
  AsgSpec AsgModel.

Section C96.
  Context {L H A : Type}.
  Variable leqb : L -> L -> bool.
  Variable heqb : H -> H -> bool.
  Hypothesis leqb_ok : forall x y, leqb x y = true <-> x = y.
  Hypothesis heqb_ok : forall x y, heqb x y = true <-> x = y.
  Variables min_row min_col nparts : nat.
  Hypothesis min_row_pos : 0 < min_row.
  Hypothesis min_col_pos : 0 < min_col.
  Hypothesis nparts_pos : 0 < nparts.
  Variables known_l known_w : nat -> nat -> bool.
  Variable argsort : list Z -> list nat.
  Hypothesis argsort_ok : forall l, sorts l (argsort l).
  Variable fill : A.
  Variable outer : list (list L) -> list L * list (list (option nat)).
  Variable first_known : bool.
  Notation df_assign := (df_assign leqb heqb min_row min_col nparts known_l known_w argsort fill outer first_known).
  Notation seen := (pf_to_pandas leqb heqb).

  Lemma place_some c cols p : NoDup cols -> place_of heqb c cols = Some p -> nth_error cols p = Some c /\ forall q, nth_error cols q = Some c -> q = p.
  Proof using heqb_ok. clear - heqb_ok. revert p. induction cols as [|x cols IH]; intros p N E; [discriminate|]. inversion_clear N as [|? ? N1 N2]. cbn in E. destruct (heqb c x) eqn:Y.
    - apply heqb_ok in Y. subst x. injection E as <-. split; [reflexivity|]. intros [|q] Q; [reflexivity|]. cbn in Q. apply nth_error_In in Q. contradiction.
    - destruct (place_of heqb c cols) as [p'|]; [|discriminate]. injection E as <-. destruct (IH p' N2 eq_refl) as [E1 E2]. split; [exact E1|].
      intros [|q] Q; [|f_equal; now apply E2]. cbn in Q. injection Q as ->. rewrite (proj2 (heqb_ok c c) eq_refl) in Y. discriminate. Qed.
  Lemma place_none c cols : place_of heqb c cols = None -> ~ In c cols.
  Proof using heqb_ok. clear - heqb_ok. induction cols as [|x cols IH]; [auto|]. cbn. destruct (heqb c x) eqn:Y; [discriminate|].
    destruct (place_of heqb c cols); [discriminate|]. intros _ [->|I]; [|now apply IH]. rewrite (proj2 (heqb_ok c c) eq_refl) in Y. discriminate. Qed.
  Lemma insert_at_end {X} (x : X) l : insert_at (length l) x l = l ++ [x].
  Proof using. clear. unfold insert_at. now rewrite firstn_all, skipn_all. Qed.

  (** one column: the frame after it can be used again *)
  Lemma put_shows (s : store L H A) r d rl cl c l : shows (s r) d rl cl -> 0 < nrows d -> 0 < ncols d -> NoDup (dcols d) -> length l = nrows d ->
    exists s' rl' cl', df_assign (One c) (GList l) r s = Ok s' /\ shows (s' r) (p_put heqb c l d) rl' cl' /\ (forall i, i <> r -> s' i = s i).
  Proof using leqb_ok heqb_ok min_row_pos min_col_pos nparts_pos argsort_ok.
    intros Sh Hn Hm Nd Hl.
    assert (Pi : pindex (s r) = Some (dindex d)) by apply Sh. assert (Pc : pcols (s r) = Some (dcols d)) by apply Sh. assert (W : wf d) by apply Sh.
    unfold ItmModel.df_assign. rewrite Pi, Pc. cbn [labels rbind]. rewrite has_rows by assumption. unfold p_put. destruct (place_of heqb c (dcols d)) as [p|] eqn:Ep.
    - destruct (place_some _ Nd Ep) as [Hp Hu]. rewrite (@is_there L H A heqb heqb_ok d p c Hp). cbn [negb].
      assert (Lt : p < ncols d) by (unfold ncols; apply nth_error_Some; congruence). rewrite Hl.
      destruct (@setitem_column_list_ok L H A leqb heqb leqb_ok heqb_ok min_row min_col nparts min_row_pos min_col_pos nparts_pos known_l known_w argsort argsort_ok fill
                  (first_labels leqb) first_known (s r) d rl cl p c (fun i => nth i l fill) Sh Hn Hp Hu) as (f' & rl' & cl' & E & Sh').
      rewrite E. cbn [rbind]. exists (assign s r f'), rl', cl'. split; [reflexivity|]. rewrite assign_same.
      rewrite (@put_replaced L H A heqb heqb_ok min_row min_col nparts min_row_pos min_col_pos nparts_pos known_l known_w d p _ W Lt) in Sh'.
      replace (map (fun i => nth i l fill) (seq 0 (nrows d))) with l in Sh'; [split; [exact Sh'|intros i Hi; now apply assign_other]|]. clear - Hl.
      apply nth_error_ext. intros i. rewrite nth_error_map. destruct (Nat.lt_ge_cases i (nrows d)) as [Hi|Hi].
      + rewrite (nth_error_nth' l fill) by lia. rewrite (nth_error_nth' (seq 0 (nrows d)) 0) by (rewrite seq_length; lia). cbn. now rewrite seq_nth by lia.
      + rewrite (proj2 (nth_error_None l i)) by lia. rewrite (proj2 (nth_error_None (seq 0 (nrows d)) i)) by (rewrite seq_length; lia). reflexivity.
    - apply place_none in Ep. rewrite (@not_there L H A heqb heqb_ok d c Ep) by assumption. cbn [negb]. fold (ncols d).
      assert (Hb : (0 <= Z.of_nat (ncols d) <= Z.of_nat (ncols d))%Z) by lia. destruct (@in_bounds L H A d _ Hb) as (B1 & B2 & B3).
      unfold InsModel.df_insert. rewrite Pi, Pc. cbn [labels rbind]. change (negb (1 =? 1)) with false. cbv iota.
      rewrite not_empty by assumption. fold (nrows d). rewrite Hl, Nat.eqb_refl. cbn [negb andb].
      rewrite (@not_there L H A heqb heqb_ok d c Ep). rewrite B1, B2.
      set (e := mkdf (dindex d) [c] (map (fun x => [x]) l)).
      assert (We : wf e). { split; cbn; [rewrite map_length; exact Hl|]. apply Forall_map, Forall_forall. reflexivity. }
      destruct (@distribute_shows L H A min_row min_col nparts min_row_pos min_col_pos nparts_pos known_l known_w e We Hn eq_refl) as (v & rl1 & cl1 & E1 & S1).
      rewrite E1. cbn [rbind].
      destruct (@insert_column_ok L H A leqb heqb leqb_ok heqb_ok min_row min_col nparts min_row_pos min_col_pos nparts_pos known_l known_w argsort argsort_ok fill first_known
                (s r) v d e rl cl rl1 cl1 (Z.to_nat (Z.of_nat (ncols d))) c Sh S1 eq_refl Hn B3 (or_introl eq_refl)) as (f' & rl' & cl' & vals & E2 & Sh' & Al).
      rewrite E2. cbn [rbind]. exists (assign s r f'), rl', cl'. split; [reflexivity|]. rewrite assign_same.
      assert (vals = l) as ->.
      { destruct Al as (_ & Al & _). specialize (Al eq_refl). cbn in Al. revert Al. clear. revert l.
        induction vals as [|v vals IH]; intros [|x l] E; try discriminate; [reflexivity|]. injection E as -> E. f_equal. auto. }
      rewrite Nat2Z.id in Sh'. split; [exact Sh'|]. intros i Hi. now apply assign_other. Qed.

  Lemma put_scalar (s : store L H A) r d rl cl c a : shows (s r) d rl cl -> 0 < nrows d -> 0 < ncols d -> NoDup (dcols d) ->
    exists s' rl' cl', df_assign (One c) (GArray (Scalar a)) r s = Ok s' /\ shows (s' r) (p_put heqb c (repeat a (nrows d)) d) rl' cl' /\ (forall i, i <> r -> s' i = s i).
  Proof using leqb_ok heqb_ok min_row_pos min_col_pos nparts_pos argsort_ok.
    intros Sh Hn Hm Nd.
    assert (Pi : pindex (s r) = Some (dindex d)) by apply Sh. assert (Pc : pcols (s r) = Some (dcols d)) by apply Sh. assert (W : wf d) by apply Sh.
    unfold ItmModel.df_assign. rewrite Pi, Pc. cbn [labels rbind]. rewrite has_rows by assumption. unfold p_put. destruct (place_of heqb c (dcols d)) as [p|] eqn:Ep.
    - destruct (place_some _ Nd Ep) as [Hp Hu]. rewrite (@is_there L H A heqb heqb_ok d p c Hp). cbn [negb].
      assert (Lt : p < ncols d) by (unfold ncols; apply nth_error_Some; congruence).
      unfold df_setitem. rewrite Pi. cbn [labels rbind].
      destruct (@setitem_column_scalar_ok L H A leqb heqb heqb_ok min_col min_col_pos min_row nparts known_l known_w argsort fill (first_labels leqb) first_known
                  (s r) d rl cl p c a Sh Hp Hu) as (f' & rl' & cl' & E & Sh').
      rewrite E. cbn [rbind]. exists (assign s r f'), rl', cl'. split; [reflexivity|]. rewrite assign_same.
      rewrite (@put_replaced L H A heqb heqb_ok min_row min_col nparts min_row_pos min_col_pos nparts_pos known_l known_w d p (fun _ => a) W Lt) in Sh'.
      replace (map (fun _ => a) (seq 0 (nrows d))) with (repeat a (nrows d)) in Sh'; [split; [exact Sh'|intros i Hi; now apply assign_other]|].
      clear. generalize 0. induction (nrows d) as [|n IH]; intros x; [reflexivity|]. cbn. now rewrite <- IH.
    - apply place_none in Ep. rewrite (@not_there L H A heqb heqb_ok d c Ep) by assumption. cbn [negb]. fold (ncols d).
      assert (Hb : (0 <= Z.of_nat (ncols d) <= Z.of_nat (ncols d))%Z) by lia. destruct (@in_bounds L H A d _ Hb) as (B1 & B2 & B3).
      unfold InsModel.df_insert. rewrite Pi, Pc. cbn [labels rbind]. change (negb (1 =? 1)) with false. cbv iota.
      rewrite not_empty by assumption. cbn [negb andb].
      rewrite (@not_there L H A heqb heqb_ok d c Ep). rewrite B1, B2.
      destruct (@insert_scalar_ok L H A leqb heqb heqb_ok min_row min_row_pos (s r) d rl cl (Z.to_nat (Z.of_nat (ncols d))) c a Sh B3 Ep) as (f' & rl' & cl' & E & Sh').
      rewrite E. cbn [rbind]. exists (assign s r f'), rl', cl'. split; [reflexivity|]. rewrite assign_same. rewrite Nat2Z.id in Sh'. split; [exact Sh'|]. intros i Hi. now apply assign_other.
  Qed.

  Lemma put_shape c (l : list A) (d : df L H A) : NoDup (dcols d) -> 0 < ncols d -> nrows (p_put heqb c l d) = nrows d /\ NoDup (dcols (p_put heqb c l d)) /\ 0 < ncols (p_put heqb c l d).
  Proof using heqb_ok. clear - heqb_ok. intros Nd Hm. unfold p_put. destruct (place_of heqb c (dcols d)) eqn:E; [now repeat split|].
    split; [reflexivity|]. unfold with_column, ncols in *. cbn [dcols]. rewrite insert_at_end. split; [|rewrite app_length; lia].
    apply place_none in E. apply NoDup_rev in Nd. rewrite <- (rev_involutive (dcols d ++ [c])). apply NoDup_rev. rewrite rev_app_distr. cbn. constructor; [|exact Nd].
    intros I. apply E. now apply in_rev. Qed.

  Lemma loop_shows cols : forall (s : store L H A) k d rl cl, shows (s k) d rl cl -> 0 < nrows d -> 0 < ncols d -> NoDup (dcols d) ->
    match p_assign heqb cols d with
    | Some D => exists s' rl' cl', assign_loop leqb heqb min_row min_col nparts known_l known_w argsort fill outer first_known cols k s = Ok s'
        /\ shows (s' k) D rl' cl' /\ (forall i, i <> k -> s' i = s i)
    | None => assign_loop leqb heqb min_row min_col nparts known_l known_w argsort fill outer first_known cols k s = Err ValueError
    end.
  Proof using leqb_ok heqb_ok min_row_pos min_col_pos nparts_pos argsort_ok.
    induction cols as [|[c v] cols IH]; intros s k d rl cl Sh Hn Hm Nd; [cbn; eauto 6|].
    cbn [p_assign]. set (vals := match v with Values l => l | Same a => repeat a (nrows d) | Callable g => g d end).
    set (x := match v with Values l => GList l | Same a => GArray (Scalar a) | Callable g => GList (g d) end).
    assert (E0 : assign_loop leqb heqb min_row min_col nparts known_l known_w argsort fill outer first_known ((c, v) :: cols) k s
      = do s <- df_assign (One c) x k s; assign_loop leqb heqb min_row min_col nparts known_l known_w argsort fill outer first_known cols k s).
    { unfold x. destruct v; [reflexivity|reflexivity|]. cbn [assign_loop]. rewrite (@shows_seen L H A leqb heqb leqb_ok heqb_ok _ _ _ _ Sh). reflexivity. }
    rewrite E0. clear E0. destruct (length vals =? nrows d) eqn:El.
    - apply Nat.eqb_eq in El. 
      assert (PS : exists s' rl' cl', df_assign (One c) x k s = Ok s' /\ shows (s' k) (p_put heqb c vals d) rl' cl' /\ (forall i, i <> k -> s' i = s i)).
      { unfold x, vals in *. destruct v; [now apply put_shows with rl cl|now apply put_scalar with rl cl|now apply put_shows with rl cl]. }
      destruct PS as (s1 & rl1 & cl1 & E1 & S1 & O1). rewrite E1. cbn [rbind].
      destruct (@put_shape c vals d Nd Hm) as (P1 & P2 & P3). specialize (IH s1 k _ rl1 cl1 S1). rewrite P1 in IH. specialize (IH Hn P3 P2).
      destruct (p_assign heqb cols (p_put heqb c vals d)); [|exact IH]. destruct IH as (s' & rl' & cl' & E & S' & O'). exists s', rl', cl'. split; [exact E|]. split; [exact S'|].
      intros i Hi. rewrite O', O1 by assumption. reflexivity.
    - apply Nat.eqb_neq in El. assert (Pi : pindex (s k) = Some (dindex d)) by apply Sh. assert (Pc : pcols (s k) = Some (dcols d)) by apply Sh.
      assert (Ex : x = GList vals) by (unfold x, vals in *; destruct v; [reflexivity|now rewrite repeat_length in El|reflexivity]). rewrite Ex. clear Ex x.
      assert (E1 : df_assign (One c) (GList vals) k s = Err ValueError); [|now rewrite E1].
      destruct (place_of heqb c (dcols d)) as [p|] eqn:Ep.
      + destruct (place_some _ Nd Ep) as [Hp _].
        eapply C71_wrong_length; [exact heqb_ok|..|exact Sh|exact Hn|exact Hp|exact El]; assumption.
      + apply place_none in Ep. unfold ItmModel.df_assign. rewrite Pi, Pc. cbn [labels rbind]. rewrite has_rows by assumption. rewrite (@not_there L H A heqb heqb_ok d c Ep). cbn [negb].
        unfold InsModel.df_insert. rewrite Pi, Pc. cbn [labels rbind]. change (negb (1 =? 1)) with false. cbv iota. rewrite not_empty by assumption. fold (nrows d).
        apply Nat.eqb_neq in El. now rewrite El. Qed.

  (** C96 (partial): [df.assign(c1=v1, ...)] is the table with the columns put one after the other, functions see the columns put before them; [df] and all other
      objects stay as they are; ValueError if a value has not one entry for each row.  Values are lists, scalars or functions that give lists.
      Missing: arrays and Series as values (one at a time: C71), frames without rows or columns, repeated headers in [df]. *)
  Theorem C96_assign_partial (cols : list (H * column_value L H A)) (s : store L H A) r k d rl cl : k <> r -> shows (s r) d rl cl -> 0 < nrows d -> 0 < ncols d -> NoDup (dcols d) ->
    match p_assign heqb cols d with
    | Some D => exists s', assign_columns leqb heqb min_row min_col nparts known_l known_w argsort fill outer first_known cols r k s = Ok s'
        /\ seen (s' k) = Ok D /\ seen (s' r) = Ok d /\ (forall i, i <> k -> s' i = s i)
    | None => assign_columns leqb heqb min_row min_col nparts known_l known_w argsort fill outer first_known cols r k s = Err ValueError
    end.
  Proof using leqb_ok heqb_ok min_row_pos min_col_pos nparts_pos argsort_ok.
    intros Nk Sh Hn Hm Nd. unfold assign_columns. pose proof (@loop_shows cols (assign s k (s r)) k d rl cl) as X. rewrite assign_same in X. specialize (X Sh Hn Hm Nd).
    destruct (p_assign heqb cols d) as [D|]; [|exact X]. destruct X as (s' & rl' & cl' & E & S' & O). exists s'. split; [exact E|]. split.
    - now apply (@shows_seen L H A leqb heqb leqb_ok heqb_ok) in S'.
    - assert (O' : forall i, i <> k -> s' i = s i) by (intros i Hi; rewrite O by assumption; now apply assign_other).
      split; [|exact O']. rewrite O' by auto. now apply (@shows_seen L H A leqb heqb leqb_ok heqb_ok) in Sh. Qed.
End C96.
Print Assumptions C96_assign_partial.

Definition asg_d : df nat nat nat := mkdf [5;6;7] [1;2] [[10;20];[11;21];[12;22]].
Definition asg_frame : @pframe nat nat nat := mkpf (cut_table [2;1] [1;1] asg_d) (Some (dindex asg_d)) (Some (dcols asg_d)) (Some [2;1]) (Some [1;1]).
Lemma asg_shows : shows asg_frame asg_d [2;1] [1;1].
Proof. split; [apply holds_intro; cbn; auto; split; [reflexivity|repeat constructor]|]. repeat split; discriminate. Qed.
(** [df.assign(3=[7, 8, 9], 1=lambda x: x[3] + x[1], 4=lambda x: x[1], 2=0)] *)
Definition asg_cols : list (nat * column_value nat nat nat) :=
  [(3, Values [7;8;9]); (1, Callable (fun t => map (fun r => nth 2 r 0 + nth 0 r 0) (dcells t))); (4, Callable (fun t => map (fun r => nth 0 r 0) (dcells t))); (2, Same 0)].
Definition asg_store : store nat nat nat := fun _ => asg_frame.
Definition asg_run cols := assign_columns Nat.eqb Nat.eqb 1 1 2 (fun _ _ => true) (fun _ _ => true) zargsort 0 (fun _ => ([], [])) true cols 0 1 asg_store.
(** the hypotheses are met *)
Example C96_case : exists s', asg_run asg_cols = Ok s'
  /\ pf_to_pandas Nat.eqb Nat.eqb (s' 1) = Ok (mkdf [5;6;7] [1;2;3;4] [[17;0;7;17];[19;0;8;19];[21;0;9;21]])
  /\ pf_to_pandas Nat.eqb Nat.eqb (s' 0) = Ok asg_d /\ forall i, i <> 1 -> s' i = asg_store i.
Proof.
  refine (@C96_assign_partial nat nat nat Nat.eqb Nat.eqb Nat.eqb_eq Nat.eqb_eq 1 1 2 Nat.lt_0_1 Nat.lt_0_1 Nat.lt_0_2 (fun _ _ => true) (fun _ _ => true) zargsort zargsort_ok
    0 (fun _ => ([], [])) true asg_cols asg_store 0 1 asg_d [2;1] [1;1] (Nat.neq_succ_0 0) asg_shows _ _ _); [cbn; lia|cbn; lia|].
  repeat constructor; cbn; intuition discriminate. Qed.
Example C96_wrong_length : asg_run [(3, Values [7;8;9]); (4, Values [1])] = Err ValueError.
Proof. vm_compute. reflexivity. Qed.
