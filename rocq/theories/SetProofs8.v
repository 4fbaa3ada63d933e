(** [df.iloc[rows, cols] = value]: from the locators to the cells. *)
From Verif Require Import Base Table ChunkModel ChunkSpec ChunkProofs GridModel GridSpec FrameSpec GridProofs GridProofs2 GridProofs3 GridProofs5 SelSpec SelModel
  SelProofs SelProofs2 SelProofs3 SelProofs4 SelProofs5 SelProofs6 SelProofs7
  SetSpec SetModel SetProofs SetProofs2 SetProofs3 SetProofs4 SetProofs5 SetProofs6 SetProofs7.

Lemma range_all n : py_range 0 (Z.of_nat n) 1 = map Z.of_nat (seq 0 n).
Proof. unfold py_range. rewrite range_len_1. replace (Z.to_nat (Z.of_nat n - 0)) with n by lia. apply map_ext. intros k. lia. Qed.

Lemma lookup_facts n loc ps : positions n loc = Some ps -> supported n loc ->
  exists ix, compute_lookup n loc = Ok ix /\ lookup_ok n (or_all n ix) ps
    /\ (upwards loc -> should_avoid_sort (or_all n ix) = true)
    /\ (forall bins, aligned bins loc ps -> in_step bins (or_all n ix) ps).
Proof.
  intros P S. destruct (compute_lookup_ok n loc P S) as (ix & E & Se). exists ix. split; [exact E|]. split; [|split].
  - destruct ix as [ix|]; [exact Se|]. cbn in Se |- *. subst ps. split; [cbn; lia|]. split; [cbn; apply range_all|].
    apply Forall_forall. intros p Hp%in_seq. lia.
  - intros U. destruct loc as [z|a b s|x y s|m|zs]; cbn [upwards] in U; try contradiction.
    + assert (Hx : ix = None \/ exists x y, ix = Some (IRange x y (match s with Some s => s | None => 1%Z end))).
      { unfold compute_lookup, slice_indices in E. destruct a, b, s; try (injection E as <-; now left);
          (destruct (_ =? 0)%Z; [discriminate|injection E as <-; eauto]). }
      destruct Hx as [->|(x & y & ->)]; [reflexivity|]. cbn. destruct s as [s|]; [|reflexivity]. destruct (Z.gtb_spec s 0); [reflexivity|lia].
    + unfold compute_lookup in E. destruct (s =? 0)%Z; [discriminate|]. injection E as <-. cbn. destruct (Z.gtb_spec s 0); [reflexivity|lia].
  - intros bins Al. assert (St : forall a b s, or_all n ix = IRange a b s -> s = 1%Z -> unit_step loc).
    { intros x y t Eo ->. destruct loc as [z|a b s|x0 y0 s|m|zs]; cbn [unit_step].
      - unfold compute_lookup in E. destruct (existsb _ _); [destruct (wrap_all n [z]); [|discriminate]|]; injection E as <-; discriminate Eo.
      - destruct s as [s|]; [|exact I]. unfold compute_lookup, slice_indices in E.
        destruct a, b; (destruct (s =? 0)%Z; [discriminate|injection E as <-]); cbn in Eo; now injection Eo.
      - unfold compute_lookup in E. destruct (s =? 0)%Z; [discriminate|]. injection E as <-. now injection Eo.
      - unfold compute_lookup in E. injection E as <-. discriminate Eo.
      - unfold compute_lookup in E. destruct (existsb _ _); [destruct (wrap_all n zs); [|discriminate]|]; injection E as <-; discriminate Eo. }
    destruct (or_all n ix) as [a b s|zs]; cbn; [|exact I]. intros Hs. destruct (Al (St a b s eq_refl Hs)) as [Ev|Hd]; [left; exact Ev|right; exact Hd].
Qed.

Section Iloc.
  Context {L H A : Type}.
  Notation dframe := (df L H A).
  Notation pf := (@pframe L H A).
  Variable leqb : L -> L -> bool.
  Variable heqb : H -> H -> bool.
  Hypothesis leqb_ok : forall x y, leqb x y = true <-> x = y.
  Hypothesis heqb_ok : forall x y, heqb x y = true <-> x = y.
  Variables min_row min_col nparts : nat.
  Hypothesis mr : 0 < min_row.
  Hypothesis mc : 0 < min_col.
  Hypothesis np : 0 < nparts.
  Variables known_l known_w : nat -> nat -> bool.
  Variable argsort : list Z -> list nat.
  Hypothesis argsort_ok : forall l, sorts l (argsort l).
  Variable fill : A.
  Variable join : list (list L) -> list L * list (list (option nat)).

  Notation iset := (iloc_setitem leqb heqb min_row min_col nparts known_l known_w argsort fill join).

  Lemma finish (f' : pf) rows cols v (d : dframe) rl cl : wf d -> shows f' (put rows cols v d) rl cl ->
    exists d', pf_to_pandas leqb heqb f' = Ok d' /\ assigned rows cols v d d'.
  Proof.
    intros W (Hh & Hr & Hc & Xi & Xc). exists (put rows cols v d). split; [|now apply assigned_put].
    eapply pf_to_pandas_holds; [exact leqb_ok|exact heqb_ok|exact Hh|]. intros _. split; congruence.
  Qed.

  (** Cells, when neither a whole column nor a whole row is addressed. *)
  Lemma iloc_cells fk (f : pf) d rl cl row_loc col_loc rows cols it v : shows f d rl cl ->
    positions (nrows d) row_loc = Some rows -> positions (ncols d) col_loc = Some cols ->
    supported (nrows d) row_loc -> supported (ncols d) col_loc ->
    determine_setitem_axis (nrows d) (ncols d) (length rows) (length cols) (is_int row_loc) (is_int col_loc) = None ->
    wanted (length rows) (length cols) it = Some v ->
    orderly row_loc rows cols it ->
    ((forall a, it <> Scalar a) -> aligned rl row_loc rows /\ aligned cl col_loc cols) ->
    exists f' rl' cl', iset fk row_loc col_loc it f = Ok f' /\ shows f' (put rows cols v d) rl' cl'.
  Proof.
    intros Sh Pr Pc Sr Sc Ax Wt Od Al. assert (Sh' := Sh). destruct Sh' as (_ & _ & _ & Pi & Pcs).
    destruct (lookup_facts _ _ Pr Sr) as (ri & Er & Lr & Ur & Ar). destruct (lookup_facts _ _ Pc Sc) as (ci & Ec & Lc & Uc & Ac).
    unfold iloc_setitem. rewrite Pi, Pcs. cbn [labels rbind]. fold (nrows d) (ncols d). rewrite Er, Ec. cbn [rbind].
    assert (Lr2 := Lr). assert (Lc2 := Lc). destruct Lr2 as (_ & Xr & _). destruct Lc2 as (_ & Xc & _).
    rewrite Xr, Xc, !map_length, Ax. eapply write_items_ok; eauto.
    - destruct it as [a|n w|a b w]; cbn in *; auto. destruct Od as [O1 [O2|[O2|O2]]]; auto.
    - intros N. destruct (Al N) as [A1 A2]. auto.
  Qed.

  Lemma np_take_one {X} (l : list X) q : q < length l -> exists key, nth_error l q = Some key /\ np_take l [Z.of_nat q] = Ok [key].
  Proof.
    intros Hq. destruct (nth_error l q) as [key|] eqn:E; [|apply nth_error_None in E; lia]. exists key. split; [reflexivity|].
    change [Z.of_nat q] with (map Z.of_nat [q]). rewrite np_take_nat by (constructor; [exact Hq|constructor]). unfold pick. cbn. now rewrite E.
  Qed.

  Lemma full_perm n ps : NoDup ps -> Forall (fun p => p < n) ps -> length ps = n -> Permutation ps (seq 0 n).
  Proof.
    intros ND F Hl. apply NoDup_Permutation_bis; auto.
    - rewrite seq_length. lia.
    - intros p Hp. rewrite Forall_forall in F. apply in_seq. specialize (F p Hp). lia.
  Qed.

  (** One value for a whole column, in any row order. *)
  Lemma iloc_column_scalar fk (f : pf) d rl cl row_loc col_loc rows q key a : shows f d rl cl ->
    positions (nrows d) row_loc = Some rows -> positions (ncols d) col_loc = Some [q] ->
    supported (nrows d) row_loc -> supported (ncols d) col_loc ->
    determine_setitem_axis (nrows d) (ncols d) (length rows) 1 (is_int row_loc) (is_int col_loc) = Some false ->
    NoDup rows -> length rows = nrows d ->
    nth_error (dcols d) q = Some key -> (forall k, nth_error (dcols d) k = Some key -> k = q) ->
    exists f' rl' cl', iset fk row_loc col_loc (Scalar a) f = Ok f' /\ shows f' (put rows [q] (fun _ _ => a) d) rl' cl'.
  Proof.
    intros Sh Pr Pc Sr Sc Ax ND Hl Hk Hu. assert (Sh' := Sh). destruct Sh' as ((G & _) & _ & _ & Pi & Pcs). assert (W := proj1 G).
    destruct (lookup_facts _ _ Pr Sr) as (ri & Er & Lr & _). destruct (lookup_facts _ _ Pc Sc) as (ci & Ec & Lc & _).
    unfold iloc_setitem. rewrite Pi, Pcs. cbn [labels rbind]. fold (nrows d) (ncols d). rewrite Er, Ec. cbn [rbind].
    destruct Lr as (_ & Xr & Fr). destruct Lc as (_ & Xc & Fc). cbn [map] in Xc. rewrite Xr, Xc, !map_length. cbn [length]. rewrite Ax. cbn [Nat.eqb negb].
    apply Forall_cons_iff in Fc as [Hq _]. destruct (np_take_one (dcols d) Hq) as (key' & Hk' & ->). rewrite Hk in Hk'. injection Hk' as <-. cbn [rbind].
    unfold df_setitem. rewrite Pi. cbn [labels rbind].
    rewrite (@put_ext L H A rows [q] (fun _ _ => a) (seq 0 (nrows d)) [q] (fun _ _ => a) d W).
    - eapply setitem_column_scalar_ok; eauto.
    - intros p c Hp _. pose proof (full_perm ND Fr Hl) as Pm. rewrite last_index_seq, (proj2 (Nat.ltb_lt _ _) Hp).
      destruct (last_index rows p) eqn:E; [reflexivity|]. exfalso. apply last_index_none in E. apply E.
      apply (Permutation_in _ (Permutation_sym Pm)), in_seq. lia.
  Qed.

  (** Values for a whole column, rows in order. *)
  Lemma iloc_column_list fk (f : pf) d rl cl row_loc col_loc q key it v : shows f d rl cl ->
    positions (nrows d) row_loc = Some (seq 0 (nrows d)) -> positions (ncols d) col_loc = Some [q] ->
    supported (nrows d) row_loc -> supported (ncols d) col_loc ->
    determine_setitem_axis (nrows d) (ncols d) (nrows d) 1 (is_int row_loc) (is_int col_loc) = Some false ->
    0 < nrows d ->
    wanted (nrows d) 1 it = Some v -> match it with Vector n _ => n = nrows d | Matrix _ _ _ => True | Scalar _ => False end ->
    nth_error (dcols d) q = Some key -> (forall k, nth_error (dcols d) k = Some key -> k = q) ->
    exists f' rl' cl', iset fk row_loc col_loc it f = Ok f' /\ shows f' (put (seq 0 (nrows d)) [q] v d) rl' cl'.
  Proof.
    intros Sh Pr Pc Sr Sc Ax Hn Wt Hit Hk Hu. assert (Sh' := Sh). destruct Sh' as ((G & _) & _ & _ & Pi & Pcs). assert (W := proj1 G).
    destruct (lookup_facts _ _ Pr Sr) as (ri & Er & Lr & _). destruct (lookup_facts _ _ Pc Sc) as (ci & Ec & Lc & _).
    unfold iloc_setitem. rewrite Pi, Pcs. cbn [labels rbind]. fold (nrows d) (ncols d). rewrite Er, Ec. cbn [rbind].
    destruct Lr as (_ & Xr & Fr). destruct Lc as (_ & Xc & Fc). cbn [map] in Xc. rewrite Xr, Xc, !map_length, seq_length. cbn [length]. rewrite Ax. cbn [Nat.eqb negb].
    apply Forall_cons_iff in Fc as [Hq _]. destruct (np_take_one (dcols d) Hq) as (key' & Hk' & ->). rewrite Hk in Hk'. injection Hk' as <-. cbn [rbind].
    unfold df_setitem. rewrite Pi. cbn [labels rbind]. fold (nrows d).
    assert (Hv : exists w, match it with Scalar a => Scalar a | Vector m v0 => Vector (Nat.min m (nrows d)) v0
                     | Matrix r c v0 => Vector (Nat.min (r * c) (nrows d)) (fun k => v0 (k mod r) (k / r)) end = Vector (nrows d) w
              /\ forall i, i < nrows d -> w i = v i 0).
    { destruct it as [a|n w|r c w]; [contradiction| |].
      - subst n. exists w. rewrite Nat.min_id. split; [reflexivity|]. intros i Hi. cbn [wanted] in Wt.
        destruct (Nat.eqb_spec (nrows d) 1) as [E1|E1]; [|rewrite !Nat.eqb_refl in Wt; cbn in Wt]; injection Wt as <-; [|reflexivity].
        replace i with 0 by lia. reflexivity.
      - cbn [wanted] in Wt. destruct (Nat.eqb_spec r (nrows d)) as [->|]; [|discriminate]. destruct (Nat.eqb_spec c 1) as [->|]; [|discriminate].
        injection Wt as <-. exists (fun k => w (k mod nrows d) (k / nrows d)). rewrite Nat.mul_1_r, Nat.min_id. split; [reflexivity|].
        intros i Hi. now rewrite Nat.mod_small, Nat.div_small. }
    destruct Hv as (w & -> & Hw).
    rewrite (@put_ext L H A (seq 0 (nrows d)) [q] v (seq 0 (nrows d)) [q] (fun i _ => w i) d W).
    - eapply (@setitem_column_list_ok L H A); eauto.
    - intros p c Hp _. rewrite last_index_seq, (proj2 (Nat.ltb_lt _ _) Hp). cbn [last_index]. destruct (q =? c); [|reflexivity]. now rewrite Hw.
  Qed.

  (** One value for a whole row. *)
  Lemma iloc_row_scalar fk (f : pf) d rl cl row_loc col_loc cols p key a : shows f d rl cl ->
    positions (nrows d) row_loc = Some [p] -> positions (ncols d) col_loc = Some cols ->
    supported (nrows d) row_loc -> supported (ncols d) col_loc ->
    determine_setitem_axis (nrows d) (ncols d) 1 (length cols) (is_int row_loc) (is_int col_loc) = Some true ->
    NoDup cols -> length cols = ncols d ->
    nth_error (dindex d) p = Some key -> (forall k, nth_error (dindex d) k = Some key -> k = p) ->
    exists f' rl' cl', iset fk row_loc col_loc (Scalar a) f = Ok f' /\ shows f' (put [p] cols (fun _ _ => a) d) rl' cl'.
  Proof.
    intros Sh Pr Pc Sr Sc Ax ND Hl Hk Hu. assert (Sh' := Sh). destruct Sh' as ((G & _) & _ & _ & Pi & Pcs). assert (W := proj1 G).
    destruct (lookup_facts _ _ Pr Sr) as (ri & Er & Lr & _). destruct (lookup_facts _ _ Pc Sc) as (ci & Ec & Lc & _).
    unfold iloc_setitem. rewrite Pi, Pcs. cbn [labels rbind]. fold (nrows d) (ncols d). rewrite Er, Ec. cbn [rbind].
    destruct Lr as (_ & Xr & Fr). destruct Lc as (_ & Xc & Fc). cbn [map] in Xr. rewrite Xr, Xc, !map_length. cbn [length]. rewrite Ax. cbn [Nat.eqb negb].
    apply Forall_cons_iff in Fr as [Hp _]. destruct (np_take_one (dindex d) Hp) as (key' & Hk' & ->). rewrite Hk in Hk'. injection Hk' as <-. cbn [rbind].
    rewrite (@put_ext L H A [p] cols (fun _ _ => a) [p] (seq 0 (ncols d)) (fun _ _ => a) d W).
    - eapply setitem_row_scalar_ok; eauto.
    - intros r c _ Hc. pose proof (full_perm ND Fc Hl) as Pm. rewrite last_index_seq, (proj2 (Nat.ltb_lt _ _) Hc).
      destruct (last_index [p] r); [|reflexivity]. destruct (last_index cols c) eqn:E; [reflexivity|]. exfalso. apply last_index_none in E. apply E.
      apply (Permutation_in _ (Permutation_sym Pm)), in_seq. lia.
  Qed.

  (** Values for a whole row, columns in order. *)
  Lemma iloc_row_list fk (f : pf) d rl cl row_loc col_loc p key it v : shows f d rl cl ->
    positions (nrows d) row_loc = Some [p] -> positions (ncols d) col_loc = Some (seq 0 (ncols d)) ->
    supported (nrows d) row_loc -> supported (ncols d) col_loc ->
    determine_setitem_axis (nrows d) (ncols d) 1 (ncols d) (is_int row_loc) (is_int col_loc) = Some true ->
    wanted 1 (ncols d) it = Some v -> (forall a, it <> Scalar a) ->
    nth_error (dindex d) p = Some key -> (forall k, nth_error (dindex d) k = Some key -> k = p) ->
    exists f' rl' cl', iset fk row_loc col_loc it f = Ok f' /\ shows f' (put [p] (seq 0 (ncols d)) v d) rl' cl'.
  Proof.
    intros Sh Pr Pc Sr Sc Ax Wt Ns Hk Hu. assert (Sh' := Sh). destruct Sh' as ((G & _) & _ & _ & Pi & Pcs). assert (W := proj1 G).
    destruct (lookup_facts _ _ Pr Sr) as (ri & Er & Lr & _). destruct (lookup_facts _ _ Pc Sc) as (ci & Ec & Lc & _).
    unfold iloc_setitem. rewrite Pi, Pcs. cbn [labels rbind]. fold (nrows d) (ncols d). rewrite Er, Ec. cbn [rbind].
    destruct Lr as (_ & Xr & Fr). destruct Lc as (_ & Xc & Fc). cbn [map] in Xr. rewrite Xr, Xc, !map_length, seq_length. cbn [length]. rewrite Ax. cbn [Nat.eqb negb].
    apply Forall_cons_iff in Fr as [Hp _]. destruct (np_take_one (dindex d) Hp) as (key' & Hk' & ->). rewrite Hk in Hk'. injection Hk' as <-. cbn [rbind].
    eapply setitem_row_list_ok; eauto.
  Qed.
End Iloc.
