(** first_valid_index, last_valid_index and mode (C78). *)
From Verif Require Import Base Table GridSpec ChunkSpec ChunkModel ChunkProofs GridModel FrameSpec GridProofs GridProofs2 GridProofs3 GridProofs4 GridProofs5 SelProofs5
  RemSpec RemModel RemProofs2 RemProofs3 FilSpec FilModel FilProofs FilProofs2.

Lemma nth_error_firstn_lt {X} (l : list X) : forall n i, i < n -> nth_error (firstn n l) i = nth_error l i.
Proof. induction l as [|x l IH]; intros [|n] [|i] Hi; try reflexivity; try lia. cbn. apply IH. lia. Qed.

Section Positions.
  Context {V : Type}.
  Notation cell := (option V).
  Lemma first_at_spec (col : list cell) : forall k, match first_at k col with
    | Some p => k <= p /\ (exists v, nth_error col (p - k) = Some (Some v)) /\ forall j, j < p - k -> nth_error col j = Some None
    | None => existsb valid col = false
    end.
  Proof. induction col as [|[v|] col IH]; intros k; cbn [first_at existsb valid orb]; auto.
    - rewrite Nat.sub_diag. split; [lia|]. split; [now exists v|]. intros. lia.
    - specialize (IH (S k)). destruct (first_at (S k) col) as [p|]; auto. destruct IH as (H1 & H2 & H3). split; [lia|].
      replace (p - k) with (S (p - S k)) by lia. split; [exact H2|]. intros [|j] J; auto. cbn. apply H3. lia. Qed.
  Lemma last_at_spec (col : list cell) : forall k, match last_at k col with
    | Some p => k <= p /\ (exists v, nth_error col (p - k) = Some (Some v)) /\ forall j v, p - k < j -> nth_error col j <> Some (Some v)
    | None => existsb valid col = false
    end.
  Proof. induction col as [|c col IH]; intros k; cbn [last_at existsb]; auto.
    specialize (IH (S k)). destruct (last_at (S k) col) as [p|].
    - destruct IH as (H1 & H2 & H3). split; [lia|]. replace (p - k) with (S (p - S k)) by lia. split; [exact H2|]. intros [|j] v J; [lia|]. cbn. apply H3. lia.
    - destruct c as [v|]; cbn; auto. rewrite Nat.sub_diag. split; [lia|]. split; [now exists v|]. intros [|j] w J; [lia|]. cbn. intros E.
      apply nth_error_In in E. apply not_true_iff_false in IH. apply IH. apply existsb_exists. eauto. Qed.

  Context {L : Type}.
  Lemma first_row (rows : list (list cell)) : forall (index : list L) n r, length index = length rows ->
    nth_error rows n = Some r -> existsb valid r = true -> (forall j r', j < n -> nth_error rows j = Some r' -> existsb valid r' = false) ->
    match filter (fun lr => existsb valid (snd lr)) (combine index rows) with [] => None | lr :: _ => Some (fst lr) end = nth_error index n.
  Proof. induction rows as [|r0 rows IH]; intros [|l index] n r Len Hn Hr Hb; try discriminate; [destruct n; discriminate|].
    cbn [combine filter snd]. destruct n as [|n].
    - injection Hn as ->. now rewrite Hr.
    - rewrite (Hb 0 r0) by (auto; lia). cbn. apply (IH index n r); auto. intros j r' J. apply (Hb (S j) r'). lia. Qed.
  Lemma last_row (rows : list (list cell)) : forall (index : list L) n r, length index = length rows ->
    nth_error rows n = Some r -> existsb valid r = true -> (forall j r', n < j -> nth_error rows j = Some r' -> existsb valid r' = false) ->
    match rev (filter (fun lr => existsb valid (snd lr)) (combine index rows)) with [] => None | lr :: _ => Some (fst lr) end = nth_error index n.
  Proof. induction rows as [|r0 rows IH]; intros [|l index] n r Len Hn Hr Hb; try discriminate; [destruct n; discriminate|].
    cbn [combine filter snd]. destruct n as [|n].
    - injection Hn as ->. rewrite Hr. replace (filter _ (combine index rows)) with (@nil (L * list cell)); [reflexivity|].
      symmetry. cbn in Len. injection Len as Len. assert (Hb' : forall r', In r' rows -> existsb valid r' = false).
      { intros r' I. apply In_nth_error in I as (j & J). apply (Hb (S j) r'); auto. lia. }
      clear - Hb'. revert index. induction rows as [|r0 rows IH]; intros [|l index]; cbn [combine filter snd]; auto.
      rewrite Hb' by now left. apply IH. intros. apply Hb'. now right.
    - assert (X : nth_error index n = match rev (filter (fun lr => existsb valid (snd lr)) (combine index rows)) with [] => None | lr :: _ => Some (fst lr) end).
      { symmetry. apply (IH index n r); auto. intros j r' J. apply (Hb (S j) r'). lia. }
      cbn [nth_error]. rewrite X. assert (Y : nth_error index n <> None). { apply nth_error_Some. cbn in Len. assert (n < length rows) by (apply nth_error_Some; cbn in Hn; congruence). lia. }
      rewrite X in Y. destruct (existsb valid r0); auto. cbn [rev]. destruct (rev (filter _ _)); [easy|]. reflexivity. Qed.

  Lemma best_ints (last : bool) (ns : list nat) : ns <> [] ->
    exists n, best last (map PInt ns) = PInt n /\ In n ns /\ forall m, In m ns -> if last then m <= n else n <= m.
  Proof. induction ns as [|n ns IH]; [easy|]. intros _. destruct ns as [|n2 ns].
    - exists n. cbn. split; auto. split; auto. intros m [-> | []]. destruct last; auto.
    - destruct IH as (k & E & I & M); [discriminate|]. change (best last (map PInt (n :: n2 :: ns))) with (best2 last (PInt n) (best last (map PInt (n2 :: ns)))).
      rewrite E. cbn [best2]. destruct last.
      + exists (Nat.max n k). split; auto. split; [destruct (Nat.max_spec n k) as [[_ ->] | [_ ->]]; [now right | now left]|].
        intros m [-> | J]; [lia|]. specialize (M m J). lia.
      + exists (Nat.min n k). split; auto. split; [destruct (Nat.min_spec n k) as [[_ ->] | [_ ->]]; [now left | now right]|].
        intros m [-> | J]; [lia|]. specialize (M m J). lia. Qed.
  Lemma best_law last : tree_law (best last) (best last) (best last).
  Proof. apply (@monoid_tree_law pos pos PNan (best2 last) (fun x => x)).
    - now intros [].
    - now intros [].
    - intros [] [] []; destruct last; cbn [best2]; try reflexivity; f_equal; lia. Qed.
End Positions.

Section ValidOk.
  Context {L H V : Type}.
  Variables (leqb : L -> L -> bool) (heqb : H -> H -> bool).
  Hypothesis leqb_ok : forall x y, leqb x y = true <-> x = y.
  Hypothesis heqb_ok : forall x y, heqb x y = true <-> x = y.
  Variables (dynamic : bool) (cpus nparts min_row min_col : nat) (ul : L) (uh : H).
  Hypothesis (nparts_pos : 0 < nparts) (min_row_pos : 0 < min_row) (min_col_pos : 0 < min_col).
  Notation cell := (option V).
  Definition at_of (last : bool) (c : list cell) : nat := match (if last then last_at else first_at) 0 c with Some n => n | None => 0 end.

  Lemma at_some (last : bool) (c : list cell) : some_valid c -> (if last then last_at else first_at) 0 c = Some (at_of last c).
  Proof. unfold at_of, some_valid. intros S. destruct last.
    - assert (X := last_at_spec c 0). destruct (last_at 0 c); auto. congruence.
    - assert (X := first_at_spec c 0). destruct (first_at 0 c); auto. congruence. Qed.
  Lemma as_series_some (last : bool) (cols : list (list cell)) : Forall some_valid cols ->
    as_series (map ((if last then last_at else first_at) 0) cols) = map (fun c => PInt (at_of last c)) cols.
  Proof. intros F. assert (E : map ((if last then last_at else first_at) 0) cols = map (fun c => Some (at_of last c)) cols).
    { apply map_ext_in. intros c I. rewrite Forall_forall in F. now apply at_some, F. }
    rewrite E. unfold as_series. replace (forallb _ _) with true; [now rewrite map_map|].
    symmetry. apply forallb_forall. intros x I. apply in_map_iff in I as (c & <- & _). reflexivity. Qed.

  Lemma column_cell (d : df L H cell) c n v : wf d -> In c (columns d) -> nth_error c n = Some (Some v) ->
    exists r, nth_error (dcells d) n = Some r /\ existsb valid r = true.
  Proof. intros [W1 W2] I E. apply In_nth_error in I as (j & J). unfold columns in J.
    assert (Lj : j < ncols d). { assert (X : length (transp (ncols d) (dcells d)) = ncols d) by now apply transp_length. rewrite <- X. apply nth_error_Some. congruence. }
    assert (X := @transp_nth_error _ (ncols d) (dcells d) n j W2 Lj). rewrite J, E in X.
    destruct (nth_error (dcells d) n) as [r|]; [|discriminate]. exists r. split; auto. apply existsb_exists. exists (Some v). split; auto.
    eapply nth_error_In. symmetry. exact X. Qed.
  Lemma cell_column (d : df L H cell) n r : wf d -> nth_error (dcells d) n = Some r -> existsb valid r = true ->
    exists c v, In c (columns d) /\ nth_error c n = Some (Some v).
  Proof. intros [W1 W2] E Hr. apply existsb_exists in Hr as ([v|] & I & Hv); [|discriminate]. apply In_nth_error in I as (j & J).
    assert (Lj : j < ncols d). { rewrite Forall_forall in W2. specialize (W2 r (nth_error_In _ _ E)). unfold ncols. rewrite <- W2. apply nth_error_Some. congruence. }
    assert (X := @transp_nth_error _ (ncols d) (dcells d) n j W2 Lj). rewrite E, J in X. unfold columns.
    destruct (nth_error (transp (ncols d) (dcells d)) j) as [c|] eqn:Ec; [|discriminate]. exists c, v. split; auto. eapply nth_error_In; eauto. Qed.

  Theorem valid_index_ok (last : bool) (f : @pframe L H cell) d rl cl : shows f d rl cl -> 0 < ncols d -> Forall some_valid (columns d) ->
    exists l, (if last then last_valid d else first_valid d) = Some l
      /\ valid_index leqb heqb dynamic cpus nparts min_row min_col ul uh last f (dindex d) (dcols d) = Ok l.
  Proof. intros S Pc Fv. assert (S' := S). destruct S' as (Hh & Nr & Nc & _). assert (W : wf d) by apply Hh. assert (W' := W). destruct W' as [W1 W2].
    set (D := reduce_columns ul (fun c => PInt (at_of last c)) d).
    assert (CW := @reduce_columns_cw L H cell pos ul (fun c => PInt (at_of last c)) d W). destruct CW as (WD & ND & SD). fold D in WD, ND, SD.
    unfold valid_index. destruct (proj1 Hh) as (_ & Sr & Sc & Gr & _). rewrite Gr.
    destruct (@map_axis_column_wise_at L H cell L H pos leqb heqb heqb_ok (valid_builder ul last) d D WD ND) with (rl := rl) (cl := cl) (nparts := nparts) (m := min_row) (keep := false) (num_splits := @None nat) (lengths := @None (list nat))
      as (rl' & E1 & _ & _ & _ & _ & _ & E2 & _); auto; try discriminate.
    { intros a b. rewrite <- SD. unfold valid_builder, reduce_columns. rewrite as_series_some; auto.
      rewrite columns_iloc_cols. apply Forall_forall. intros x I. rewrite Forall_forall in Fv. apply Fv. eapply slice_incl; eauto. }
    rewrite E1. cbn [rbind]. specialize (E2 eq_refl eq_refl). cbn beta iota in E2. change (nrows D) with 1 in E2.
    destruct (get_length_list_unit nparts_pos min_row_pos) as (rest & E3 & E4). rewrite E3 in E2. injection E2 as <-.
    destruct (@finish_columns L H leqb heqb leqb_ok heqb_ok cell pos f d D rl cl rest ul uh) as (f' & Q1 & _ & _ & _ & Q5); auto.
    rewrite Q1. cbn [rbind]. specialize (Q5 Pc).
    destruct (@tree_reduce_ok L H pos leqb heqb leqb_ok heqb_ok pos pos ul uh true dynamic cpus nparts min_row min_col (best last) (best last) (best last) f' D [1] (nonzero cl)) as (m & M1 & M2); auto.
    { apply best_law. }
    { discriminate. }
    { intros Z. destruct Q5 as ((_ & _ & X & _) & _). rewrite Z in X. rewrite ND in X. change (list_sum []) with 0 in X. lia. }
    change (dindex D) with [ul] in M1. change (dcols D) with (dcols d) in M1. rewrite M1. cbn [rbind]. rewrite M2. cbn [rbind].
    unfold D. cbn [reduce_rows reduce_columns dcells map].
    assert (Nm : map (at_of last) (columns d) <> []). { intros Z. apply map_eq_nil in Z. assert (X := columns_length W). rewrite Z in X. cbn in X. lia. }
    destruct (best_ints last Nm) as (n & B1 & B2 & B3). rewrite map_map in B1. rewrite B1.
    apply in_map_iff in B2 as (c & Cn & Ci).
    assert (At : forall c, In c (columns d) -> (if last then last_at else first_at) 0 c = Some (at_of last c)).
    { intros c0 I0. rewrite Forall_forall in Fv. now apply at_some, Fv. }
    assert (exists v, nth_error c n = Some (Some v)) as (v & Ev).
    { specialize (At c Ci). destruct last.
      - assert (X := last_at_spec c 0). rewrite At, Cn, Nat.sub_0_r in X. apply X.
      - assert (X := first_at_spec c 0). rewrite At, Cn, Nat.sub_0_r in X. apply X. }
    destruct (@column_cell d c n v W Ci Ev) as (r & Rn & Rv).
    assert (Ln : n < length (dindex d)). { rewrite <- W1. apply nth_error_Some. congruence. }
    destruct (nth_error (dindex d) n) as [l|] eqn:El; [|apply nth_error_None in El; lia]. exists l. split; auto.
    rewrite <- El. destruct last.
    - unfold last_valid. apply last_row with (r := r); auto. intros j r' J Hj. apply not_true_iff_false. intros T.
      destruct (@cell_column d j r' W Hj T) as (c' & v' & I' & E'). assert (X := last_at_spec c' 0). rewrite (At c' I'), Nat.sub_0_r in X.
      destruct X as (_ & _ & X). specialize (B3 (at_of true c') (in_map _ _ _ I')). cbn in B3. now apply (X j v'); [lia|].
    - unfold first_valid. apply first_row with (r := r); auto. intros j r' J Hj. apply not_true_iff_false. intros T.
      destruct (@cell_column d j r' W Hj T) as (c' & v' & I' & E'). assert (X := first_at_spec c' 0). rewrite (At c' I'), Nat.sub_0_r in X.
      destruct X as (_ & _ & X). specialize (B3 (at_of false c') (in_map _ _ _ I')). cbn in B3. rewrite X in E' by lia. discriminate. Qed.

End ValidOk.

Section ModeOk.
  Context {L H V : Type}.
  Variables (leqb : L -> L -> bool) (heqb : H -> H -> bool).
  Hypothesis heqb_ok : forall x y, heqb x y = true <-> x = y.
  Variables (nparts min_row min_col : nat).
  Hypothesis (nparts_pos : 0 < nparts) (min_row_pos : 0 < min_row) (min_col_pos : 0 < min_col).
  Notation cell := (option V).
  Variable modes : list cell -> list cell.
  Hypothesis modes_valid : forall c, ~ In None (modes c).
  Hypothesis modes_fit : forall c, length (modes c) <= length c.

  Lemma padded_length n (l : list cell) : length (padded n l) = n.
  Proof. unfold padded. rewrite firstn_length, app_length, repeat_length. lia. Qed.
  Lemma padded_padded k n (l : list cell) : k <= n -> length l <= k -> firstn k (padded n l) = padded k l.
  Proof. intros Kn Lk. unfold padded. rewrite firstn_firstn, (Nat.min_l _ _ Kn), !firstn_app. f_equal.
    replace n with ((k - length l) + (n - (k - length l))) by lia. rewrite repeat_app, firstn_app, repeat_length, Nat.sub_diag, firstn_O, app_nil_r.
    rewrite firstn_all2 by (rewrite repeat_length; lia). replace k with ((k - length l) + (k - (k - length l))) at 3 by lia.
    rewrite repeat_app, firstn_app, repeat_length, Nat.sub_diag, firstn_O, app_nil_r. rewrite firstn_all2 by (rewrite repeat_length; lia). reflexivity. Qed.
  Definition mode_table (d : df L H cell) : df nat H cell :=
    mkdf (seq 0 (nrows d)) (dcols d) (transp (nrows d) (map (fun c => padded (nrows d) (modes c)) (columns d))).
  Lemma mode_cw : column_wise mode_table.
  Proof. intros d W. assert (W' := W). destruct W' as [W1 W2].
    assert (Pad : Forall (fun r => length r = nrows d) (map (fun c => padded (nrows d) (modes c)) (columns d))).
    { apply Forall_forall. intros x I. apply in_map_iff in I as (c & <- & _). apply padded_length. }
    split; [|split].
    - split; cbn [mode_table dindex dcols dcells].
      + rewrite seq_length. now apply transp_length.
      + assert (X := transp_rows Pad). rewrite map_length, (columns_length W) in X. exact X.
    - reflexivity.
    - intros a b. unfold mode_table. cbn [iloc_cols dindex dcols dcells]. unfold iloc_cols at 5. cbn [dindex dcols dcells]. f_equal.
      change (nrows (iloc_cols d a b)) with (nrows d). rewrite columns_iloc_cols, <- slice_map, transp_slice by exact Pad. reflexivity. Qed.

  Lemma kept_prefix {X} k m (l : list X) : length l = k + m -> kept (repeat true k ++ repeat false m) l = firstn k l.
  Proof. revert l. induction k as [|k IH]; intros l E.
    - cbn. revert l E. induction m as [|m IHm]; intros [|x l] E; try discriminate; cbn [repeat kept]; [reflexivity|]. apply IHm. cbn in E. lia.
    - destruct l as [|x l]; [discriminate|]. cbn. f_equal. apply IH. cbn in E. lia. Qed.

  Theorem mode_ok (f : @pframe L H cell) d rl cl : shows f d rl cl ->
    exists f' rl' cl', qc_mode leqb heqb nparts min_row min_col modes f (dindex d) (dcols d) = Ok f' /\ holds f' (p_mode modes d) rl' cl' /\ rl' <> [] /\ cl' <> [].
  Proof. intros S. assert (S' := S). destruct S' as (Hh & Nr & Nc & _). assert (W : wf d) by apply Hh.
    unfold qc_mode. change (mode_builder modes) with (fun t : df L H cell => Ok (mode_table t)).
    destruct (@apply_full_axis_columns L H cell nat H cell leqb heqb heqb_ok mode_table mode_cw nparts min_row min_col (Some (seq 0 (length (dindex d)))) (Some (dcols d)) true None f d rl cl (proj1 Hh)) as (x & rx & cx & Ex & Gx & Nx & Mx & Ix & Cx); auto; try discriminate.
    { intros i E. injection E as <-. cbn. unfold nrows. now cbn. }
    { intros c E. injection E as <-. reflexivity. }
    rewrite Ex. cbn [rbind].
    destruct (@dropna0_ok nat H cell Nat.eqb heqb Nat.eqb_eq (fun c => negb (valid c)) min_row min_col nparts min_row_pos min_col_pos nparts_pos AllMissing None None x (mode_table d) rx cx) as (f' & rl' & cl' & E & Hf & N1 & N2); auto.
    { split; [exact Gx|]. rewrite Ix, Cx. split; right; reflexivity. }
    exists f', rl', cl'. rewrite E. split; auto. split; auto.
    replace (p_mode modes d) with (dropna_rows (fun c => negb (valid c)) AllMissing None (mode_table d)); auto.
    set (n := nrows d). set (ms := map modes (columns d)). set (k := list_max (map (@length _) ms)).
    assert (Fm : Forall (fun c : list cell => length c = n) (columns d)) by apply (columns_rows W).
    assert (Kn : k <= n). { apply list_max_le, Forall_forall. intros x0 I. apply in_map_iff in I as (m0 & <- & I). apply in_map_iff in I as (c & <- & I).
      rewrite Forall_forall in Fm. rewrite <- (Fm c I). apply modes_fit. }
    assert (Lk : forall m0, In m0 ms -> length m0 <= k). { intros m0 I. assert (X := proj1 (list_max_le (map (@length _) ms) k) (le_n _)). rewrite Forall_forall in X. apply X. now apply in_map. }
    set (M := map (padded n) ms). assert (EM : map (fun c => padded n (modes c)) (columns d) = M) by (unfold M, ms; now rewrite map_map).
    assert (Pad : Forall (fun r => length r = n) M). { apply Forall_forall. intros r I. apply in_map_iff in I as (m0 & <- & _). apply padded_length. }
    assert (LM : length M = ncols d). { unfold M, ms. rewrite !map_length. apply (columns_length W). }
    assert (Mask : map (fun row => negb (missing (fun c => negb (valid c)) AllMissing (looked_at None row))) (dcells (mode_table d)) = repeat true k ++ repeat false (n - k)).
    { cbn [mode_table dcells missing looked_at]. fold n. rewrite EM. apply nth_error_ext. intros i. rewrite nth_error_map.
      destruct (Nat.lt_ge_cases i n) as [Hi|Hi].
      - assert (Lt : length (transp n M) = n) by now apply transp_length.
        destruct (nth_error (transp n M) i) as [row|] eqn:Er; [|apply nth_error_None in Er; lia]. cbn [option_map].
        assert (Cell : forall j, j < ncols d -> nth_error row j = match nth_error ms j with Some m0 => nth_error (padded n m0) i | None => None end).
        { intros j Hj. assert (X := @transp_nth_error _ n M j i Pad Hi). rewrite Er in X. rewrite X. unfold M. rewrite nth_error_map. now destruct (nth_error ms j). }
        assert (Lr : length row = ncols d). { assert (X := transp_rows Pad). rewrite LM in X. rewrite Forall_forall in X. apply X. eapply nth_error_In; eauto. }
        destruct (Nat.lt_ge_cases i k) as [Hk|Hk].
        + rewrite nth_error_app1 by now rewrite repeat_length. rewrite nth_error_repeat by auto. f_equal. apply negb_true_iff. apply not_true_iff_false. intros T.
          assert (exists m0, In m0 ms /\ i < length m0) as (m0 & Im & Lm).
          { destruct (Exists_dec (fun m0 : list cell => i < length m0) ms (fun m0 => lt_dec i (length m0))) as [Ex0|Nx0]; [now apply Exists_exists in Ex0|].
            exfalso. apply Forall_Exists_neg in Nx0. assert (X : list_max (map (@length _) ms) <= i).
            { apply list_max_le, Forall_forall. intros y I. apply in_map_iff in I as (m0 & <- & I). rewrite Forall_forall in Nx0. specialize (Nx0 m0 I). lia. } fold k in X. lia. }
          assert (Im' := Im). apply In_nth_error in Im as (j & Ej). assert (Hj : j < ncols d). { rewrite <- LM. unfold M. rewrite map_length. apply nth_error_Some. congruence. }
          specialize (Cell j Hj). rewrite Ej in Cell. unfold padded in Cell. rewrite nth_error_firstn_lt in Cell by auto. rewrite nth_error_app1 in Cell by auto.
          destruct (nth_error m0 i) as [[v|]|] eqn:Ev; [| |apply nth_error_None in Ev; lia].
          * rewrite forallb_forall in T. specialize (T (Some v) (nth_error_In _ _ Cell)). discriminate.
          * apply in_map_iff in Im' as (c & <- & _). apply (modes_valid c). eapply nth_error_In; eauto.
        + rewrite nth_error_app2 by now rewrite repeat_length. rewrite repeat_length, nth_error_repeat by lia. f_equal. apply negb_false_iff. apply forallb_forall. intros y I.
          apply In_nth_error in I as (j & Ej). assert (Hj : j < ncols d). { rewrite <- Lr. apply nth_error_Some. congruence. }
          rewrite (Cell j Hj) in Ej. destruct (nth_error ms j) as [m0|] eqn:Em; [|discriminate]. specialize (Lk m0 (nth_error_In _ _ Em)).
          unfold padded in Ej. rewrite nth_error_firstn_lt in Ej by auto. rewrite nth_error_app2 in Ej by lia. rewrite nth_error_repeat in Ej by lia. injection Ej as <-. reflexivity.
      - assert (Lt : length (transp n M) = n) by now apply transp_length.
        rewrite (proj2 (nth_error_None (transp n M) i)) by lia. cbn. symmetry. apply nth_error_None. rewrite app_length, !repeat_length. lia. }
    unfold dropna_rows. rewrite Mask. unfold keep_rows, p_mode. fold ms k. cbn [mode_table dindex dcols dcells]. fold n. rewrite EM. f_equal.
    - rewrite kept_prefix by (rewrite seq_length; lia). replace n with (k + (n - k)) by lia. rewrite seq_app, firstn_app, seq_length, Nat.sub_diag, firstn_O, app_nil_r.
      rewrite firstn_all2 by (rewrite seq_length; lia). reflexivity.
    - rewrite kept_prefix by (rewrite transp_length by auto; lia).
      assert (X := @transp_map_slice _ n M 0 k). rewrite Nat.sub_0_r, Nat.sub_0_r, (Nat.min_l _ _ Kn) in X. unfold slice in X at 2. rewrite Nat.sub_0_r in X. cbn [skipn] in X. rewrite <- X. f_equal.
      unfold M. rewrite map_map. apply map_ext_in. intros m0 I. unfold slice. rewrite Nat.sub_0_r. cbn [skipn]. apply padded_padded; auto. Qed.
End ModeOk.
