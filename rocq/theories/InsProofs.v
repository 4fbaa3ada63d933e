(** A scalar inserted as a column. *)
From Verif Require Import Base Table ChunkModel ChunkSpec ChunkProofs GridModel GridSpec FrameSpec GridProofs GridProofs2 GridProofs3 GridProofs5 SelSpec SelModel
  SelProofs SelProofs2 SelProofs3 SelProofs4 SelProofs5 SelProofs6 SelProofs7 JoinSpec JoinModel JoinProofs JoinProofs2 JoinProofs3 JoinProofs4 JoinProofs5 JoinProps
  SetSpec SetModel SetProofs SetProofs2 SetProofs3 SetProofs4 SetProofs5 SetProofs6 SetProofs7 RemProofs3 InsSpec InsModel.

Lemma nth_error_firstn_i {X} (l : list X) : forall n i, i < n -> nth_error (firstn n l) i = nth_error l i.
Proof. induction l as [|x l IH]; intros [|n] [|i] Hi; try reflexivity; try lia. cbn. apply IH. lia. Qed.
Lemma nth_error_skipn_i {X} (l : list X) : forall n i, nth_error (skipn n l) i = nth_error l (n + i).
Proof. induction l as [|x l IH]; intros [|n] i; try reflexivity; [now destruct i|]. cbn. apply IH. Qed.
Lemma slice_nth {X} (l : list X) a b i : nth_error (slice l a b) i = if i <? b - a then nth_error l (a + i) else None.
Proof. destruct (Nat.ltb_spec i (b - a)) as [Hi|Hi]; [now apply nth_error_slice|]. apply nth_error_None. rewrite slice_length. lia. Qed.

Lemma insert_at_length {X} p (x : X) l : p <= length l -> length (insert_at p x l) = S (length l).
Proof. intros Hp. unfold insert_at. rewrite app_length. cbn [length]. rewrite firstn_length, skipn_length. lia. Qed.
Lemma insert_at_nth {X} p (x : X) l i : p <= length l ->
  nth_error (insert_at p x l) i = if i <? p then nth_error l i else if i =? p then Some x else nth_error l (i - 1).
Proof.
  intros Hp. unfold insert_at. destruct (Nat.ltb_spec i p) as [Hi|Hi].
  - rewrite nth_error_app1 by (rewrite firstn_length; lia). now apply nth_error_firstn_i.
  - rewrite nth_error_app2 by (rewrite firstn_length; lia). rewrite firstn_length. replace (Nat.min p (length l)) with p by lia.
    destruct (Nat.eqb_spec i p) as [->|Hn]; [now rewrite Nat.sub_diag|].
    replace (i - p) with (S (i - p - 1)) by lia. cbn [nth_error]. rewrite nth_error_skipn_i. f_equal. lia.
Qed.

Lemma slice_insert_before {X} p (x : X) l a b : p <= length l -> b <= p -> slice (insert_at p x l) a b = slice l a b.
Proof.
  intros Hp Hb. apply nth_error_ext. intros i. rewrite !slice_nth. destruct (Nat.ltb_spec i (b - a)) as [Hi|]; [|reflexivity].
  rewrite insert_at_nth by assumption. destruct (Nat.ltb_spec (a + i) p); [reflexivity|lia].
Qed.
Lemma slice_insert_after {X} p (x : X) l a b : p <= length l -> p <= a -> slice (insert_at p x l) (S a) (S b) = slice l a b.
Proof.
  intros Hp Hb. apply nth_error_ext. intros i. rewrite !slice_nth. cbn [Nat.sub]. destruct (Nat.ltb_spec i (b - a)) as [Hi|]; [|reflexivity].
  rewrite insert_at_nth by assumption. destruct (Nat.ltb_spec (S a + i) p); [lia|]. destruct (Nat.eqb_spec (S a + i) p); [lia|]. f_equal. lia.
Qed.
Lemma slice_insert_in {X} p (x : X) l a b : p <= length l -> a <= p -> p <= b -> b <= length l ->
  slice (insert_at p x l) a (S b) = insert_at (p - a) x (slice l a b).
Proof.
  intros Hp Ha Hb Hl. apply nth_error_ext. intros i. rewrite slice_nth, insert_at_nth by assumption.
  rewrite (@insert_at_nth _ (p - a)) by (rewrite slice_length; lia). rewrite !slice_nth.
  repeat match goal with |- context [Nat.ltb ?u ?v] => destruct (Nat.ltb_spec u v) | |- context [Nat.eqb ?u ?v] => destruct (Nat.eqb_spec u v) end;
    try lia; try reflexivity; try (f_equal; lia).
Qed.

(** where a new column number [p] goes: the last block takes the column after the last *)
Lemma block_index_any bins n p : bins <> [] -> p <= list_sum bins ->
  exists k, block_index bins (length bins) n (IList [Z.of_nat p]) false = Ok [(k, BList [p - start_of bins k])]
    /\ k < length bins /\ start_of bins k <= p <= start_of bins k + nth k bins 0.
Proof.
  intros Hb Hp. destruct (exists_last Hb) as (l & w & ->). clear Hb.
  assert (Ec : cumulative (l ++ [S w]) = cumulative (l ++ [w])) by (unfold cumulative; now rewrite !removelast_last).
  destruct (@block_index_one (l ++ [S w]) n p) as (e & E1 & _ & E2 & E3 & E4).
  - now destruct l.
  - revert Hp. rewrite !list_sum_app. unfold list_sum at 2 4. cbn. lia.
  - set (k := digitize (l ++ [S w]) p) in *. assert (Hk : k < length (l ++ [S w])).
    { apply digitize_spec. revert Hp. rewrite !list_sum_app. unfold list_sum at 2 4. cbn. lia. }
    rewrite app_length in Hk. cbn [length] in Hk.
    assert (Hs : start_of (l ++ [S w]) k = start_of (l ++ [w]) k).
    { unfold start_of. rewrite !firstn_app. replace (k - length l) with 0 by lia. reflexivity. }
    assert (Hn : nth k (l ++ [S w]) 0 <= S (nth k (l ++ [w]) 0)).
    { destruct (Nat.lt_ge_cases k (length l)).
      - rewrite !app_nth1 by assumption. lia.
      - rewrite !app_nth2 by assumption. destruct (k - length l) as [|[|z]]; cbn; lia. }
    exists k. split; [|split].
    + destruct e as [e1 e2]. cbn [fst snd] in *. subst e1 e2. rewrite Hs in E1.
      rewrite <- E1. unfold block_index, block_index_array, digitize. now rewrite Ec.
    + rewrite app_length. cbn [length]. lia.
    + rewrite Hs in E4. lia.
Qed.

Lemma set_nth_length {X} k (x : X) : forall l, length (set_nth k x l) = length l.
Proof. induction k as [|k IH]; intros [|y l]; cbn; auto. Qed.
Lemma set_nth_nth k x : forall l j, k < length l -> nth j (set_nth k x l) 0 = if j =? k then x else nth j l 0.
Proof. induction k as [|k IH]; intros [|y l] [|j] Hk; cbn in *; try lia; try reflexivity. now rewrite IH by lia. Qed.
Lemma set_nth_start cl k j : k < length cl -> j <= length cl ->
  start_of (set_nth k (S (nth k cl 0)) cl) j = start_of cl j + (if k <? j then 1 else 0).
Proof.
  revert k j. induction cl as [|w cl IH]; intros k j Hk Hj; [cbn in Hk; lia|].
  destruct j as [|j]; [now rewrite !start_of_0|].
  destruct k as [|k].
  - cbn [set_nth nth]. unfold start_of. cbn [firstn]. rewrite !list_sum_cons. change (0 <? S j) with true. cbv beta iota. lia.
  - cbn [set_nth nth]. unfold start_of. cbn [firstn]. rewrite !list_sum_cons. fold (start_of (set_nth k (S (nth k cl 0)) cl) j). fold (start_of cl j).
    cbn [length] in *. rewrite IH by lia. change (S k <? S j) with (k <? j). lia.
Qed.

Section InsScalar.
  Context {L H A : Type}.
  Notation dframe := (df L H A).
  Notation pf := (@pframe L H A).
  Variable leqb : L -> L -> bool.
  Variable heqb : H -> H -> bool.
  Hypothesis leqb_ok : forall x y, leqb x y = true <-> x = y.
  Hypothesis heqb_ok : forall x y, heqb x y = true <-> x = y.
  Variables min_row : nat.
  Hypothesis mr : 0 < min_row.

  Lemma with_column_wf p c vals (d : dframe) : wf d -> p <= ncols d -> length vals = nrows d -> wf (with_column p c vals d).
  Proof.
    intros [W1 W2] Hp Hv. split; cbn.
    - rewrite map_length, combine_length. unfold nrows in *. lia.
    - rewrite insert_at_length by exact Hp. apply Forall_map, Forall_forall. intros [v r] Hin. cbn.
      apply in_combine_r in Hin. rewrite Forall_forall in W2. rewrite insert_at_length; rewrite (W2 _ Hin); auto.
  Qed.

  Lemma map_insert_before p vals (rows : list (list A)) n a b : Forall (fun r => length r = n) rows -> p <= n -> b <= p -> length vals = length rows ->
    map (fun r => slice r a b) (map (fun vr => insert_at p (fst vr) (snd vr)) (combine vals rows)) = map (fun r => slice r a b) rows.
  Proof.
    intros F Hp Hb. revert vals. induction F as [|r rows Hr F IH]; intros [|v vals] E; try discriminate; [reflexivity|].
    cbn [combine map fst snd]. rewrite slice_insert_before by lia. f_equal. apply IH. now injection E. Qed.
  Lemma map_insert_after p vals (rows : list (list A)) n a b : Forall (fun r => length r = n) rows -> p <= n -> p <= a -> length vals = length rows ->
    map (fun r => slice r (S a) (S b)) (map (fun vr => insert_at p (fst vr) (snd vr)) (combine vals rows)) = map (fun r => slice r a b) rows.
  Proof.
    intros F Hp Hb. revert vals. induction F as [|r rows Hr F IH]; intros [|v vals] E; try discriminate; [reflexivity|].
    cbn [combine map fst snd]. rewrite slice_insert_after by lia. f_equal. apply IH. now injection E. Qed.
  Lemma map_insert_in p vals (rows : list (list A)) n a b : Forall (fun r => length r = n) rows -> a <= p -> p <= b -> b <= n -> length vals = length rows ->
    map (fun r => slice r a (S b)) (map (fun vr => insert_at p (fst vr) (snd vr)) (combine vals rows))
    = map (fun vr => insert_at (p - a) (fst vr) (snd vr)) (combine vals (map (fun r => slice r a b) rows)).
  Proof.
    intros F Hp Hb Hn. revert vals. induction F as [|r rows Hr F IH]; intros [|v vals] E; try discriminate; [reflexivity|].
    cbn [combine map fst snd]. rewrite slice_insert_in by lia. f_equal. apply IH. now injection E. Qed.

  Lemma cols_before p c vals (d : dframe) a b : wf d -> p <= ncols d -> length vals = nrows d -> b <= p ->
    iloc_cols (with_column p c vals d) a b = iloc_cols d a b.
  Proof. intros [W1 W2] Hp Hv Hb. unfold iloc_cols. cbn [dindex dcols dcells with_column]. f_equal.
    - now apply slice_insert_before.
    - apply map_insert_before with (n := ncols d); auto. unfold nrows in *. congruence. Qed.
  Lemma cols_after p c vals (d : dframe) a b : wf d -> p <= ncols d -> length vals = nrows d -> p <= a ->
    iloc_cols (with_column p c vals d) (S a) (S b) = iloc_cols d a b.
  Proof. intros [W1 W2] Hp Hv Hb. unfold iloc_cols. cbn [dindex dcols dcells with_column]. f_equal.
    - now apply slice_insert_after.
    - apply map_insert_after with (n := ncols d); auto. unfold nrows in *. congruence. Qed.
  Lemma cols_in p c vals (d : dframe) a b : wf d -> p <= ncols d -> length vals = nrows d -> a <= p -> p <= b -> b <= ncols d ->
    iloc_cols (with_column p c vals d) a (S b) = with_column (p - a) c vals (iloc_cols d a b).
  Proof. intros [W1 W2] Hp Hv Ha Hb Hn. unfold iloc_cols, with_column. cbn [dindex dcols dcells]. f_equal.
    - now apply slice_insert_in.
    - apply map_insert_in with (n := ncols d); auto. unfold nrows in *. congruence. Qed.

  (** a function of a column partition that makes other columns of it *)
  Lemma deploy_cols (func : dframe -> res dframe) (d D : dframe) rl ci ci' :
    wf d -> wf D -> nrows D = nrows d -> rl <> [] -> list_sum rl = nrows d ->
    func (iloc_cols d (fst ci) (snd ci)) = Ok (iloc_cols D (fst ci') (snd ci')) ->
    deploy_axis_func leqb heqb false func (length (map (fun ri => block d ri ci) (bounds 0 rl))) true
      (map (fun ri => block d ri ci) (bounds 0 rl)) min_row None false
    = Ok (map (fun ri => block D ri ci') (bounds 0 rl)).
  Proof.
    intros W WD EN Hne Hs Hf. unfold deploy_axis_func.
    rewrite (concat_rows_blocks _ _ heqb_ok) by assumption. cbn [rbind].
    rewrite Nat.add_0_l, Hs, block_rows_full by assumption.
    rewrite Hf. cbn [rbind]. rewrite !map_length, bounds_length.
    assert (Hk : 0 < length rl) by (destruct rl; [easy|cbn; lia]).
    rewrite split_eff; auto using wf_iloc_cols.
    cbn [axis_size].
    assert (Hold : map (axis_size false) (map (fun ri => block d ri ci) (bounds 0 rl)) = rl).
    { rewrite map_map. cbn [axis_size]. unfold nrows in *. cbn.
      rewrite <- (@bounds_sizes (length (dindex d)) 0 rl) at 2 by lia.
      apply map_ext. intros iv. now rewrite slice_length. }
    rewrite Hold. change (nrows (iloc_cols D (fst ci') (snd ci'))) with (nrows D).
    destruct (@deploy_lens_ok (nrows D) (length rl) min_row true rl None false Hk mr) as (_ & _ & X & _); [discriminate|].
    unfold deploy_lens in X. rewrite X; auto; [|congruence].
    f_equal. apply map_ext. intros iv. destruct iv, ci'. apply block_iloc.
  Qed.

  Lemma insert_scalar_ok (f : pf) d rl cl p c a : shows f d rl cl -> p <= ncols d -> ~ In c (dcols d) ->
    exists f' rl' cl', insert_scalar leqb heqb min_row p c a f = Ok f'
      /\ shows f' (with_column p c (repeat a (nrows d)) d) rl' cl'.
  Proof.
    intros Sh Hp Hc. destruct Sh as ((G & Gi & Gc) & Nr & Nc & Pi & Pc). assert (W := proj1 G).
    pose proof (gridded_row_lengths G Nc) as Erl. pose proof (gridded_column_widths G Nr) as Ecl.
    destruct G as (_ & Sr & Sc & Eg & _ & _ & Cr & Cc).
    unfold insert_scalar. rewrite Pi, Pc. cbn [labels rbind]. rewrite Ecl.
    assert (Eb0 : bounds 0 rl <> []) by (destruct rl; [easy|discriminate]).
    assert (Ew : grid_width (pgrid f) = length cl).
    { rewrite Eg. unfold cut_table. rewrite (GridProofs.grid_width_map _ (n := length cl)); auto. intros x _. rewrite map_length. apply bounds_length. }
    assert (Hp' : p <= list_sum cl) by lia.
    destruct (@block_index_any cl (length (dcols d)) p Nc Hp') as (k & Ek & Hk & Bk). rewrite Ew, Ek. cbn [rbind].
    set (vals := repeat a (nrows d)). assert (Hv : length vals = nrows d) by apply repeat_length.
    set (D := with_column p c vals d). assert (WD : wf D) by now apply with_column_wf.
    set (cl' := set_nth k (S (nth k cl 0)) cl).
    assert (Lc : length cl' = length cl) by apply set_nth_length.
    assert (ED : nrows D = nrows d) by reflexivity.
    pose proof (@start_of_bound _ _ Hk) as Bb. rewrite Sc in Bb.
    unfold apply_func_to_select_cols_full. rewrite Ew.
    assert (Et : transp (length cl) (pgrid f) = map (fun ci => map (fun ri => block d ri ci) (bounds 0 rl)) (bounds 0 cl)).
    { rewrite Eg. unfold cut_table. rewrite <- (bounds_length 0 cl) at 1. apply transp_fun. }
    rewrite Et. set (parts := map (fun ci => map (fun ri => block d ri ci) (bounds 0 rl)) (bounds 0 cl)).
    set (cs := fun j => (start_of cl j, start_of cl j + nth j cl 0)). set (cs' := fun j => (start_of cl' j, start_of cl' j + nth j cl' 0)).
    assert (Hcs : forall j, j < length cl -> (j < k -> cs' j = cs j) /\ (k < j -> cs' j = (S (fst (cs j)), S (snd (cs j))))
                     /\ (j = k -> cs' j = (fst (cs k), S (snd (cs k))))).
    { intros j Hj. unfold cs, cs', cl'. rewrite set_nth_start, set_nth_nth by lia. cbn [fst snd].
      split; [|split]; intros Hjk.
      - destruct (Nat.ltb_spec k j); [lia|]. destruct (Nat.eqb_spec j k); [lia|]. f_equal; lia.
      - destruct (Nat.ltb_spec k j); [|lia]. destruct (Nat.eqb_spec j k); [lia|]. f_equal; lia.
      - subst j. rewrite Nat.ltb_irrefl, Nat.eqb_refl. f_equal; lia. }
    rewrite (@rmap_combine _ _ _ (fun j _ => map (fun ri => block D ri (cs' j)) (bounds 0 rl)) parts 0).
    2:{ intros j col Hcol. cbn [fst snd plus]. unfold parts in Hcol. rewrite nth_error_map in Hcol.
        destruct (Nat.lt_ge_cases j (length cl)) as [Hj|Hj].
        2:{ rewrite (proj2 (nth_error_None (bounds 0 cl) j)) in Hcol by (rewrite bounds_length; lia). discriminate. }
        rewrite nth_error_bounds in Hcol by assumption. cbn [option_map] in Hcol. injection Hcol as <-.
        fold (cs j). destruct (Hcs j Hj) as (H1 & H2 & H3).
        rewrite (@find_entry_one _ j (k, BList [p - start_of cl k])). cbn [fst snd].
        assert (Blk : forall (X Y : dframe) ci1 ci2, iloc_cols X (fst ci1) (snd ci1) = iloc_cols Y (fst ci2) (snd ci2) -> wf X -> wf Y ->
                    map (fun ri => block X ri ci1) (bounds 0 rl) = map (fun ri => block Y ri ci2) (bounds 0 rl)).
        { intros X Y [u1 v1] [u2 v2] E _ _. apply map_ext. intros [r1 r2]. rewrite <- !block_iloc. cbn [fst snd] in E. now rewrite E. }
        destruct (Nat.eqb_spec k j) as [->|Nk].
        - rewrite (H3 eq_refl). set (ci' := (fst (cs j), S (snd (cs j)))).
          apply (@deploy_cols (insert_builder heqb c a (BList [p - start_of cl j])) d D rl (cs j) ci'); auto.
          unfold insert_builder. cbn [expand].
          assert (Ebn : ncols (iloc_cols d (fst (cs j)) (snd (cs j))) = nth j cl 0).
          { unfold cs, ncols, iloc_cols in *. cbn [fst snd dcols]. rewrite slice_length. unfold ncols in *. lia. }
          replace (existsb (heqb c) (dcols (iloc_cols d (fst (cs j)) (snd (cs j))))) with false.
          2:{ symmetry. apply not_true_is_false. rewrite existsb_exists. intros (h & Hin & E%heqb_ok). subst h. apply Hc. cbn [iloc_cols dcols] in Hin.
              now apply RemProofs3.in_slice in Hin. }
          rewrite Ebn. replace (nth j cl 0 <? p - start_of cl j) with false by (symmetry; apply Nat.ltb_ge; lia).
          f_equal. unfold ci', D. cbn [fst snd]. rewrite cols_in; unfold cs; cbn [fst snd]; auto; try lia.
          unfold with_column, insert_at. cbn [iloc_cols dindex dcols dcells]. f_equal.
          unfold vals. destruct W as [W1 _]. unfold nrows. rewrite <- W1, <- (map_length (fun r => slice r (start_of cl j) (start_of cl j + nth j cl 0))).
          set (rows := map (fun r => slice r (start_of cl j) (start_of cl j + nth j cl 0)) (dcells d)).
          clearbody rows. clear. induction rows as [|r rows IH]; [reflexivity|]. cbn [length repeat combine map fst snd]. now rewrite IH.
        - f_equal. apply Blk; auto. destruct (Nat.lt_trichotomy j k) as [Hjk|[Hjk|Hjk]]; [|lia|].
          + rewrite (H1 Hjk). unfold D. symmetry. apply cols_before; auto. unfold cs. cbn [fst snd].
            rewrite <- start_of_S by assumption. transitivity (start_of cl k); [apply start_of_mono; lia|lia].
          + rewrite (H2 Hjk). cbn [fst snd]. unfold D. symmetry. apply cols_after; auto. unfold cs. cbn [fst].
            transitivity (start_of cl (S k)); [rewrite start_of_S by assumption; lia|apply start_of_mono; lia]. }
    cbn [rbind].
    assert (Eparts : imap_from 0 (fun j (_ : list dframe) => map (fun ri => block D ri (cs' j)) (bounds 0 rl)) parts
       = map (fun ci => map (fun ri => block D ri ci) (bounds 0 rl)) (bounds 0 cl')).
    { fold (imap (fun j (_ : list dframe) => map (fun ri => block D ri (cs' j)) (bounds 0 rl)) parts).
      apply nth_error_ext. intros j. rewrite imap_nth, nth_error_map. unfold parts. rewrite nth_error_map.
      destruct (Nat.lt_ge_cases j (length cl)) as [Hj|Hj].
      - rewrite !nth_error_bounds by lia. cbn [option_map]. reflexivity.
      - rewrite !(proj2 (nth_error_None _ _)) by (rewrite bounds_length; lia). reflexivity. }
    rewrite Eparts.
    assert (Egr : transp (length (pgrid f)) (map (fun ci => map (fun ri => block D ri ci) (bounds 0 rl)) (bounds 0 cl')) = cut_table rl cl' D).
    { rewrite Eg, cut_table_length. rewrite <- (bounds_length 0 rl) at 1. rewrite (transp_fun (fun ci ri => block D ri ci)). reflexivity. }
    rewrite Egr. change (firstn p (dcols d) ++ c :: skipn p (dcols d)) with (dcols D). change (Some (dindex d)) with (Some (dindex D)).
    apply (@construct_shows L H A _ D rl cl'); auto.
    - rewrite <- (start_of_all cl'), Lc. unfold cl'. rewrite set_nth_start by lia. rewrite (proj2 (Nat.ltb_lt _ _) Hk), start_of_all, Sc.
      unfold ncols, D. cbn [dcols with_column]. rewrite insert_at_length by exact Hp. lia.
    - intros E. rewrite E in Lc. destruct cl; [easy|discriminate].
  Qed.
End InsScalar.
