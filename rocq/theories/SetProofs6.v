(** One row or one column, block by block. *)
From Verif Require Import Base Table ChunkModel ChunkSpec ChunkProofs GridModel GridSpec FrameSpec GridProofs GridProofs2 GridProofs3 GridProofs5 SelSpec SelModel
  SelProofs SelProofs2 SelProofs3 SelProofs4 SelProofs5 SelProofs6 SelProofs7 SetSpec SetModel SetProofs SetProofs2 SetProofs3 SetProofs4 SetProofs5.

Lemma block_index_one bins n p : bins <> [] -> p < list_sum bins ->
  exists e, block_index bins (length bins) n (IList [Z.of_nat p]) false = Ok [e]
    /\ entry_ok bins e /\ fst e = digitize bins p /\ snd e = BList [p - start_of bins (digitize bins p)]
    /\ start_of bins (digitize bins p) <= p < start_of bins (digitize bins p) + nth (digitize bins p) bins 0.
Proof.
  intros Hb Hp. cbn [block_index].
  destruct (@array_ok bins n [p] false Hb) as (A1 & A2 & A3 & _); [repeat constructor|now repeat constructor|right; cbn; lia|].
  cbn [map] in A1, A2, A3. pose proof (@locate_ok bins n p Hb Hp) as Lo. unfold locate in Lo.
  destruct (digitize_spec bins Hp) as [D1 D2]. fold (start_of bins (digitize bins p)) in D2.
  destruct (block_index_array bins n [Z.of_nat p] false) as [|[i l] rest] eqn:E; [discriminate|].
  destruct l as [|q l]; [discriminate|]. injection Lo as -> ->.
  assert (rest = [] /\ l = []) as [-> ->].
  { cbn [map concat] in A1, A3. apply (f_equal (@length nat)) in A1. rewrite app_length in A1. unfold entry_positions in A1 at 1.
    rewrite map_length in A1. cbn [fst snd barr expand length] in A1. split.
    - destruct rest as [|e' rest]; [reflexivity|]. cbn [map concat] in A1. rewrite app_length in A1. unfold entry_positions in A1 at 1. rewrite map_length in A1.
      apply Forall_cons_iff in A3 as [_ A3]. apply Forall_cons_iff in A3 as [A3 _]. cbn [map] in A3.
      destruct (expand (nth (fst (barr e')) bins 0) (snd (barr e'))); [now destruct A3|cbn in A1; lia].
    - destruct l; [reflexivity|cbn in A1; lia]. }
  eexists. split; [reflexivity|]. cbn [fst snd]. split; [|auto]. apply Forall_inv in A2. exact A2.
Qed.

(** A label that occurs once is found at its position. *)
Lemma indexer_unique {X} (eqb : X -> X -> bool) (eqb_ok : forall x y, eqb x y = true <-> x = y) labels key p :
  nth_error labels p = Some key -> (forall k, nth_error labels k = Some key -> k = p) -> get_indexer_for eqb key labels = [p].
Proof.
  unfold get_indexer_for. intros Hp Hu.
  assert (G : forall l k p0, nth_error l p0 = Some key -> (forall j, nth_error l j = Some key -> j = p0) ->
    map fst (filter (fun q => eqb (snd q) key) (combine (seq k (length l)) l)) = [k + p0]).
  { assert (G0 : forall l k, (forall j, nth_error l j <> Some key) -> filter (fun q => eqb (snd q) key) (combine (seq k (length l)) l) = []).
    { induction l as [|x t IH]; intros k Hn; [reflexivity|]. cbn [length seq combine filter snd].
      assert (eqb x key = false) as ->. { destruct (eqb x key) eqn:E; [|reflexivity]. apply eqb_ok in E. subst. now destruct (Hn 0). }
      apply IH. intros j E. now apply (Hn (S j)). }
    induction l as [|x t IH]; intros k p0 E1 E2; [destruct p0; discriminate|]. cbn [length seq combine filter snd].
    destruct p0 as [|p0].
    - cbn in E1. injection E1 as ->. rewrite (proj2 (eqb_ok key key) eq_refl). cbn [map fst]. rewrite G0; [cbn; f_equal; lia|].
      intros j E. specialize (E2 (S j) E). discriminate.
    - assert (eqb x key = false) as ->. { destruct (eqb x key) eqn:E; [|reflexivity]. apply eqb_ok in E. subst. specialize (E2 0 eq_refl). discriminate. }
      rewrite (IH (S k) p0); [f_equal; lia|exact E1|]. intros j E. specialize (E2 (S j) E). lia. }
  now rewrite (G labels 0 p Hp Hu).
Qed.

Lemma rmap_combine {X Y} (f : nat * X -> res Y) (g : nat -> X -> Y) l : forall k,
  (forall i x, nth_error l i = Some x -> f (k + i, x) = Ok (g (k + i) x)) ->
  rmap f (combine (seq k (length l)) l) = Ok (imap_from k g l).
Proof.
  induction l as [|x t IH]; intros k Hf; [reflexivity|]. cbn [length seq combine rmap imap_from].
  assert (H0 := Hf 0 x eq_refl). rewrite Nat.add_0_r in H0. rewrite H0. cbn [rbind]. rewrite IH; [reflexivity|].
  intros i y E. replace (S k + i) with (k + S i) by lia. now apply Hf.
Qed.

Lemma nth_error_combine {X Y} (l : list X) : forall (l' : list Y) k,
  nth_error (combine l l') k = match nth_error l k, nth_error l' k with Some x, Some y => Some (x, y) | _, _ => None end.
Proof.
  induction l as [|x t IH]; intros [|y t'] [|k]; cbn; try reflexivity.
  - now destruct (nth_error t k).
  - apply IH.
Qed.

Section Lines.
  Context {L H A : Type}.
  Notation dframe := (df L H A).
  Notation pf := (@pframe L H A).
  Variable leqb : L -> L -> bool.
  Variable heqb : H -> H -> bool.
  Hypothesis leqb_ok : forall x y, leqb x y = true <-> x = y.
  Hypothesis heqb_ok : forall x y, heqb x y = true <-> x = y.
  Variable min_col : nat.
  Hypothesis mc : 0 < min_col.

  Lemma block_put rows cols v rows' cols' v' (d : dframe) a b c e : wf d -> b <= nrows d -> e <= ncols d ->
    (forall p q, p < b - a -> q < e - c ->
       match last_index rows (a + p), last_index cols (c + q) with Some i, Some j => Some (v i j) | _, _ => None end
       = match last_index rows' p, last_index cols' q with Some i, Some j => Some (v' i j) | _, _ => None end) ->
    block (put rows cols v d) (a, b) (c, e) = put rows' cols' v' (block d (a, b) (c, e)).
  Proof.
    intros W Hb He Hx. assert (Wb : wf (block d (a, b) (c, e))) by now apply wf_block.
    assert (Wb' : wf (block (put rows cols v d) (a, b) (c, e))) by now apply wf_block, wf_put.
    destruct (@block_dims L H A d a b c e Hb He) as [Dn Dm].
    apply cells_ext; auto; [now apply wf_put|].
    replace (nrows (block (put rows cols v d) (a, b) (c, e))) with (nrows (block d (a, b) (c, e))) by reflexivity.
    replace (ncols (block (put rows cols v d) (a, b) (c, e))) with (ncols (block d (a, b) (c, e))) by reflexivity.
    rewrite Dn, Dm. intros p q Hp Hq. rewrite cell_put, !cell_block, cell_put by assumption. destruct (cell d (a + p) (c + q)); [|reflexivity].
    f_equal. specialize (Hx p q Hp Hq).
    destruct (last_index rows (a + p)), (last_index cols (c + q)), (last_index rows' p), (last_index cols' q); congruence.
  Qed.

  Lemma last_one x p : last_index [x] p = if x =? p then Some 0 else None.
  Proof. reflexivity. Qed.

  (** One row: the blocks of the other rows stay, those of its row change at its position. *)
  Lemma row_blocks rl (d : dframe) p (v : nat -> A) i cb ce : wf d -> list_sum rl = nrows d -> p < nrows d -> i < length rl -> ce <= ncols d ->
    block (put [p] (seq 0 (ncols d)) (fun _ j => v j) d) (start_of rl i, start_of rl i + nth i rl 0) (cb, ce)
    = if i =? digitize rl p
      then put [p - start_of rl i] (seq 0 (ce - cb)) (fun _ j => v (cb + j)) (block d (start_of rl i, start_of rl i + nth i rl 0) (cb, ce))
      else block d (start_of rl i, start_of rl i + nth i rl 0) (cb, ce).
  Proof.
    intros W Sr Hp Hi He. pose proof (@start_of_bound _ _ Hi) as Bi.
    rewrite <- Sr in Hp. destruct (digitize_spec rl Hp) as [D1 D2]. fold (start_of rl (digitize rl p)) in D2.
    destruct (Nat.eqb_spec i (digitize rl p)) as [->|N].
    - apply block_put; [exact W|lia|exact He|]. intros x q Hx Hq. rewrite !last_one, !last_index_seq.
      replace (cb + q <? ncols d) with true by (symmetry; apply Nat.ltb_lt; lia). replace (q <? ce - cb) with true by (symmetry; now apply Nat.ltb_lt).
      destruct (Nat.eqb_spec p (start_of rl (digitize rl p) + x)), (Nat.eqb_spec (p - start_of rl (digitize rl p)) x); try reflexivity; lia.
    - transitivity (put [] [] (fun _ j => v j) (block d (start_of rl i, start_of rl i + nth i rl 0) (cb, ce))).
      + apply block_put; [exact W|lia|exact He|]. intros x q Hx Hq. rewrite last_one. destruct (Nat.eqb_spec p (start_of rl i + x)) as [E|_]; [|reflexivity].
        exfalso. apply N. subst p.
        apply (@start_of_disjoint rl i (digitize rl (start_of rl i + x)) x (start_of rl i + x - start_of rl (digitize rl (start_of rl i + x)))); auto; lia.
      + now rewrite put_nil_rows by now apply wf_block.
  Qed.

  Lemma imap_cut_rows rl cl (d d' : dframe) (F : nat -> list dframe -> list dframe) :
    (forall i, i < length rl -> F i (map (block d (start_of rl i, start_of rl i + nth i rl 0)) (bounds 0 cl))
       = map (block d' (start_of rl i, start_of rl i + nth i rl 0)) (bounds 0 cl)) ->
    imap F (cut_table rl cl d) = cut_table rl cl d'.
  Proof.
    intros HF. apply nth_error_ext. intros i. rewrite imap_nth, !cut_table_nth. destruct (Nat.ltb_spec i (length rl)) as [Hi|Hi]; [|reflexivity].
    cbn [option_map]. f_equal. now apply HF.
  Qed.

  Lemma find_entry_one {Y} i (e : nat * Y) : find_entry i [e] = if fst e =? i then Some (snd e) else None.
  Proof. unfold find_entry. cbn [find]. destruct (fst e =? i); reflexivity. Qed.

  Lemma map_bounds_ext {Y} cl m (F G : nat * nat -> Y) : list_sum cl = m ->
    (forall c e, e <= m -> F (c, e) = G (c, e)) -> map F (bounds 0 cl) = map G (bounds 0 cl).
  Proof.
    intros Hs HF. apply map_ext_in. intros [c e] Hin. apply HF. pose proof (bounds_within 0 cl) as Fw. rewrite Forall_forall in Fw.
    specialize (Fw _ Hin). cbn in Fw. lia.
  Qed.

  (** [df.iloc[p, :] = a] *)
  Lemma setitem_row_scalar_ok (f : pf) d rl cl p key a : shows f d rl cl -> nth_error (dindex d) p = Some key ->
    (forall k, nth_error (dindex d) k = Some key -> k = p) ->
    exists f' rl' cl', setitem_row leqb heqb min_col key (Scalar a) f = Ok f'
      /\ shows f' (put [p] (seq 0 (ncols d)) (fun _ _ => a) d) rl' cl'.
  Proof.
    intros Sh Hk Hu. destruct Sh as ((G & Gi & Gc) & Nr & Nc & Pi & Pc). assert (W := proj1 G).
    pose proof (gridded_row_lengths G Nc) as Erl. pose proof (gridded_column_widths G Nr) as Ecl.
    destruct G as (_ & Sr & Sc & Eg & _ & _ & Cr & Cc).
    assert (Lg : length (pgrid f) = length rl) by (rewrite Eg; apply cut_table_length).
    assert (Hp : p < nrows d) by (unfold nrows; apply nth_error_Some; congruence).
    unfold setitem_row. rewrite Pi, Pc. cbn [labels rbind]. rewrite Erl, Ecl, Lg. rewrite (@indexer_unique _ leqb leqb_ok _ _ _ Hk Hu). cbn [map].
    assert (Hp' := Hp). rewrite <- Sr in Hp'.
    destruct (@block_index_one rl (length (dindex d)) p Nr Hp') as (e & -> & Eok & E1 & E2 & E3). cbn [rbind].
    set (d' := put [p] (seq 0 (ncols d)) (fun _ _ => a) d).
    unfold apply_func_to_select_indices. rewrite Eg.
    rewrite (@rmap_combine _ _ _ (fun i row => if fst e =? i then map (fun b => put [p - start_of rl i] (seq 0 (ncols b)) (fun _ _ => a) b) row else row) (cut_table rl cl d) 0).
    2:{ intros i row Hrow. cbn [fst snd plus]. rewrite cut_table_nth in Hrow. destruct (Nat.ltb_spec i (length rl)) as [Hi|]; [|discriminate]. injection Hrow as <-.
        rewrite find_entry_one. destruct (Nat.eqb_spec (fst e) i) as [Ei|]; [|reflexivity].
        rewrite rmap_map_ok with (h := fun ci => put [p - start_of rl i] (seq 0 (ncols (block d (start_of rl i, start_of rl i + nth i rl 0) ci))) (fun _ _ => a) (block d (start_of rl i, start_of rl i + nth i rl 0) ci)).
        - now rewrite map_map.
        - intros ci _. unfold setitem_builder, iloc_set. rewrite E2, <- E1, Ei. cbn [expand forallb].
          pose proof (@start_of_bound _ _ Hi). assert (nrows (block d (start_of rl i, start_of rl i + nth i rl 0) ci) = nth i rl 0) as ->.
          { unfold nrows in *. cbn [block dindex fst snd]. rewrite slice_length. lia. }
          rewrite <- E1, Ei in E3. replace (p - start_of rl i <? nth i rl 0) with true by (symmetry; apply Nat.ltb_lt; lia). cbn [andb].
          assert (forallb (fun q => q <? ncols (block d (start_of rl i, start_of rl i + nth i rl 0) ci)) (seq 0 (ncols (block d (start_of rl i, start_of rl i + nth i rl 0) ci))) = true) as ->.
          { apply forallb_forall. intros q Hq%in_seq. apply Nat.ltb_lt. lia. }
          reflexivity. }
    cbn [rbind]. fold (imap (fun i row => if fst e =? i then map (fun b => put [p - start_of rl i] (seq 0 (ncols b)) (fun _ _ => a) b) row else row) (cut_table rl cl d)).
    rewrite (@imap_cut_rows rl cl d d').
    - change (dindex d) with (dindex d'). change (dcols d) with (dcols d'). apply (@construct_shows _ _ _ _ d' rl cl); auto. now apply wf_put.
    - intros i Hi. destruct (Nat.eqb_spec (fst e) i) as [Ei|Ni].
      + rewrite map_map. apply (@map_bounds_ext _ cl (ncols d)); [exact Sc|]. intros c ce He. unfold d'.
        rewrite (@row_blocks rl d p (fun _ => a) i c ce W Sr Hp Hi He). rewrite <- E1, Ei, Nat.eqb_refl.
        f_equal. f_equal. unfold ncols in *. cbn [block dcols fst snd]. rewrite slice_length. lia.
      + apply (@map_bounds_ext _ cl (ncols d)); [exact Sc|]. intros c ce He. unfold d'.
        rewrite (@row_blocks rl d p (fun _ => a) i c ce W Sr Hp Hi He). rewrite <- E1. destruct (Nat.eqb_spec i (fst e)); [congruence|reflexivity].
  Qed.

  (** [df.iloc[p, :] = values] *)
  Lemma setitem_row_list_ok (f : pf) d rl cl p key it v : shows f d rl cl -> nth_error (dindex d) p = Some key ->
    (forall k, nth_error (dindex d) k = Some key -> k = p) -> wanted 1 (ncols d) it = Some v -> (forall a, it <> Scalar a) ->
    exists f' rl' cl', setitem_row leqb heqb min_col key it f = Ok f'
      /\ shows f' (put [p] (seq 0 (ncols d)) v d) rl' cl'.
  Proof.
    intros Sh Hk Hu Wt Ns. destruct Sh as ((G & Gi & Gc) & Nr & Nc & Pi & Pc). assert (W := proj1 G).
    pose proof (gridded_row_lengths G Nc) as Erl. pose proof (gridded_column_widths G Nr) as Ecl.
    destruct G as (_ & Sr & Sc & Eg & _ & _ & Cr & Cc).
    assert (Lg : length (pgrid f) = length rl) by (rewrite Eg; apply cut_table_length).
    assert (Hp : p < nrows d) by (unfold nrows; apply nth_error_Some; congruence).
    unfold setitem_row. rewrite Pi, Pc. cbn [labels rbind]. rewrite Erl, Lg. rewrite (@indexer_unique _ leqb leqb_ok _ _ _ Hk Hu). cbn [map].
    assert (Hp' := Hp). rewrite <- Sr in Hp'.
    destruct (@block_index_one rl (length (dindex d)) p Nr Hp') as (e & -> & Eok & E1 & E2 & E3). cbn [rbind].
    set (d' := put [p] (seq 0 (ncols d)) (fun _ j => v 0 j) d).
    assert (Ed : put [p] (seq 0 (ncols d)) v d = d').
    { apply put_ext; [exact W|]. intros x q _ _. rewrite last_one. destruct (p =? x); [|reflexivity]. reflexivity. }
    assert (Wd' : wf d') by now apply wf_put.
    assert (Full : exists g, apply_func_to_select_rows_full leqb heqb min_col (setitem_builder heqb true it) [e] (pgrid f) = Ok g /\ g = cut_table rl cl d').
    { unfold apply_func_to_select_rows_full. rewrite Eg. eexists. split.
      - apply (@rmap_combine _ _ _ (fun i row => if fst e =? i then map (block d' (start_of rl i, start_of rl i + nth i rl 0)) (bounds 0 cl) else row) (cut_table rl cl d) 0).
        intros i row Hrow. cbn [fst snd plus]. rewrite cut_table_nth in Hrow. destruct (Nat.ltb_spec i (length rl)) as [Hi|]; [|discriminate]. injection Hrow as <-.
        rewrite find_entry_one. destruct (Nat.eqb_spec (fst e) i) as [Ei|]; [|reflexivity].
        set (ri := (start_of rl i, start_of rl i + nth i rl 0)).
        unfold deploy_axis_func. rewrite (concat_cols_blocks_bounds leqb heqb leqb_ok) by assumption. cbn [rbind]. rewrite Nat.add_0_l, Sc.
        set (b := block d ri (0, ncols d)). assert (Wb : wf b) by now apply wf_block.
        assert (Hb : ncols b = ncols d) by (unfold b, ncols, block; cbn; rewrite slice_length; lia).
        pose proof (@start_of_bound _ _ Hi) as Bi.
        assert (Hbn : nrows b = nth i rl 0) by (unfold b, ri, nrows in *; cbn [block dindex fst snd]; rewrite slice_length; lia).
        rewrite <- E1, Ei in E3.
        assert (Ef : setitem_builder heqb true it (snd e) b = Ok (block d' ri (0, ncols d))).
        { transitivity (Ok (put [p - start_of rl i] (seq 0 (ncols d)) (fun _ j => v 0 j) b) : res dframe).
          - unfold setitem_builder, iloc_set. rewrite E2, <- E1, Ei. cbn [expand forallb]. rewrite Hbn, Hb.
            replace (p - start_of rl i <? nth i rl 0) with true by (symmetry; apply Nat.ltb_lt; lia). cbn [andb].
            assert (forallb (fun q => q <? ncols d) (seq 0 (ncols d)) = true) as -> by (apply forallb_forall; intros q Hq%in_seq; apply Nat.ltb_lt; lia).
            destruct it as [a|k v0|r0 c0 v0]; [now destruct (Ns a)| |]; cbn [wanted] in Wt.
            + rewrite seq_length. destruct (Nat.eqb_spec k (ncols d)); [injection Wt as <-; reflexivity|].
              destruct ((ncols d =? 1) && (k =? 1)) eqn:E; [|discriminate]. apply andb_true_iff in E as [X1 X2]. apply Nat.eqb_eq in X1, X2. lia.
            + destruct ((r0 =? 1) && (c0 =? ncols d)) eqn:E; [|discriminate]. injection Wt as <-. apply andb_true_iff in E as [X1 X2]. apply Nat.eqb_eq in X1, X2.
              rewrite seq_length, X2, X1, Nat.eqb_refl. cbn [negb length Nat.eqb]. f_equal. apply put_ext; [exact Wb|]. intros x q _ _. rewrite last_one.
              destruct (p - start_of rl i =? x); reflexivity.
          - f_equal. unfold d', ri. rewrite (@row_blocks rl d p (v 0) i 0 (ncols d) W Sr Hp Hi (le_n _)). rewrite <- E1, Ei, Nat.eqb_refl, Nat.sub_0_r. reflexivity. }
        rewrite Ef. cbn [rbind].
        assert (Wb' : wf (block d' ri (0, ncols d))) by now apply wf_block.
        assert (Hl : 0 < length cl) by (destruct cl; [easy|cbn; lia]).
        assert (Hold : map (axis_size true) (map (block d ri) (bounds 0 cl)) = cl).
        { rewrite map_map. cbn [axis_size]. unfold ncols in *. cbn. rewrite <- (@bounds_sizes (length (dcols d)) 0 cl) at 2 by lia.
          apply map_ext. intros iv. now rewrite slice_length. }
        rewrite Hold, !map_length, bounds_length.
        rewrite split_eff; auto.
        assert (Hb' : ncols (block d' ri (0, ncols d)) = ncols d) by exact Hb.
        change (eff_lens (axis_size true (block d' ri (0, ncols d))) (length cl) min_col
          (if length cl =? 1 then None
           else if negb (length cl =? length cl) || negb true then None
           else if list_sum cl =? axis_size true (block d' ri (0, ncols d)) then Some cl else None))
          with (deploy_lens (ncols (block d' ri (0, ncols d))) (length cl) min_col true cl None false).
        destruct (@deploy_lens_ok (ncols (block d' ri (0, ncols d))) (length cl) min_col true cl None false) as (_ & _ & D & _); auto; [discriminate|].
        rewrite D by (auto; lia). f_equal. apply (@map_bounds_ext _ cl (ncols d)); [exact Sc|]. intros c ce He. cbn [fst snd].
        rewrite block_iloc_cols by lia. reflexivity.
      - apply imap_cut_rows. intros i Hi. destruct (Nat.eqb_spec (fst e) i) as [Ei|Ni]; [reflexivity|].
        apply (@map_bounds_ext _ cl (ncols d)); [exact Sc|]. intros c ce He. unfold d'.
        rewrite (@row_blocks rl d p (v 0) i c ce W Sr Hp Hi He). rewrite <- E1. destruct (Nat.eqb_spec i (fst e)); [congruence|reflexivity]. }
    destruct Full as (g & Eg2 & ->).
    assert (C : exists f' rl' cl', construct (mkpf (cut_table rl cl d') (Some (dindex d)) (Some (dcols d)) None None) = Ok f' /\ shows f' d' rl' cl').
    { change (dindex d) with (dindex d'). change (dcols d) with (dcols d'). apply (@construct_shows _ _ _ _ d' rl cl); auto. }
    rewrite Ed. destruct it as [a|k v0|r0 c0 v0]; [now destruct (Ns a)| |]; rewrite Eg2; exact C.
  Qed.

  (** [df.iloc[:, q] = a] *)
  Lemma setitem_column_scalar_ok mr np kl kw ag fill jl fk (f : pf) d rl cl q key a : shows f d rl cl -> nth_error (dcols d) q = Some key ->
    (forall k, nth_error (dcols d) k = Some key -> k = q) ->
    exists f' rl' cl', setitem_column leqb heqb mr min_col np kl kw ag fill jl fk key (Scalar a) f = Ok f'
      /\ shows f' (put (seq 0 (nrows d)) [q] (fun _ _ => a) d) rl' cl'.
  Proof.
    intros Sh Hk Hu. destruct Sh as ((G & Gi & Gc) & Nr & Nc & Pi & Pc). assert (W := proj1 G).
    pose proof (gridded_row_lengths G Nc) as Erl. pose proof (gridded_column_widths G Nr) as Ecl.
    destruct G as (_ & Sr & Sc & Eg & _ & _ & Cr & Cc).
    assert (Wg : grid_width (pgrid f) = length cl) by (rewrite Eg; apply cut_table_width; exact Nr).
    assert (Hq : q < ncols d) by (unfold ncols; apply nth_error_Some; congruence).
    unfold setitem_column. rewrite Pi, Pc. cbn [labels rbind]. rewrite Erl, Ecl, Wg. rewrite (@indexer_unique _ heqb heqb_ok _ _ _ Hk Hu). cbn [map].
    assert (Hq' := Hq). rewrite <- Sc in Hq'.
    destruct (@block_index_one cl (length (dcols d)) q Nc Hq') as (e & -> & Eok & E1 & E2 & E3). cbn [rbind].
    set (d' := put (seq 0 (nrows d)) [q] (fun _ _ => a) d). assert (Wd' : wf d') by now apply wf_put.
    assert (Cell : forall j a0 b0, j < length cl -> b0 <= nrows d ->
       block d' (a0, b0) (start_of cl j, start_of cl j + nth j cl 0)
       = if fst e =? j then
           put (seq 0 (nrows (block d (a0, b0) (start_of cl j, start_of cl j + nth j cl 0))))
               (map fst (filter (fun p => existsb (heqb (snd p)) (pick (dcols (block d (a0, b0) (start_of cl j, start_of cl j + nth j cl 0))) [q - start_of cl j]))
                   (combine (seq 0 (ncols (block d (a0, b0) (start_of cl j, start_of cl j + nth j cl 0)))) (dcols (block d (a0, b0) (start_of cl j, start_of cl j + nth j cl 0))))))
               (fun _ _ => a) (block d (a0, b0) (start_of cl j, start_of cl j + nth j cl 0))
         else block d (a0, b0) (start_of cl j, start_of cl j + nth j cl 0)).
    { intros j a0 b0 Hj Hb. pose proof (@start_of_bound _ _ Hj) as Bj.
      set (b := block d (a0, b0) (start_of cl j, start_of cl j + nth j cl 0)).
      assert (Hbn : nrows b = b0 - a0) by (unfold b, nrows in *; cbn [block dindex fst snd]; rewrite slice_length; lia).
      assert (Hbm : ncols b = nth j cl 0) by (unfold b, ncols in *; cbn [block dcols fst snd]; rewrite slice_length; lia).
      assert (Hcb : forall x, x < nth j cl 0 -> nth_error (dcols b) x = nth_error (dcols d) (start_of cl j + x)).
      { intros x Hx. unfold b. cbn [block dcols fst snd]. rewrite nth_error_slice by lia. reflexivity. }
      destruct (Nat.eqb_spec (fst e) j) as [Ej|Nj].
      - rewrite <- E1, Ej in E3. apply block_put; [exact W|exact Hb|lia|]. intros x y Hx Hy. rewrite Hbn, !last_index_seq, last_one.
        replace (a0 + x <? nrows d) with true by (symmetry; apply Nat.ltb_lt; lia). replace (x <? b0 - a0) with true by (symmetry; now apply Nat.ltb_lt).
        assert (Ep : pick (dcols b) [q - start_of cl j] = [key]).
        { unfold pick. cbn [map concat]. rewrite Hcb by lia. replace (start_of cl j + (q - start_of cl j)) with q by lia. now rewrite Hk. }
        rewrite Ep.
        match goal with |- context [last_index ?l y] => set (tg := l) end.
        assert (Hin : In y tg <-> q = start_of cl j + y).
        { unfold tg. rewrite in_map_iff. split.
          - intros ([y' h] & E & Hf). cbn in E. subst y'. apply filter_In in Hf as [Hf1 Hf2]. cbn [snd existsb] in Hf2. rewrite orb_false_r in Hf2. apply heqb_ok in Hf2. subst h.
            apply In_nth_error in Hf1 as [k Hk1]. rewrite nth_error_combine in Hk1. destruct (nth_error (seq 0 (ncols b)) k) as [z|] eqn:Ez; [|discriminate].
            destruct (nth_error (dcols b) k) as [h|] eqn:Eh; [|discriminate]. injection Hk1 as -> ->.
            assert (k < ncols b) by (rewrite <- (seq_length (ncols b) 0); apply nth_error_Some; congruence).
            rewrite (nth_error_nth' _ 0) in Ez by now rewrite seq_length. rewrite seq_nth in Ez by assumption. injection Ez as <-. cbn in *.
            rewrite Hcb in Eh by lia. symmetry. now apply Hu.
          - intros Eq. exists (y, key). split; [reflexivity|]. apply filter_In. split.
            + apply (nth_error_In _ y). rewrite nth_error_combine. rewrite (nth_error_nth' _ 0) by (rewrite seq_length; lia). rewrite seq_nth by lia.
              rewrite Hcb by lia. rewrite <- Eq, Hk. reflexivity.
            + cbn. now rewrite (proj2 (heqb_ok key key) eq_refl). }
        destruct (Nat.eqb_spec q (start_of cl j + y)) as [Eq|Nq].
        + destruct (last_index tg y) eqn:El; [reflexivity|]. apply last_index_none in El. tauto.
        + destruct (last_index tg y) eqn:El; [|reflexivity]. exfalso. apply Nq, Hin.
          apply last_index_spec in El as [El _]. eapply nth_error_In; eauto.
      - transitivity (put [] [] (fun _ _ => a) b).
        + apply block_put; [exact W|exact Hb|lia|]. intros x y Hx Hy. rewrite last_one. destruct (Nat.eqb_spec q (start_of cl j + y)) as [E|_].
          2:{ destruct (last_index (seq 0 (nrows d)) (a0 + x)); reflexivity. }
          exfalso. apply Nj. rewrite E1.
          apply (@start_of_disjoint cl (digitize cl q) j (q - start_of cl (digitize cl q)) y); try lia. rewrite <- E1. exact (proj1 Eok).
        + rewrite put_nil_rows; [reflexivity|]. now apply wf_block. }
    unfold apply_func_to_select_indices. rewrite Wg, Eg.
    assert (Tr : forall dd : dframe, transp (length cl) (cut_table rl cl dd) = map (fun ci => map (fun ri => block dd ri ci) (bounds 0 rl)) (bounds 0 cl)).
    { intros dd. unfold cut_table. rewrite <- (bounds_length 0 cl) at 1. apply (transp_fun (fun ri ci => block dd ri ci)). }
    rewrite Tr.
    set (F := fun (j : nat) (col : list dframe) => if fst e =? j then map (fun b => 
       put (seq 0 (nrows b)) (map fst (filter (fun p => existsb (heqb (snd p)) (pick (dcols b) [q - start_of cl j])) (combine (seq 0 (ncols b)) (dcols b)))) (fun _ _ => a) b) col else col).
    rewrite (@rmap_combine _ _ _ F (map (fun ci => map (fun ri => block d ri ci) (bounds 0 rl)) (bounds 0 cl)) 0).
    2:{ intros j col Hcol. cbn [fst snd plus]. rewrite nth_error_map in Hcol. destruct (Nat.ltb_spec j (length cl)) as [Hj|Hj].
        2:{ rewrite (proj2 (nth_error_None _ _)) in Hcol by (rewrite bounds_length; exact Hj). discriminate. }
        rewrite nth_error_bounds in Hcol by exact Hj. cbn [option_map] in Hcol. injection Hcol as <-.
        rewrite find_entry_one. unfold F. destruct (Nat.eqb_spec (fst e) j) as [Ej|]; [|reflexivity].
        set (ci := (0 + start_of cl j, 0 + start_of cl j + nth j cl 0)) in *.
        match goal with |- rmap ?ff _ = Ok (map ?gg _) => rewrite (@rmap_map_ok _ _ _ ff (fun ri => block d ri ci) (fun ri => gg (block d ri ci))) end.
        - now rewrite map_map.
        - intros ri _. unfold setitem_builder. rewrite E2, <- E1, Ej. cbn [expand forallb].
          pose proof (@start_of_bound _ _ Hj). assert (ncols (block d ri ci) = nth j cl 0) as ->.
          { unfold ncols, ci in *. cbn [block dcols fst snd]. rewrite slice_length. lia. }
          rewrite <- E1, Ej in E3. replace (q - start_of cl j <? nth j cl 0) with true by (symmetry; apply Nat.ltb_lt; lia). reflexivity. }
    cbn [rbind]. fold (imap F (map (fun ci => map (fun ri => block d ri ci) (bounds 0 rl)) (bounds 0 cl))).
    assert (Im : imap F (map (fun ci => map (fun ri => block d ri ci) (bounds 0 rl)) (bounds 0 cl)) = transp (length cl) (cut_table rl cl d')).
    { rewrite Tr. apply nth_error_ext. intros j. rewrite imap_nth, !nth_error_map. destruct (Nat.ltb_spec j (length cl)) as [Hj|Hj].
      2:{ rewrite (proj2 (nth_error_None _ _)) by (rewrite bounds_length; exact Hj). reflexivity. }
      rewrite nth_error_bounds by exact Hj. cbn [option_map]. f_equal. rewrite Nat.add_0_l. unfold F.
      destruct (Nat.eqb_spec (fst e) j) as [Ej|Nj].
      - rewrite map_map. apply (@map_bounds_ext _ rl (nrows d)); [exact Sr|]. intros a0 b0 Hb. rewrite (Cell j a0 b0 Hj Hb).
        now rewrite (proj2 (Nat.eqb_eq _ _) Ej).
      - apply (@map_bounds_ext _ rl (nrows d)); [exact Sr|]. intros a0 b0 Hb. rewrite (Cell j a0 b0 Hj Hb).
        now rewrite (proj2 (Nat.eqb_neq _ _) Nj). }
    rewrite Im.
    replace (length (cut_table rl cl d)) with (length (cut_table rl cl d')) by now rewrite !cut_table_length.
    rewrite transp_involutive.
    - change (dindex d) with (dindex d'). change (dcols d) with (dcols d'). apply (@construct_shows _ _ _ _ d' rl cl); auto.
    - apply Forall_forall. intros row Hrow. unfold cut_table in Hrow. apply in_map_iff in Hrow as (ri & <- & _). now rewrite map_length, bounds_length.
  Qed.
End Lines.
