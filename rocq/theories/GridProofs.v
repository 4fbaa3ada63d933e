From Verif Require Import Base Table ChunkModel ChunkSpec ChunkProofs GridSpec GridModel.

(** * Intervals *)
Lemma slice_slice {X} (l : list X) a e x y : a + y <= e -> slice (slice l a e) x y = slice l (a + x) (a + y).
Proof. intros Hy. unfold slice. rewrite skipn_firstn_comm, firstn_firstn, skipn_skipn'.
  f_equal. lia. Qed.

Lemma slice_clip {X} (l : list X) a b : slice l a b = slice l a (Nat.min b (length l)).
Proof. unfold slice.
  destruct (Nat.le_gt_cases b (length l)); [now rewrite Nat.min_l|].
  rewrite Nat.min_r by lia. rewrite !firstn_all2; auto; rewrite skipn_length; lia. Qed.

Lemma bounds_shift a lens : map (fun iv => (a + fst iv, a + snd iv)) (bounds 0 lens) = bounds a lens.
Proof.
  enough (G : forall b, map (fun iv => (a + fst iv, a + snd iv)) (bounds b lens) = bounds (a + b) lens).
  { rewrite G. now rewrite Nat.add_0_r. }
  induction lens as [|n ns IH]; intros b; cbn; [reflexivity|]. rewrite IH.
  now rewrite Nat.add_assoc. Qed.

Lemma bounds_app a l1 l2 : bounds a (l1 ++ l2) = bounds a l1 ++ bounds (a + list_sum l1) l2.
Proof. revert a; induction l1 as [|n ns IH]; intros a; cbn; lsum.
  - now rewrite Nat.add_0_r.
  - rewrite IH. now rewrite Nat.add_assoc. Qed.

Lemma bounds_skipn a lens i : skipn i (bounds a lens) = bounds (a + list_sum (firstn i lens)) (skipn i lens).
Proof. revert a i; induction lens as [|n ns IH]; intros a [|i]; cbn; lsum; rewrite ?Nat.add_0_r; auto.
  rewrite IH. now rewrite Nat.add_assoc. Qed.

Lemma bounds_firstn a lens i : firstn i (bounds a lens) = bounds a (firstn i lens).
Proof. revert a i; induction lens as [|n ns IH]; intros a [|i]; cbn; auto. now rewrite IH. Qed.

Lemma bounds_slice a lens i j :
  slice (bounds a lens) i j = bounds (a + list_sum (firstn i lens)) (slice lens i j).
Proof. unfold slice. now rewrite bounds_skipn, bounds_firstn. Qed.

Lemma list_sum_firstn_slice lens i j : list_sum (firstn i lens) + list_sum (slice lens i j) <= list_sum lens.
Proof. rewrite <- (firstn_skipn i lens) at 3. rewrite list_sum_app. unfold slice.
  rewrite <- (firstn_skipn (j - i) (skipn i lens)) at 2. rewrite list_sum_app. lia. Qed.

Lemma bounds_within a lens : Forall (fun iv => a <= fst iv /\ snd iv <= a + list_sum lens) (bounds a lens).
Proof. revert a; induction lens as [|n ns IH]; intros a; cbn; constructor; cbn; lsum; [lia|].
  eapply Forall_impl; [|apply IH]. cbn. intros iv. lia. Qed.

Lemma bounds_nil_iff a lens : bounds a lens = [] <-> lens = [].
Proof. destruct lens; cbn; split; congruence. Qed.

(** * Blocks *)
Section Blocks.
  Context {L H A : Type}.
  Notation dframe := (df L H A).
  Variable leqb : L -> L -> bool.
  Variable heqb : H -> H -> bool.
  Hypothesis leqb_ok : forall x y, leqb x y = true <-> x = y.
  Hypothesis heqb_ok : forall x y, heqb x y = true <-> x = y.

  Lemma wf_block (d : dframe) ri ci : wf d -> wf (block d ri ci).
  Proof. intros W. destruct ri as [a b], ci as [c e]. rewrite <- block_iloc.
    now apply wf_iloc_rows, wf_iloc_cols. Qed.

  Lemma block_rows_full (d : dframe) ci : wf d -> block d (0, nrows d) ci = iloc_cols d (fst ci) (snd ci).
  Proof. intros [W _]. unfold block, iloc_cols. cbn. f_equal.
    - now apply slice_full.
    - rewrite slice_full; auto. unfold nrows. lia. Qed.

  Lemma block_cols_full (d : dframe) ri : wf d -> block d ri (0, ncols d) = iloc_rows d (fst ri) (snd ri).
  Proof. intros [W1 W2]. unfold block, iloc_rows. cbn. f_equal.
    - now apply slice_full.
    - rewrite <- map_id. apply map_ext_in. intros r Hr. apply slice_full.
      apply (Forall_slice (fst ri) (snd ri)) in W2. rewrite Forall_forall in W2.
      unfold ncols. now rewrite W2. Qed.

  Lemma iloc_rows_full (d : dframe) : wf d -> iloc_rows d 0 (nrows d) = d.
  Proof. intros [W _]. destruct d; unfold iloc_rows, nrows in *; cbn in *.
    rewrite !slice_full; auto; lia. Qed.

  Lemma iloc_cols_full (d : dframe) : wf d -> iloc_cols d 0 (ncols d) = d.
  Proof. intros W.
    pose proof (block_rows_full (0, ncols d) W) as E1. cbn [fst snd] in E1. rewrite <- E1.
    pose proof (block_cols_full (0, nrows d) W) as E2. cbn [fst snd] in E2. rewrite E2.
    now apply iloc_rows_full. Qed.

  Lemma block_iloc_rows (d : dframe) a e ci x y : a + y <= e ->
    iloc_rows (block d (a, e) ci) x y = block d (a + x, a + y) ci.
  Proof. intros Hy. unfold iloc_rows, block; cbn. rewrite slice_map, !slice_slice by assumption.
    reflexivity. Qed.

  Lemma block_iloc_cols (d : dframe) a e ri x y : a + y <= e ->
    iloc_cols (block d ri (a, e)) x y = block d ri (a + x, a + y).
  Proof. intros Hy. unfold iloc_cols, block; cbn. rewrite slice_slice by assumption.
    rewrite map_map. f_equal. apply map_ext. intros r. now apply slice_slice. Qed.

  Lemma iloc_cols_block (d : dframe) a b ci : wf d ->
    iloc_rows (iloc_cols d (fst ci) (snd ci)) a b = block d (a, b) ci.
  Proof. intros _. destruct ci. apply block_iloc. Qed.

  Lemma iloc_rows_block (d : dframe) a b ri :
    iloc_cols (iloc_rows d (fst ri) (snd ri)) a b = block d ri (a, b).
  Proof. reflexivity. Qed.

  Lemma concat_rows_blocks (d : dframe) a lens ci : wf d -> lens <> [] ->
    concat_axis leqb heqb false (map (fun ri => block d ri ci) (bounds a lens))
    = Ok (block d (a, a + list_sum lens) ci).
  Proof.
    intros W Hne. unfold concat_axis.
    destruct lens as [|n ns]; [easy|].
    set (l := map _ (bounds a (n :: ns))).
    assert (Hl : l = map (fun ri => block d ri ci) (bounds a (n :: ns))) by reflexivity.
    clearbody l. destruct l as [|b0 bs]; [discriminate|].
    unfold concatenate.
    assert (E0 : dcols b0 = slice (dcols d) (fst ci) (snd ci)) by (injection Hl as -> _; reflexivity).
    replace (forallb _ _) with true.
    2:{ symmetry. apply forallb_forall. intros e He. rewrite Hl in He.
        apply in_map_iff in He as (ri & <- & _). rewrite E0. now apply list_eqb_refl. }
    f_equal. rewrite Hl, !map_map. apply df_eq; cbn [dindex dcols dcells]; auto.
    - exact (concat_bounds (dindex d) a (n :: ns)).
    - cbn [block dcells fst snd]. rewrite <- concat_bounds, concat_map, map_map. reflexivity.
  Qed.

  Lemma concat_cols_blocks_bounds (d : dframe) a lens ri : wf d -> lens <> [] ->
    concat_axis leqb heqb true (map (fun ci => block d ri ci) (bounds a lens))
    = Ok (block d ri (a, a + list_sum lens)).
  Proof.
    intros W Hne. unfold concat_axis, concat_cols.
    destruct lens as [|n ns]; [easy|].
    set (l := map _ (bounds a (n :: ns))).
    assert (Hl : l = map (fun ci => block d ri ci) (bounds a (n :: ns))) by reflexivity.
    clearbody l. destruct l as [|b0 bs]; [discriminate|].
    assert (E0 : dindex b0 = slice (dindex d) (fst ri) (snd ri)) by (injection Hl as -> _; reflexivity).
    replace (forallb _ _) with true.
    2:{ symmetry. apply forallb_forall. intros e He. rewrite Hl in He.
        apply in_map_iff in He as (ci & <- & _). rewrite E0. now apply list_eqb_refl. }
    f_equal. unfold nrows. rewrite E0, Hl, !map_map.
    apply df_eq; cbn [dindex dcols dcells]; auto.
    - exact (concat_bounds (dcols d) a (n :: ns)).
    - set (t := slice (dcells d) (fst ri) (snd ri)).
      replace (length (slice (dindex d) (fst ri) (snd ri))) with (length t).
      2:{ unfold t. rewrite !slice_length. destruct W as [W _]. now rewrite W. }
      pose proof (fold_zipapp_map
        (map (fun (x : nat * nat) (r : list A) => slice r (fst x) (snd x)) (bounds a (n :: ns))) t) as E.
      rewrite map_map in E. etransitivity; [exact E|].
      unfold block; cbn [dcells fst snd]. apply map_ext. intros r. rewrite map_map.
      apply concat_bounds.
  Qed.

  (** The split sizes actually used by [generate_result_of_axis_func_pandas]. *)
  Definition eff_lens (n k m : nat) (lens : option (list nat)) : list nat :=
    if k =? 1 then [n]
    else match lens with
         | Some l => l
         | None => match get_length_list n k m with Ok l => l | Err _ => [] end
         end.

  Lemma split_eff (axis : bool) k (d : dframe) m lens : wf d -> 0 < k -> 0 < m ->
    split_result_of_axis_func axis k d m lens
    = Ok (map (fun iv => if axis then iloc_cols d (fst iv) (snd iv) else iloc_rows d (fst iv) (snd iv))
              (bounds 0 (eff_lens (axis_size axis d) k m lens))).
  Proof.
    intros W Hk Hm. unfold eff_lens. destruct (Nat.eqb_spec k 1) as [->|Hk1].
    - unfold split_result_of_axis_func. cbn. unfold axis_size.
      destruct axis; [now rewrite iloc_cols_full | now rewrite iloc_rows_full].
    - destruct lens as [l|]; [now apply split_result_eq|].
      destruct (get_length_list_ok (axis_size axis d) Hk Hm) as (l & E & _). rewrite E.
      rewrite (split_result_none axis d m Hk1 E). now apply split_result_eq.
  Qed.

  Lemma eff_lens_sum n k m lens : 0 < k -> 0 < m ->
    (forall l, lens = Some l -> list_sum l = n /\ (k <> 1 -> length l = k)) ->
    list_sum (eff_lens n k m lens) = n /\ length (eff_lens n k m lens) = k.
  Proof.
    intros Hk Hm Hl. unfold eff_lens. destruct (Nat.eqb_spec k 1) as [->|Hk1].
    - lsum. cbn. lia.
    - destruct lens as [l|].
      + destruct (Hl l eq_refl). auto.
      + destruct (get_length_list_ok n Hk Hm) as (l & -> & ? & ?). auto.
  Qed.
End Blocks.

Lemma grid_width_map {X Y} (f : X -> list Y) l n : l <> [] -> (forall x, In x l -> length (f x) = n) ->
  grid_width (map f l) = n.
Proof. destruct l as [|x l]; [easy|]. intros _ Hx. cbn. apply Hx. now left. Qed.

Section MapAxis.
  Context {L H A L2 H2 B : Type}.
  Variable leqb : L -> L -> bool.
  Variable heqb : H -> H -> bool.
  Hypothesis leqb_ok : forall x y, leqb x y = true <-> x = y.
  Hypothesis heqb_ok : forall x y, heqb x y = true <-> x = y.

  (** Split sizes chosen by [deploy_axis_func]. *)
  Definition deploy_lens (n k m : nat) (keep : bool) (old : list nat) (lens : option (list nat))
      (manual : bool) : list nat :=
    eff_lens n k m
      (if k =? 1 then None
       else if manual then lens
       else if negb (k =? length old) || negb keep then None
       else if list_sum old =? n then Some old else None).

  Lemma deploy_lens_ok n k m keep old lens manual : 0 < k -> 0 < m ->
    (manual = true -> exists l, lens = Some l /\ list_sum l = n /\ length l = k) ->
    list_sum (deploy_lens n k m keep old lens manual) = n
    /\ length (deploy_lens n k m keep old lens manual) = k
    /\ (keep = true -> manual = false -> k = length old -> list_sum old = n ->
        deploy_lens n k m keep old lens manual = old)
    /\ (manual = true -> lens = Some (deploy_lens n k m keep old lens manual)).
  Proof.
    intros Hk Hm Hman. unfold deploy_lens.
    match goal with |- context [eff_lens n k m ?o] => set (o' := o) end.
    assert (G : list_sum (eff_lens n k m o') = n /\ length (eff_lens n k m o') = k).
    { apply eff_lens_sum; auto. intros l E. unfold o' in E.
      destruct (Nat.eqb_spec k 1); [discriminate|].
      destruct manual.
      - destruct (Hman eq_refl) as (l' & -> & ? & ?). injection E as <-. auto.
      - destruct (negb (k =? length old) || negb keep) eqn:E1; [discriminate|].
        apply orb_false_iff in E1 as [E1 _]. apply negb_false_iff, Nat.eqb_eq in E1.
        destruct (Nat.eqb_spec (list_sum old) n); [|discriminate]. injection E as <-. auto. }
    destruct G as [G1 G2]. split; [exact G1|]. split; [exact G2|]. split.
    - intros -> -> -> Hs. unfold eff_lens in *. unfold o' in *.
      destruct (Nat.eqb_spec (length old) 1) as [E1|E1].
      + destruct old as [|x [|y l]]; try discriminate. lsum. f_equal. lia.
      + rewrite Nat.eqb_refl in *. cbn in *. now rewrite Hs, Nat.eqb_refl in *.
    - intros ->. destruct (Hman eq_refl) as (l & -> & Hs & Hl). f_equal.
      unfold eff_lens, o' in *. destruct (Nat.eqb_spec k 1) as [->|E1]; [|reflexivity].
      destruct l as [|x [|y l]]; try discriminate. lsum. f_equal. lia.
  Qed.

  Section ColumnWiseAt.
    Variable func : df L H A -> res (df L2 H2 B).
    Variable d : df L H A.
    Variable D : df L2 H2 B.
    Hypothesis WD : wf D.
    Hypothesis HD : ncols D = ncols d.
    Hypothesis at_d : forall a b, func (iloc_cols d a b) = Ok (iloc_cols D a b).

    Lemma deploy_column_wise_at rl ci k m keep lens manual :
      wf d -> rl <> [] -> list_sum rl = nrows d -> 0 < k -> 0 < m ->
      deploy_axis_func leqb heqb false func k keep
        (map (fun ri => block d ri ci) (bounds 0 rl)) m lens manual
      = Ok (map (fun ri => block D ri ci)
              (bounds 0 (deploy_lens (nrows D) k m keep rl lens manual))).
    Proof.
      intros W Hne Hs Hk Hm. unfold deploy_axis_func.
      rewrite (concat_rows_blocks _ _ heqb_ok) by assumption. cbn [rbind].
      rewrite Nat.add_0_l, Hs, block_rows_full by assumption.
      rewrite at_d. cbn [rbind].
      rewrite split_eff; auto using wf_iloc_cols.
      cbn [axis_size]. rewrite !map_length, bounds_length.
      assert (Hold : map (axis_size false) (map (fun ri => block d ri ci) (bounds 0 rl)) = rl).
      { rewrite map_map. cbn [axis_size]. unfold nrows in *. cbn.
        rewrite <- (@bounds_sizes (length (dindex d)) 0 rl) at 2 by lia.
        apply map_ext. intros iv. now rewrite slice_length. }
      rewrite Hold. unfold deploy_lens. change (nrows (iloc_cols D (fst ci) (snd ci))) with (nrows D).
      f_equal. apply map_ext. intros iv. destruct iv, ci. apply block_iloc.
    Qed.

    Lemma map_axis_column_wise_at rl cl nparts m keep num_splits lengths :
      wf d -> rl <> [] -> cl <> [] -> list_sum rl = nrows d -> list_sum cl = ncols d ->
      0 < m -> 0 < nparts -> num_splits <> Some 0 ->
      (forall l, lengths = Some l -> keep = false /\ list_sum l = nrows D) ->
      exists rl',
        map_axis_partitions leqb heqb nparts m false (cut_table rl cl d) func
          keep num_splits lengths = Ok (cut_table rl' cl D)
        /\ list_sum rl' = nrows D
        /\ (keep = true -> num_splits = None -> length rl' = length rl)
        /\ (keep = true -> num_splits = None -> nrows D = nrows d -> rl' = rl)
        /\ (forall l, lengths = Some l -> l <> [] -> rl' = l)
        /\ (lengths = None -> forall k, num_splits = Some k -> length rl' = k)
        /\ (lengths = None -> keep = false ->
            get_length_list (nrows D) (match num_splits with None => nparts | Some k => k end) m = Ok rl')
        /\ (keep = true -> num_splits = None -> nrows D <> nrows d -> get_length_list (nrows D) (length rl) m = Ok rl').
    Proof.
      intros W Hr Hc Hsr Hsc Hm Hp Hns Hlen.
      set (truthy := match lengths with Some (_ :: _) => true | _ => false end).
      set (ns := match keep, num_splits with
      | true, None => length rl
      | _, _ => match lengths with
                | Some (x :: xs) => length (x :: xs)
                | _ => match num_splits with None => nparts | Some n => n end
                end
      end).
      assert (Hns0 : 0 < ns).
      { unfold ns. assert (0 < length rl) by (destruct rl; cbn; [easy|lia]).
        destruct keep, num_splits as [n|]; auto; destruct lengths as [[|x xs]|]; cbn; try lia;
        destruct n; try lia; congruence. }
      exists (deploy_lens (nrows D) ns m keep rl (if truthy then lengths else None) truthy).
      assert (Hman : truthy = true -> exists l, (if truthy then lengths else None) = Some l
                /\ list_sum l = nrows D /\ length l = ns).
      { unfold truthy, ns. destruct lengths as [[|x xs]|]; try discriminate. intros _.
        destruct (Hlen _ eq_refl) as [-> Hl]. exists (x :: xs). auto. }
      destruct (@deploy_lens_ok (nrows D) ns m keep rl (if truthy then lengths else None) truthy Hns0 Hm Hman)
        as (D1 & D2 & D3 & D4).
      set (rl' := deploy_lens _ _ _ _ _ _ _) in *.
      split; [|split; [exact D1|]].
      - unfold map_axis_partitions.
        assert (Hkl : keep && match lengths with Some _ => true | None => false end = false).
        { destruct lengths as [l|]; [|apply andb_false_r]. now destruct (Hlen l eq_refl) as [-> _]. }
        rewrite Hkl.
        assert (Hb : bounds 0 rl <> []) by now rewrite bounds_nil_iff.
        assert (Hw : grid_width (cut_table rl cl d) = length (bounds 0 cl)).
        { unfold cut_table. apply grid_width_map; auto. intros; now rewrite map_length. }
        assert (HT : transp (grid_width (cut_table rl cl d)) (cut_table rl cl d)
                     = map (fun ci => map (fun ri => block d ri ci) (bounds 0 rl)) (bounds 0 cl)).
        { rewrite Hw. exact (transp_fun (fun ri ci => block d ri ci) (bounds 0 rl) (bounds 0 cl)). }
        rewrite HT.
        replace (match keep with
          | true => match num_splits with Some _ => _ | None => length (cut_table rl cl d) end
          | false => _ end) with ns.
        2:{ unfold ns, cut_table. rewrite map_length, bounds_length. reflexivity. }
        fold truthy.
        assert (Hrm : rmap (fun parts => deploy_axis_func leqb heqb false func ns keep parts m
                   (if truthy then lengths else None) truthy)
                 (map (fun ci => map (fun ri => block d ri ci) (bounds 0 rl)) (bounds 0 cl))
               = Ok (map (fun ci => map (fun ri => block D ri ci) (bounds 0 rl')) (bounds 0 cl))).
        { generalize (bounds 0 cl). intros cs. induction cs as [|ci cs IH]; [reflexivity|].
          cbn [map rmap]. rewrite deploy_column_wise_at by assumption. cbn [rbind]. rewrite IH. reflexivity. }
        rewrite Hrm. cbn [rbind]. f_equal.
        rewrite (@grid_width_map _ _ _ (bounds 0 cl) (length (bounds 0 rl'))).
        + exact (transp_fun (fun ci ri => block D ri ci) (bounds 0 cl) (bounds 0 rl')).
        + now rewrite bounds_nil_iff.
        + intros. now rewrite map_length.
      - assert (K : keep = true -> lengths = None).
        { intros ->. destruct lengths as [l|]; auto. now destruct (Hlen l eq_refl). }
        split; [|split; [|split; [|split; [|split]]]].
        + intros -> ->. rewrite D2. reflexivity.
        + intros -> -> Hn. apply D3; auto; [|lia]. unfold truthy. now rewrite K.
        + intros l -> Hl0. destruct l as [|x xs]; [easy|]. cbn in truthy. specialize (D4 eq_refl).
          cbn in D4. congruence.
        + intros -> k ->. rewrite D2. unfold ns. destruct keep; reflexivity.
        + intros -> ->. unfold rl', deploy_lens, eff_lens, ns in *. cbn in Hns0 |- *.
          set (q := match num_splits with None => nparts | Some k => k end) in *.
          rewrite orb_true_r. destruct (Nat.eqb_spec q 1) as [->|Hn1].
          * now apply get_length_list_one.
          * destruct (get_length_list_ok (nrows D) Hns0 Hm) as (l & -> & _). reflexivity.
        + intros -> -> Hn. pose proof (K eq_refl) as K'. subst lengths. unfold rl', deploy_lens, eff_lens, ns in *. cbn in Hns0 |- *.
          destruct (Nat.eqb_spec (length rl) 1) as [E1|Hn1].
          * rewrite E1. now apply get_length_list_one.
          * rewrite Nat.eqb_refl. cbn [negb orb]. destruct (Nat.eqb_spec (list_sum rl) (nrows D)); [lia|].
            destruct (get_length_list_ok (nrows D) Hns0 Hm) as (l & -> & _). reflexivity.
    Qed.
  End ColumnWiseAt.

  Section ColumnWise.
    Variable F : df L H A -> df L2 H2 B.
    Hypothesis CW : column_wise F.
    Lemma deploy_column_wise (d : df L H A) rl ci k m keep lens manual :
      wf d -> rl <> [] -> list_sum rl = nrows d -> 0 < k -> 0 < m ->
      deploy_axis_func leqb heqb false (fun d => Ok (F d)) k keep
        (map (fun ri => block d ri ci) (bounds 0 rl)) m lens manual
      = Ok (map (fun ri => block (F d) ri ci)
              (bounds 0 (deploy_lens (nrows (F d)) k m keep rl lens manual))).
    Proof.
      intros W ? ? ? ?. destruct (CW W) as (WF & Hn & Hcom).
      eapply deploy_column_wise_at; eauto. intros a b. f_equal. apply Hcom.
    Qed.

    Lemma map_axis_column_wise (d : df L H A) rl cl nparts m keep num_splits lengths :
      wf d -> rl <> [] -> cl <> [] -> list_sum rl = nrows d -> list_sum cl = ncols d ->
      0 < m -> 0 < nparts -> num_splits <> Some 0 ->
      (forall l, lengths = Some l -> keep = false /\ list_sum l = nrows (F d)) ->
      exists rl',
        map_axis_partitions leqb heqb nparts m false (cut_table rl cl d) (fun d => Ok (F d))
          keep num_splits lengths = Ok (cut_table rl' cl (F d))
        /\ list_sum rl' = nrows (F d)
        /\ (keep = true -> num_splits = None -> length rl' = length rl)
        /\ (keep = true -> num_splits = None -> nrows (F d) = nrows d -> rl' = rl)
        /\ (forall l, lengths = Some l -> l <> [] -> rl' = l)
        /\ (lengths = None -> forall k, num_splits = Some k -> length rl' = k)
        /\ (lengths = None -> keep = false ->
            get_length_list (nrows (F d)) (match num_splits with None => nparts | Some k => k end) m = Ok rl').
    Proof.
      intros W Hr Hc Hsr Hsc Hm Hp Hns Hlen. destruct (CW W) as (WF & Hn & Hcom).
      destruct (@map_axis_column_wise_at (fun d => Ok (F d)) d (F d) WF Hn ltac:(intros a b; cbn beta; now rewrite Hcom)
        rl cl nparts m keep num_splits lengths) as (l' & M1 & M2 & M3 & M4 & M5 & M6 & M7 & M8); auto.
      exists l'. repeat split; auto.
    Qed.
  End ColumnWise.

  Section RowWiseAt.
    Variable func : df L H A -> res (df L2 H2 B).
    Variable d : df L H A.
    Variable D : df L2 H2 B.
    Hypothesis WD : wf D.
    Hypothesis HD : nrows D = nrows d.
    Hypothesis at_d : forall a b, func (iloc_rows d a b) = Ok (iloc_rows D a b).

    Lemma deploy_row_wise_at cl ri k m keep lens manual :
      wf d -> cl <> [] -> list_sum cl = ncols d -> 0 < k -> 0 < m ->
      deploy_axis_func leqb heqb true func k keep
        (map (fun ci => block d ri ci) (bounds 0 cl)) m lens manual
      = Ok (map (fun ci => block D ri ci)
              (bounds 0 (deploy_lens (ncols D) k m keep cl lens manual))).
    Proof.
      intros W Hne Hs Hk Hm. unfold deploy_axis_func.
      rewrite (concat_cols_blocks_bounds leqb heqb leqb_ok) by assumption. cbn [rbind].
      rewrite Nat.add_0_l, Hs, block_cols_full by assumption.
      rewrite at_d. cbn [rbind].
      rewrite split_eff; auto using wf_iloc_rows.
      cbn [axis_size]. rewrite !map_length, bounds_length.
      assert (Hold : map (axis_size true) (map (fun ci => block d ri ci) (bounds 0 cl)) = cl).
      { rewrite map_map. cbn [axis_size]. unfold ncols in *. cbn.
        rewrite <- (@bounds_sizes (length (dcols d)) 0 cl) at 2 by lia.
        apply map_ext. intros iv. now rewrite slice_length. }
      rewrite Hold. unfold deploy_lens. change (ncols (iloc_rows D (fst ri) (snd ri))) with (ncols D).
      reflexivity.
    Qed.

    Lemma map_axis_row_wise_at rl cl nparts m keep num_splits lengths :
      wf d -> rl <> [] -> cl <> [] -> list_sum rl = nrows d -> list_sum cl = ncols d ->
      0 < m -> 0 < nparts -> num_splits <> Some 0 ->
      (forall l, lengths = Some l -> keep = false /\ list_sum l = ncols D) ->
      exists cl',
        map_axis_partitions leqb heqb nparts m true (cut_table rl cl d) func
          keep num_splits lengths = Ok (cut_table rl cl' D)
        /\ list_sum cl' = ncols D
        /\ (keep = true -> num_splits = None -> length cl' = length cl)
        /\ (keep = true -> num_splits = None -> ncols D = ncols d -> cl' = cl)
        /\ (forall l, lengths = Some l -> l <> [] -> cl' = l)
        /\ (lengths = None -> forall k, num_splits = Some k -> length cl' = k)
        /\ (lengths = None -> keep = false ->
            get_length_list (ncols D) (match num_splits with None => nparts | Some k => k end) m = Ok cl')
        /\ (keep = true -> num_splits = None -> ncols D <> ncols d -> get_length_list (ncols D) (length cl) m = Ok cl').
    Proof.
      intros W Hr Hc Hsr Hsc Hm Hp Hns Hlen.
      set (truthy := match lengths with Some (_ :: _) => true | _ => false end).
      set (ns := match keep, num_splits with
      | true, None => length cl
      | _, _ => match lengths with
                | Some (x :: xs) => length (x :: xs)
                | _ => match num_splits with None => nparts | Some n => n end
                end
      end).
      assert (Hns0 : 0 < ns).
      { unfold ns. assert (0 < length cl) by (destruct cl; cbn; [easy|lia]).
        destruct keep, num_splits as [n|]; auto; destruct lengths as [[|x xs]|]; cbn; try lia;
        destruct n; try lia; congruence. }
      exists (deploy_lens (ncols D) ns m keep cl (if truthy then lengths else None) truthy).
      assert (Hman : truthy = true -> exists l, (if truthy then lengths else None) = Some l
                /\ list_sum l = ncols D /\ length l = ns).
      { unfold truthy, ns. destruct lengths as [[|x xs]|]; try discriminate. intros _.
        destruct (Hlen _ eq_refl) as [-> Hl]. exists (x :: xs). auto. }
      destruct (@deploy_lens_ok (ncols D) ns m keep cl (if truthy then lengths else None) truthy Hns0 Hm Hman)
        as (D1 & D2 & D3 & D4).
      set (cl' := deploy_lens _ _ _ _ _ _ _) in *.
      split; [|split; [exact D1|]].
      - unfold map_axis_partitions.
        assert (Hkl : keep && match lengths with Some _ => true | None => false end = false).
        { destruct lengths as [l|]; [|apply andb_false_r]. now destruct (Hlen l eq_refl) as [-> _]. }
        rewrite Hkl.
        assert (Hb : bounds 0 rl <> []) by now rewrite bounds_nil_iff.
        assert (Hw : grid_width (cut_table rl cl d) = length cl).
        { unfold cut_table. apply grid_width_map; auto. intros; now rewrite map_length, bounds_length. }
        rewrite Hw. fold ns. fold truthy.
        assert (Hrm : rmap (fun parts => deploy_axis_func leqb heqb true func ns keep parts m
                   (if truthy then lengths else None) truthy) (cut_table rl cl d)
               = Ok (cut_table rl cl' D)).
        { unfold cut_table. generalize (bounds 0 rl). intros rs. induction rs as [|ri rs IH]; [reflexivity|].
          cbn [map rmap]. rewrite deploy_row_wise_at by assumption. cbn [rbind]. rewrite IH. reflexivity. }
        rewrite Hrm. reflexivity.
      - assert (K : keep = true -> lengths = None).
        { intros ->. destruct lengths as [l|]; auto. now destruct (Hlen l eq_refl). }
        split; [|split; [|split; [|split; [|split]]]].
        + intros -> ->. rewrite D2. reflexivity.
        + intros -> -> Hn. apply D3; auto; [|lia]. unfold truthy. now rewrite K.
        + intros l -> Hl0. destruct l as [|x xs]; [easy|]. cbn in truthy. specialize (D4 eq_refl).
          cbn in D4. congruence.
        + intros -> k ->. rewrite D2. unfold ns. destruct keep; reflexivity.
        + intros -> ->. unfold cl', deploy_lens, eff_lens, ns in *. cbn in Hns0 |- *.
          set (q := match num_splits with None => nparts | Some k => k end) in *.
          rewrite orb_true_r. destruct (Nat.eqb_spec q 1) as [->|Hn1].
          * now apply get_length_list_one.
          * destruct (get_length_list_ok (ncols D) Hns0 Hm) as (l & -> & _). reflexivity.
        + intros -> -> Hn. pose proof (K eq_refl) as K'. subst lengths. unfold cl', deploy_lens, eff_lens, ns in *. cbn in Hns0 |- *.
          destruct (Nat.eqb_spec (length cl) 1) as [E1|Hn1].
          * rewrite E1. now apply get_length_list_one.
          * rewrite Nat.eqb_refl. cbn [negb orb]. destruct (Nat.eqb_spec (list_sum cl) (ncols D)); [lia|].
            destruct (get_length_list_ok (ncols D) Hns0 Hm) as (l & -> & _). reflexivity.
    Qed.
  End RowWiseAt.

  Section RowWise.
    Variable F : df L H A -> df L2 H2 B.
    Hypothesis RW : row_wise F.
    Lemma deploy_row_wise (d : df L H A) cl ri k m keep lens manual :
      wf d -> cl <> [] -> list_sum cl = ncols d -> 0 < k -> 0 < m ->
      deploy_axis_func leqb heqb true (fun d => Ok (F d)) k keep
        (map (fun ci => block d ri ci) (bounds 0 cl)) m lens manual
      = Ok (map (fun ci => block (F d) ri ci)
              (bounds 0 (deploy_lens (ncols (F d)) k m keep cl lens manual))).
    Proof.
      intros W ? ? ? ?. destruct (RW W) as (WF & Hn & Hcom).
      eapply deploy_row_wise_at; eauto. intros a b. f_equal. apply Hcom.
    Qed.

    Lemma map_axis_row_wise (d : df L H A) rl cl nparts m keep num_splits lengths :
      wf d -> rl <> [] -> cl <> [] -> list_sum rl = nrows d -> list_sum cl = ncols d ->
      0 < m -> 0 < nparts -> num_splits <> Some 0 ->
      (forall l, lengths = Some l -> keep = false /\ list_sum l = ncols (F d)) ->
      exists cl',
        map_axis_partitions leqb heqb nparts m true (cut_table rl cl d) (fun d => Ok (F d))
          keep num_splits lengths = Ok (cut_table rl cl' (F d))
        /\ list_sum cl' = ncols (F d)
        /\ (keep = true -> num_splits = None -> length cl' = length cl)
        /\ (keep = true -> num_splits = None -> ncols (F d) = ncols d -> cl' = cl)
        /\ (forall l, lengths = Some l -> l <> [] -> cl' = l)
        /\ (lengths = None -> forall k, num_splits = Some k -> length cl' = k)
        /\ (lengths = None -> keep = false ->
            get_length_list (ncols (F d)) (match num_splits with None => nparts | Some k => k end) m = Ok cl').
    Proof.
      intros W Hr Hc Hsr Hsc Hm Hp Hns Hlen. destruct (RW W) as (WF & Hn & Hcom).
      destruct (@map_axis_row_wise_at (fun d => Ok (F d)) d (F d) WF Hn ltac:(intros a b; cbn beta; now rewrite Hcom)
        rl cl nparts m keep num_splits lengths) as (l' & M1 & M2 & M3 & M4 & M5 & M6 & M7 & M8); auto.
      exists l'. repeat split; auto.
    Qed.
  End RowWise.
End MapAxis.
