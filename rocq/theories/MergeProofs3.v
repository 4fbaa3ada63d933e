From Verif Require Import Base Table ChunkModel ChunkSpec ChunkProofs GridModel GridSpec FrameSpec
  GridProofs GridProofs2 GridProofs3 GridProofs5 JoinModel JoinProofs3 GroupSpec GroupProofs3 GroupProofs5
  MergeSpec MergeModel MergeProofs MergeProofs2.

Section Main.
  Context {L H A : Type}.
  Variable leqb : L -> L -> bool.
  Variable heqb : H -> H -> bool.
  Variable aeqb : A -> A -> bool.
  Variable nan : A.
  Variable suffixed : bool -> H -> H.
  Hypothesis leqb_ok : forall x y, leqb x y = true <-> x = y.
  Hypothesis heqb_ok : forall x y, heqb x y = true <-> x = y.
  Notation dframe := (df L H A).
  Notation pf := (@pframe L H A).

  Definition lons (left right : list H) (k : keys_arg H) : list H * list H :=
    match k with
    | On o => (o, o)
    | LeftRight lo ro => (lo, ro)
    | Common => let o := filter (fun c => inb heqb c right) left in (o, o)
    end.

  Definition paired (k : keys_arg H) : Prop :=
    match k with LeftRight lo ro => forall h, In h lo -> In h ro -> In (h, h) (combine lo ro) | _ => True end.

  Notation pairs l r k := (key_pairs heqb l r k).

  Lemma shared_in keys h : shared heqb keys h = true <-> In (h, h) keys.
  Proof. unfold shared. rewrite existsb_exists. split.
    - intros ([x y] & I & E). cbn in E. apply andb_true_iff in E as [E1 E2]. apply heqb_ok in E1, E2. now subst.
    - intros I. exists (h, h). split; auto. cbn. now rewrite !(proj2 (heqb_ok h h) eq_refl). Qed.

  Lemma in_diag (o : list H) h : In (h, h) (map (fun h => (h, h)) o) <-> In h o.
  Proof. rewrite in_map_iff. split; [intros (x & [= -> ] & I); exact I|eauto]. Qed.

  Lemma shared_both left right k h : paired k ->
    shared heqb (pairs left right k) h = inb heqb h (fst (lons left right k)) && inb heqb h (snd (lons left right k)).
  Proof.
    intros P. apply Bool.eq_iff_eq_true. rewrite shared_in, andb_true_iff, !(inb_in heqb heqb_ok).
    destruct k as [o|lo ro|]; cbn [key_pairs lons fst snd]; rewrite ?in_diag; try tauto.
    split; [intros I; split; [now apply in_combine_l in I|now apply in_combine_r in I]|]. intros [I1 I2]. now apply P.
  Qed.

  Lemma lons_in left right k : keys_ok left right k -> incl (fst (lons left right k)) left /\ incl (snd (lons left right k)) right.
  Proof. destruct k as [o|lo ro|]; cbn; try tauto. intros _. split; intros h I; apply filter_In in I as [I1 I2]; auto.
    now apply (inb_in heqb heqb_ok) in I2. Qed.

  Lemma forallb_inb l c : incl l c -> forallb (fun h => inb heqb h c) l = true.
  Proof. intros I. apply forallb_forall. intros h Ih. apply (inb_in heqb heqb_ok). now apply I. Qed.

  Lemma existsb_out l c : incl l c -> existsb (fun h => negb (inb heqb h c)) l = false.
  Proof. intros I. apply not_true_iff_false. rewrite existsb_exists. intros (h & Ih & E).
    apply I in Ih. apply (inb_in heqb heqb_ok) in Ih. now rewrite Ih in E. Qed.

  Lemma join_columns_ok left right k : keys_ok left right k -> paired k ->
    join_columns heqb suffixed left right (fst (lons left right k)) (snd (lons left right k))
    = Ok (header heqb suffixed (pairs left right k) left right).
  Proof.
    intros K P. destruct (lons_in left right k K) as [I1 I2]. unfold join_columns, header. rewrite !existsb_out by assumption. cbn [orb].
    set (lo := fst _) in *. set (ro := snd _) in *.
    assert (S : forall h, shared heqb (pairs left right k) h = inb heqb h lo && inb heqb h ro) by (intros; now apply shared_both).
    assert (Fin : forall h, inb heqb h (filter (fun h => negb (shared heqb (pairs left right k) h)) right)
                            = inb heqb h right && negb (inb heqb h lo && inb heqb h ro)).
    { intros h. apply Bool.eq_iff_eq_true. rewrite (inb_in heqb heqb_ok), filter_In, andb_true_iff, (inb_in heqb heqb_ok), S. tauto. }
    f_equal. f_equal.
    - apply map_ext_in. intros h Ih. rewrite Fin. apply (inb_in heqb heqb_ok) in Ih. rewrite Ih.
      destruct (inb heqb h right), (inb heqb h lo), (inb heqb h ro); reflexivity.
    - rewrite (filter_ext _ (fun h => negb (inb heqb h lo && inb heqb h ro)) (fun h => f_equal negb (S h))).
      apply map_ext_in. intros h Ih. apply filter_In in Ih as [I3 I4]. apply (inb_in heqb heqb_ok) in I3. rewrite I3.
      destruct (inb heqb h left), (inb heqb h lo), (inb heqb h ro); try reflexivity; discriminate.
  Qed.

  Lemma result_columns_ok (left right : pf) ld rd rll cll rlr clr k :
    holds left ld rll cll -> holds right rd rlr clr -> (rlr <> [] \/ pcols right <> None) ->
    keys_ok (dcols ld) (dcols rd) k -> paired k ->
    let c := header heqb suffixed (pairs (dcols ld) (dcols rd) k) (dcols ld) (dcols rd) in
    exists columns, result_columns heqb suffixed left right k = Ok columns /\ (columns = None \/ columns = Some c).
  Proof.
    intros Hl Hr E K P c. unfold result_columns. destruct Hl as [_ [_ [->| ->]]]; [eauto|].
    rewrite (col_labels_holds Hr E).
    pose proof (join_columns_ok (dcols ld) (dcols rd) k K P) as J. unfold lons in J.
    destruct k; cbn [fst snd] in J; rewrite J; cbn; eauto.
  Qed.

  Lemma pandas_merge_ok h k (l r : dframe) : keys_ok (dcols l) (dcols r) k ->
    pandas_merge heqb aeqb nan suffixed h k l r = Ok (merge heqb aeqb nan suffixed (pairs (dcols l) (dcols r) k) l r h).
  Proof.
    intros K. unfold pandas_merge. destruct k as [o|lo ro|]; cbn [keys_ok] in K.
    - now rewrite !forallb_inb by tauto.
    - destruct K as (_ & -> & I1 & I2). now rewrite Nat.eqb_refl, !forallb_inb.
    - destruct K as (h0 & I1 & I2). replace (existsb _ _) with true; [reflexivity|]. symmetry. apply existsb_exists.
      exists h0. split; auto. now apply (inb_in heqb heqb_ok).
  Qed.

  (** ** Widths of the rows of the result *)
  Section Widths.
    Variable keys : list (H * H).
    Variables ld rd : dframe.
    Notation hd_ := (header heqb suffixed keys (dcols ld) (dcols rd)).
    Lemma header_length : length hd_ = ncols ld + length (filter (fun h => negb (shared heqb keys h)) (dcols rd)).
    Proof. unfold header. now rewrite app_length, !map_length. Qed.
    Lemma both_length l r : length l = ncols ld -> length r = ncols rd -> length (both heqb keys rd l r) = length hd_.
    Proof. intros E1 E2. unfold both, right_part. rewrite app_length, header_length, keepl_length; auto. Qed.
    Lemma left_only_length l : length l = ncols ld -> length (left_only heqb nan keys rd l) = length hd_.
    Proof. intros E1. unfold left_only. rewrite app_length, header_length, repeat_length; auto. Qed.
    Lemma right_only_length r : length r = ncols rd -> length (right_only heqb nan keys ld rd r) = length hd_.
    Proof. intros E2. unfold right_only, right_part. rewrite app_length, header_length, map_length, keepl_length; auto. Qed.
  End Widths.

  Lemma Forall_filter {X} (P : X -> Prop) p l : Forall P l -> Forall P (filter p l).
  Proof. intros F. rewrite Forall_forall in *. intros x I. apply filter_In in I as [I _]. auto. Qed.

  Definition is_right (h : how) : bool := match h with HRight => true | _ => false end.

  Lemma width_splits nparts min_col (a b : pf) da db rla cla rlb clb :
    gridded a da rla cla -> gridded b db rlb clb -> rla <> [] -> rlb <> [] -> cla <> [] -> clb <> [] -> 0 < ncols da ->
    0 < nparts -> 0 < min_col ->
    exists n, merge_partitioning nparts min_col (pcl a) (pcl b) (pgrid a) (pgrid b) = Ok n /\ 0 < n.
  Proof.
    intros Ga Gb Ra Rb Ca Cb Pa Pn Pm.
    assert (S : forall (f : pf) d rl cl, gridded f d rl cl -> rl <> [] -> shape1 (pgrid f) = Ok (length cl)).
    { intros f d rl cl (_ & _ & _ & E & _) R. rewrite E. unfold shape1, cut_table. destruct rl; [easy|]. cbn [bounds map].
      now rewrite map_length, bounds_length. }
    assert (F : exists n, (do lsplits <- shape1 (pgrid a); do rsplits <- shape1 (pgrid b); Ok (Nat.min (lsplits + rsplits) nparts)) = Ok n /\ 0 < n).
    { rewrite (S _ _ _ _ Ga Ra), (S _ _ _ _ Gb Rb). cbn [rbind]. eexists. split; [reflexivity|]. destruct cla; [easy|]. cbn [length]. lia. }
    destruct Ga as (_ & _ & Sa & _ & _ & _ & _ & [Ea|Ea]); destruct Gb as (_ & _ & Sb & _ & _ & _ & _ & [Eb|Eb]);
      rewrite Ea, Eb; unfold merge_partitioning; try exact F.
    destruct (compute_chunksize_ok (list_sum cla + list_sum clb) Pn Pm) as (c & -> & Hc & _). cbn [rbind].
    destruct (Nat.eqb_spec c 0); [lia|]. eexists. split; [reflexivity|].
    pose proof (nchunks_cover (list_sum cla + list_sum clb) Hc). destruct (nchunks _ c); lia.
  Qed.

  Lemma column_wise_id : column_wise (fun d : dframe => d).
  Proof. intros d W. auto. Qed.

  (** the rows of one side, each with its partners on the other side *)
  Definition partners (h : how) (keys : list (H * H)) (ld rd : dframe) (row : list A) : list (list A) :=
    match h with
    | HInner => map (both heqb keys rd row) (filter (same_key heqb aeqb keys ld rd row) (dcells rd))
    | HLeft => match filter (same_key heqb aeqb keys ld rd row) (dcells rd) with
               | [] => [left_only heqb nan keys rd row]
               | rs => map (both heqb keys rd row) rs
               end
    | HRight => match filter (fun l => same_key heqb aeqb keys ld rd l row) (dcells ld) with
                | [] => [right_only heqb nan keys ld rd row]
                | ls => map (fun l => both heqb keys rd l row) ls
                end
    end.

  Lemma partners_width h keys (ld rd : dframe) row : wf ld -> wf rd ->
    length row = length (dcols (if is_right h then rd else ld)) ->
    Forall (fun x => length x = length (header heqb suffixed keys (dcols ld) (dcols rd))) (partners h keys ld rd row).
  Proof.
    intros [_ Wl] [_ Wr] E. destruct h; cbn [is_right partners] in *.
    - pose proof (Forall_filter (same_key heqb aeqb keys ld rd row) Wr) as F. destruct (filter _ _) as [|r0 rs].
      + constructor; [|constructor]. now apply left_only_length.
      + apply Forall_map. eapply Forall_impl; [|exact F]. intros r Er. now apply both_length.
    - pose proof (Forall_filter (same_key heqb aeqb keys ld rd row) Wr) as F.
      apply Forall_map. eapply Forall_impl; [|exact F]. intros r Er. now apply both_length.
    - pose proof (Forall_filter (fun l => same_key heqb aeqb keys ld rd l row) Wl) as F. destruct (filter _ _) as [|r0 rs].
      + constructor; [|constructor]. now apply right_only_length.
      + apply Forall_map. eapply Forall_impl; [|exact F]. intros r Er. now apply both_length.
  Qed.

  Lemma merged_partners h keys (ld rd : dframe) :
    merged_rows heqb aeqb nan keys ld rd h = flat_map (partners h keys ld rd) (dcells (if is_right h then rd else ld)).
  Proof. destruct h; reflexivity. Qed.

  Lemma keys_columns (left right : list H) k : keys_ok left right k -> 0 < length left /\ 0 < length right.
  Proof. destruct k as [o|lo ro|]; cbn.
    - intros (N & I1 & I2). destruct o as [|h o]; [easy|]. specialize (I1 h (or_introl eq_refl)). specialize (I2 h (or_introl eq_refl)).
      destruct left, right; try easy. cbn. lia.
    - intros (N & E & I1 & I2). destruct lo as [|h lo]; [easy|]. destruct ro as [|h' ro]; [easy|].
      specialize (I1 h (or_introl eq_refl)). specialize (I2 h' (or_introl eq_refl)). destruct left, right; try easy. cbn. lia.
    - intros (h & I1 & I2). destruct left, right; try easy. cbn. lia. Qed.

  Variables (nparts min_row min_col : nat).
  Hypotheses (Pn : 0 < nparts) (Pr : 0 < min_row) (Pm : 0 < min_col).

  Notation side h l r := (if is_right h then r else l).

  (** everything before the merge of the row partitions *)
  Lemma row_axis_merge_prefix (h : how) (k : keys_arg H) (left right : pf) ld rd rll cll rlr clr :
    holds left ld rll cll -> holds right rd rlr clr -> rll <> [] -> rlr <> [] ->
    keys_ok (dcols ld) (dcols rd) k -> paired k ->
    let c := header heqb suffixed (pairs (dcols ld) (dcols rd) k) (dcols ld) (dcols rd) in
    let da := side h ld rd in let db := side h rd ld in
    exists other a' rla' cla' n columns,
      (do rows <- rmap (concat_axis leqb heqb true) (extract_partitions other); concat_axis leqb heqb false rows) = Ok db
      /\ holds a' da rla' cla' /\ rla' <> [] /\ cla' <> [] /\ 0 < n /\ (columns = None \/ columns = Some c)
      /\ forall pm sort_rows sort,
         row_axis_merge_of leqb heqb suffixed pm nparts min_row min_col sort_rows h k sort left right
         = do m <- broadcast_rows leqb heqb min_col (fun l r => if is_right h then pm r l else pm l r) other n columns a';
           do m <- (if sort then match k with
                                 | LeftRight lo ro => sort_rows (lo ++ ro) m
                                 | On o => sort_rows o m
                                 | Common => Ok m
                                 end
                    else Ok m);
           reset_index heqb min_col m.
  Proof.
    intros Hl Hr Nl Nr K P c da db. destruct (keys_columns (dcols ld) (dcols rd) k K) as [Kl Kr].
    assert (Wl : wf ld) by apply Hl. assert (Wr : wf rd) by apply Hr.
    assert (Ncl : forall (f : pf) d rl cl, holds f d rl cl -> 0 < ncols d -> cl <> []).
    { intros f d rl cl [(_ & _ & S & _) _] Q ->. cbn in S. revert S. lsum. lia. }
    assert (Ncr := Ncl _ _ _ _ Hr Kr). specialize (Ncl _ _ _ _ Hl Kl).
    destruct (@result_columns_ok left right ld rd rll cll rlr clr k Hl Hr (or_introl Nr) K P) as (columns & Ec & Hcol).
    set (a := side h left right). set (b := side h right left).
    set (rla := side h rll rlr). set (rlb := side h rlr rll).
    set (cla := side h cll clr). set (clb := side h clr cll).
    assert (Ha : holds a da rla cla) by (unfold a, da, rla, cla; now destruct (is_right h)).
    assert (Hb : holds b db rlb clb) by (unfold b, db, rlb, clb; now destruct (is_right h)).
    assert (Ra : rla <> []) by (unfold rla; now destruct (is_right h)).
    assert (Rb : rlb <> []) by (unfold rlb; now destruct (is_right h)).
    assert (Ca : cla <> []) by (unfold cla; now destruct (is_right h)).
    assert (Cb : clb <> []) by (unfold clb; now destruct (is_right h)).
    assert (Pda : 0 < ncols da) by (unfold da; now destruct (is_right h)).
    assert (Pdb : 0 < ncols db) by (unfold db; now destruct (is_right h)).
    destruct (operand_ok leqb heqb leqb_ok heqb_ok Hb Pdb ltac:(easy)) as (other & Eo & Go).
    set (cond := (10 * length (pgrid a) <? 3 * nparts) && (nparts * min_row <? list_sum (row_lengths a))).
    assert (Rep : exists a' rla' cla', (if cond then apply_full_axis leqb heqb nparts min_row min_col false (fun d => Ok d) (pindex a) (pcols a) false None a else Ok a) = Ok a'
              /\ holds a' da rla' cla' /\ rla' <> [] /\ cla' <> []).
    { destruct cond; [|exists a, rla, cla; auto].
      destruct Ha as [Ga [Hi Hc]]. assert (Ga' := Ga). destruct Ga' as (_ & _ & _ & _ & Gi & Gc & _).
      destruct (@apply_full_axis_columns L H A L H A leqb heqb heqb_ok (fun d => d) column_wise_id nparts min_row min_col (pindex a) (pcols a) false None a da rla cla)
        as (x' & rl' & cl' & E1 & E2 & E3 & E4 & E5 & E6); auto; try discriminate.
      exists x', rl', cl'. split; [exact E1|]. split; [|auto]. split; [exact E2|]. rewrite E5, E6. auto. }
    destruct Rep as (a' & rla' & cla' & Er & Ha' & Ra' & Ca').
    destruct (@width_splits nparts min_col a' b da db rla' cla' rlb clb) as (n & En & Pn'); auto; try apply Ha'; try apply Hb.
    exists other, a', rla', cla', n, columns. repeat (split; [assumption|]). intros pm sort_rows sort.
    unfold row_axis_merge_of. fold (is_right h).
    replace (is_right h && (gsize (pgrid right) =? 0)) with false.
    2:{ symmetry. apply andb_false_iff. right. destruct Hr as [(_ & _ & _ & -> & _) _]. unfold gsize.
        rewrite cut_table_length, cut_table_width by assumption. apply Nat.eqb_neq. destruct rlr; [easy|]. destruct clr; [easy|]. cbn. lia. }
    replace (if is_right h then (right, left) else (left, right)) with (a, b) by (unfold a, b; now destruct (is_right h)).
    cbv iota beta. rewrite Eo. cbn [rbind]. rewrite Ec. cbn [rbind]. fold cond. rewrite Er. cbn [rbind]. rewrite En. cbn [rbind]. reflexivity.
  Qed.

  (** everything up to sorting and numbering, when every row partition is merged as by [pandas.merge] *)
  Lemma row_axis_merge_parts_of pm (h : how) (k : keys_arg H) (left right : pf) ld rd rll cll rlr clr sort_rows sort :
    holds left ld rll cll -> holds right rd rlr clr -> rll <> [] -> rlr <> [] ->
    keys_ok (dcols ld) (dcols rd) k -> paired k ->
    (forall t, wf t -> dcols t = dcols (side h ld rd) ->
       (if is_right h then pm ld t else pm t rd)
       = if is_right h then pandas_merge heqb aeqb nan suffixed h k ld t else pandas_merge heqb aeqb nan suffixed h k t rd) ->
    let M := merge heqb aeqb nan suffixed (pairs (dcols ld) (dcols rd) k) ld rd h in
    exists m rl cl idx, holds m (mkdf idx (dcols M) (dcells M)) rl cl /\ length idx = nrows M /\ rl <> [] /\ cl <> []
      /\ pindex m = None /\ (pcols m = None \/ pcols m = Some (dcols M))
      /\ row_axis_merge_of leqb heqb suffixed pm nparts min_row min_col sort_rows h k sort left right
         = do m <- (if sort then match k with
                                 | LeftRight lo ro => sort_rows (lo ++ ro) m
                                 | On o => sort_rows o m
                                 | Common => Ok m
                                 end
                    else Ok m);
           reset_index heqb min_col m.
  Proof.
    intros Hl Hr Nl Nr K P Hpm M. assert (Wl : wf ld) by apply Hl. assert (Wr : wf rd) by apply Hr.
    destruct (@row_axis_merge_prefix h k left right ld rd rll cll rlr clr) as (other & a' & rla' & cla' & n & columns & Go & Ha' & Ra' & Ca' & Pn' & Hcol & E); auto.
    rewrite E. clear E.
    set (da := side h ld rd) in *. set (db := side h rd ld) in *.
    match goal with |- context [broadcast_rows leqb heqb min_col ?F] => set (func := F) end.
    set (keys := pairs (dcols ld) (dcols rd) k) in *.
    set (c := header heqb suffixed keys (dcols ld) (dcols rd)) in *.
    destruct (@broadcast_rows_ok L H A leqb heqb leqb_ok (partners h keys ld rd) c func da db) with
      (min_col := min_col) (num_splits := n) (other := other) (f := a') (rl := rla') (cl := cla') (columns := columns)
      as (m & rl' & cl' & idx & E1 & E2 & E3 & E4 & E5 & E6 & E7); auto.
    - intros l Wl' Ecl. specialize (Hpm l Wl' Ecl). unfold func, da, db in *.
      destruct h; cbn [is_right] in *; rewrite Hpm; rewrite pandas_merge_ok by (rewrite Ecl; exact K);
        unfold merge, merged_rows, partners, keys, c; rewrite ?Ecl; f_equal; f_equal;
        unfold same_key, left_key, right_key, right_only, both, right_part; rewrite ?Ecl; reflexivity.
    - intros row Erow. now apply partners_width.
    - exists m, rl', cl', idx. unfold M, merge. cbn [dcols dcells dindex nrows]. rewrite merged_partners. fold keys da c.
      split; [exact E2|]. split; [unfold nrows; cbn [dindex]; now rewrite seq_length|]. split; [exact E4|]. split; [exact E5|].
      split; [exact E6|]. split; [rewrite E7; exact Hcol|]. rewrite E1. reflexivity.
  Qed.

  Lemma row_axis_merge_parts (h : how) (k : keys_arg H) (left right : pf) ld rd rll cll rlr clr sort_rows sort :
    holds left ld rll cll -> holds right rd rlr clr -> rll <> [] -> rlr <> [] ->
    keys_ok (dcols ld) (dcols rd) k -> paired k ->
    let M := merge heqb aeqb nan suffixed (pairs (dcols ld) (dcols rd) k) ld rd h in
    exists m rl cl idx, holds m (mkdf idx (dcols M) (dcells M)) rl cl /\ length idx = nrows M /\ rl <> [] /\ cl <> []
      /\ pindex m = None /\ (pcols m = None \/ pcols m = Some (dcols M))
      /\ row_axis_merge leqb heqb aeqb nan suffixed nparts min_row min_col sort_rows h k sort left right
         = do m <- (if sort then match k with
                                 | LeftRight lo ro => sort_rows (lo ++ ro) m
                                 | On o => sort_rows o m
                                 | Common => Ok m
                                 end
                    else Ok m);
           reset_index heqb min_col m.
  Proof. intros. eapply row_axis_merge_parts_of; eauto. Qed.

  Lemma renumbered (h : how) keys (ld rd : dframe) (m : @pframe nat H A) rl cl idx :
    let M := merge heqb aeqb nan suffixed keys ld rd h in
    holds m (mkdf idx (dcols M) (dcells M)) rl cl -> length idx = nrows M -> rl <> [] -> cl <> [] -> pindex m = None ->
    exists x rl cl, reset_index heqb min_col m = Ok x /\ holds x M rl cl /\ rl <> [] /\ cl <> [].
  Proof.
    intros M Hm Ei R C Ni.
    destruct (@reset_index_ok H A heqb min_col m _ rl cl Hm Ni R C Pm) as (x & rl' & cl' & E1 & E2 & E3 & E4 & _).
    exists x, rl', cl'. split; [exact E1|]. split; [|auto].
    unfold nrows in E2. cbn [dindex dcols dcells] in E2. rewrite Ei in E2. unfold M, merge in E2 |- *.
    unfold nrows in E2. cbn [dindex dcols dcells] in E2. now rewrite seq_length in E2.
  Qed.

  (** a merge that fails on every row partition fails *)
  Lemma row_axis_merge_fails pm e (h : how) (k : keys_arg H) (left right : pf) ld rd rll cll rlr clr sort_rows sort :
    holds left ld rll cll -> holds right rd rlr clr -> rll <> [] -> rlr <> [] ->
    keys_ok (dcols ld) (dcols rd) k -> paired k ->
    (forall t, wf t -> dcols t = dcols (side h ld rd) -> (if is_right h then pm ld t else pm t rd) = Err e) ->
    row_axis_merge_of leqb heqb suffixed pm nparts min_row min_col sort_rows h k sort left right = Err e.
  Proof.
    intros Hl Hr Nl Nr K P Hpm. assert (Wl : wf ld) by apply Hl. assert (Wr : wf rd) by apply Hr.
    destruct (@row_axis_merge_prefix h k left right ld rd rll cll rlr clr) as (other & a' & rla' & cla' & n & columns & Go & Ha' & Ra' & Ca' & _ & _ & E); auto.
    rewrite E. clear E. destruct Ha' as [(W & _ & Sc & Hg & _) _]. unfold broadcast_rows. rewrite Hg.
    destruct rla' as [|x rla']; [easy|]. unfold cut_table. cbn [bounds map rmap].
    rewrite (concat_cols_blocks_bounds leqb heqb leqb_ok) by assumption. cbn [rbind].
    destruct (rmap (concat_axis leqb heqb true) (extract_partitions other)) as [rows|]; [|discriminate]. cbn [rbind] in Go |- *.
    rewrite Go. cbn [rbind]. change (0 + list_sum cla') with (list_sum cla'). rewrite Sc, block_cols_full by assumption.
    cbn [fst snd Nat.add]. specialize (Hpm (iloc_rows (side h ld rd) 0 x)). destruct (is_right h); rewrite Hpm; auto; now apply wf_iloc_rows.
  Qed.

  Lemma row_axis_merge_ok (h : how) (k : keys_arg H) (left right : pf) ld rd rll cll rlr clr sort_rows :
    holds left ld rll cll -> holds right rd rlr clr -> rll <> [] -> rlr <> [] ->
    keys_ok (dcols ld) (dcols rd) k -> paired k ->
    exists x rl cl, row_axis_merge leqb heqb aeqb nan suffixed nparts min_row min_col sort_rows h k false left right = Ok x
      /\ holds x (merge heqb aeqb nan suffixed (pairs (dcols ld) (dcols rd) k) ld rd h) rl cl /\ rl <> [] /\ cl <> [].
  Proof.
    intros Hl Hr Nl Nr K P.
    destruct (@row_axis_merge_parts h k left right ld rd rll cll rlr clr sort_rows false) as (m & rl & cl & idx & Hm & Ei & R & C & Ni & _ & E); auto.
    rewrite E. cbn [rbind].
    eapply renumbered; eauto.
  Qed.
End Main.
