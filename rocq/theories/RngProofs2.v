From Verif Require Import Base Table ChunkModel ChunkSpec ChunkProofs GridModel GridSpec FrameSpec
  GridProofs GridProofs2 GridProofs3 GridProofs5 JoinModel JoinProofs3 GroupSpec ShufSpec ShufModel
  ShufProofs ShufProofs2 ShufProofs3 ShufProofs4 ShufProofs5 ShufProofs6 ShufProofs7
  MergeSpec MergeModel MergeProofs MergeProofs2 MergeProofs3 MergeProofs4 RngModel RngProofs.
From Coq Require Import Permutation Sorted.

(** * One row of blocks on the left *)
Section One.
  Context {L H A : Type}.
  Variable leqb : L -> L -> bool.
  Variable heqb : H -> H -> bool.
  Hypothesis leqb_ok : forall x y, leqb x y = true <-> x = y.
  Hypothesis heqb_ok : forall x y, heqb x y = true <-> x = y.
  Notation dframe := (df L H A).
  Notation pf := (@pframe L H A).

  Lemma broadcast_one (func : dframe -> dframe -> res (df nat H A)) (d r : dframe) (other f : pf) min_col num_splits nr cl columns :
    holds f d [nr] cl -> cl <> [] -> 0 < min_col -> 0 < num_splits ->
    (do rows <- rmap (concat_axis leqb heqb true) (extract_partitions other); concat_axis leqb heqb false rows) = Ok r ->
    match func d r with
    | Err e => broadcast_rows leqb heqb min_col func other num_splits columns f = Err e
    | Ok out => wf out -> (columns = None \/ columns = Some (dcols out)) ->
        exists f' rl' cl', broadcast_rows leqb heqb min_col func other num_splits columns f = Ok f'
          /\ holds f' out rl' cl' /\ rl' <> [] /\ cl' <> [] /\ pindex f' = None /\ pcols f' = columns
    end.
  Proof.
    intros [G _] Hc Hm Hn Er. destruct G as (W & Sr & Sc & Hg & _).
    unfold broadcast_rows. rewrite Hg.
    destruct (rmap (concat_axis leqb heqb true) (extract_partitions other)) as [rows|] eqn:Erows; [|discriminate].
    cbn [rbind] in Er |- *. unfold cut_table. cbn [bounds map].
    assert (Enr : nr = nrows d) by (cbn in Sr; rewrite list_sum_cons in Sr; change (list_sum []) with 0 in Sr; lia).
    cbn [rmap]. rewrite (concat_cols_blocks_bounds leqb heqb leqb_ok) by assumption. cbn [rbind]. rewrite Er. cbn [rbind].
    rewrite !Nat.add_0_l, Sc, block_cols_full by assumption. cbn [fst snd].
    rewrite Enr, iloc_rows_full by assumption.
    destruct (func d r) as [out|e]; [|reflexivity]. intros Wo Hcol. cbn [rbind].
    rewrite split_eff by assumption. cbn [rbind].
    set (lens := eff_lens (axis_size true out) num_splits min_col None).
    destruct (@eff_lens_sum (axis_size true out) num_splits min_col None) as [Sl Ll]; auto; [discriminate|]. fold lens in Sl, Ll.
    assert (Hl : lens <> []) by (intros X; rewrite X in Ll; cbn in Ll; lia).
    assert (Eg : [map (fun iv => iloc_cols out (fst iv) (snd iv)) (bounds 0 lens)] = cut_table [nrows out] lens out).
    { unfold cut_table. cbn [bounds map]. f_equal. apply map_ext. intros iv. rewrite Nat.add_0_l.
      now rewrite block_rows_full. }
    rewrite Eg.
    assert (WD : exists widths, match columns with
                 | Some c => do n <- shape1 (cut_table [nrows out] lens out);
                             do w <- get_length_list (length c) n min_col; Ok (Some w)
                 | None => Ok None
                 end = Ok widths /\ (widths = None \/ widths = Some lens)).
    { destruct Hcol as [->| ->]; [eauto|].
      assert (S1 : shape1 (cut_table [nrows out] lens out) = Ok num_splits).
      { unfold cut_table, shape1. cbn [bounds map]. now rewrite map_length, bounds_length, Ll. }
      rewrite S1. cbn [rbind]. destruct (get_length_list_ok (length (dcols out)) Hn Hm) as (l & El & _). rewrite El. cbn [rbind].
      eexists. split; [reflexivity|]. right. f_equal. unfold lens, eff_lens. cbn [axis_size]. unfold ncols.
      destruct (Nat.eqb_spec num_splits 1) as [->|_]; [|now rewrite El].
      rewrite get_length_list_one in El by assumption. congruence. }
    destruct WD as (widths & Ew & Hw). rewrite Ew. cbn [rbind].
    destruct (@construct_gridded _ _ _ (mkpf (cut_table [nrows out] lens out) None columns None widths) out [nrows out] lens)
      as (f' & rl' & cl' & F1 & F2 & F3 & F4 & F5 & F6); auto; [|discriminate|].
    - unfold gridded; cbn [pgrid pindex pcols prl pcl]. split; [exact Wo|].
      split; [rewrite list_sum_cons; change (list_sum []) with 0; lia|]. split; [exact Sl|].
      repeat split; auto; try discriminate. intros c' Ec. destruct Hcol as [Hc'|Hc']; rewrite Hc' in Ec; [discriminate|]. injection Ec as <-. reflexivity.
    - cbn [pindex pcols] in F5, F6. exists f', rl', cl'. split; [exact F1|]. split; [|auto].
      split; [exact F2|]. rewrite F5, F6. tauto.
  Qed.
End One.

(** * The pieces *)
Section Pieces.
  Context {L H A K : Type}.
  Variable leqb : L -> L -> bool.
  Variable heqb : H -> H -> bool.
  Variable suffixed : bool -> H -> H.
  Hypothesis leqb_ok : forall x y, leqb x y = true <-> x = y.
  Hypothesis heqb_ok : forall x y, heqb x y = true <-> x = y.
  Variable kle : K -> K -> bool.
  Hypothesis kle_total : total_preorder kle.
  Variable value : A -> option K.
  Variable numeric : nat -> bool.
  Variable quantiles : nat -> nat -> list (option K).
  Hypothesis quantiles_ok : forall i n, ascends kle (quantiles i n).
  Hypothesis quantiles_ne : forall n, 2 <= n -> quantiles 0 n <> [].
  Variable over : nat -> nat -> bool.
  Variable nan : A.
  Notation dframe := (df L H A).
  Notation pf := (@pframe L H A).
  Notation row := (@row L A).
  Notation key_at := (key_at (L := L) heqb value).
  Notation na_at := (na_at (L := L) heqb value).
  Notation spread_on on d := (spread kle (na_at on (dcols d)) (key_at on (dcols d)) numeric 1 true false false d).

  (** left and right pieces such that rows with the same key are in pieces that belong together *)
  Definition pieces_ok (on : H) (ld rd : dframe) (ps : list (dframe * dframe)) : Prop :=
    Forall (fun q => (wf (fst q) /\ dcols (fst q) = dcols ld) /\ wf (snd q) /\ dcols (snd q) = dcols rd) ps
    /\ spread_on on ld (map fst ps) /\ spread_on on rd (map snd ps)
    /\ forall q r (t : row -> bool), In q ps -> In r (rows_of (fst q)) ->
         (forall s, In s (rows_of rd) -> t s = true -> same_value kle (key_at on (dcols ld) 0 r) (key_at on (dcols rd) 0 s) = true) ->
         filter t (rows_of (snd q)) = filter t (rows_of rd).

  Lemma between_one (func : dframe -> dframe -> res (df nat H A)) m rb lb l r :
    concat_axis leqb heqb false lb = Ok l -> concat_axis leqb heqb false rb = Ok r ->
    between leqb heqb false func 1 m (rb, lb) = do out <- func l r; Ok [out].
  Proof. intros E1 E2. unfold between. cbn [fst snd]. now rewrite E1, E2. Qed.

  Lemma shuffle_with_ok (on : H) (ld rd : dframe) rll cll rlr clr ideal min_row min_col :
    wf ld -> list_sum rll = nrows ld -> list_sum cll = ncols ld -> rll <> [] -> cll <> [] ->
    wf rd -> list_sum rlr = nrows rd -> list_sum clr = ncols rd -> rlr <> [] -> clr <> [] -> 2 <= ideal ->
    exists ps, pieces_ok on ld rd ps /\ ps <> [] /\ forall func,
      shuffle_with leqb heqb kle value numeric quantiles min_row min_col ideal on (dcols ld) (dcols rd) func
        (cut_table rll cll ld) (cut_table rlr clr rd)
      = do outs <- rmap (fun q => func (fst q) (snd q)) ps; Ok (map (fun o => [o]) outs).
  Proof.
    intros Wl Srl Scl Rl Cl Wr Srr Scr Rr Cr Hi.
    set (p := quantiles 0 ideal). assert (Hp : p <> []) by now apply quantiles_ne.
    assert (Ap : ascends kle p) by apply quantiles_ok.
    set (LB := bin_of heqb kle value numeric on p ld rll). set (RB := bin_of heqb kle value numeric on p rd rlr).
    set (ps := map (fun k => (LB k, RB k)) (seq 0 (S (length p)))).
    exists ps. split; [|split].
    - repeat split.
      + unfold ps. apply Forall_map. apply Forall_forall. intros k Hk. apply in_seq in Hk. cbn [fst snd].
        split; apply bin_wf; auto; lia.
      + unfold ps. rewrite map_map. cbn [fst]. now apply bins_spread.
      + unfold ps. rewrite map_map. cbn [snd]. now apply bins_spread.
      + intros q r t Hq Hr Ht. unfold ps in Hq. apply in_map_iff in Hq as (k & <- & Hk). apply in_seq in Hk. cbn [fst snd] in *.
        unfold RB, bin_of. rewrite rows_of_of_rows. unfold LB, bin_of in Hr. rewrite rows_of_of_rows in Hr. apply in_whole in Hr.
        eapply bin_filter; eauto; [|lia]. intros s Hs E. specialize (Ht s Hs E).
        destruct (cross_bin heqb kle_total value numeric on Ap (dcols ld) (dcols rd) r s Ht) as [E1 E2]. split; symmetry; [rewrite <- Hr; exact E1|exact E2].
    - unfold ps. discriminate.
    - intros func. unfold shuffle_with. rewrite pivot_fn_one.
      assert (Epp : pick_pivots quantiles 0 ideal = p).
      { unfold pick_pivots. destruct (Nat.ltb_spec ideal 2); [lia|reflexivity]. }
      rewrite Epp. destruct (Nat.ltb_spec 1 (S (length p))) as [_|X]; [|destruct p; [easy|cbn in X; lia]].
      destruct (@split_total L H A K leqb heqb leqb_ok kle (na_at on (dcols ld)) (key_at on (dcols ld)) numeric ld rll cll Wl Scl Cl
                  [(0, p)] true false false (many_bins Hp) (one_with_pivots Hp)) as (ls & Els).
      destruct (@split_total L H A K leqb heqb leqb_ok kle (na_at on (dcols rd)) (key_at on (dcols rd)) numeric rd rlr clr Wr Scr Cr
                  [(0, p)] true false false (many_bins Hp) (one_with_pivots Hp)) as (rs & Ers).
      rewrite Els, Ers. cbn [rbind].
      apply split_all in Els; auto using many_bins. apply split_all in Ers; auto using many_bins.
      assert (NE : rs <> []).
      { rewrite Ers. unfold parts. rewrite map_map. intros X. apply map_eq_nil in X. now rewrite bounds_nil_iff in X. }
      replace (match rs with [] => [] | _ => transp (S (length p)) rs end) with (transp (S (length p)) rs) by (destruct rs; [easy|reflexivity]).
      rewrite Els, Ers, <- !(n_bins Hp).
      assert (T : forall (d : dframe) rl, transp (nbins [(0, p)]) (map (fun q => map (fun k => of_rows (dcols d)
        (share (bin kle (na_at on (dcols d)) (key_at on (dcols d)) numeric [(0, p)] true false false) (is_na (na_at on (dcols d)) [(0, p)]) k q))
        (seq 0 (nbins [(0, p)]))) (parts d rl))
        = map (fun k => map (fun q => of_rows (dcols d)
        (share (bin kle (na_at on (dcols d)) (key_at on (dcols d)) numeric [(0, p)] true false false) (is_na (na_at on (dcols d)) [(0, p)]) k q)) (parts d rl))
        (seq 0 (nbins [(0, p)]))).
      { intros d rl. rewrite <- (seq_length (nbins [(0, p)]) 0) at 1. apply transp_fun. }
      rewrite !T. rewrite combine_map_same, rmap_map. unfold ps. rewrite rmap_map.
      rewrite <- rmap_wrap. rewrite <- (n_bins Hp). apply rmap_ext. intros k _. cbn [fst snd].
      apply between_one.
      + now apply (@join_bin L H A K leqb heqb heqb_ok kle (na_at on (dcols ld)) (key_at on (dcols ld)) numeric ld rll Wl Srl Rl).
      + now apply (@join_bin L H A K leqb heqb heqb_ok kle (na_at on (dcols rd)) (key_at on (dcols rd)) numeric rd rlr Wr Srr Rr).
  Qed.

  Variables nparts min_row min_col : nat.
  Hypotheses (Pn : 0 < nparts) (Pr : 0 < min_row) (Pm : 0 < min_col).

  Lemma whole_piece on ld rd : wf ld -> wf rd -> pieces_ok on ld rd [(ld, rd)].
  Proof.
    intros Wl Wr. split; [apply Forall_cons; [cbn [fst snd]; auto|apply Forall_nil]|]. split; [now left|]. split; [now left|].
    intros q r t [<-|[]] _ _. reflexivity.
  Qed.

  Lemma in_cols c cs : In c cs -> inb heqb c cs = true.
  Proof. clear - heqb_ok. intros I. unfold inb. apply existsb_exists. exists c. split; [exact I|]. now apply heqb_ok. Qed.

  (** [range_merge]: whatever is computed per pair of pieces, one after the other, numbered from 0 *)
  Lemma range_merge_pieces (h : how) (on : H) (left right : pf) ld rd rll cll rlr clr :
    holds left ld rll cll -> holds right rd rlr clr -> rll <> [] -> rlr <> [] ->
    In on (dcols ld) -> In on (dcols rd) -> is_right h = false ->
    (length rll = 1 \/ (0 < nrows ld /\ over (nrows ld) (length rll) = false)) ->
    let c := header heqb suffixed (key_pairs heqb (dcols ld) (dcols rd) (On [on])) (dcols ld) (dcols rd) in
    exists ps, pieces_ok on ld rd ps /\ forall pm,
      match rmap (fun q => pm (fst q) (snd q)) ps with
      | Err e => range_merge leqb heqb suffixed kle value numeric quantiles over pm nparts min_row min_col h (On [on]) left right = Err e
      | Ok outs => Forall (fun o => wf o /\ dcols o = c) outs ->
          exists x rl cl, range_merge leqb heqb suffixed kle value numeric quantiles over pm nparts min_row min_col h (On [on]) left right = Ok x
            /\ holds x (mkdf (seq 0 (length (concat (map dcells outs)))) c (concat (map dcells outs))) rl cl /\ rl <> [] /\ cl <> []
      end.
  Proof.
    intros Hl Hr Rl Rr Ol Or Hh Hs c.
    assert (Kok : keys_ok (dcols ld) (dcols rd) (On [on])).
    { cbn. repeat split; [discriminate| |]; intros x [<-|[]]; assumption. }
    destruct (@result_columns_ok L H A heqb (fun _ _ => true) nan suffixed heqb_ok left right ld rd rll cll rlr clr (On [on]) Hl Hr (or_introl Rr) Kok I) as (columns & Ec & Hcol).
    fold c in Hcol.
    assert (Cl : col_labels left = dcols ld) by (eapply col_labels_holds; eauto).
    assert (Cr : col_labels right = dcols rd) by (eapply col_labels_holds; eauto).
    pose proof Hl as [Gl _]. pose proof Hr as [Gr _].
    pose proof Gl as (Wl & Srl & Scl & El & _). pose proof Gr as (Wr & Srr & Scr & Er & _).
    assert (Cll : cll <> []).
    { intros ->. change (list_sum []) with 0 in Scl. unfold ncols in Scl. destruct (dcols ld); [easy|discriminate]. }
    assert (Clr : clr <> []).
    { intros ->. change (list_sum []) with 0 in Scr. unfold ncols in Scr. destruct (dcols rd); [easy|discriminate]. }
    assert (Rm : forall pm, range_merge leqb heqb suffixed kle value numeric quantiles over pm nparts min_row min_col h (On [on]) left right
      = do m <- range_broadcast leqb heqb kle value numeric quantiles over nparts min_row min_col on pm columns left right; reset_index heqb min_col m).
    { intros pm. unfold range_merge. rewrite Cl, Cr, (in_cols _ _ Ol), (in_cols _ _ Or), Ec. destruct h; try discriminate; reflexivity. }
    assert (Elen : length (pgrid left) = length rll) by (rewrite El; unfold cut_table; now rewrite map_length, bounds_length).
    assert (Fin : forall (m : @pframe nat H A) D rl cl, holds m D rl cl -> rl <> [] -> cl <> [] -> pindex m = None ->
      exists x rl cl, reset_index heqb min_col m = Ok x /\ holds x (mkdf (seq 0 (length (dcells D))) (dcols D) (dcells D)) rl cl /\ rl <> [] /\ cl <> []).
    { intros m D rl cl Hm R C Pi. destruct (@reset_index_ok H A heqb min_col m D rl cl Hm Pi R C Pm) as (x & rl' & cl' & E & Hx & R' & C' & _).
      exists x, rl', cl'. split; [exact E|]. split; [|auto]. replace (length (dcells D)) with (nrows D); [exact Hx|].
      destruct Hm as [([Wm _] & _) _]. symmetry. exact Wm. }
    destruct (Nat.eq_dec (length rll) 1) as [E1|N1].
    - (* one row of blocks: one piece *)
      exists [(ld, rd)]. split; [now apply whole_piece|]. intros pm. cbn [rmap fst snd].
      destruct rll as [|nr [|? ?]]; try discriminate E1.
      assert (Eb : range_broadcast leqb heqb kle value numeric quantiles over nparts min_row min_col on pm columns left right
        = broadcast_rows leqb heqb min_col pm right nparts columns left) by (unfold range_broadcast; now rewrite Elen).
      rewrite Rm, Eb.
      assert (Ex : (do rows <- rmap (concat_axis leqb heqb true) (extract_partitions right); concat_axis leqb heqb false rows) = Ok rd).
      { unfold extract_partitions. destruct (Nat.ltb_spec 0 (gsize (pgrid right))) as [_|Z].
        - rewrite Er. now apply (gather_grid leqb heqb leqb_ok heqb_ok).
        - exfalso. rewrite Er in Z. unfold gsize, cut_table in Z. destruct rlr as [|a rlr]; [easy|]. destruct clr as [|b clr]; [easy|]. cbn in Z. lia. }
      pose proof (@broadcast_one L H A leqb heqb leqb_ok pm ld rd right left min_col nparts nr cll columns Hl Cll Pm Pn Ex) as X.
      destruct (pm ld rd) as [out|e]; cbn [rbind].
      + intros F. inversion F as [|? ? [Wo Do] _]; subst. cbn [map concat]. rewrite app_nil_r.
        destruct X as (m & rl & cl & Em & Hm & R & C & Pi & _); [exact Wo|rewrite Do; exact Hcol|].
        rewrite Em. cbn [rbind]. rewrite <- Do. eapply Fin; eauto.
      + now rewrite X.
    - destruct Hs as [Hs|[Hpos Hov]]; [lia|].
      assert (L2 : 2 <= length rll) by (destruct rll as [|? [|? ?]]; cbn in *; try lia; easy).
      destruct (@shuffle_with_ok on ld rd rll cll rlr clr (length rll) min_row min_col) as (ps & Pok & Pne & Es); auto.
      exists ps. split; [exact Pok|]. intros pm. rewrite Rm. unfold range_broadcast. rewrite Elen.
      destruct (Nat.eqb_spec (length rll) 1) as [|_]; [lia|]. destruct (Nat.eqb_spec (length rll) 0) as [|_]; [lia|].
      rewrite (gridded_row_lengths Gl Cll), Srl. unfold sample. destruct (Nat.eqb_spec (nrows ld) 0) as [|_]; [lia|]. rewrite Hov. cbn [rbind].
      rewrite Cl, Cr, El, Er, Es.
      destruct (rmap (fun q => pm (fst q) (snd q)) ps) as [outs|e] eqn:Eo; cbn [rbind]; [|reflexivity].
      intros F. destruct (column_grid F) as (Eg & WD & SD). set (D := of_rows c (concat (map rows_of outs))) in *.
      rewrite Eg.
      assert (Eo2 : outs <> []).
      { intros ->. apply rmap_inv in Eo. inversion Eo. congruence. }
      destruct (@construct_gridded _ _ _ (mkpf (cut_table (map nrows outs) [length c] D) None columns None None) D (map nrows outs) [length c])
        as (m & rl' & cl' & F1 & F2 & F3 & F4 & F5 & F6); auto; [|destruct outs; [easy|discriminate]|discriminate|].
      + unfold gridded; cbn [pgrid pindex pcols prl pcl]. split; [exact WD|]. split; [exact SD|].
        split; [rewrite list_sum_cons; change (list_sum []) with 0; change (ncols D) with (length c); lia|].
        repeat split; auto; try discriminate. intros c' Ec'. destruct Hcol as [Hc'|Hc']; rewrite Hc' in Ec'; [discriminate|]. injection Ec' as <-. reflexivity.
      + cbn [pindex pcols] in F5, F6. rewrite F1. cbn [rbind].
        assert (Hm : holds m D rl' cl') by (split; [exact F2|]; rewrite F5, F6; tauto).
        destruct (Fin m D rl' cl' Hm F3 F4 F5) as (x & rl & cl & Ex & Hx & R & C).
        exists x, rl, cl. split; [exact Ex|]. split; [|auto].
        replace (concat (map dcells outs)) with (dcells D); [exact Hx|].
        unfold D, of_rows. cbn [dcells]. rewrite concat_map, map_map. f_equal. apply map_ext_in. intros o Ho.
        rewrite Forall_forall in F. destruct (F o Ho) as [Wo _]. now apply map_snd_rows.
  Qed.
End Pieces.
