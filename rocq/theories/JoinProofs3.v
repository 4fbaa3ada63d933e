From Verif Require Import Base Table ChunkModel ChunkSpec ChunkProofs GridSpec GridModel FrameSpec GridProofs GridProofs2 GridProofs3 GridProofs4 GridProofs5 JoinSpec JoinModel JoinProofs JoinProofs2.

Section Instances.
  Context {L H A : Type}.
  Variable leqb : L -> L -> bool.
  Variable heqb : H -> H -> bool.
  Hypothesis leqb_ok : forall x y, leqb x y = true <-> x = y.
  Hypothesis heqb_ok : forall x y, heqb x y = true <-> x = y.
  Variable fill : A.
  Notation dframe := (df L H A).
  Notation pf := (@pframe L H A).
  Notation slot := (@slot L H A).

  Lemma slices_bounds {X} (l : list X) lens : list_sum lens = length l ->
    concat (map (fun iv => slice l (fst iv) (snd iv)) (bounds 0 lens)) = l.
  Proof. intros E. now apply (tiles_bounds _ E). Qed.

  Lemma row_labels_holds (f : pf) (d : dframe) rl cl : holds f d rl cl -> cl <> [] -> row_labels f = dindex d.
  Proof. intros [(W & Sr & Sc & G & _) [[Hi|Hi] _]] Hc; unfold row_labels; rewrite Hi; [|reflexivity].
    rewrite G. unfold cut_table. rewrite map_map. destruct cl as [|c cl]; [easy|]. cbn [bounds map].
    rewrite <- (@slices_bounds _ (dindex d) rl) at 1 by exact Sr. reflexivity. Qed.

  Lemma col_labels_holds (f : pf) (d : dframe) rl cl : holds f d rl cl -> rl <> [] \/ pcols f <> None -> col_labels f = dcols d.
  Proof. intros [(W & Sr & Sc & G & _) [_ [Hi|Hi]]] Hc; unfold col_labels; rewrite Hi; [|reflexivity].
    destruct Hc as [Hc|Hc]; [|congruence].
    rewrite G. unfold cut_table. destruct rl as [|r rl]; [easy|]. cbn [bounds map]. rewrite map_map.
    rewrite <- (@slices_bounds _ (dcols d) cl) at 1 by exact Sc. reflexivity. Qed.

  Definition row_rep := @rep L H A L false row_labels (@row_lengths L H A) (@dindex L H A).
  Definition col_rep := @rep L H A H true col_labels (@column_widths L H A) (@dcols L H A).

  Lemma row_rep_holds (f : pf) d rl cl : holds f d rl cl -> rl <> [] -> cl <> [] -> row_rep (mkslot f d rl cl).
  Proof. intros Hh Hr Hc. assert (Hh' := Hh). destruct Hh' as [G _]. assert (G' := G).
    destruct G' as (W & Sr & Sc & Gr & _). unfold row_rep, rep; cbn. repeat split; auto; try apply W.
    - now apply (row_labels_holds Hh).
    - intros _. now apply (gridded_row_lengths G). Qed.

  Lemma col_rep_holds (f : pf) d rl cl : holds f d rl cl -> rl <> [] \/ pcols f <> None -> cl <> [] -> col_rep (mkslot f d cl rl).
  Proof. intros Hh Hr Hc. assert (Hh' := Hh). destruct Hh' as [G _]. assert (G' := G).
    destruct G' as (W & Sr & Sc & Gr & _). unfold col_rep, rep; cbn. repeat split; auto; try apply W.
    - now apply (col_labels_holds Hh).
    - intros E. now apply (gridded_column_widths G). Qed.

  Lemma get_length_list_ne n k m l : 0 < k -> 0 < m -> get_length_list n k m = Ok l -> l <> [].
  Proof. intros Hk Hm E. destruct (get_length_list_ok n Hk Hm) as (l' & E' & Hl & _). rewrite E in E'. injection E' as ->.
    intros ->. cbn in Hl. lia. Qed.

  Section One.
    Variables nparts min_block : nat.
    Hypothesis Hn : 0 < nparts.
    Hypothesis Hm : 0 < min_block.

    Lemma copartition_rows_ok join (t0 : slot) (ts : list slot) joined ixs :
      Forall row_rep (t0 :: ts) -> Exists (fun t => so t <> []) (t0 :: ts) ->
      joins_well join (map (fun t => dindex (sd t)) (t0 :: ts)) ->
      join_index_objects leqb join (map (fun t => dindex (sd t)) (t0 :: ts)) = (joined, ixs) ->
      exists base jc lc,
        copartition_rows leqb heqb fill join nparts min_block (sf t0) (map sf ts)
        = Ok (map (fun it => cut_table base (so (snd it)) (pick_rows fill joined (nth (fst it) ixs []) (sd (snd it))))
                  (combine (seq 0 (length (t0 :: ts))) (t0 :: ts)), jc, lc)
        /\ list_sum base = length joined /\ base <> []
        /\ (jc = Some joined \/ jc = None /\ pindex (sf t0) = None)
        /\ (lc = None /\ prl (sf t0) = None \/ lc = Some base)
        /\ (so t0 <> [] -> dindex (sd t0) = joined -> base = sl t0)
        /\ (so t0 <> [] -> dindex (sd t0) <> joined -> get_length_list (length joined) nparts min_block = Ok base).
    Proof. intros F Ex Hj E.
      apply (@copartition_ok L H A L leqb heqb false leqb leqb_ok row_labels pindex (@row_lengths L H A) prl (pick_rows fill) join (@dindex L H A)); auto.
      - intros f x Ef. unfold row_lengths. now rewrite Ef.
      - intros f x Ef. unfold row_labels. now rewrite Ef.
      - intros d W. now apply pick_rows_id.
      - intros d l o j ix lengths W Hl Ho Sl So Hix Hlen.
        destruct (@map_axis_column_wise L H A L H A leqb heqb heqb_ok (pick_rows fill j ix) (pick_rows_cw fill j ix Hix) d l o nparts min_block false None lengths)
          as (l' & M1 & M2 & _ & _ & M5 & _ & M7); auto; try discriminate.
        + intros x Ex'. split; [reflexivity|]. apply Hlen in Ex'. cbn. now apply Ex'.
        + exists l'. split; [exact M1|]. split; [exact M2|].
          assert (Q : forall x, lengths = Some x -> l' = x) by (intros x Ex'; apply M5; [assumption|now apply Hlen in Ex']).
          split; [|split; [exact Q|]].
          * destruct lengths as [x|]; [rewrite (Q x eq_refl); now apply Hlen|].
            eapply get_length_list_ne; [exact Hn|exact Hm|exact (M7 eq_refl eq_refl)].
          * intros En. exact (M7 En eq_refl).
    Qed.

    Lemma copartition_cols_ok join (t0 : slot) (ts : list slot) joined ixs :
      Forall col_rep (t0 :: ts) -> Exists (fun t => so t <> []) (t0 :: ts) ->
      joins_well join (map (fun t => dcols (sd t)) (t0 :: ts)) ->
      join_index_objects heqb join (map (fun t => dcols (sd t)) (t0 :: ts)) = (joined, ixs) ->
      exists base jc lc,
        copartition_cols leqb heqb fill join nparts min_block (sf t0) (map sf ts)
        = Ok (map (fun it => cut_table (so (snd it)) base (pick_cols fill joined (nth (fst it) ixs []) (sd (snd it))))
                  (combine (seq 0 (length (t0 :: ts))) (t0 :: ts)), jc, lc)
        /\ list_sum base = length joined /\ base <> []
        /\ (jc = Some joined \/ jc = None /\ pcols (sf t0) = None)
        /\ (lc = None /\ pcl (sf t0) = None \/ lc = Some base)
        /\ (so t0 <> [] -> dcols (sd t0) = joined -> base = sl t0)
        /\ (so t0 <> [] -> dcols (sd t0) <> joined -> get_length_list (length joined) nparts min_block = Ok base).
    Proof. intros F Ex Hj E.
      apply (@copartition_ok L H A H leqb heqb true heqb heqb_ok col_labels pcols (@column_widths L H A) pcl (pick_cols fill) join (@dcols L H A)); auto.
      - intros f x Ef. unfold column_widths. now rewrite Ef.
      - intros f x Ef. unfold col_labels. now rewrite Ef.
      - intros d W. now apply pick_cols_id.
      - intros d l o j ix lengths W Hl Ho Sl So Hix Hlen.
        destruct (@map_axis_row_wise L H A L H A leqb heqb leqb_ok (pick_cols fill j ix) (pick_cols_rw fill j ix Hix) d o l nparts min_block false None lengths)
          as (l' & M1 & M2 & _ & _ & M5 & _ & M7); auto; try discriminate.
        + intros x Ex'. split; [reflexivity|]. apply Hlen in Ex'. cbn. now apply Ex'.
        + exists l'. split; [exact M1|]. split; [exact M2|].
          assert (Q : forall x, lengths = Some x -> l' = x) by (intros x Ex'; apply M5; [assumption|now apply Hlen in Ex']).
          split; [|split; [exact Q|]].
          * destruct lengths as [x|]; [rewrite (Q x eq_refl); now apply Hlen|].
            eapply get_length_list_ne; [exact Hn|exact Hm|exact (M7 eq_refl eq_refl)].
          * intros En. exact (M7 En eq_refl).
    Qed.
  End One.
End Instances.
