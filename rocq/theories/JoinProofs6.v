From Verif Require Import Base Table ChunkModel ChunkSpec ChunkProofs GridSpec GridModel FrameSpec GridProofs GridProofs2 GridProofs3 GridProofs4 GridProofs5 JoinSpec JoinModel JoinProofs JoinProofs2 JoinProofs3 JoinProofs4 JoinProofs5.

Lemma nonzero_cons n l : nonzero (n :: l) = if n =? 0 then nonzero l else n :: nonzero l.
Proof. unfold nonzero. cbn. now destruct (n =? 0). Qed.

Lemma sum_zero_repeat l : list_sum l = 0 -> l = repeat 0 (length l) /\ nonzero l = [].
Proof. induction l as [|n l IH]; lsum; [auto|]. intros E. destruct IH as [I1 I2]; [lia|].
  assert (n = 0) by lia. subst. split; [cbn; now rewrite <- I1|]. now rewrite nonzero_cons. Qed.

Lemma niz_split l : no_inner_zero l -> exists k, l = nonzero l ++ repeat 0 k.
Proof. induction l as [|n l IH]; cbn [no_inner_zero]; [exists 0; reflexivity|].
  intros [H1 H2]. rewrite nonzero_cons. destruct (Nat.eqb_spec n 0) as [-> |Hn].
  - destruct (sum_zero_repeat _ (H1 eq_refl)) as [E1 E2]. exists (S (length l)). rewrite E2. cbn. now rewrite <- E1.
  - destruct (IH H2) as [k E]. exists k. cbn. now rewrite <- E. Qed.

Lemma nonzero_idem l : nonzero (nonzero l) = nonzero l.
Proof. induction l as [|n l IH]; [reflexivity|]. rewrite nonzero_cons. destruct (n =? 0) eqn:E; [exact IH|]. now rewrite nonzero_cons, E, IH. Qed.

Lemma nonzero_all_pos l : Forall (fun n => 0 < n) l -> nonzero l = l.
Proof. induction 1 as [|n l Hn _ IH]; [reflexivity|]. rewrite nonzero_cons. destruct (Nat.eqb_spec n 0); [lia|]. now rewrite IH. Qed.

Lemma niz_seq n c s k : 0 < c ->
  no_inner_zero (map (fun i => if c * (i + 1) <=? n then c else n - c * i) (seq s k)).
Proof. intros Hc. revert s. induction k as [|k IH]; intros s; cbn [seq map no_inner_zero]; [easy|]. split; [|apply IH].
  intros E. assert (Hs : n <= c * s). { destruct (Nat.leb_spec (c * (s + 1)) n); lia. }
  clear IH E. assert (G : forall s, n <= c * s -> list_sum (map (fun i => if c * (i + 1) <=? n then c else n - c * i) (seq s k)) = 0).
  { clear s Hs. induction k as [|k IH]; intros s Hs; cbn [seq map]; [reflexivity|]. lsum. rewrite IH by nia.
    destruct (Nat.leb_spec (c * (s + 1)) n); nia. }
  apply G. nia. Qed.

Section NAryProofs.
  Context {L H A B : Type}.
  Variable leqb : L -> L -> bool.
  Variable heqb : H -> H -> bool.
  Hypothesis leqb_ok : forall x y, leqb x y = true <-> x = y.
  Hypothesis heqb_ok : forall x y, heqb x y = true <-> x = y.
  Variable fill : A.
  Notation dframe := (df L H A).
  Notation pf := (@pframe L H A).
  Notation slot := (@slot L H A).

  Lemma get_length_list_niz n k m l : 0 < k -> 0 < m -> get_length_list n k m = Ok l -> no_inner_zero l.
  Proof. intros Hk Hm E. unfold get_length_list in E. destruct (compute_chunksize_ok n Hk Hm) as (c & Ec & Hc & _).
    rewrite Ec in E. cbn [rbind] in E. injection E as <-.
    match goal with |- no_inner_zero (map ?f _) => replace (map f (seq 0 k)) with (map (fun i => if c * (i + 1) <=? n then c else n - c * i) (seq 0 k)) end.
    - now apply niz_seq.
    - apply map_ext. intros i. rewrite (Nat.mul_comm c (i + 1)), (Nat.mul_comm c i). destruct (_ <=? _); [reflexivity|]. lia. Qed.

  Lemma keep_nonzero_trailing {X} l k (xs : list X) : length xs = length l -> keep_nonzero (l ++ repeat 0 k) xs = keep_nonzero l xs.
  Proof. intros E. unfold keep_nonzero. f_equal. f_equal. revert xs E. induction l as [|n l IH]; intros [|x xs] E; try discriminate.
    - reflexivity.
    - cbn. f_equal. apply IH. now injection E. Qed.

  Lemma filter_unknown (f : pf) : prl f = None \/ pcl f = None -> filter_empties false f = f.
  Proof. intros E. unfold filter_empties. cbn [negb andb].
    replace (_ || _) with true; [reflexivity|]. destruct E as [-> | ->]; [reflexivity|]. now destruct (prl f). Qed.

  (** What the constructor does to a frame with true caches. *)
  Lemma construct_detail (f : pf) (d : dframe) rl cl : holds f d rl cl -> rl <> [] -> cl <> [] ->
    exists f' rl' cl', construct f = Ok f' /\ holds f' d rl' cl' /\ rl' <> [] /\ cl' <> []
      /\ pindex f' = pindex f /\ pcols f' = pcols f
      /\ ((f' = f /\ (prl f = None \/ pcl f = None) /\ rl' = rl /\ cl' = cl)
          \/ (nrows d = 0 \/ ncols d = 0) /\ rl' = rl /\ cl' = cl /\ pcl f' = Some cl /\ prl f <> None /\ pcl f <> None
          \/ 0 < nrows d /\ 0 < ncols d /\ rl' = nonzero rl /\ cl' = nonzero cl /\ pcl f' = Some cl' /\ prl f <> None /\ pcl f <> None).
  Proof. intros [G [Hi Hc]] Hr Hcl. unfold construct. rewrite (gridded_validate G).
    destruct (filter_empties_gridded false G Hr Hcl) as (rl' & cl' & G1 & G2 & G3 & G4).
    assert (X : rl' <> [] /\ cl' <> []).
    { apply (gridded_ne G1 Hr Hcl). destruct G4 as [G4|[G4|G4]]; tauto. }
    exists (filter_empties false f), rl', cl'. split; [reflexivity|].
    split; [split; [exact G1|split; [now rewrite G2|now rewrite G3]]|].
    destruct X as [X1 X2]. repeat (split; [assumption|]).
    destruct G4 as [(Y1 & Y2 & Y3 & Y4 & Y5)|[(Y1 & Y2 & Y3 & Y4 & Y5)|(Y1 & Y2 & Y3 & Y4 & Y5 & Y6)]].
    - left. auto.
    - right. left. rewrite Y5. repeat split; auto; intros E0; rewrite (filter_unknown f) in Y4, Y5 by auto; congruence.
    - right. right. rewrite Y6. repeat split; auto; intros E0; rewrite (filter_unknown f) in Y5, Y6 by auto; congruence. Qed.

  Lemma n_ary_operation_ok (f : A -> A -> B) rl cl (d e : dframe) :
    dindex e = dindex d -> dcols e = dcols d ->
    n_ary_operation leqb heqb f (cut_table rl cl d) (cut_table rl cl e) = Ok (cut_table rl cl (zip_cells f d e)).
  Proof.
    intros Ei Ec. unfold n_ary_operation.
    set (G := fun ri => map (fun ci => block d ri ci) (bounds 0 cl)).
    change (cut_table rl cl d) with (map G (bounds 0 rl)). rewrite map_length.
    assert (R : forall k ivs, (forall i iv, nth_error ivs i = Some iv -> nth_error (bounds 0 rl) (k + i) = Some iv) ->
       rmap (fun irow => rmap (fun jb =>
        match nth_error (cut_table rl cl e) (fst irow) with
        | Some rrow => match nth_error rrow (fst jb) with Some e => block_op leqb heqb f (snd jb) e | None => Err IndexError end
        | None => Err IndexError
        end) (combine (seq 0 (length (snd irow))) (snd irow))) (combine (seq k (length ivs)) (map G ivs))
       = Ok (map (fun ri => map (fun ci => block (zip_cells f d e) ri ci) (bounds 0 cl)) ivs)).
    { intros k ivs. revert k. induction ivs as [|iv ivs IH]; intros k Hn; [reflexivity|].
      cbn [length seq map combine rmap fst snd].
      assert (E0 := Hn 0 iv eq_refl). rewrite Nat.add_0_r in E0.
      unfold cut_table at 1. rewrite nth_error_map, E0. cbn [option_map].
      assert (C : forall j civs, (forall i ci, nth_error civs i = Some ci -> nth_error (bounds 0 cl) (j + i) = Some ci) ->
        rmap (fun jb => match nth_error (map (fun ci => block e iv ci) (bounds 0 cl)) (fst jb) with
                        | Some e => block_op leqb heqb f (snd jb) e | None => Err IndexError end)
             (combine (seq j (length civs)) (map (fun ci => block d iv ci) civs))
        = Ok (map (fun ci => block (zip_cells f d e) iv ci) civs)).
      { intros j civs. revert j. induction civs as [|ci civs IHc]; intros j Hc; [reflexivity|].
        cbn [length seq map combine rmap fst snd].
        assert (Ec0 := Hc 0 ci eq_refl). rewrite Nat.add_0_r in Ec0. rewrite nth_error_map, Ec0. cbn [option_map].
        assert (BO : block_op leqb heqb f (block d iv ci) (block e iv ci) = Ok (block (zip_cells f d e) iv ci)).
        { unfold block_op. cbn [block dindex dcols]. rewrite Ei, Ec, (list_eqb_refl leqb leqb_ok), (list_eqb_refl heqb heqb_ok). cbn [andb].
          f_equal. unfold zip_cells, block; cbn. rewrite Ei || idtac. f_equal.
          rewrite slice_map2.
          generalize (slice (dcells d) (fst iv) (snd iv)) (slice (dcells e) (fst iv) (snd iv)).
          induction l as [|x l IHl]; intros [|y l']; cbn; rewrite ?map2_nil_l, ?map2_nil_r; try reflexivity.
          rewrite !map2_cons. cbn [map]. rewrite <- slice_map2. f_equal. apply IHl. }
        rewrite BO. cbn [rbind]. rewrite (IHc (S j)).
        - reflexivity.
        - intros i c Hi. rewrite <- (Hc (S i) c Hi). f_equal. lia. }
      unfold G at 1 2. rewrite map_length.
      rewrite (C 0 (bounds 0 cl)) by auto. cbn [rbind].
      rewrite (IH (S k)).
      - reflexivity.
      - intros i c Hi. rewrite <- (Hn (S i) c Hi). f_equal. lia. }
    exact (R 0 (bounds 0 rl) (fun i iv E => E)).
  Qed.

  Lemma zip_cells_wf {A2} (f : A -> A2 -> B) (d : dframe) (e : df L H A2) : wf d -> wf e -> nrows d = nrows e -> ncols d = ncols e ->
    wf (zip_cells f d e).
  Proof. intros [W1 W2] [V1 V2] E1 E2. split; cbn.
    - rewrite map2_length. unfold nrows in *. lia.
    - unfold ncols in *; cbn. rewrite <- E2 in V2. clear - W2 V2. revert V2. generalize (dcells e).
      induction W2 as [|r rs Hr _ IH]; intros [|s ss] V2; rewrite ?map2_nil_l, ?map2_nil_r; try constructor.
      * apply Forall_cons_iff in V2 as [V1 V2]. cbn [fst snd]. rewrite map2_length. lia.
      * apply Forall_cons_iff in V2 as [V1 V2]. apply IH. exact V2. Qed.

  (** A final frame whose row lengths list trailing empty blocks that the grid does not have. *)
  Lemma construct_trailing (g : list (list (df L H B))) i c base cl :
    no_inner_zero base -> length g = length (nonzero base) -> 0 < list_sum base -> 0 < list_sum cl ->
    construct (mkpf g i c (Some base) (Some cl)) = construct (mkpf g i c (Some (nonzero base)) (Some cl))
    \/ i = Some [] \/ c = Some [].
  Proof. intros Hz Hg Hs Hc.
    destruct (is_empty_list i) eqn:Ei; [right; left; destruct i as [[|]|]; cbn in Ei; congruence|].
    destruct (is_empty_list c) eqn:Ecc; [right; right; destruct c as [[|]|]; cbn in Ecc; congruence|].
    left. unfold construct, validate_axes_lengths. cbn [prl pindex pcl pcols]. rewrite list_sum_nonzero.
    match goal with |- (if ?b then _ else _) = _ => destruct b; [|reflexivity] end. f_equal.
    unfold filter_empties. cbn [prl pcl pindex pcols pgrid negb orb andb row_lengths column_widths].
    rewrite Ei, Ecc, list_sum_nonzero.
    destruct (Nat.eqb_spec (list_sum base) 0); [lia|]. destruct (Nat.eqb_spec (list_sum cl) 0); [lia|]. cbn [orb].
    rewrite nonzero_idem. f_equal. destruct (niz_split _ Hz) as [k E]. rewrite E at 1.
    apply keep_nonzero_trailing. now rewrite map_length. Qed.

  Theorem n_ary_ok (joinr : list (list L) -> list L * list (list (option nat))) (joinc : list (list H) -> list H * list (list (option nat)))
      nparts min_row min_col (f : A -> A -> B) (lf rf : pf) (dl dr : dframe) rll cll rlr clr jr ixl ixr jcl ixcl ixcr :
    0 < nparts -> 0 < min_row -> 0 < min_col ->
    holds lf dl rll cll -> rll <> [] -> cll <> [] -> holds rf dr rlr clr -> rlr <> [] -> clr <> [] ->
    joins_well joinr [dindex dl; dindex dr] -> join_index_objects leqb joinr [dindex dl; dindex dr] = (jr, [ixl; ixr]) ->
    joins_well joinc [dcols dl; dcols dr] -> join_index_objects heqb joinc [dcols dl; dcols dr] = (jcl, [ixcl; ixcr]) ->
    (0 < ncols dl /\ 0 < ncols dr /\ jcl <> [] /\ pcl lf <> None /\ pcl rf <> None /\ (dindex dl = jr -> no_inner_zero rll))
    \/ (dindex dl = jr /\ Forall (fun n => 0 < n) rll) ->
    exists f' rl' cl',
      n_ary_op leqb heqb fill joinr joinc nparts min_row min_col f lf rf = Ok f'
      /\ holds f' (zip_cells f (pick_cols fill jcl ixcl (pick_rows fill jr ixl dl)) (pick_cols fill jcl ixcr (pick_rows fill jr ixr dr))) rl' cl'
      /\ rl' <> [] /\ cl' <> []
      /\ (pindex lf <> None -> pindex f' <> None) /\ (pcols lf <> None -> pcols f' <> None).
  Proof.
    intros Hn Hmr Hmc HL Nl1 Nl2 HR Nr1 Nr2 Jr Er Jc Ec Hyp.
    set (tl := mkslot lf dl rll cll). set (tr := mkslot rf dr rlr clr).
    assert (F : Forall row_rep [tl; tr]) by (repeat constructor; now apply row_rep_holds).
    destruct (@copartition_rows_ok L H A leqb heqb leqb_ok heqb_ok fill nparts min_row Hn Hmr joinr tl [tr] jr [ixl; ixr] F)
      as (base & jc & lc & C1 & C2 & C3 & C4 & C5 & C6 & C7); auto.
    specialize (C6 Nl2). specialize (C7 Nl2). cbn [sf sd sl so tl] in C4, C5, C6, C7.
    unfold n_ary_op. change rf with (sf tr). change lf with (sf tl) at 1. change [sf tr] with (map sf [tr]). rewrite C1.
    cbn [rbind map combine seq length fst snd nth sf sd sl so tl tr]. clear C1.
    set (PL := pick_rows fill jr ixl dl). set (PR := pick_rows fill jr ixr dr).
    assert (Lixl : length ixl = length jr) by exact (@jio_len _ leqb leqb_ok joinr _ _ _ 0 _ Jr Er eq_refl).
    assert (Lixr : length ixr = length jr) by exact (@jio_len _ leqb leqb_ok joinr _ _ _ 1 _ Jr Er eq_refl).
    assert (Lcl : length ixcl = length jcl) by exact (@jio_len _ heqb heqb_ok joinc _ _ _ 0 _ Jc Ec eq_refl).
    assert (Lcr : length ixcr = length jcl) by exact (@jio_len _ heqb heqb_ok joinc _ _ _ 1 _ Jc Ec eq_refl).
    destruct HL as [(WL & SLr & SLc & _ & _ & _ & PLr & PLc) [IL CL]].
    destruct HR as [(WR & SRr & SRc & _ & _ & _ & PRr & PRc) [IR CR]].
    assert (WPL : wf PL) by now apply pick_rows_wf. assert (WPR : wf PR) by now apply pick_rows_wf.
    assert (NPL : nrows PL = length jr) by reflexivity. assert (NPR : nrows PR = length jr) by reflexivity.
    assert (Hjc : jc = None \/ jc = Some jr) by (destruct C4 as [-> |[-> _]]; auto).
    assert (Hlc : lc = None \/ lc = Some base) by (destruct C5 as [[-> _]| ->]; auto).
    assert (HL1 : holds (mkpf (cut_table base cll PL) jc (pcols lf) lc (pcl lf)) PL base cll) by (apply holds_intro; cbn; auto).
    assert (HR1 : holds (mkpf (cut_table base clr PR) jc (pcols rf) lc (pcl rf)) PR base clr) by (apply holds_intro; cbn; auto).
    destruct (construct_detail HL1 C3 Nl2) as (l1 & rl1 & cl1 & K1 & K2 & K3 & K4 & K5 & K6 & K7).
    destruct (construct_detail HR1 C3 Nr2) as (r1 & rl2 & cl2 & Q1 & Q2 & Q3 & Q4 & Q5 & Q6 & Q7).
    rewrite K1, Q1. cbn [rbind]. cbn [prl pcl pindex pcols] in *.
    (* both operands keep the same row blocks *)
    assert (NIZ : no_inner_zero base).
    { destruct Hyp as [(_ & _ & _ & _ & _ & Hz)|[Hz Hp]].
      - destruct (list_eq_dec (fun x y => match Bool.bool_dec (leqb x y) true with left e => left (proj1 (leqb_ok x y) e) | right n => right (fun q => n (proj2 (leqb_ok x y) q)) end) (dindex dl) jr) as [e|ne].
        + rewrite (C6 e). auto.
        + eapply get_length_list_niz; [exact Hn|exact Hmr|exact (C7 ne)].
      - rewrite (C6 Hz). clear - Hp. induction Hp as [|n l Hn _ IH]; cbn; [easy|]. split; [lia|assumption]. }
    assert (SAME : rl1 = rl2 /\ (rl1 = base \/ rl1 = nonzero base /\ lc = Some base /\ pcl l1 = Some cl1 /\ 0 < list_sum base /\ jcl <> [])).
    { destruct Hyp as [(H1 & H2 & H3 & H4 & H5 & _)|[Hz Hp]].
      - destruct lc as [lc0|] eqn:Elc.
        + destruct Hlc as [Hlc|Hlc]; [discriminate|]. injection Hlc as ->.
          destruct K7 as [(_ & [E|E] & _ & _)|[(E & -> & -> & E' & _)|(E & E' & -> & -> & E'' & _)]]; [discriminate|contradiction| |].
          * destruct E as [E|E]; [|change (ncols PL) with (ncols dl) in E; lia].
            destruct Q7 as [(_ & _ & -> & _)|[(_ & -> & _)|(D & _)]]; auto. lia.
          * destruct Q7 as [(_ & [D|D] & _ & _)|[(D & _)|(D & D' & -> & -> & D'' & _)]]; [discriminate|contradiction| |].
            -- change (ncols PR) with (ncols dr) in D. lia.
            -- split; [reflexivity|]. right. repeat split; auto. lia.
        + destruct K7 as [(_ & _ & -> & _)|[(_ & _ & _ & _ & E & _)|(_ & _ & _ & _ & _ & E & _)]]; try contradiction.
          destruct Q7 as [(_ & _ & -> & _)|[(_ & _ & _ & _ & E & _)|(_ & _ & _ & _ & _ & E & _)]]; try contradiction. auto.
      - assert (Eb : nonzero base = base) by (rewrite (C6 Hz); now apply nonzero_all_pos). rewrite Eb in *.
        destruct K7 as [(_ & _ & -> & _)|[(_ & -> & _)|(_ & _ & -> & _)]];
        destruct Q7 as [(_ & _ & -> & _)|[(_ & -> & _)|(_ & _ & -> & _)]]; auto. }
    destruct SAME as [<- SAME].
    (* columns *)
    set (ul := mkslot l1 PL cl1 rl1). set (ur := mkslot r1 PR cl2 rl1).
    assert (F2 : Forall col_rep [ul; ur]) by (repeat constructor; apply col_rep_holds; auto).
    assert (Ex2 : Exists (fun t => so t <> []) [ul; ur]) by (now apply Exists_cons_hd).
    destruct (@copartition_cols_ok L H A leqb heqb leqb_ok heqb_ok fill nparts min_col Hn Hmc joinc ul [ur] jcl [ixcl; ixcr] F2 Ex2 Jc Ec)
      as (base2 & jc2 & lc2 & D1 & D2 & D3 & D4 & D5 & _ & _).
    change r1 with (sf ur). change l1 with (sf ul) at 1. change [sf ur] with (map sf [ur]). rewrite D1. clear D1.
    cbn [rbind map combine seq length fst snd nth sf sd sl so ul ur] in *.
    set (XL := pick_cols fill jcl ixcl PL). set (XR := pick_cols fill jcl ixcr PR).
    assert (WXL : wf XL) by now apply pick_cols_wf. assert (WXR : wf XR) by now apply pick_cols_wf.
    assert (Hgl : forall d : dframe, exists r rs, cut_table rl1 base2 d = r :: rs).
    { intros d. destruct (cut_table rl1 base2 d) as [|r rs] eqn:Eq; [|eauto].
      apply (f_equal (@length _)) in Eq. rewrite cut_table_length in Eq. destruct rl1; [easy|discriminate]. }
    assert (NF : (match cut_table rl1 base2 XL, cut_table rl1 base2 XR with
                  | [], _ => Ok [] | _, [] => Ok []
                  | _, _ => n_ary_operation leqb heqb f (cut_table rl1 base2 XL) (cut_table rl1 base2 XR) end)
                 = Ok (cut_table rl1 base2 (zip_cells f XL XR))).
    { rewrite (@n_ary_operation_ok f rl1 base2 XL XR eq_refl eq_refl).
      destruct (Hgl XL) as (? & ? & ->). destruct (Hgl XR) as (? & ? & ->). reflexivity. }
    rewrite NF. cbn [rbind]. clear NF Hgl.
    set (D := zip_cells f XL XR).
    assert (WD : wf D) by (apply zip_cells_wf; auto).
    assert (Hjc2 : jc2 = None \/ jc2 = Some jcl) by (destruct D4 as [-> |[-> _]]; auto).
    assert (Hlc2 : lc2 = None \/ lc2 = Some base2) by (destruct D5 as [[-> _]| ->]; auto).
    assert (FIN : exists rlx lcx, construct (mkpf (cut_table rl1 base2 D) jc jc2 lc lc2) = construct (mkpf (cut_table rl1 base2 D) jc jc2 lcx lc2)
                   /\ rlx = rl1 /\ (lcx = None \/ lcx = Some rl1) /\ list_sum rl1 = length jr).
    { destruct SAME as [-> |(-> & -> & E1 & E2 & E3)].
      - exists base, lc. auto.
      - exists (nonzero base), (Some (nonzero base)). rewrite list_sum_nonzero. repeat split; auto.
        destruct D5 as [[_ D5]| ->]; [congruence|].
        destruct (@construct_trailing (cut_table (nonzero base) base2 D) jc jc2 base base2) as [X|[X|X]]; auto.
        + now rewrite cut_table_length.
        + rewrite D2. destruct jcl; [easy|cbn; lia].
        + destruct Hjc as [Hj|Hj]; rewrite X in Hj; [discriminate Hj|]. injection Hj as Hj. rewrite <- Hj in C2. cbn in C2. lia.
        + destruct Hjc2 as [Hj|Hj]; rewrite X in Hj; [discriminate Hj|]. injection Hj as Hj. congruence. }
    destruct FIN as (rlx & lcx & -> & -> & Hlcx & Hsum).
    assert (HF : holds (mkpf (cut_table rl1 base2 D) jc jc2 lcx lc2) D rl1 base2) by (apply holds_intro; cbn; auto).
    destruct (construct_holds HF K3 D3) as (f' & rl' & cl' & Z1 & Z2 & Z3 & Z4 & Z5 & Z6).
    exists f', rl', cl'. repeat split; auto; try apply Z2.
    - intros Hp. rewrite Z5. cbn. destruct C4 as [-> | [_ C4]]; [easy|contradiction].
    - intros Hp. rewrite Z6. cbn. destruct D4 as [-> | [_ D4]]; [easy|]. rewrite K6 in D4. contradiction.
  Qed.
End NAryProofs.
