From Verif Require Import Base Table ChunkModel ChunkSpec ChunkProofs GridSpec GridModel FrameSpec GridProofs GridProofs2 GridProofs3 GridProofs4 GridProofs5 JoinSpec JoinModel JoinProofs.

(** * Picking rows and columns *)
Section Pick.
  Context {L H A : Type}.
  Variable fill : A.
  Notation dframe := (df L H A).

  Lemma pick_rows_wf j ix (d : dframe) : length ix = length j -> wf d -> wf (pick_rows fill j ix d).
  Proof. intros E [W1 W2]. split; cbn; [now rewrite map_length|].
    apply Forall_forall. intros r Hr. apply in_map_iff in Hr as (o & <- & _).
    destruct o as [p|]; [|apply repeat_length].
    destruct (Nat.lt_ge_cases p (length (dcells d))).
    - rewrite Forall_forall in W2. apply W2. now apply nth_In.
    - rewrite nth_overflow by assumption. apply repeat_length. Qed.

  Lemma pick_rows_cw j ix : length ix = length j -> column_wise (pick_rows (L:=L) (H:=H) fill j ix).
  Proof. intros E d W. split; [now apply pick_rows_wf|]. split; [reflexivity|]. intros a b.
    unfold pick_rows, iloc_cols; cbn. f_equal. rewrite map_map. apply map_ext. intros o.
    assert (X : slice (repeat fill (ncols d)) a b = repeat fill (length (slice (dcols d) a b))).
    { rewrite slice_repeat, slice_length. reflexivity. }
    unfold ncols in *; cbn. destruct o as [p|]; [|now rewrite X].
    rewrite <- X. exact (map_nth (fun r => slice r a b) (dcells d) (repeat fill (length (dcols d))) p). Qed.

  Lemma pick_cols_wf j ix (d : dframe) : length ix = length j -> wf d -> wf (pick_cols fill j ix d).
  Proof. intros E [W1 W2]. split; cbn; [now rewrite map_length|].
    apply Forall_forall. intros r Hr. apply in_map_iff in Hr as (o & <- & _). now rewrite map_length. Qed.

  Lemma pick_cols_rw j ix : length ix = length j -> row_wise (pick_cols (L:=L) (H:=H) fill j ix).
  Proof. intros E d W. split; [now apply pick_cols_wf|]. split; [reflexivity|]. intros a b.
    unfold pick_cols, iloc_rows; cbn. f_equal. now rewrite slice_map. Qed.

  Lemma map_nth_seq {X} (l : list X) (dflt : X) : map (fun p => nth p l dflt) (seq 0 (length l)) = l.
  Proof. apply nth_error_ext. intros i. rewrite nth_error_map.
    destruct (Nat.lt_ge_cases i (length l)).
    - rewrite (nth_error_nth' (seq 0 (length l)) 0) by now rewrite seq_length. rewrite seq_nth by assumption. cbn.
      now rewrite (nth_error_nth' l dflt).
    - rewrite !(proj2 (nth_error_None _ _)); auto; now rewrite seq_length. Qed.

  Lemma pick_rows_id (d : dframe) : wf d -> pick_rows fill (dindex d) (map Some (seq 0 (length (dindex d)))) d = d.
  Proof. intros [W1 W2]. unfold pick_rows. rewrite map_map. rewrite <- W1, map_nth_seq. now destruct d. Qed.

  Lemma pick_cols_id (d : dframe) : wf d -> pick_cols fill (dcols d) (map Some (seq 0 (length (dcols d)))) d = d.
  Proof. intros [W1 W2]. unfold pick_cols. destruct d as [i c x]. cbn in *. f_equal.
    clear W1. induction W2 as [|r rs Hr _ IH]; cbn; [reflexivity|]. rewrite IH. f_equal.
    rewrite map_map. unfold ncols in Hr; cbn in Hr. rewrite <- Hr. apply map_nth_seq. Qed.
End Pick.

(** * The join of the labels *)
Section JoinOk.
  Context {X : Type}.
  Variable xeqb : X -> X -> bool.
  Hypothesis xeqb_ok : forall x y, xeqb x y = true <-> x = y.
  Variable join : list (list X) -> list X * list (list (option nat)).

  Definition joins_well (idxs : list (list X)) : Prop := join_ok idxs (fst (join idxs)) (snd (join idxs)).

  Lemma jio_ok idxs joined ixs : joins_well idxs -> join_index_objects xeqb join idxs = (joined, ixs) ->
    idxs <> [] -> join_ok idxs joined ixs.
  Proof using xeqb_ok. clear -xeqb_ok. intros Hj E Hne. unfold join_index_objects in E.
    destruct idxs as [|i0 rest]; [easy|].
    destruct (forallb (list_eqb xeqb i0) rest) eqn:Ef.
    - injection E as <- E2.
      change (map (fun i => map Some (seq 0 (length i))) (i0 :: rest) = ixs) in E2. subst ixs.
      rewrite forallb_forall in Ef.
      split; [now rewrite map_length|]. intros i lab ix Hl Hi.
      rewrite nth_error_map, Hl in Hi. cbn in Hi. injection Hi as <-.
      assert (lab = i0) as ->.
      { destruct i; cbn in Hl; [now injection Hl|]. apply nth_error_In in Hl. apply Ef in Hl.
        apply (list_eqb_spec xeqb xeqb_ok) in Hl. now symmetry. }
      rewrite map_length, seq_length. split; [reflexivity|]. split; [|split; [|reflexivity]].
      + intros k p Hk. rewrite nth_error_map in Hk.
        destruct (Nat.lt_ge_cases k (length i0)).
        * rewrite (nth_error_nth' _ 0) in Hk by now rewrite seq_length. rewrite seq_nth in Hk by assumption.
          cbn in Hk. injection Hk as <-. auto.
        * rewrite (proj2 (nth_error_None _ _)) in Hk by now rewrite seq_length. discriminate.
      + intros k x Hk. rewrite nth_error_map in Hk. destruct (nth_error (seq 0 (length i0)) k); discriminate.
    - unfold joins_well in Hj. now rewrite E in Hj.
  Qed.
End JoinOk.

(** * Copartitioning, for either axis *)
Section CopartitionProofs.
  Context {L H A X : Type}.
  Variable leqb : L -> L -> bool.
  Variable heqb : H -> H -> bool.
  Notation dframe := (df L H A).
  Notation pf := (@pframe L H A).
  Variable axis : bool.
  Variable xeqb : X -> X -> bool.
  Hypothesis xeqb_ok : forall x y, xeqb x y = true <-> x = y.
  Variable labels : pf -> list X.
  Variable label_cache : pf -> option (list X).
  Variable lens : pf -> list nat.
  Variable lens_cache : pf -> option (list nat).
  Variable reindex : list X -> list (option nat) -> dframe -> dframe.
  Variable join : list (list X) -> list X * list (list (option nat)).
  Variable lab : dframe -> list X.

  Definition cutx (l o : list nat) (d : dframe) := if axis then cut_table o l d else cut_table l o d.

  Record slot := mkslot { sf : pf; sd : dframe; sl : list nat; so : list nat }.
  Definition rep (t : slot) : Prop :=
    wf (sd t) /\ list_sum (sl t) = axis_size axis (sd t) /\ list_sum (so t) = axis_size (negb axis) (sd t)
    /\ pgrid (sf t) = cutx (sl t) (so t) (sd t)
    /\ labels (sf t) = lab (sd t)
    /\ sl t <> [] /\ (so t <> [] -> lens (sf t) = sl t) /\ (so t = [] -> axis = true).

  Hypothesis lens_cached : forall f x, lens_cache f = Some x -> lens f = x.
  Hypothesis label_cached : forall f x, label_cache f = Some x -> labels f = x.
  Variables nparts min_block : nat.
  Hypothesis reindex_id : forall d, wf d -> reindex (lab d) (map Some (seq 0 (length (lab d)))) d = d.
  Hypothesis reindex_size : forall j ix d, length ix = length j -> wf d -> axis_size axis (reindex j ix d) = length j.
  Hypothesis map_axis_ok : forall d l o j ix lengths, wf d -> l <> [] -> o <> [] ->
    list_sum l = axis_size axis d -> list_sum o = axis_size (negb axis) d -> length ix = length j ->
    (forall x, lengths = Some x -> x <> [] /\ list_sum x = length j) ->
    exists l', map_axis_partitions leqb heqb nparts min_block axis (cutx l o d) (fun d => Ok (reindex j ix d)) false None lengths
               = Ok (cutx l' o (reindex j ix d))
      /\ list_sum l' = length j /\ l' <> []
      /\ (forall x, lengths = Some x -> l' = x)
      /\ (lengths = None -> get_length_list (length j) nparts min_block = Ok l').

  Lemma cutx_o_nil l l' d e : axis = true -> cutx l [] d = cutx l' [] e.
  Proof. intros E. unfold cutx. rewrite E. reflexivity. Qed.

  Lemma gsize_cutx l o d : l <> [] -> (gsize (cutx l o d) =? 0) = true <-> o = [].
  Proof. intros Hl. unfold gsize, cutx. destruct axis.
    - rewrite cut_table_length. destruct o as [|x o]; [now cbn|].
      rewrite cut_table_width by easy. rewrite Nat.eqb_eq. destruct l; [easy|]. cbn. split; discriminate.
    - rewrite cut_table_length, cut_table_width by assumption. rewrite Nat.eqb_eq.
      destruct l; [easy|]. destruct o; cbn; [rewrite Nat.mul_0_r; tauto|split; discriminate]. Qed.

  Lemma first_nonempty_spec ts k : Forall rep ts -> Exists (fun t => so t <> []) ts ->
    exists pre t post, ts = pre ++ t :: post /\ Forall (fun t => so t = []) pre /\ so t <> []
      /\ first_nonempty k (map sf ts) = Some (k + length pre, sf t).
  Proof. intros F. revert k. induction F as [|t ts Ht F IH]; intros k E; [inversion E|].
    cbn [map first_nonempty].
    destruct Ht as (W & S1 & S2 & G & Lb & Nl & _).
    rewrite G. destruct (so t) as [|x o] eqn:Eo.
    - rewrite (proj2 (gsize_cutx [] (sd t) Nl)) by reflexivity. cbn [negb].
      inversion E as [? ? Q|? ? Q]; subst; [congruence|].
      destruct (IH (S k) Q) as (pre & t' & post & -> & Fp & Ne & E').
      exists (t :: pre), t', post. cbn [app length]. repeat split; auto.
      rewrite E'. f_equal. f_equal. lia.
    - destruct (gsize (cutx (sl t) (x :: o) (sd t)) =? 0) eqn:Eg; [apply gsize_cutx in Eg; [discriminate|assumption]|].
      cbn [negb]. exists [], t, ts. cbn. repeat split; auto; [congruence|]. f_equal. f_equal. lia. Qed.

  Definition aligned (joined : list X) (ixs : list (list (option nat))) (base : list nat) (k : nat) (ts : list slot) :=
    map (fun it => cutx base (so (snd it)) (reindex joined (nth (fst it) ixs []) (sd (snd it))))
        (combine (seq k (length ts)) ts).

  Lemma combine_app' {Y Z} (a b : list Y) (c e : list Z) : length a = length c ->
    combine (a ++ b) (c ++ e) = combine a c ++ combine b e.
  Proof. revert c. induction a as [|x a IH]; intros [|y c] E; try discriminate; [reflexivity|]. cbn. f_equal. apply IH. now injection E. Qed.

  Lemma combine_seq_len {Z} k n (c : list Z) : length c <= n -> combine (seq k n) c = combine (seq k (length c)) c.
  Proof. revert k n. induction c as [|y c IH]; intros k [|n] E; cbn in *; try lia; try reflexivity.
    f_equal. apply IH. lia. Qed.

  Lemma nth_error_combine_seq {Z} k (c : list Z) i u : nth_error c i = Some u ->
    nth_error (combine (seq k (length c)) c) i = Some (k + i, u).
  Proof. revert k i. induction c as [|y c IH]; intros k [|i] E; try discriminate; cbn in *.
    - injection E as ->. now rewrite Nat.add_0_r.
    - rewrite (IH (S k) i E). do 2 f_equal. lia. Qed.

  Lemma copartition_ok t0 ts joined ixs :
    Forall rep (t0 :: ts) -> Exists (fun t => so t <> []) (t0 :: ts) ->
    joins_well join (map (fun t => lab (sd t)) (t0 :: ts)) ->
    join_index_objects xeqb join (map (fun t => lab (sd t)) (t0 :: ts)) = (joined, ixs) ->
    (forall d, wf d -> length (lab d) = axis_size axis d) ->
    exists base jc lc,
      copartition leqb heqb axis xeqb labels label_cache lens lens_cache reindex join nparts min_block (sf t0) (map sf ts)
      = Ok (aligned joined ixs base 0 (t0 :: ts), jc, lc)
      /\ list_sum base = length joined /\ base <> []
      /\ (jc = Some joined \/ jc = None /\ label_cache (sf t0) = None)
      /\ (lc = None /\ lens_cache (sf t0) = None \/ lc = Some base)
      /\ (so t0 <> [] -> lab (sd t0) = joined -> base = sl t0)
      /\ (so t0 <> [] -> lab (sd t0) <> joined -> get_length_list (length joined) nparts min_block = Ok base).
  Proof.
    intros F Ex Hj E Hll.
    pose proof (@jio_ok X xeqb xeqb_ok join _ _ _ Hj E ltac:(easy)) as JO.
    assert (Elabs : map labels (map sf (t0 :: ts)) = map (fun t => lab (sd t)) (t0 :: ts)).
    { rewrite map_map. apply map_ext_in. intros t Ht. rewrite Forall_forall in F. apply F in Ht. apply Ht. }
    assert (Hix : forall i t, nth_error (t0 :: ts) i = Some t ->
              length (nth i ixs []) = length joined
              /\ (lab (sd t) = joined -> reindex joined (nth i ixs []) (sd t) = sd t)).
    { intros i t Ht. destruct JO as [J1 J2].
      assert (Hl : nth_error (map (fun t => lab (sd t)) (t0 :: ts)) i = Some (lab (sd t))) by now rewrite nth_error_map, Ht.
      destruct (nth_error ixs i) as [ix|] eqn:Ei.
      2:{ apply nth_error_None in Ei. rewrite J1, map_length in Ei.
          assert (i < length (t0 :: ts)) by (apply nth_error_Some; congruence). lia. }
      rewrite (nth_error_nth _ _ _ Ei).
      destruct (J2 _ _ _ Hl Ei) as (K1 & _ & _ & K4). split; [exact K1|].
      intros Ej. rewrite (K4 Ej), <- Ej. apply reindex_id. rewrite Forall_forall in F.
      apply nth_error_In in Ht. apply F in Ht. apply Ht. }
    unfold copartition. change (sf t0 :: map sf ts) with (map sf (t0 :: ts)).
    destruct (forallb (axes_identical xeqb labels lens (sf t0)) (map sf ts)) eqn:Eid.
    - (* early exit *)
      rewrite forallb_forall in Eid.
      assert (Hid : forall t, In t (t0 :: ts) -> lab (sd t) = lab (sd t0) /\ lens (sf t) = lens (sf t0)).
      { rewrite Forall_forall in F. intros t [<-|Ht]; [auto|].
        specialize (Eid (sf t) (in_map sf _ _ Ht)). unfold axes_identical in Eid. apply andb_prop in Eid as [I1 I2].
        apply (list_eqb_spec xeqb xeqb_ok) in I1. apply (list_eqb_spec Nat.eqb Nat.eqb_eq) in I2.
        assert (R1 : rep t) by (apply F; now right). assert (R0 : rep t0) by (apply F; now left).
        destruct R1 as (_ & _ & _ & _ & R1 & _). destruct R0 as (_ & _ & _ & _ & R0 & _). rewrite <- R1, <- R0. auto. }
      assert (Ej : joined = lab (sd t0)).
      { unfold join_index_objects in E. cbn [map] in E.
        replace (forallb _ _) with true in E; [now injection E|]. symmetry. apply forallb_forall.
        intros y Hy. apply in_map_iff in Hy as (t & <- & Ht). apply (list_eqb_spec xeqb xeqb_ok).
        symmetry. apply Hid. now right. }
      apply Exists_exists in Ex as (t & Ht & Hne).
      exists (sl t), (label_cache (sf t0)), (lens_cache (sf t0)).
      assert (Rt : rep t) by (rewrite Forall_forall in F; auto).
      assert (Elt : lens (sf t) = sl t) by (apply Rt, Hne).
      assert (El0 : lens (sf t0) = sl t) by (rewrite <- Elt; symmetry; now apply Hid).
      repeat split.
      + unfold aligned. f_equal. f_equal. f_equal.
        rewrite map_map. apply nth_error_ext. intros i. rewrite !nth_error_map.
        destruct (nth_error (t0 :: ts) i) as [u|] eqn:Eu.
        * assert (Hi : i < length (t0 :: ts)) by (apply nth_error_Some; congruence).
          assert (Ec : nth_error (combine (seq 0 (length (t0 :: ts))) (t0 :: ts)) i = Some (i, u)).
          { now apply (nth_error_combine_seq 0). }
          rewrite Ec. cbn [option_map fst snd]. f_equal.
          assert (Ru : rep u) by (rewrite Forall_forall in F; apply F; eapply nth_error_In; eauto).
          destruct (Hix _ _ Eu) as [_ Hr]. rewrite Hr.
          2:{ rewrite Ej. apply Hid. eapply nth_error_In; eauto. }
          destruct Ru as (_ & _ & _ & G & _ & _ & R7 & R8). rewrite G.
          destruct (so u) as [|x o] eqn:Eo.
          -- apply cutx_o_nil. now apply R8.
          -- rewrite <- (R7 ltac:(easy)). destruct (Hid u) as [_ ->]; [eapply nth_error_In; eauto|]. now rewrite El0.
        * rewrite (proj2 (nth_error_None _ _)); [reflexivity|]. apply nth_error_None in Eu.
          rewrite combine_length, seq_length. lia.
      + rewrite Ej. destruct Rt as (W & S1 & _). rewrite S1. destruct (Hid t Ht) as [<- _]. symmetry. now apply Hll.
      + apply Rt.
      + destruct (label_cache (sf t0)) as [c|] eqn:Ec; [|now right]. left. f_equal.
        apply label_cached in Ec. rewrite <- Ec, Ej. rewrite Forall_forall in F. apply (F t0). now left.
      + destruct (lens_cache (sf t0)) as [c|] eqn:Ec; [|now left]. right. f_equal. apply lens_cached in Ec. congruence.
      + intros Hne0 _. rewrite <- El0. rewrite Forall_forall in F. apply (F t0); [now left|assumption].
      + intros _ Hn. congruence.
    - clear Eid. rewrite Elabs, E.
      destruct (first_nonempty_spec 0 F Ex) as (pre & b & post & Ets & Fp & Hb & ->). cbn [Nat.add].
      assert (Rb : rep b) by (rewrite Forall_forall in F; apply F; rewrite Ets; apply in_elt).
      assert (Eb : nth_error (t0 :: ts) (length pre) = Some b).
      { rewrite Ets, nth_error_app2 by lia. now rewrite Nat.sub_diag. }
      destruct (Hix _ _ Eb) as [Hlix Hidb].
      set (ixb := nth (length pre) ixs []) in *.
      destruct Rb as (Wb & Sb1 & Sb2 & Gb & Lb & Nlb & Lensb & _). specialize (Lensb Hb).
      rewrite Lb.
      (* base *)
      assert (BASE : exists base,
        (if negb (list_eqb xeqb (lab (sd b)) joined)
         then map_axis_partitions leqb heqb nparts min_block axis (pgrid (sf b)) (fun d => Ok (reindex joined ixb d)) false None None
         else Ok (pgrid (sf b))) = Ok (cutx base (so b) (reindex joined ixb (sd b)))
        /\ list_sum base = length joined /\ base <> []
        /\ (if negb (list_eqb xeqb (lab (sd b)) joined)
            then (if axis then match cutx base (so b) (reindex joined ixb (sd b)) with row :: _ => map ncols row | [] => [] end
                  else map (fun row => match row with b :: _ => nrows b | [] => 0 end) (cutx base (so b) (reindex joined ixb (sd b))))
            else lens (sf b)) = base
        /\ (lab (sd b) = joined -> base = sl b)
        /\ (lab (sd b) <> joined -> get_length_list (length joined) nparts min_block = Ok base)).
      { rewrite Gb. destruct (list_eqb xeqb (lab (sd b)) joined) eqn:El; cbn [negb].
        - apply (list_eqb_spec xeqb xeqb_ok) in El. exists (sl b). rewrite (Hidb El). repeat split; auto; try congruence.
          rewrite Sb1, <- El. symmetry. now apply Hll.
        - assert (El' : lab (sd b) <> joined) by (intros E0; apply (list_eqb_spec xeqb xeqb_ok) in E0; congruence).
          destruct (@map_axis_ok (sd b) (sl b) (so b) joined ixb None) as (l' & M1 & M2 & M3 & M4 & M5); auto; try discriminate.
          exists l'. rewrite M1. repeat split; auto; try congruence.
          assert (Sz := reindex_size joined ixb Hlix Wb).
          unfold cutx. destruct axis.
          + destruct (so b) as [|x o]; [easy|]. unfold cut_table. cbn [bounds map]. rewrite map_map.
            transitivity (map (fun iv : nat * nat => Nat.min (snd iv - fst iv) (length joined - fst iv)) (bounds 0 l')).
            * apply map_ext. intros ci. unfold ncols; cbn. rewrite slice_length. unfold axis_size, ncols in Sz. now rewrite Sz.
            * apply bounds_sizes. lia.
          + unfold cut_table. rewrite map_map.
            transitivity (map (fun iv : nat * nat => Nat.min (snd iv - fst iv) (length joined - fst iv)) (bounds 0 l')).
            * apply map_ext. intros ri. destruct (so b) as [|x o]; [easy|]. cbn. unfold nrows; cbn. rewrite slice_length.
              unfold axis_size, nrows in Sz. now rewrite Sz.
            * apply bounds_sizes. lia. }
      destruct BASE as (base & B1 & B2 & B3 & B4 & B5 & B6).
      rewrite B1. cbn [rbind]. rewrite B4.
      assert (Esk : skipn (S (length pre)) (map sf (t0 :: ts)) = map sf post).
      { rewrite Ets, map_app. cbn [map]. rewrite skipn_app, skipn_all2 by (rewrite map_length; lia).
        rewrite map_length. replace (S (length pre) - length pre) with 1 by lia. reflexivity. }
      rewrite Esk.
      assert (Efn : firstn (length pre) (map sf (t0 :: ts)) = map sf pre).
      { rewrite Ets, map_app, firstn_app, map_length, Nat.sub_diag, firstn_all2 by (rewrite map_length; lia).
        cbn. now rewrite app_nil_r. }
      rewrite Efn. rewrite map_length. cbn [length].
      rewrite combine_seq_len. 2:{ rewrite map_length. assert (Q := f_equal (@length slot) Ets). rewrite app_length in Q. cbn in Q. lia. }
      rewrite map_length.
      assert (POST : forall post k, (forall i t, nth_error post i = Some t -> nth_error (t0 :: ts) (k + i) = Some t) ->
        rmap (fun io => if negb (list_eqb xeqb (labels (snd io)) joined) || negb (list_eqb Nat.eqb (lens (snd io)) base)
                        then map_axis_partitions leqb heqb nparts min_block axis (pgrid (snd io))
                               (fun d => Ok (reindex joined (nth (fst io) ixs []) d)) false None (Some base)
                        else Ok (pgrid (snd io)))
             (combine (seq k (length post)) (map sf post)) = Ok (aligned joined ixs base k post)).
      { clear post Ets Esk. induction post as [|t post IH]; intros k Hn; [reflexivity|].
        assert (Et := Hn 0 t eq_refl). rewrite Nat.add_0_r in Et.
        assert (Rt : rep t) by (rewrite Forall_forall in F; apply F; eapply nth_error_In; eauto).
        destruct Rt as (Wt & St1 & St2 & Gt & Lt & Nlt & Lenst & Ot).
        destruct (Hix _ _ Et) as [Hlt Hidt].
        unfold aligned. cbn [length seq map combine rmap fst snd].
        fold (aligned joined ixs base (S k) post).
        assert (STEP : (if negb (list_eqb xeqb (labels (sf t)) joined) || negb (list_eqb Nat.eqb (lens (sf t)) base)
                        then map_axis_partitions leqb heqb nparts min_block axis (pgrid (sf t))
                               (fun d => Ok (reindex joined (nth k ixs []) d)) false None (Some base)
                        else Ok (pgrid (sf t))) = Ok (cutx base (so t) (reindex joined (nth k ixs []) (sd t)))).
        { rewrite Gt, Lt. destruct (so t) as [|x o] eqn:Eo.
          - specialize (Ot eq_refl). clear - Ot. unfold cutx. rewrite Ot. cbn.
            destruct (_ || _); [|reflexivity]. unfold map_axis_partitions. cbn. reflexivity.
          - rewrite (Lenst ltac:(easy)).
            destruct (negb (list_eqb xeqb (lab (sd t)) joined) || negb (list_eqb Nat.eqb (sl t) base)) eqn:Ec.
            + destruct (@map_axis_ok (sd t) (sl t) (x :: o) joined (nth k ixs []) (Some base)) as (l' & M1 & M2 & M3 & M4 & M5); auto; try discriminate.
              { intros y Ey. injection Ey as <-. auto. }
              rewrite M1. now rewrite (M4 base eq_refl).
            + apply orb_false_iff in Ec as [C1 C2]. apply negb_false_iff in C1, C2.
              apply (list_eqb_spec xeqb xeqb_ok) in C1. apply (list_eqb_spec Nat.eqb Nat.eqb_eq) in C2.
              rewrite (Hidt C1), C2. reflexivity. }
        rewrite STEP. cbn [rbind]. rewrite (IH (S k)).
        - reflexivity.
        - intros i u Hu. rewrite <- (Hn (S i) u Hu). f_equal. lia. }
      rewrite (POST post (S (length pre))).
      2:{ intros i t Ht. rewrite Ets. rewrite nth_error_app2 by lia.
          replace (S (length pre) + i - length pre) with (S i) by lia. exact Ht. }
      cbn [rbind].
      exists base, (Some joined), (Some base).
      assert (T0 : so t0 <> [] -> pre = [] /\ b = t0).
      { intros Hn. destruct pre as [|p pre']; cbn in Ets; injection Ets as E1 E2; [auto|].
        subst p. inversion Fp; congruence. }
      repeat split; auto.
      + f_equal. f_equal. f_equal. unfold aligned. rewrite Ets, app_length, seq_app, combine_app' by now rewrite seq_length.
        rewrite map_app. cbn [length seq combine map fst snd Nat.add].
        f_equal. rewrite map_map.
        assert (Hpre : forall pre k, Forall (fun t => so t = []) pre -> Forall rep pre ->
           map (fun t => pgrid (sf t)) pre
           = map (fun it => cutx base (so (snd it)) (reindex joined (nth (fst it) ixs []) (sd (snd it)))) (combine (seq k (length pre)) pre)).
        { clear. induction pre as [|p pre IH]; intros k Fp F; [reflexivity|].
          apply Forall_cons_iff in Fp as [P1 P2]. apply Forall_cons_iff in F as [F1 F2].
          cbn [length seq combine map fst snd]. f_equal; [|auto].
          destruct F1 as (_ & _ & _ & G & _ & _ & _ & O). rewrite G, P1. apply cutx_o_nil. auto. }
        apply Hpre; auto. rewrite Ets in F. now apply Forall_app in F.
      + intros Hn Hl. destruct (T0 Hn) as [_ ->]. auto.
      + intros Hn Hl. destruct (T0 Hn) as [_ ->]. auto.
  Qed.
End CopartitionProofs.
