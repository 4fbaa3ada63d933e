(** The blocks of [melt] stacked. *)
From Coq Require Import Permutation.
From Verif Require Import Base Table ChunkModel ChunkSpec ChunkProofs GridModel GridSpec FrameSpec GridProofs GridProofs2 GridProofs3 GridProofs4 GridProofs5 SelSpec SelModel
  SelProofs SelProofs2 SelProofs3 SelProofs4 SelProofs5 SelProofs6 LocSpec LocModel LocProofs SetProofs3 KeyProofs MelSpec MelModel MelProofs MelProofs2.

Lemma rmap_map {X Y Z} (f : Y -> res Z) (g : X -> Y) l : rmap f (map g l) = rmap (fun x => f (g x)) l.
Proof. induction l as [|x l IH]; [reflexivity|]. cbn. now rewrite IH. Qed.
Lemma Forall_concat {X} (P : X -> Prop) ls : Forall (Forall P) ls -> Forall P (concat ls).
Proof. induction 1; cbn; [constructor|]. apply Forall_app. auto. Qed.

(** * The order of the rows *)
Definition block_order (C R : list (list nat)) : list (nat * nat) :=
  concat (map (fun c => concat (map (fun r => concat (map (fun j => map (fun i => (i, j)) r) c)) R)) C).

Lemma filter_concat {X} (f : X -> bool) ls : filter f (concat ls) = concat (map (filter f) ls).
Proof. induction ls as [|l ls IH]; [reflexivity|]. cbn. now rewrite filter_app, IH. Qed.
Lemma filter_pairs j j' r : filter (fun p : nat * nat => snd p =? j) (map (fun i => (i, j')) r) = if j' =? j then map (fun i => (i, j)) r else [].
Proof. induction r as [|i r IH]; cbn; [now destruct (j' =? j)|]. rewrite IH. destruct (Nat.eqb_spec j' j) as [->|]; reflexivity. Qed.
Lemma filter_none_col (c : list nat) j r : ~ In j c -> concat (map (filter (fun p : nat * nat => snd p =? j)) (map (fun j' => map (fun i => (i, j')) r) c)) = [].
Proof. induction c as [|x c IH]; intros N; [reflexivity|]. cbn [map concat]. rewrite filter_pairs. destruct (Nat.eqb_spec x j) as [->|]; [exfalso; apply N; now left|]. apply IH. intros I. apply N. now right. Qed.
Lemma filter_one_col (c : list nat) j r : NoDup c -> In j c -> concat (map (filter (fun p : nat * nat => snd p =? j)) (map (fun j' => map (fun i => (i, j')) r) c)) = map (fun i => (i, j)) r.
Proof. induction 1 as [|x c N ND IH]; [easy|]. intros I. cbn [map concat]. rewrite filter_pairs. destruct (Nat.eqb_spec x j) as [->|Ne].
  - rewrite filter_none_col by exact N. apply app_nil_r.
  - destruct I as [|I]; [easy|]. now rewrite IH. Qed.
Lemma order_column C R j : NoDup (concat C) -> In j (concat C) -> filter (fun p => snd p =? j) (block_order C R) = map (fun i => (i, j)) (concat R).
Proof.
  unfold block_order. rewrite filter_concat, map_map. induction C as [|c C IH]; [easy|]. cbn [map concat]. intros N I.
  assert (N' := N). apply NoDup_parts in N' as [Nc NC]. rewrite filter_concat, map_map.
  destruct (in_dec Nat.eq_dec j c) as [Ic|Ic].
  - assert (E1 : concat (map (fun c => filter (fun p : nat * nat => snd p =? j) (concat (map (fun r => concat (map (fun j0 => map (fun i => (i, j0)) r) c)) R))) C) = []).
    { assert (Hc : forall c', In c' C -> ~ In j c').
      { intros c' Ic' I'. clear - N Ic Ic' I'. induction c as [|x c IHc]; [easy|]. cbn in N. inversion N as [|? ? Nx N']; subst. destruct Ic as [-> | Ic]; [|auto].
        apply Nx, in_or_app. right. apply in_concat. eauto. }
      clear - Hc. induction C as [|c' C IH]; [reflexivity|]. cbn [map concat]. rewrite IH by (intros; apply Hc; now right). rewrite app_nil_r, filter_concat, map_map.
      assert (H : ~ In j c') by (apply Hc; now left). clear - H. induction R as [|r R IH]; [reflexivity|]. cbn [map concat]. rewrite IH, filter_concat, filter_none_col by exact H. reflexivity. }
    rewrite E1, app_nil_r. clear - Nc Ic. induction R as [|r R IH]; [reflexivity|]. cbn [map concat]. now rewrite filter_concat, filter_one_col, IH, map_app by auto.
  - apply in_app_or in I as [I|I]; [easy|]. rewrite IH by auto.
    replace (concat (map (fun x => filter (fun p : nat * nat => snd p =? j) (concat (map (fun j0 => map (fun i => (i, j0)) x) c))) R)) with (@nil (nat * nat)); [reflexivity|].
    clear - Ic. induction R as [|r R IH]; [reflexivity|]. cbn [map concat]. rewrite <- IH, filter_concat, filter_none_col by exact Ic. reflexivity.
Qed.
Lemma order_in C R i j : In (i, j) (block_order C R) -> In i (concat R) /\ In j (concat C).
Proof.
  unfold block_order. intros I. apply in_concat in I as (l1 & I1 & I). apply in_map_iff in I1 as (c & <- & Ic). apply in_concat in I as (l2 & I2 & I). apply in_map_iff in I2 as (r & <- & Ir).
  apply in_concat in I as (l3 & I3 & I). apply in_map_iff in I3 as (j' & <- & Ij). apply in_map_iff in I as (i' & E & Ii). injection E as -> ->. split; apply in_concat; eauto.
Qed.
Lemma NoDup_columns (l : list (nat * nat)) : (forall j, NoDup (filter (fun p => snd p =? j) l)) -> NoDup l.
Proof. induction l as [|x l IH]; intros N; [constructor|]. constructor.
  - intros I. specialize (N (snd x)). cbn in N. rewrite Nat.eqb_refl in N. inversion N as [|? ? Nx _]; subst. apply Nx. apply filter_In. split; [exact I|apply Nat.eqb_refl].
  - apply IH. intros j. specialize (N j). cbn in N. destruct (snd x =? j); [now inversion N|exact N]. Qed.
Lemma order_permutation C R vals : NoDup (concat C) -> NoDup (concat R) -> Permutation (concat C) vals -> Permutation (block_order C R) (list_prod (concat R) vals).
Proof.
  intros NC NR P. assert (Nv : NoDup vals) by (eapply Permutation_NoDup; eauto). apply NoDup_Permutation.
  - apply NoDup_columns. intros j. destruct (in_dec Nat.eq_dec j (concat C)) as [I|I].
    + rewrite order_column by auto. apply FinFun.Injective_map_NoDup; [intros x y E; now injection E|exact NR].
    + replace (filter (fun p => snd p =? j) (block_order C R)) with (@nil (nat * nat)); [constructor|]. symmetry. destruct (filter _ _) as [|[i k] l] eqn:E; [reflexivity|].
      assert (In (i, k) (filter (fun p => snd p =? j) (block_order C R))) as Ik by (rewrite E; now left). apply filter_In in Ik as [Ik Ek]. apply order_in in Ik as [_ Ik].
      apply Nat.eqb_eq in Ek. cbn in Ek. subst. contradiction.
  - clear - NR Nv. induction (concat R) as [|x l IH]; [constructor|]. inversion NR as [|? ? Nx Nl]; subst. cbn [list_prod]. apply NoDup_both; [|auto|].
    + apply FinFun.Injective_map_NoDup; [intros a b E; now injection E|exact Nv].
    + intros [a b] I1 I2. apply in_map_iff in I1 as (y & E & _). injection E as -> ->. apply in_prod_iff in I2 as [I2 _]. contradiction.
  - intros [i j]. rewrite in_prod_iff. split.
    + intros I. apply order_in in I as [I1 I2]. split; [exact I1|]. eapply Permutation_in; eauto.
    + intros [I1 I2]. apply Permutation_sym in P. apply (Permutation_in _ P) in I2.
      assert (In (i, j) (filter (fun p => snd p =? j) (block_order C R))) as X by (rewrite order_column by auto; apply in_map_iff; eauto). apply filter_In in X. tauto.
Qed.
Lemma bounds_seqs : forall lens a, concat (map (fun iv => seq (fst iv) (snd iv - fst iv)) (bounds a lens)) = seq a (list_sum lens).
Proof. induction lens as [|n lens IH]; intros a; [reflexivity|]. cbn [bounds map concat fst snd]. rewrite IH, list_sum_cons, seq_app. f_equal. f_equal. lia. Qed.

Section Stack.
  Context {L H A : Type}.
  Notation dframe := (df L H A).
  Notation pf := (@pframe L H A).

  (** one block below the other *)
  Lemma stack_cut cols : forall Ts : list dframe, Forall (fun t => wf t /\ dcols t = cols) Ts ->
    map (fun t => [t]) Ts = cut_table (map nrows Ts) [length cols] (mkdf (concat (map dindex Ts)) cols (concat (map dcells Ts)))
    /\ wf (mkdf (concat (map dindex Ts)) cols (concat (map dcells Ts))).
  Proof.
    induction 1 as [|t Ts [Wt Ct] F [IH IW]]; [split; [reflexivity|split; [reflexivity|constructor]]|]. cbn [map concat].
    assert (W : wf (mkdf (dindex t ++ concat (map dindex Ts)) cols (dcells t ++ concat (map dcells Ts)))).
    { destruct Wt as [W1 W2]. destruct IW as [I1 I2]. split; cbn [dindex dcells dcols] in *; [rewrite !app_length; lia|]. apply Forall_app. split; [now rewrite Ct in W2|exact I2]. }
    split; [|exact W]. set (D := mkdf (dindex t ++ concat (map dindex Ts)) cols (dcells t ++ concat (map dcells Ts))) in *.
    change (nrows t :: map nrows Ts) with ([nrows t] ++ map nrows Ts).
    assert (Sum : list_sum (map nrows Ts) = length (concat (map dindex Ts))). { clear. induction Ts as [|t Ts IH]; [reflexivity|]. cbn [map concat]. rewrite list_sum_cons, app_length, IH. reflexivity. }
    rewrite cut_table_app; [|exact W|unfold D, nrows; cbn [dindex]; fold (@nrows L H A); rewrite app_length, <- Sum; rewrite list_sum_cons, list_sum_nil; unfold nrows; lia].
    change ([t] :: map (fun t => [t]) Ts) with ([[t]] ++ map (fun t => [t]) Ts). f_equal.
    - unfold cut_table. cbn [bounds map]. rewrite !Nat.add_0_l. f_equal. f_equal. unfold block, iloc_rows, D. cbn [dindex dcols dcells fst snd]. lsum. rewrite Nat.add_0_r.
      destruct Wt as [W1 W2]. unfold nrows. apply df_eq; cbn [dindex dcols dcells].
      + rewrite (slice_full (slice _ _ _)) by (rewrite slice_length; lia). unfold slice. rewrite Nat.sub_0_r, skipn_O, firstn_app, Nat.sub_diag, firstn_all, firstn_O. now rewrite app_nil_r.
      + rewrite slice_full by lia. exact Ct.
      + rewrite (slice_full (slice _ _ _)) by (rewrite slice_length; lia). unfold slice at 2. rewrite Nat.sub_0_r, skipn_O. unfold nrows. rewrite <- W1, firstn_app, Nat.sub_diag, firstn_all, firstn_O, app_nil_r.
        rewrite (map_ext_in _ (fun r => r)); [now rewrite map_id|]. intros r I. rewrite Forall_forall in W2. apply slice_full. rewrite (W2 r I), Ct. lia.
    - rewrite IH. f_equal. unfold iloc_rows, D, nrows. cbn [dindex dcols dcells]. lsum. rewrite Nat.add_0_r. destruct Wt as [W1 W2]. apply df_eq; cbn [dindex dcols dcells]; [|reflexivity|].
      + unfold slice. rewrite app_length. replace (length (dindex t) + length (concat (map dindex Ts)) - length (dindex t)) with (length (concat (map dindex Ts))) by lia.
        rewrite skipn_app, skipn_all, Nat.sub_diag, skipn_O. cbn [app]. now rewrite firstn_all.
      + destruct IW as [I1 _]. cbn [dindex dcells] in I1. unfold slice. rewrite app_length. replace (length (dindex t) + length (concat (map dindex Ts)) - length (dindex t)) with (length (concat (map dindex Ts))) by lia.
        rewrite <- W1, skipn_app, skipn_all, Nat.sub_diag, skipn_O. cbn [app]. rewrite <- I1. now rewrite firstn_all.
  Qed.

  Lemma set_labels_ok (f : pf) (e : dframe) rl cl idx : gridded f e rl cl -> rl <> [] -> cl <> [] -> pindex f = Some idx -> pcols f = Some (dcols e) ->
    exists f' rl' cl', set_labels idx f = Ok f' /\ shows f' (mkdf idx (dcols e) (dcells e)) rl' cl'.
  Proof.
    intros G Nr Nc Pi Pc. unfold set_labels. rewrite Pi. cbn [labels rbind]. rewrite Nat.eqb_refl. cbn [negb].
    assert (Hl : length idx = length (dindex e)) by (destruct G as (_ & _ & _ & _ & Li & _); now apply Li).
    assert (G' : gridded (mkpf (pgrid f) (Some idx) (pcols f) (prl f) (pcl f)) e rl cl).
    { destruct G as (W & Sr & Sc & Eg & Li & Lc & Cr & Cc). repeat split; auto; try apply W. cbn. intros c' [= <-]. exact Hl. }
    destruct (@propagate_ok_ne L H A (Some false) _ e rl cl idx (dcols e) G' Nr Nc eq_refl Pc) as (rl' & cl' & N1 & N2 & S1 & S2 & E1).
    rewrite E1. cbn [rbind relabel]. rewrite Pc. eexists; exists rl', cl'. split; [reflexivity|].
    assert (We : wf (mkdf idx (dcols e) (dcells e))). { destruct G as ((W1 & W2) & _). split; cbn; auto. rewrite Hl. exact W1. }
    split; [|auto]. apply holds_intro; cbn; auto. unfold nrows. cbn. now rewrite Hl.
  Qed.
End Stack.

Section Melt.
  Context {L H A : Type}.
  Notation dframe := (df L H A).
  Notation pf := (@pframe L H A).
  Variable leqb : L -> L -> bool.
  Variable heqb : H -> H -> bool.
  Hypothesis leqb_ok : forall x y, leqb x y = true <-> x = y.
  Hypothesis heqb_ok : forall x y, heqb x y = true <-> x = y.
  Variables min_row min_col nparts : nat.
  Hypothesis mr : 0 < min_row.
  Hypothesis mc : 0 < min_col.
  Hypothesis np : 0 < nparts.
  Variables known_l known_w : nat -> nat -> bool.
  Variable argsort : list Z -> list nat.
  Hypothesis argsort_ok : forall l, sorts l (argsort l).
  Variable fill : A.
  Variable name : H -> A.
  Variable num : nat -> L.

  Lemma column_blocks_cut (d : dframe) rl cl i : i < length cl ->
    column_blocks i (cut_table rl cl d) = Ok (map (fun ri => block d ri (start_of cl i, start_of cl i + nth i cl 0)) (bounds 0 rl)).
  Proof. clear. intros Hi. unfold column_blocks, cut_table. rewrite rmap_map. apply rmap_ok. intros ri _. rewrite nth_error_map, nth_error_bounds by exact Hi. reflexivity. Qed.

  Theorem qc_melt_ok (f : pf) (d : dframe) rl cl ids idp vals valp var value :
    shows f d rl cl -> NoDup (dcols d) -> NoDup ids -> NoDup vals -> (forall h, In h ids -> ~ In h vals) -> vals <> [] ->
    Forall2 (fun h p => nth_error (dcols d) p = Some h) ids idp -> Forall2 (fun h p => nth_error (dcols d) p = Some h) vals valp ->
    ~ In value (dcols d) -> ids = [] \/ Forall (fun n => 0 < n) rl ->
    exists f' D rl' cl', qc_melt leqb heqb min_row min_col nparts known_l known_w argsort fill name num ids vals var value f = Ok f'
      /\ shows f' D rl' cl' /\ melted name num idp valp var value d D.
  Proof.
    intros Sh ND Ni Nv Dj Hv Fi Fv Nval Hpos. assert (Sh' := Sh). destruct Sh' as ([G HL] & Hr & Hc & Pi & Pc).
    assert (G' := G). destruct G' as (W & Hsr & Hsc & Hgr & _). assert (W' := W). destruct W' as [W1 W2].
    unfold qc_melt. rewrite Pi, Pc. cbn [labels rbind].
    replace (match vals with [] => if forallb (fun h => has heqb h (dcols d)) ids then Ok (filter (fun h => negb (has heqb h ids)) (dcols d)) else Err KeyError | _ :: _ => Ok vals end) with (@Ok (list H) vals) by (destruct vals; [easy|reflexivity]).
    cbn [rbind].
    pose proof (@at_nodup H _ _ _ Ni Fi) as Nip. pose proof (@at_nodup H _ _ _ Nv Fv) as Nvp.
    destruct (@at_pick H _ _ _ Fi) as [Epi Fib]. destruct (@at_pick H _ _ _ Fv) as [Epv Fvb].
    assert (Lip : length ids = length idp) by (clear - Fi; induction Fi; cbn; congruence).
    assert (Lvp : length vals = length valp) by (clear - Fv; induction Fv; cbn; congruence).
    assert (Djp : forall p, In p valp -> ~ In p idp).
    { intros p I1 I2. destruct (nth_error (dcols d) p) as [h|] eqn:E; [|rewrite Forall_forall in Fvb; specialize (Fvb p I1); apply nth_error_None in E; lia].
      apply (Dj h); [rewrite <- Epi|rewrite <- Epv]; unfold pick; apply in_concat; exists [h]; (split; [apply in_map_iff; exists p; rewrite E; auto|now left]). }
    assert (Ot : exists clo, clo <> [] /\ list_sum clo = length idp /\ (ids = [] ->  clo = [0]) /\
      match ids with [] => Ok None | _ => do o <- take_2d_positional leqb heqb min_row min_col nparts known_l known_w argsort false None (Some (IList (get_indexer heqb (dcols d) ids))) f; Ok (Some (pgrid o)) end
      = Ok (match ids with [] => None | _ => Some (cut_table rl clo (take2d (seq 0 (nrows d)) idp d)) end)).
    { destruct ids as [|i0 ids']; [inversion Fi; exists [0]; now repeat split|].
      destruct Hpos as [|Hpos]; [discriminate|].
      destruct (@take_exact L H A leqb heqb leqb_ok min_row min_col nparts mr mc np known_l known_w argsort argsort_ok f d rl cl idp Sh Hpos) as (o & clo & T1 & T2); auto; [now destruct idp|].
      exists clo. destruct T2 as ([Go _] & _ & Nco & _). split; [exact Nco|]. destruct Go as (_ & _ & So & Eg & _). split; [rewrite So; now apply take2d_ncols|]. split; [discriminate|].
      rewrite (@get_indexer_at H heqb heqb_ok (dcols d) (i0 :: ids') idp ND Fi), T1. cbn [rbind]. now rewrite Eg. }
    destruct Ot as (clo & Nclo & Sclo & _ & ->). cbn [rbind].
    rewrite (gridded_column_widths G Hr), Hgr, cut_table_width by assumption.
    rewrite (@get_indexer_at H heqb heqb_ok (dcols d) vals valp ND Fv).
    destruct (@block_index_set cl (length (dcols d)) (IList (map Z.of_nat valp)) valp Hc Hsc I eq_refl Fvb) as (dict & s & D1 & D2 & D3 & D4 & D5 & _).
    rewrite D1. cbn [rbind].
    assert (NDs : NoDup s) by (eapply Permutation_NoDup; [symmetry; exact D4|exact Nvp]).
    set (one := fun (e : nat * bidx) (ri : nat * nat) => mkdf (map num (seq 0 ((snd ri - fst ri) * length (entry_positions cl e)))) (ids ++ [var; value])
           (flat_map (fun j => map (fun r => pick r idp ++ map name (pick (dcols d) [j]) ++ pick r [j]) (slice (dcells d) (fst ri) (snd ri))) (entry_positions cl e))).
    assert (Parts : rmap (apply_blocks leqb heqb fill name num ids var value cl (cut_table rl cl d) (match ids with [] => None | _ => Some (cut_table rl clo (take2d (seq 0 (nrows d)) idp d)) end)) dict
                  = Ok (map (fun e => map (one e) (bounds 0 rl)) dict)).
    { apply rmap_ok. intros e Ie. rewrite Forall_forall in D3. destruct (D3 e Ie) as [He1 He2]. unfold apply_blocks. rewrite column_blocks_cut by exact He1. cbn [rbind].
      assert (NDe : NoDup (entry_positions cl e)).
      { rewrite <- D2 in NDs. clear - NDs Ie. induction dict as [|x dict IH]; [easy|]. cbn [map concat] in NDs. apply NoDup_parts in NDs as [N1 N2]. destruct Ie as [<-|Ie]; auto. }
      assert (Ise : forall p, In p (entry_positions cl e) -> In p valp).
      { intros p Ip. apply (Permutation_in _ D4). rewrite <- D2. apply in_concat. exists (entry_positions cl e). split; [apply in_map_iff; eauto|exact Ip]. }
      assert (Each : forall ri, In ri (bounds 0 rl) -> applyier leqb heqb fill name num ids var value (expand (nth (fst e) cl 0) (snd e))
         (match ids with [] => [] | _ => map (fun ci => block (take2d (seq 0 (nrows d)) idp d) ri ci) (bounds 0 clo) end)
         (block d ri (start_of cl (fst e), start_of cl (fst e) + nth (fst e) cl 0)) = Ok (one e ri)).
      { intros ri Iri. unfold one. unfold entry_positions. rewrite map_length.
        pose proof (bounds_within 0 rl) as Bw. rewrite Forall_forall in Bw. specialize (Bw ri Iri). pose proof (bounds_snd_ge 0 rl) as Bg. rewrite Forall_forall in Bg. specialize (Bg ri Iri).
        apply (@applyier_ok L H A leqb heqb leqb_ok heqb_ok fill name num d ri (start_of cl (fst e)) (nth (fst e) cl 0) ids idp (expand (nth (fst e) cl 0) (snd e)) var value clo); auto.
        - rewrite Hsr in Bw. lia.
        - rewrite <- Hsc. now apply start_of_bound.
        - unfold entry_positions in NDe. now apply NoDup_map_inv in NDe.
        - intros p Ip. apply Djp, Ise. unfold entry_positions. apply in_map_iff. eauto. }
      destruct ids as [|i0 ids'].
      - rewrite rmap_map. apply rmap_ok. exact Each.
      - unfold cut_table at 1. rewrite combine_map_same, rmap_map. apply rmap_ok. intros ri Iri. cbn [fst snd]. now apply Each. }
    rewrite Parts. cbn [rbind]. set (Ts := concat (map (fun e => map (one e) (bounds 0 rl)) dict)).
    set (C := map (entry_positions cl) dict). set (R := map (fun iv => seq (fst iv) (snd iv - fst iv)) (bounds 0 rl)). set (order := block_order C R).
    assert (ER : concat R = seq 0 (nrows d)) by (unfold R; rewrite bounds_seqs; now rewrite Hsr).
    assert (P : Permutation order (list_prod (seq 0 (nrows d)) valp)).
    { unfold order. rewrite <- ER. apply order_permutation; [unfold C; now rewrite D2|rewrite ER; apply seq_NoDup|unfold C; now rewrite D2]. }
    set (row_of := fun p : nat * nat => match nth_error (dcells d) (fst p) with Some r => pick r idp ++ map name (pick (dcols d) [snd p]) ++ pick r [snd p] | None => [] end).
    assert (Eone : forall e ri, In ri (bounds 0 rl) -> dcells (one e ri) = map row_of (concat (map (fun j => map (fun i => (i, j)) (seq (fst ri) (snd ri - fst ri))) (entry_positions cl e)))).
    { intros e ri Iri. pose proof (bounds_within 0 rl) as Bw. rewrite Forall_forall in Bw. specialize (Bw ri Iri). pose proof (bounds_snd_ge 0 rl) as Bg. rewrite Forall_forall in Bg. specialize (Bg ri Iri).
      unfold one. cbn [dcells]. rewrite concat_map, map_map, flat_map_concat_map. f_equal. apply map_ext. intros j. rewrite map_map.
      replace (slice (dcells d) (fst ri) (snd ri)) with (pick (dcells d) (seq (fst ri) (snd ri - fst ri))).
      2:{ rewrite pick_seq; [f_equal; lia|]. unfold nrows in *. rewrite Hsr in Bw. lia. }
      assert (Fs : Forall (fun i => i < length (dcells d)) (seq (fst ri) (snd ri - fst ri))). { apply Forall_forall. intros i Ii%in_seq. unfold nrows in *. rewrite Hsr in Bw. lia. }
      clear - Fs. induction Fs as [|i is Hi Fs IH]; [reflexivity|]. rewrite (pick_cons (dcells d)).
      destruct (nth_error (dcells d) i) as [r|] eqn:E; [rewrite map_app, IH; cbn [map]; unfold row_of; cbn [fst snd app]; now rewrite E|]. apply nth_error_None in E. lia. }
    assert (Cells : concat (map dcells Ts) = map row_of order).
    { unfold Ts, order, block_order, C, R. rewrite concat_map, !map_map, concat_map, map_map. clear - Eone. induction dict as [|e dict IH]; [reflexivity|]. cbn [map concat].
      rewrite concat_app, IH. f_equal. rewrite map_map, concat_map, !map_map. f_equal. apply map_ext_in. intros ri Iri. now apply Eone. }
    assert (Rows : forall p, In p order -> fst p < nrows d).
    { intros [i j] I. apply (Permutation_in _ P) in I. apply in_prod_iff in I as [I _]. apply in_seq in I. cbn. lia. }
    assert (FT : Forall (fun t : dframe => wf t /\ dcols t = ids ++ [var; value]) Ts).
    { unfold Ts. apply Forall_concat, Forall_map, Forall_forall. intros e Ie. apply Forall_map, Forall_forall. intros ri Iri.
      split; [|reflexivity]. rewrite Forall_forall in D3. destruct (D3 e Ie) as [He1 He2].
      pose proof (bounds_within 0 rl) as Bw. rewrite Forall_forall in Bw. specialize (Bw ri Iri). pose proof (bounds_snd_ge 0 rl) as Bg. rewrite Forall_forall in Bg. specialize (Bg ri Iri). split.
      - rewrite Eone by exact Iri. unfold one. cbn [dindex]. rewrite !map_length, seq_length. generalize (entry_positions cl e). intros js. induction js as [|j js IH]; cbn [map concat length]; [lia|]. rewrite app_length, IH, map_length, seq_length. lia.
      - rewrite Eone by exact Iri. unfold one. cbn [dcols]. apply Forall_map, Forall_forall. intros [i j] I. apply in_concat in I as (m & Im & Ip). apply in_map_iff in Im as (j' & <- & Ij). apply in_map_iff in Ip as (i' & E & Ii). injection E as -> ->.
        apply in_seq in Ii. unfold row_of. cbn [fst snd]. destruct (nth_error (dcells d) i) as [r|] eqn:Er; [|apply nth_error_None in Er; unfold nrows in *; rewrite Hsr in Bw; lia].
        assert (Lr : length r = length (dcols d)). { rewrite Forall_forall in W2. apply W2. eapply nth_error_In; eauto. }
        assert (Hj : j < length (dcols d)).
        { rewrite Forall_forall in Fvb. apply Fvb. apply (Permutation_in _ D4). rewrite <- D2. apply in_concat. exists (entry_positions cl e). split; [apply in_map_iff; eauto|exact Ij]. }
        rewrite !app_length, map_length. rewrite !pick_length; [cbn; lia| | |]; try (rewrite Lr); auto. }
    destruct (stack_cut FT) as [SC SW]. set (S0 := mkdf (concat (map dindex Ts)) (ids ++ [var; value]) (concat (map dcells Ts))) in *.
    assert (Ln : nrows S0 = nrows d * length valp).
    { destruct SW as [S1 _]. unfold nrows at 1. rewrite <- S1. unfold S0. cbn [dcells]. rewrite Cells, map_length, (Permutation_length P), prod_length, seq_length. reflexivity. }
    set (idx := map num (seq 0 (length (dindex d) * length vals))).
    assert (Lidx : length idx = nrows S0) by (unfold idx; rewrite map_length, seq_length, Ln, Lvp; reflexivity).
    assert (NT : Ts <> []).
    { unfold Ts. destruct dict as [|e dict]; [cbn in D2; subst s; apply Permutation_nil in D4; subst valp; now destruct vals|]. destruct rl; [easy|]. discriminate. }
    assert (Gs : gridded (mkpf (map (fun b => [b]) Ts) (Some idx) (Some (ids ++ [var; value])) None None) S0 (map nrows Ts) [length (ids ++ [var; value])]).
    { split; [exact SW|]. split; [|split; [unfold ncols, S0; cbn [dcols]; lsum; lia|]].
      - unfold nrows at 2, S0. cbn [dindex]. clear. induction Ts as [|t Ts IH]; [reflexivity|]. cbn [map concat]. rewrite list_sum_cons, app_length, IH. reflexivity.
      - cbn [pgrid pindex pcols prl pcl]. split; [exact SC|]. split; [intros ? [= <-]; exact Lidx|]. split; [intros ? [= <-]; reflexivity|auto]. }
    assert (NTr : map nrows Ts <> []) by now destruct Ts.
    destruct (construct_gridded Gs NTr ltac:(discriminate)) as (g & rl1 & cl1 & K1 & K2 & K3 & K4 & K5 & K6). cbn [pindex pcols] in K5, K6.
    rewrite K1. cbn [rbind].
    destruct (@set_labels_ok L H A g S0 rl1 cl1 idx K2 K3 K4 K5 K6) as (f' & rl' & cl' & M1 & M2).
    exists f'. eexists. exists rl', cl'. split; [exact M1|]. split; [exact M2|].
    exists order. split; [exact P|]. split.
    - intros j Ij. unfold order. rewrite order_column; [rewrite map_map, map_id; exact ER|unfold C; now rewrite D2|]. unfold C. rewrite D2. apply Permutation_sym in D4. now apply (Permutation_in _ D4).
    - cbn [dindex dcols dcells]. unfold idx. split; [now rewrite Lvp|]. split; [unfold S0; cbn [dcols]; now rewrite Epi|].
      unfold S0. cbn [dcells]. rewrite Cells. clear - Rows W1. induction order as [|p order IH]; [constructor|]. cbn [map]. constructor; [|apply IH; intros; apply Rows; now right].
      unfold long_row, row_of. destruct (nth_error (dcells d) (fst p)) as [r|] eqn:E; [eauto|]. specialize (Rows p (or_introl eq_refl)). apply nth_error_None in E. unfold nrows in *. lia.
  Qed.
End Melt.
