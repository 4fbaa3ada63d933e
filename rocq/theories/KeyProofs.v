(** [set_index]. *)
From Coq Require Import Permutation.
From Verif Require Import Base Table ChunkModel ChunkSpec GridModel GridSpec FrameSpec GridProofs GridProofs2 GridProofs3 GridProofs5 SelSpec SelModel
  SelProofs SelProofs2 SelProofs3 SelProofs4 SelProofs5 SelProofs6 LocSpec LocModel LocProofs JoinSpec JoinModel JoinProofs3 SetModel SetProofs7 RemSpec RemModel RemProofs RemProofs2 RemProofs3
  InsModel InsProofs2 KeySpec KeyModel.

Lemma kept_kept {X Y} (g1 g2 : X -> bool) : forall (cs : list X) (r : list Y), length cs = length r ->
  kept (map g2 (kept (map g1 cs) cs)) (kept (map g1 cs) r) = kept (map (fun c => g1 c && g2 c) cs) r.
Proof. induction cs as [|c cs IH]; intros [|y r] E; try discriminate; [reflexivity|]. injection E as E. cbn [map kept].
  destruct (g1 c); cbn [andb map kept]; [|now apply IH]. destruct (g2 c); now rewrite IH. Qed.
Lemma kept_filter {X} (g : X -> bool) cs : kept (map g cs) cs = filter g cs.
Proof. induction cs as [|c cs IH]; [reflexivity|]. cbn. rewrite IH. now destruct (g c). Qed.
Lemma kept_nth {Y} : forall m p (l : list Y), nth_error m p = Some true -> nth_error (kept m l) (marks (firstn p m)) = nth_error l p.
Proof. induction m as [|b m IH]; intros [|p] [|x l] E; try discriminate; cbn [kept firstn nth_error] in *.
  - now destruct (marks []).
  - injection E as ->. reflexivity.
  - now destruct (marks (b :: firstn p m)).
  - destruct b; [change (marks (true :: firstn p m)) with (S (marks (firstn p m)))|change (marks (false :: firstn p m)) with (marks (firstn p m))]; now apply IH. Qed.
Lemma kept_none {X Y} (m : list X) (r : list Y) : length m = length r -> kept (map (fun _ => true) m) r = r.
Proof. revert r. induction m as [|x m IH]; intros [|y r] E; try discriminate; [reflexivity|]. cbn. now rewrite IH by now injection E. Qed.

Section KeyLemmas.
  Context {H A : Type}.
  Variable heqb : H -> H -> bool.
  Hypothesis heqb_ok : forall x y, heqb x y = true <-> x = y.
  Notation L := (list A).
  Notation dframe := (df L H A).

  Lemma tuples_pick (cells : list (list A)) : forall ps vss,
    Forall2 (fun p vs => Forall2 (fun r v => nth_error r p = Some v) cells vs) ps vss ->
    map (fun r => pick r ps) cells = tuples (length cells) vss.
  Proof. clear. intros ps vss FF. induction FF as [|p vs ps vss F FF IH].
    - cbn [tuples fold_right]. induction cells as [|r cells IH]; [reflexivity|]. cbn [map length repeat]. now rewrite <- IH.
    - cbn [tuples fold_right]. fold (tuples (length cells) vss). rewrite <- IH. clear IH FF. revert vs F. induction cells as [|r cells IH]; intros vs F; inversion F as [|? v ? vs' Ev F']; subst; [reflexivity|].
      cbn [map]. rewrite map2_cons, pick_cons, Ev. cbn [app]. now rewrite <- IH. Qed.
  Lemma transp_tuples n : forall vss : list (list A), transp n vss = tuples n vss.
  Proof. clear. induction vss as [|vs vss IH]; [reflexivity|]. rewrite transp_cons, IH. reflexivity. Qed.
  Lemma tuples_length n (vss : list (list A)) : Forall (fun vs => length vs = n) vss -> length (tuples n vss) = n.
  Proof. clear. intros F. induction F as [|vs vss E F IH]; [apply repeat_length|]. cbn [tuples fold_right]. fold (tuples n vss). rewrite map2_length, IH, E. apply Nat.min_id. Qed.
  Lemma map2_app_nil (ls : list (list A)) : map2 (@app A) (repeat [] (length ls)) ls = ls.
  Proof. clear. induction ls as [|l ls IH]; [reflexivity|]. cbn [length repeat]. rewrite map2_cons. now rewrite IH. Qed.

  Lemma get_indexer_at labels ls ps : NoDup labels -> Forall2 (fun (h : H) p => nth_error labels p = Some h) ls ps ->
    get_indexer heqb labels ls = map Z.of_nat ps.
  Proof. intros ND F. induction F as [|h p ls ps E F IH]; [reflexivity|].
    change (get_indexer heqb labels (h :: ls)) with (match everywhere heqb labels h with [] => [(-1)%Z] | ps => map Z.of_nat ps end ++ get_indexer heqb labels ls).
    rewrite (@everywhere_unique H heqb heqb_ok labels h p ND E), IH. reflexivity. Qed.
  Lemma pick_at (labels : list H) ps : Forall (fun p => p < length labels) ps -> Forall2 (fun h p => nth_error labels p = Some h) (pick labels ps) ps.
  Proof. clear. induction 1 as [|p ps Hp F IH]; [constructor|]. rewrite pick_cons. destruct (nth_error labels p) as [h|] eqn:E; [|apply nth_error_None in E; lia]. now constructor. Qed.
  Lemma at_pick (labels : list H) ls ps : Forall2 (fun h p => nth_error labels p = Some h) ls ps -> pick labels ps = ls /\ Forall (fun p => p < length labels) ps.
  Proof. clear. induction 1 as [|h p ls ps E F [IH1 IH2]]; [split; [reflexivity|constructor]|]. rewrite pick_cons, E, IH1. split; [reflexivity|]. constructor; [|exact IH2]. apply nth_error_Some. congruence. Qed.
  Lemma at_nodup (labels : list H) ls ps : NoDup ls -> Forall2 (fun h p => nth_error labels p = Some h) ls ps -> NoDup ps.
  Proof. clear. intros ND F. induction F as [|h p ls ps E F IH]; [constructor|]. inversion ND as [|? ? Nh ND']; subst. constructor; [|now apply IH].
    intros I. apply Nh. clear - E F I. induction F as [|h' p' ls ps E' F IH]; [easy|]. destruct I as [-> | I]; [left; congruence|right; auto]. Qed.
  Lemma in_existsb h hs : existsb (heqb h) hs = true <-> In h hs.
  Proof. rewrite existsb_exists. split; [intros (x & I & E)|intros I; exists h]; [|split; auto; now apply heqb_ok]. apply heqb_ok in E. now subst. Qed.

  (** columns left out *)
  Notation leave hs d := (keep_columns (map (fun c => negb (existsb (heqb c) hs)) (dcols d)) d).
  Lemma leave_leave hs1 hs2 (d : dframe) : wf d -> leave hs2 (leave hs1 d) = leave (hs1 ++ hs2) d.
  Proof. intros [_ W]. unfold keep_columns. cbn [dindex dcols dcells]. f_equal.
    - rewrite kept_kept by reflexivity. f_equal. apply map_ext. intros c. now rewrite existsb_app, negb_orb.
    - rewrite map_map. apply map_ext_in. intros r I. rewrite Forall_forall in W. rewrite kept_kept by (symmetry; now apply W). f_equal. apply map_ext. intros c. now rewrite existsb_app, negb_orb. Qed.
  Lemma leave_none (d : dframe) : wf d -> leave [] d = d.
  Proof. intros [_ W]. unfold keep_columns. destruct d as [i c x]. cbn [dindex dcols dcells existsb negb] in *. f_equal; [now apply kept_none|].
    transitivity (map (fun r => r) x); [|apply map_id]. apply map_ext_in. intros r I. rewrite Forall_forall in W. apply kept_none. symmetry. now apply W. Qed.
  Lemma leave_marked hs (d : dframe) : wf d -> leave hs d = take2d (seq 0 (nrows d)) (marked_from 0 (map (fun c => negb (existsb (heqb c) hs)) (dcols d))) d.
  Proof. intros W. apply keep_columns_take2d; [exact W|]. now rewrite map_length. Qed.
  Lemma wf_leave hs (d : dframe) : wf d -> wf (leave hs d).
  Proof. intros W. apply wf_keep_columns; [exact W|]. now rewrite map_length. Qed.
  Lemma leave_nodup hs (d : dframe) : NoDup (dcols d) -> NoDup (dcols (leave hs d)).
  Proof. intros ND. cbn. rewrite kept_filter. now apply NoDup_filter. Qed.
  Lemma gives_leave hs (d : dframe) k vs : (forall h, k = KColumn h -> ~ In h hs) -> gives d k vs -> gives (leave hs d) k vs.
  Proof. destruct k as [h|n l]; intros Hk G; [|exact G]. destruct G as (p & Ep & F). set (m := map (fun c => negb (existsb (heqb c) hs)) (dcols d)).
    assert (Em : nth_error m p = Some true).
    { unfold m. rewrite nth_error_map, Ep. cbn. f_equal. apply negb_true_iff, not_true_iff_false. intros E. apply in_existsb in E. now apply (Hk h). }
    exists (marks (firstn p m)). cbn [keep_columns dcols dcells]. split; [rewrite (kept_nth _ _ _ Em); exact Ep|].
    clear - F Em. induction F as [|r v rs vs E F IH]; [constructor|]. cbn [map]. constructor; [|exact IH]. now rewrite (kept_nth _ _ _ Em). Qed.
  Lemma gives_length (d : dframe) k vs : wf d -> gives d k vs -> length vs = nrows d.
  Proof. intros [W _] G. destruct k as [h|n l]; [|destruct G as [-> E]; exact E]. destruct G as (p & _ & F). unfold nrows. rewrite <- W. clear - F. induction F as [|r v rs vs E F IH]; [reflexivity|]. cbn. now rewrite IH. Qed.
End KeyLemmas.

Section KeyFrames.
  Context {H A : Type}.
  Variable aeqb : A -> A -> bool.
  Variable heqb : H -> H -> bool.
  Hypothesis aeqb_ok : forall x y, aeqb x y = true <-> x = y.
  Hypothesis heqb_ok : forall x y, heqb x y = true <-> x = y.
  Variable order : list H -> list H.
  Hypothesis order_ok : forall l, Permutation (order l) l.
  Variables min_row min_col nparts : nat.
  Hypothesis mr : 0 < min_row.
  Hypothesis mc : 0 < min_col.
  Hypothesis np : 0 < nparts.
  Variables known_l known_w : nat -> nat -> bool.
  Variable argsort : list Z -> list nat.
  Hypothesis argsort_ok : forall zs, sorts zs (argsort zs).
  Variable is_tuple : H -> bool.
  Notation L := (list A).
  Notation leqb := (list_eqb aeqb).
  Notation dframe := (df L H A).
  Notation pf := (@pframe L H A).
  Notation obj := (@object H A).
  Notation take cols f := (take_2d_positional leqb heqb min_row min_col nparts known_l known_w argsort false None (Some (IList cols)) f).
  Notation leave hs d := (keep_columns (map (fun c => negb (existsb (heqb c) hs)) (dcols d)) d).

  Lemma leqb_ok : forall x y : L, leqb x y = true <-> x = y.
  Proof. now apply list_eqb_spec. Qed.

  Lemma take_shows (f : pf) d rl cl ps : shows f d rl cl -> 0 < nrows d -> NoDup ps -> Forall (fun p => p < ncols d) ps ->
    exists f' rl' cl', take (map Z.of_nat ps) f = Ok f' /\ shows f' (take2d (seq 0 (nrows d)) ps d) rl' cl'.
  Proof.
    intros Sh Hn ND F. destruct ps as [|p ps].
    - exact (@take_no_columns L H A leqb heqb min_row min_col nparts mr mc np known_l known_w argsort f d rl cl Sh).
    - destruct (@take_2d_ok L H A leqb heqb leqb_ok heqb_ok min_row min_col nparts mr mc np known_l known_w argsort argsort_ok false f d rl cl None
        (Some (IList (map Z.of_nat (p :: ps)))) (seq 0 (nrows d)) (p :: ps) Sh) as (f' & E1 & _ & E2).
      + reflexivity.
      + split; [exact I|]. split; [reflexivity|exact F].
      + right. split; [apply seq_NoDup|exact ND].
      + destruct E2 as (rl' & cl' & Sh'); [destruct (nrows d); [lia|discriminate]|discriminate|]. eauto.
  Qed.

  Lemma set_rows_ok (f : pf) e rl cl idx : shows f e rl cl -> length idx = nrows e ->
    exists f' rl' cl', set_rows idx f = Ok f' /\ shows f' (mkdf idx (dcols e) (dcells e)) rl' cl'.
  Proof.
    intros Sh Hl. unfold set_rows. destruct Sh as ((G & Gi & Gc) & Nr & Nc & Pi & Pc). rewrite Pi. cbn [labels rbind].
    unfold nrows in Hl. rewrite Hl, Nat.eqb_refl. cbn [negb].
    assert (G' : gridded (mkpf (pgrid f) (Some idx) (pcols f) (prl f) (pcl f)) e rl cl).
    { destruct G as (W & Sr & Sc & Eg & Li & Lc & Cr & Cc). repeat split; auto; try apply W. cbn. intros c' [= <-]. exact Hl. }
    destruct (@propagate_ok_ne L H A (Some false) _ e rl cl idx (dcols e) G' Nr Nc eq_refl Pc) as (rl' & cl' & N1 & N2 & S1 & S2 & E1).
    rewrite E1. cbn [rbind relabel]. rewrite Pc.
    eexists; exists rl', cl'. split; [reflexivity|].
    assert (We : wf (mkdf idx (dcols e) (dcells e))).
    { destruct G as ((W1 & W2) & _). split; cbn; auto. rewrite Hl. exact W1. }
    split; [|auto]. apply holds_intro; cbn; auto. unfold nrows. cbn. now rewrite Hl.
  Qed.

  Lemma shows_pandas (f : pf) d rl cl : shows f d rl cl -> pf_to_pandas leqb heqb f = Ok d.
  Proof. intros (Hh & _ & _ & P1 & P2). apply (@pf_to_pandas_holds L H A leqb heqb leqb_ok heqb_ok f d rl cl Hh). intros _. rewrite P1, P2. now split. Qed.

  (** [to_labels] *)
  Lemma to_labels_ok (f : pf) d rl cl hs vss : shows f d rl cl -> 0 < nrows d -> NoDup (dcols d) -> NoDup hs ->
    Forall2 (fun h vs => gives d (KColumn h) vs) hs vss ->
    exists f' rl' cl', to_labels aeqb heqb min_row min_col nparts known_l known_w argsort hs f = Ok f'
      /\ shows f' (mkdf (tuples (nrows d) vss) (dcols (leave hs d)) (dcells (leave hs d))) rl' cl'.
  Proof.
    intros Sh Hn ND NH F. unfold to_labels. assert (Pc : pcols f = Some (dcols d)) by apply Sh. rewrite Pc. cbn [labels rbind].
    assert (W : wf d) by apply Sh.
    assert (X : exists ps, Forall2 (fun h p => nth_error (dcols d) p = Some h) hs ps /\ Forall2 (fun p vs => Forall2 (fun r v => nth_error r p = Some v) (dcells d) vs) ps vss).
    { clear - F. induction F as [|h vs hs vss (p & Ep & Fp) F (ps & F1 & F2)]; [exists []; split; constructor|]. exists (p :: ps). split; constructor; auto. }
    destruct X as (ps & F1 & F2). destruct (@at_pick H (dcols d) hs ps F1) as [Epk Bps]. assert (NP := at_nodup _ NH F1).
    rewrite (@get_indexer_at H heqb heqb_ok (dcols d) hs ps ND F1).
    destruct (take_shows Sh Hn NP Bps) as (f1 & rl1 & cl1 & E1 & Sh1). rewrite E1. cbn [rbind].
    rewrite (shows_pandas Sh1). cbn [rbind take2d ncols dcols dcells]. unfold ncols. cbn [take2d dcols]. rewrite Epk, Nat.eqb_refl. cbn [negb].
    set (m := map (fun c => negb (existsb (heqb c) hs)) (dcols d)).
    assert (Hm : length m = ncols d) by (unfold m; now rewrite map_length).
    assert (Bm : Forall (fun p => p < length (dcols d)) (marked_from 0 m)) by (unfold ncols in Hm; rewrite <- Hm; apply marked_bound).
    assert (Er : get_indexer heqb (dcols d) (filter (fun h => negb (existsb (heqb h) hs)) (dcols d)) = map Z.of_nat (marked_from 0 m)).
    { apply (get_indexer_at heqb heqb_ok ND). rewrite <- kept_filter. fold m. rewrite kept_pick by exact Hm. now apply pick_at. }
    rewrite Er. destruct (take_shows Sh Hn (marked_nodup 0 m) Bm) as (f2 & rl2 & cl2 & E2 & Sh2). rewrite E2. cbn [rbind].
    rewrite <- (@keep_columns_take2d L H A m d W Hm) in Sh2.
    assert (Et : map (fun r => pick r ps) (pick (dcells d) (seq 0 (nrows d))) = tuples (nrows d) vss).
    { destruct W as [W1 _]. unfold nrows. rewrite <- W1. rewrite pick_all by reflexivity. now apply tuples_pick. }
    rewrite Et. apply (set_rows_ok _ Sh2). apply tuples_length.
    clear - F W. induction F as [|h vs hs vss G F IH]; constructor; [|exact IH]. cbn [keep_columns nrows dindex]. exact (@gives_length H A d _ _ W G).
  Qed.

  Lemma from_columns_ok (o : obj) d rl cl hs vss drop append : shows (body o) d rl cl -> 0 < nrows d -> NoDup (dcols d) -> NoDup hs ->
    Forall2 (fun h vs => gives d (KColumn h) vs) hs vss ->
    exists o' rl' cl', set_index_from_columns aeqb heqb min_row min_col nparts known_l known_w argsort hs drop append o = Ok o'
      /\ shows (body o') (indexed heqb drop append (map KColumn hs) vss d) rl' cl'
      /\ names o' = level_names append (names o) (map (@KColumn H A) hs).
  Proof.
    intros Sh Hn ND NH F. unfold set_index_from_columns.
    destruct (to_labels_ok Sh Hn ND NH F) as (f1 & rl1 & cl1 & E1 & Sh1). rewrite E1. cbn [rbind].
    assert (Pi : pindex (body o) = Some (dindex d)) by apply Sh. rewrite Pi. cbn [labels rbind].
    assert (P1 : pindex f1 = Some (tuples (nrows d) vss)) by apply Sh1. rewrite P1. cbn [labels rbind].
    assert (W : wf d) by apply Sh.
    assert (Lv : Forall (fun vs => length vs = nrows d) vss).
    { clear - F W. induction F as [|h vs hs vss G F IH]; constructor; [|exact IH]. exact (@gives_length H A d _ _ W G). }
    assert (Lt := @tuples_length A (nrows d) vss Lv).
    assert (Ek : key_columns (map (@KColumn H A) hs) = hs). { clear. unfold key_columns. induction hs as [|h hs IH]; [reflexivity|]. cbn. now rewrite IH. }
    assert (En : map key_name (map (@KColumn H A) hs) = map Some hs) by (rewrite map_map; reflexivity).
    set (new := new_labels append vss d).
    assert (Ea : (if append then map2 (@app A) (dindex d) (tuples (nrows d) vss) else tuples (nrows d) vss) = new).
    { unfold new, new_labels. destruct append; [reflexivity|]. rewrite <- Lt at 2. now rewrite map2_app_nil. }
    rewrite Ea. assert (Ln : length new = nrows d). { unfold new, new_labels. rewrite map2_length, Lt. destruct append; [apply Nat.min_id|]. rewrite repeat_length. apply Nat.min_id. }
    assert (X : exists f2 rl2 cl2, (if append then set_rows new f1 else Ok f1) = Ok f2 /\ shows f2 (mkdf new (dcols (leave hs d)) (dcells (leave hs d))) rl2 cl2).
    { destruct append.
      - destruct (set_rows_ok new Sh1) as (f2 & rl2 & cl2 & E2 & Sh2); [unfold nrows at 1; cbn [dindex]; lia|]. eauto.
      - cbn in Ea. rewrite Ea in Sh1. eauto. }
    destruct X as (f2 & rl2 & cl2 & E2 & Sh2). rewrite E2. cbn [rbind].
    unfold level_names, indexed. rewrite En, Ek. fold new. destruct drop.
    - eexists; exists rl2, cl2. split; [reflexivity|]. cbn [body names]. split; [exact Sh2|reflexivity].
    - destruct (set_rows_ok _ Sh Ln) as (f3 & rl3 & cl3 & E3 & Sh3). rewrite E3. cbn [rbind]. eexists; exists rl3, cl3. split; [reflexivity|]. cbn [body names]. split; [exact Sh3|reflexivity].
  Qed.

  (** [pop] *)
  Lemma pop_ok (o : obj) d rl cl h vs : shows (body o) d rl cl -> 0 < nrows d -> NoDup (dcols d) -> gives d (KColumn h) vs ->
    exists o' rl' cl', pop aeqb heqb order min_row min_col nparts known_l known_w argsort h o = Ok (vs, o')
      /\ shows (body o') (leave [h] d) rl' cl' /\ names o' = names o.
  Proof.
    intros Sh Hn ND (p & Ep & F). unfold pop. assert (Pc : pcols (body o) = Some (dcols d)) by apply Sh. rewrite Pc. cbn [labels rbind].
    assert (W : wf d) by apply Sh. assert (Ih : existsb (heqb h) (dcols d) = true) by (apply (in_existsb heqb heqb_ok); now apply nth_error_In in Ep).
    rewrite Ih. cbn [negb]. rewrite (@get_indexer_at H heqb heqb_ok (dcols d) [h] [p] ND) by (repeat constructor; exact Ep).
    assert (Bp : Forall (fun p => p < ncols d) [p]) by (repeat constructor; apply nth_error_Some; congruence).
    destruct (take_shows Sh Hn (ps := [p]) ltac:(repeat constructor; easy) Bp) as (f1 & rl1 & cl1 & E1 & Sh1). rewrite E1. cbn [rbind].
    rewrite (shows_pandas Sh1). cbn [rbind take2d ncols dcols dcells]. unfold ncols. cbn [take2d dcols]. unfold ncols in Bp. rewrite (pick_length _ Bp). cbn [length Nat.eqb negb].
    rewrite (remaining_ok heqb heqb_ok order order_ok). unfold without.
    set (m := map (fun c => negb (inb heqb c [h])) (dcols d)).
    assert (Hm : length m = ncols d) by (unfold m; now rewrite map_length).
    assert (Bm : Forall (fun p => p < length (dcols d)) (marked_from 0 m)) by (unfold ncols in Hm; rewrite <- Hm; apply marked_bound).
    destruct (take_shows Sh Hn (marked_nodup 0 m) Bm) as (f2 & rl2 & cl2 & E2 & Sh2). rewrite E2. cbn [rbind].
    rewrite <- (@keep_columns_take2d L H A m d W Hm) in Sh2.
    assert (Et : concat (map (fun r => pick r [p]) (pick (dcells d) (seq 0 (nrows d)))) = vs).
    { destruct W as [W1 _]. unfold nrows. rewrite <- W1. rewrite pick_all by reflexivity. clear - F. induction F as [|r v rs vs E F IH]; [reflexivity|]. cbn [map concat]. rewrite pick_cons, E, IH. reflexivity. }
    rewrite Et. eexists; exists rl2, cl2. split; [reflexivity|]. cbn [body names]. split; [exact Sh2|reflexivity].
  Qed.

  Definition as_values (k : rowkey H A) (vs : list A) : rowkey H A := KValues (key_name k) vs.
  Lemma pops_ok : forall ks vss (o : obj) d rl cl, shows (body o) d rl cl -> 0 < nrows d -> NoDup (dcols d) -> NoDup (key_columns ks) ->
    Forall (fun h => is_tuple h = false) (key_columns ks) -> Forall2 (gives d) ks vss ->
    exists o' rl' cl', pops aeqb heqb order min_row min_col nparts known_l known_w argsort is_tuple ks o = (o', Ok (map2 as_values ks vss))
      /\ shows (body o') (leave (key_columns ks) d) rl' cl' /\ names o' = names o.
  Proof.
    induction ks as [|k ks IH]; intros vss o d rl cl Sh Hn ND NK NT F; inversion F as [|? vs ? vss' G F']; subst.
    - exists o, rl, cl. split; [reflexivity|]. assert (W : wf d) by apply Sh. change (key_columns (@nil (rowkey H A))) with (@nil H). rewrite leave_none by exact W. auto.
    - rewrite map2_cons. destruct k as [h|n l].
      + change (key_columns (KColumn h :: ks)) with (h :: key_columns ks) in *. inversion NK as [|? ? Nh NK']; subst. inversion NT as [|? ? Th NT']; subst.
        cbn [pops]. rewrite Th. destruct (pop_ok _ Sh Hn ND G) as (o1 & rl1 & cl1 & E1 & Sh1 & N1). rewrite E1.
        assert (W : wf d) by apply Sh.
        destruct (IH vss' o1 (leave [h] d) rl1 cl1 Sh1) as (o2 & rl2 & cl2 & E2 & Sh2 & N2); auto.
        { now apply leave_nodup. }
        { clear - F' Nh heqb_ok. revert Nh. induction F' as [|k vs ks vss G F IH]; intros Nh; constructor.
          - apply gives_leave; auto. intros h' -> [<-|[]]. apply Nh. now left.
          - apply IH. intros I. apply Nh. unfold key_columns. cbn [map concat]. apply in_or_app. now right. }
        rewrite E2. cbn [rbind]. exists o2, rl2, cl2. split; [reflexivity|]. rewrite leave_leave in Sh2 by exact W. split; [exact Sh2|congruence].
      + change (key_columns (KValues n l :: ks)) with (key_columns ks) in *. cbn [pops]. destruct G as [-> El].
        destruct (IH vss' o d rl cl Sh) as (o2 & rl2 & cl2 & E2 & Sh2 & N2); auto. rewrite E2. cbn [rbind]. exists o2, rl2, cl2. auto.
  Qed.
End KeyFrames.
