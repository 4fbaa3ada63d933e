(** [duplicated] and [drop_duplicates]. *)
From Coq Require Import Permutation.
From Verif Require Import Base Table ChunkModel ChunkSpec ChunkProofs GridModel GridSpec FrameSpec GridProofs GridProofs2 GridProofs3 GridProofs4 GridProofs5
  SelSpec SelModel SelProofs SelProofs4 SelProofs5 SelProofs6 JoinSpec JoinModel JoinProofs2 JoinProofs3 RemSpec RemModel RemProofs RemProofs2 RemProofs3
  MaskSpec MaskModel MaskProofs MaskProofs2 ResetSpec ResetModel ResetProofs DupSpec DupModel.

(** * A function of whole columns on a grid one block wide *)
Section OneColumn.
  Context {L H A L2 H2 B : Type}.
  Variable leqb : L -> L -> bool.
  Variable heqb : H -> H -> bool.
  Hypothesis heqb_ok : forall x y, heqb x y = true <-> x = y.
  Lemma transp_one {X} (l : list X) : transp (length l) [l] = map (fun x => [x]) l.
  Proof. rewrite transp_cons. change (transp (length l) []) with (repeat (@nil X) (length l)). induction l as [|x l IH]; [reflexivity|]. cbn [length repeat map]. rewrite <- IH. reflexivity. Qed.

  Lemma map_axis_one (func : df L H A -> res (df L2 H2 B)) (d : df L H A) (D : df L2 H2 B) rl w nparts m (keep : bool) :
    func d = Ok D -> wf d -> wf D -> rl <> [] -> list_sum rl = nrows d -> w = ncols d -> 0 < m -> 0 < nparts ->
    exists rl', map_axis_partitions leqb heqb nparts m false (cut_table rl [w] d) func keep None None = Ok (cut_table rl' [ncols D] D)
      /\ list_sum rl' = nrows D /\ rl' <> [] /\ (keep = true -> nrows D = nrows d -> rl' = rl)
      /\ (keep = false -> get_length_list (nrows D) nparts m = Ok rl').
  Proof.
    intros E W WD Hr Sr Hw Hm Hp. subst w. set (ns := if keep then length rl else nparts).
    assert (Hns : 0 < ns) by (unfold ns; destruct keep; [destruct rl; [easy|cbn; lia]|exact Hp]).
    destruct (@deploy_lens_ok (nrows D) ns m keep rl None false Hns Hm) as (D1 & D2 & D3 & _); [discriminate|].
    set (rl' := deploy_lens (nrows D) ns m keep rl None false) in *. exists rl'.
    split; [|split; [exact D1|split; [|split]]].
    - unfold map_axis_partitions. rewrite andb_false_r.
      assert (HT : transp (grid_width (cut_table rl [ncols d] d)) (cut_table rl [ncols d] d) = [map (fun ri => block d ri (0, ncols d)) (bounds 0 rl)]).
      { assert (Hw : grid_width (cut_table rl [ncols d] d) = 1). { unfold cut_table. apply grid_width_map; [now rewrite bounds_nil_iff|]. intros; now rewrite map_length, bounds_length. }
        rewrite Hw. exact (transp_fun (fun ri ci => block d ri ci) (bounds 0 rl) [(0, ncols d)]). }
      rewrite HT.
      assert (Hn : (if keep then length (cut_table rl [ncols d] d) else nparts) = ns) by (unfold ns, cut_table; now rewrite map_length, bounds_length).
      rewrite Hn. clear HT Hn.
      cbn [rmap]. unfold deploy_axis_func. rewrite (concat_rows_blocks _ _ heqb_ok) by assumption. cbn [rbind].
      rewrite Nat.add_0_l, Sr, block_rows_full by assumption. cbn [fst snd].
      rewrite iloc_cols_full, E by exact W. cbn [rbind]. rewrite split_eff by assumption. cbn [rbind axis_size]. rewrite !map_length, bounds_length.
      assert (Hold : map (axis_size false) (map (fun ri => block d ri (0, ncols d)) (bounds 0 rl)) = rl).
      { rewrite map_map. cbn [axis_size]. unfold nrows in *. cbn.
        rewrite <- (@bounds_sizes (length (dindex d)) 0 rl) at 2 by lia.
        apply map_ext. intros iv. now rewrite slice_length. }
      rewrite Hold. fold (deploy_lens (nrows D) ns m keep rl None false). fold rl'. f_equal. cbn [grid_width]. rewrite transp_one, map_map. unfold cut_table. apply map_ext. intros iv. cbn [bounds map].
      rewrite Nat.add_0_l, block_cols_full by exact WD. reflexivity.
    - intros X. rewrite X in D2. cbn in D2. lia.
    - intros -> Hn. apply D3; auto. congruence.
    - intros ->. unfold rl', deploy_lens, eff_lens, ns in *. cbn [negb]. rewrite orb_true_r. destruct (Nat.eqb_spec nparts 1) as [->|Hn1]; [now apply get_length_list_one|].
      destruct (get_length_list_ok (nrows D) Hp Hm) as (l & -> & _). reflexivity.
  Qed.

  Lemma apply_full_axis_one_at (func : df L H A -> res (df L2 H2 B)) (D : df L2 H2 B) nparts min_row min_col ni nc keep (x : pframe) d rl w :
    gridded x d rl [w] -> func d = Ok D -> wf D -> rl <> [] -> 0 < nparts -> 0 < min_row ->
    (keep = true -> nrows D = nrows d) ->
    (forall i, ni = Some i -> length i = nrows D) -> length nc = ncols D ->
    exists x' rl' cl',
      apply_full_axis leqb heqb nparts min_row min_col false func ni (Some nc) keep None x = Ok x'
      /\ gridded x' D rl' cl' /\ rl' <> [] /\ cl' <> [] /\ pindex x' = ni /\ pcols x' = Some nc.
  Proof.
    intros (W & Sr & Sc & Gr & Li & Lc & Cr & Cc) EF WF Hr Hp Hmr Hk Hni Hnc. unfold apply_full_axis. rewrite Gr.
    assert (Hw : w = ncols d) by (rewrite <- Sc; unfold list_sum; cbn; lia).
    destruct (@map_axis_one func d D rl w nparts min_row keep EF W WF Hr Sr Hw Hmr Hp) as (rl' & E & S' & N' & K1 & K2).
    rewrite E. cbn [rbind].
    assert (Gw : grid_width (cut_table rl' [ncols D] D) = 1). { unfold cut_table. apply grid_width_map; [now rewrite bounds_nil_iff|]. intros; now rewrite map_length, bounds_length. }
    rewrite Gw. cbn [Nat.eqb]. rewrite Hnc.
    assert (FIN : forall rows, (rows = None \/ rows = Some rl') ->
      exists x' rl0 cl0, construct (mkpf (cut_table rl' [ncols D] D) ni (Some nc) rows (Some [ncols D])) = Ok x'
        /\ gridded x' D rl0 cl0 /\ rl0 <> [] /\ cl0 <> [] /\ pindex x' = ni /\ pcols x' = Some nc).
    { intros rows Hro. apply construct_gridded with (f := mkpf (cut_table rl' [ncols D] D) ni (Some nc) rows (Some [ncols D])) (rl := rl') (cl := [ncols D]); auto; [|discriminate].
      unfold gridded; cbn [pgrid pindex pcols prl pcl]. repeat split; auto; try apply WF; [unfold list_sum; cbn; lia|]. now intros ? [= <-]. }
    destruct keep; cbn [negb].
    - apply FIN. destruct (prl x) as [l|] eqn:Ep; [|auto]. destruct ni as [i|]; [|auto]. destruct ((length i =? list_sum l) && _) eqn:Eb; [|auto].
      destruct Cr as [Cr|Cr]; [discriminate|]. injection Cr as ->. right. f_equal. symmetry. apply K1; auto.
    - specialize (K2 eq_refl). destruct ni as [i|]; [|cbn [rbind]; apply FIN; auto].
      rewrite (Hni i eq_refl), cut_table_length. destruct (get_length_list_ok (nrows D) Hp Hmr) as (l & El & Hl & _). rewrite K2 in El. injection El as <-. rewrite Hl, K2. cbn [rbind]. apply FIN; auto.
  Qed.

  Lemma apply_full_axis_one (F : df L H A -> df L2 H2 B) nparts min_row min_col ni nc keep (x : pframe) d rl w :
    gridded x d rl [w] -> wf (F d) -> rl <> [] -> 0 < nparts -> 0 < min_row ->
    (keep = true -> nrows (F d) = nrows d) ->
    (forall i, ni = Some i -> length i = nrows (F d)) -> length nc = ncols (F d) ->
    exists x' rl' cl',
      apply_full_axis leqb heqb nparts min_row min_col false (fun t => Ok (F t)) ni (Some nc) keep None x = Ok x'
      /\ gridded x' (F d) rl' cl' /\ rl' <> [] /\ cl' <> [] /\ pindex x' = ni /\ pcols x' = Some nc.
  Proof. intros G WF. exact (@apply_full_axis_one_at (fun t => Ok (F t)) (F d) nparts min_row min_col ni nc keep x d rl w G eq_refl WF). Qed.
End OneColumn.

(** * Repeated elements *)
Lemma existsb_map {X Y} (g : X -> Y) (p : Y -> bool) l : existsb p (map g l) = existsb (fun x => p (g x)) l.
Proof. induction l as [|x l IH]; [reflexivity|]. cbn. now rewrite IH. Qed.
Lemma existsb_ext_in {X} (p q : X -> bool) l : (forall x, In x l -> p x = q x) -> existsb p l = existsb q l.
Proof. induction l as [|x l IH]; intros E; [reflexivity|]. cbn. rewrite E by now left. f_equal. apply IH. intros; apply E; now right. Qed.
Lemma repeated_from_map {X Y} (sy : Y -> Y -> bool) (sx : X -> X -> bool) (g : X -> Y) k l : forall before,
  (forall x y, In x (before ++ l) -> In y (before ++ l) -> sy (g x) (g y) = sx x y) ->
  repeated_from sy k (map g before) (map g l) = repeated_from sx k before l.
Proof. induction l as [|x l IH]; intros before E; [reflexivity|]. cbn [map repeated_from]. f_equal.
  - rewrite !existsb_map. assert (E1 : existsb (fun y => sy (g x) (g y)) before = existsb (sx x) before).
    { apply existsb_ext_in. intros y I. apply E; apply in_or_app; [right; now left|now left]. }
    assert (E2 : existsb (fun y => sy (g x) (g y)) l = existsb (sx x) l).
    { apply existsb_ext_in. intros y I. apply E; apply in_or_app; right; [now left|now right]. }
    destruct k; congruence.
  - change [g x] with (map g [x]). rewrite <- map_app. apply IH. intros y z. rewrite <- app_assoc. apply E. Qed.
Lemma repeated_map {X Y} (sy : Y -> Y -> bool) (sx : X -> X -> bool) (g : X -> Y) k l :
  (forall x y, In x l -> In y l -> sy (g x) (g y) = sx x y) -> repeated sy k (map g l) = repeated sx k l.
Proof. intros E. exact (@repeated_from_map X Y sy sx g k l [] E). Qed.
Lemma repeated_from_length {X} (s : X -> X -> bool) k l : forall before, length (repeated_from s k before l) = length l.
Proof. induction l as [|x l IH]; intros before; [reflexivity|]. cbn. now rewrite IH. Qed.
Lemma repeated_length {X} (s : X -> X -> bool) k l : length (repeated s k l) = length l.
Proof. apply repeated_from_length. Qed.

Section Dup.
  Context {L H A T : Type}.
  Variable leqb : L -> L -> bool.
  Variable heqb : H -> H -> bool.
  Hypothesis leqb_ok : forall x y, leqb x y = true <-> x = y.
  Hypothesis heqb_ok : forall x y, heqb x y = true <-> x = y.
  Variable same : A -> A -> bool.
  Variable text : list A -> T.
  Variable teqb : T -> T -> bool.
  Variable truth : A -> option bool.
  Variable ofbool : bool -> A.
  Variable invert : A -> A.
  Hypothesis truth_inverted : forall b, truth (invert (ofbool b)) = Some (negb b).
  Variable fill : A.
  Variable sorted : list L -> list nat.
  Hypothesis sorted_ok : forall ls, Permutation (sorted ls) (seq 0 (length ls)).
  Hypothesis sorted_stable : forall ls, pick ls (sorted ls) = ls -> sorted ls = seq 0 (length ls).
  Variable num : nat -> L.
  Variable cell : L -> A.
  Variables (ulabel : L) (uheader : H).
  Variables cpus min_row min_col nparts : nat.
  Hypothesis mr : 0 < min_row.
  Hypothesis mc : 0 < min_col.
  Hypothesis np : 0 < nparts.
  Variable dynamic : bool.
  Variables known_l known_w : nat -> nat -> bool.
  Variable argsort : list Z -> list nat.
  Hypothesis argsort_ok : forall l, sorts l (argsort l).
  Notation dframe := (df L H A).
  Notation pf := (@pframe L H A).
  Notation qc_duplicated := (qc_duplicated leqb heqb same text teqb ofbool ulabel uheader min_row min_col nparts).
  Notation qc_unique := (qc_unique leqb heqb same text teqb truth ofbool invert fill sorted num cell ulabel uheader cpus min_row min_col nparts dynamic known_l known_w argsort).

  Lemma reduce_holds (f : pf) (d : dframe) rl cl : holds f d rl cl -> rl <> [] -> cl <> [] -> 0 < nrows d ->
    exists h, reduce leqb heqb ulabel uheader nparts min_row min_col true text f (dindex d) (dcols d) = Ok h
      /\ holds h (reduce_rows uheader text d) (nonzero rl) [1].
  Proof using leqb_ok heqb_ok mr mc np same text teqb ofbool ulabel uheader.
    intros Hh Hr Hc Hn. assert (Hh' := Hh). destruct Hh' as [(W & Hsr & Hsc & Hg & _) _]. unfold reduce. rewrite Hg.
    change (build_treereduce_func ulabel uheader true text) with (fun d => Ok (@reduce_rows L H A T uheader text d)).
    destruct (map_axis_row_wise leqb heqb leqb_ok (@reduce_rows_rw L H A T uheader text) (d:=d) (rl:=rl) (cl:=cl)
                (nparts:=nparts) (m:=min_col) (keep:=false) (num_splits:=None) (lengths:=None))
          as (cl' & E1 & _ & _ & _ & _ & _ & E2); auto; try discriminate.
    rewrite E1. cbn [rbind]. specialize (E2 eq_refl eq_refl). cbn beta iota in E2. change (ncols _) with 1 in E2.
    destruct (get_length_list_unit np mc) as (rest & E3 & E4). rewrite E3 in E2. injection E2 as <-.
    destruct (@GridProofs4.finish_rows L H leqb heqb leqb_ok heqb_ok A T f d (reduce_rows uheader text d) rl cl rest uheader ulabel) as (f' & Q1 & _ & _ & _ & Q2); auto.
    { destruct (@reduce_rows_rw L H A T uheader text d W) as (Wx & _). exact Wx. }
    exists f'. auto. Qed.

  Lemma wf_duplicated k (d : dframe) : wf d -> wf (duplicated same uheader ofbool k d).
  Proof using same ofbool. intros [W1 W2]. split; cbn [duplicated dindex dcells].
    - unfold nrows in *. now rewrite map_length, repeated_length.
    - apply Forall_forall. intros r I. apply in_map_iff in I as (b & <- & _). reflexivity. Qed.

  Lemma duplicated_ok k (f : pf) (d : dframe) rl cl : holds f d rl cl -> rl <> [] -> cl <> [] -> 0 < nrows d -> (length cl = 1 \/ faithful same text teqb d) ->
    exists x rl' cl', qc_duplicated k f = Ok x /\ holds x (duplicated same uheader ofbool k d) rl' cl' /\ rl' <> [] /\ cl' <> [].
  Proof using leqb_ok heqb_ok mr mc np same text teqb ofbool ulabel uheader.
    clear - leqb_ok heqb_ok mr mc np. intros Hh Hr Hc Hn Hf. unfold DupModel.qc_duplicated. assert (Hh' := Hh). destruct Hh' as [G [Ki Kc]]. assert (G' := G). destruct G' as (W & Sr & Sc & Gr & Li & _).
    assert (Gw : grid_width (pgrid f) = length cl). { rewrite Gr. unfold cut_table. apply grid_width_map; [now rewrite bounds_nil_iff|]. intros; now rewrite map_length, bounds_length. }
    assert (X : forall x rl' cl', gridded x (duplicated same uheader ofbool k d) rl' cl' -> pindex x = pindex f -> pcols x = Some [uheader] -> holds x (duplicated same uheader ofbool k d) rl' cl').
    { intros x rl' cl' Gx P1 P2. split; [exact Gx|]. rewrite P1, P2. cbn [duplicated dindex dcols]. auto. }
    rewrite Gw. destruct (Nat.ltb_spec 1 (length cl)) as [Hl|Hl].
    - destruct Hf as [Hf|Hf]; [lia|]. rewrite (row_labels_holds Hh Hc), (col_labels_holds Hh (or_introl Hr)).
      destruct (reduce_holds Hh Hr Hc Hn) as (h & E & Hhh). rewrite E. cbn [rbind]. destruct Hhh as [Gh _].
      assert (ED : dup_hashes teqb ofbool uheader k (reduce_rows uheader text d) = duplicated same uheader ofbool k d).
      { unfold dup_hashes, duplicated, reduce_rows. cbn [dindex dcells]. f_equal. f_equal. apply (@repeated_map _ _ _ (same_row same) (fun r => [text r])). intros r s I J. cbn [same_row]. rewrite andb_true_r. now apply Hf. }
      destruct (@apply_full_axis_one L H T L H A leqb heqb heqb_ok (dup_hashes teqb ofbool uheader k) nparts min_row min_col (pindex f) [uheader] true h _ (nonzero rl) 1 Gh) as (x & rl' & cl' & E1 & G1 & N1 & N2 & P1 & P2); rewrite ?ED; auto.
      + now apply wf_duplicated.
      + intros X0. destruct Gh as (_ & Q & _). rewrite X0 in Q. change (nrows (reduce_rows uheader text d)) with (nrows d) in Q. unfold list_sum in Q. cbn in Q. lia.
      + rewrite ED in G1. eauto 8.
    - destruct cl as [|w [|? ?]]; [easy| |cbn in Hl; lia].
      destruct (@apply_full_axis_one L H A L H A leqb heqb heqb_ok (dup_cells same ofbool uheader k) nparts min_row min_col (pindex f) [uheader] true f d rl w G) as (x & rl' & cl' & E1 & G1 & N1 & N2 & P1 & P2); auto.
      + now apply wf_duplicated.
      + exists x, rl', cl'. split; [exact E1|]. split; [now apply X|auto]. Qed.

  (** rows the inverted answer marks *)
  Lemma keep_not_repeated k (f : pf) (d e : dframe) rl cl re ce x : holds f d rl cl -> rl <> [] -> cl <> [] -> 0 < nrows d ->
    wf e -> dindex e = dindex d -> holds x (duplicated same uheader ofbool k e) re ce -> re <> [] -> ce <> [] ->
    exists inv r rl' cl', frame_map leqb heqb dynamic cpus nparts min_row min_col (fun t => Ok (cellwise (fun _ _ => invert) (fun h => h) t)) None x = Ok inv
      /\ df_getitem_mask leqb heqb truth fill sorted min_row nparts f inv = Ok r
      /\ holds r (keep_rows (map negb (repeated (same_row same) k (dcells e))) d) rl' cl' /\ rl' <> [] /\ cl' <> [].
  Proof.
    intros Hh Hr Hc Hn We Ei Hx Hre Hce. assert (Hx' := Hx). destruct Hx' as [Gx [Xi Xc]].
    destruct (frame_map_ok leqb heqb leqb_ok heqb_ok (fun (_ : L) (_ : H) => invert) dynamic cpus (nc:=None) Gx Hre Hce np mr mc) as (inv & r2 & c2 & E1 & G2 & N1 & N2 & P1 & P2); [discriminate|].
    set (e2 := cellwise _ _ _) in G2. set (m := map negb (repeated (same_row same) k (dcells e))).
    assert (I2 : dindex e2 = dindex d) by exact Ei. assert (C2 : dcols e2 = [uheader]) by reflexivity.
    assert (H2 : holds inv e2 r2 c2).
    { split; [exact G2|]. rewrite P1, P2. split; [exact Xi|]. rewrite C2. destruct Xc as [->| ->]; auto. }
    assert (W2 : wf e2) by apply G2.
    assert (M2 : map (map truth) (dcells e2) = map (fun b => [Some b]) m).
    { assert (LE : length (dindex e) = length (repeated (same_row same) k (dcells e))) by (rewrite repeated_length; destruct We as [We _]; unfold nrows in We; now rewrite We).
      unfold e2, m, cellwise, duplicated. cbn [dindex dcols dcells]. revert LE. generalize (dindex e), (repeated (same_row same) k (dcells e)). intros ls bs. revert bs.
      induction ls as [|l ls IH]; intros [|b bs] LE; try discriminate; [reflexivity|]. cbn [map]. unfold map2 at 1. cbn [combine map]. f_equal.
      - unfold map2. cbn. now rewrite truth_inverted.
      - injection LE as LE. rewrite <- (IH bs LE). reflexivity. }
    destruct (@getitem_mask_ok L H A leqb heqb leqb_ok heqb_ok truth fill sorted sorted_ok sorted_stable min_row min_col nparts mr mc np f inv d e2 rl cl r2 c2 m m) as (r & rl' & cl' & E2 & Hr' & N3 & N4); auto.
    - repeat split; auto; apply W2.
    - unfold nrows. now rewrite I2.
    - unfold aligned. rewrite I2. now rewrite (proj2 (list_eqb_spec leqb leqb_ok _ _) eq_refl).
    - exists inv, r, rl', cl'. split; [exact E1|]. split; [exact E2|]. split; [|auto].
      unfold joined_marks, joined_mask in Hr'. rewrite I2, (proj2 (list_eqb_spec leqb leqb_ok _ _) eq_refl) in Hr'. exact Hr'. Qed.
End Dup.
