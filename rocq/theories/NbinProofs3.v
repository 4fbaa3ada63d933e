(** Binary operations of modin.numpy: whole operations. *)
From Verif Require Import Base Table ChunkModel ChunkSpec ChunkProofs GridModel GridSpec FrameSpec GridProofs GridProofs2 GridProofs3 GridProofs4 GridProofs5 SelSpec SelModel
  SelProofs SelProofs4 SelProofs5 JoinSpec JoinModel JoinProofs2 JoinProofs3 JoinProofs6 ShufProofs4 ArrSpec ArrModel ArrProofs NbinSpec NbinModel NbinProofs RemProofs3 NbinProofs2.

(** The pairs of arrays modin.numpy handles as NumPy does: equal shapes; a matrix and a vector; a vector and a matrix, if the operation has a
    mirror image; a matrix and a column. *)
Inductive works {A B} (k : mirror) (op : A -> A -> B) : nd A -> nd A -> Prop :=
| w_same v w : shape v = shape w -> works k op v w
| w_row m rows l : length l = m -> works k op (Mat m rows) (Vec l)
| w_swap m rows l : length l = m -> k = Mirrored \/ (k = Plain /\ forall a b, op a b = op b a) -> works k op (Vec l) (Mat m rows)
| w_column m rows col : length col = length rows -> works k op (Mat m rows) (Mat 1 col).

Section Nbin.
  Context {A B D : Type}.
  Variables min_row min_col nparts cpus : nat.
  Variable dynamic : bool.
  Hypothesis mr : 0 < min_row.
  Hypothesis mc : 0 < min_col.
  Hypothesis np : 0 < nparts.
  Variable fill : A.
  Variable join : list (list nat) -> list nat * list (list (option nat)).
  Hypothesis join_good : forall a b, NoDup a -> NoDup b -> joins_well join [a; b].
  Variable common : D -> D -> D.
  Variable cast : D -> A -> A.
  Notation pfA := (@pframe nat nat A).
  Notation pfB := (@pframe nat nat B).
  Notation dframe := (df nat nat A).
  Notation qc_binary := (qc_binary min_row min_col nparts fill join).
  Notation astype := (astype cast).
  Notation np_op := (np_op (B:=B) min_row min_col nparts fill join common cast).
  Notation np_op_scalar := (np_op_scalar (B:=B) min_row min_col nparts cpus dynamic cast).

  (** the blocks' rows are never empty *)
  Definition full_rows (x : @arr A) : Prop := Forall (fun n => 0 < n) (row_lengths (aqc x)).

  Definition map_df (g : A -> A) (d : dframe) : dframe := mkdf (dindex d) (dcols d) (map (map g) (dcells d)).
  Lemma table_map (g : A -> A) v : table_of (nd_map g v) = map_df g (table_of v).
  Proof. clear. destruct v as [l|w rows]; unfold map_df; cbn [nd_map table_of dindex dcols dcells]; rewrite map_length; [|reflexivity]. now rewrite !map_map. Qed.
  Lemma cut_map (g : A -> A) rl cl d : map (map (map_df g)) (cut_table rl cl d) = cut_table rl cl (map_df g d).
  Proof. clear. unfold cut_table. rewrite map_map. apply map_ext. intros ri. rewrite map_map. apply map_ext. intros ci. unfold block, map_df. cbn [dindex dcols dcells]. f_equal.
    rewrite slice_map, !map_map. apply map_ext. intros r. now rewrite slice_map. Qed.
  Lemma wf_map (g : A -> A) d : wf d -> wf (map_df g d).
  Proof. clear. intros (W1 & W2). split; cbn [map_df dindex dcells]; [now rewrite map_length|]. apply Forall_map. eapply Forall_impl; [|exact W2]. cbn. intros r Hr. now rewrite map_length. Qed.

  Lemma astype_ok d (x : @typed A D) v : stands (tarr x) v -> stands (tarr (astype d x)) (nd_map (cast d) v) /\ (full_rows (tarr x) -> full_rows (tarr (astype d x))).
  Proof. clear. intros (E & rl & cl & S). destruct S as ((G & Hi & Hc) & Nr & Nc & Pi & Pc). assert (G' := G). destruct G' as (W & Sr & Sc & Gr & G1 & G2 & G3 & G4).
    assert (G'' : gridded (aqc (tarr (astype d x))) (map_df (cast d) (table_of v)) rl cl).
    { unfold gridded, NbinModel.astype. cbn [tarr aqc pgrid pindex pcols prl pcl]. split; [now apply wf_map|]. split; [exact Sr|]. split; [exact Sc|]. split; [rewrite Gr; apply cut_map|].
      split; [exact G1|]. split; [exact G2|]. split; [exact G3|exact G4]. }
    split.
    - split; [now destruct v|]. exists rl, cl. rewrite table_map. unfold shows, holds. cbn [map_df dindex dcols]. repeat split; auto; apply G''.
    - unfold full_rows. rewrite (gridded_row_lengths G Nc), (gridded_row_lengths G'' Nc). auto. Qed.

  Lemma shape_is (x : @typed A D) v : stands (tarr x) v -> shape_of x = Ok (shape v).
  Proof. clear. intros S. apply (stands_reads S). Qed.

  (** the operands as the operation leaves them *)
  Definition casted (casts : bool) (d : D) (v : nd A) : nd A := if casts then nd_map (cast d) v else v.
  Definition dtype_after (casts : bool) (d own : D) : D := if casts then d else own.
  Definition out_dtype (dtype : option D) (x y : @typed A D) : D := match dtype with Some d => d | None => common (tdt x) (tdt y) end.

  Lemma has_columns (v : nd A) : (0 < width_of v \/ ndim v = 1) -> dcols (table_of v) <> [].
  Proof. clear. destruct v as [l|w rows]; cbn; [discriminate|]. intros [Hw|Hw]; [|discriminate]. destruct w; [lia|discriminate]. Qed.

  Lemma core (k : mirror) (op : A -> A -> B) (x y : @typed A D) v w : stands (tarr x) v -> stands (tarr y) w -> works k op v w ->
    (0 < width_of v \/ ndim v = 1) -> 0 < width_of w \/ ndim w = 1 -> (ndim v <> ndim w -> 0 < width_of v) ->
    (shape v = shape w -> full_rows (tarr x)) ->
    exists z r, np_op false k op None x y = Ok (x, y, z) /\ stands z r /\ np_binary op v w = Some r.
  Proof.
    intros Sx Sy Wk Pv Pw Pm Fr. assert (Ex := shape_is x Sx). assert (Ey := shape_is y Sy).
    unfold NbinModel.np_op, preprocess. rewrite Ex, Ey. cbn [rbind].
    destruct Sx as (Dx & rl & cl & Sx). destruct Sy as (Dy & rk & ck & Sy). rewrite Dx, Dy.
    assert (Wv : wf (table_of v)) by apply Sx. assert (Ww : wf (table_of w)) by apply Sy.
    assert (Same : forall v w : nd A, v = v -> shape v = shape w -> ndim v = ndim w) by (clear; intros [?|? ?] [?|? ?]; cbn; intros _ E; congruence).
    assert (CaseSame : shape v = shape w -> exists z r,
      (do f <- qc_binary op false false (aqc (tarr x)) (aqc (tarr y)); do z <- np_array f (ndim v); Ok (x, y, z)) = Ok (x, y, z) /\ stands z r /\ np_binary op v w = Some r).
    { intros Es. assert (Erow : Forall (fun n => 0 < n) rl).
      { specialize (Fr Es). unfold full_rows in Fr. destruct Sx as ((G & _) & _ & Nc & _). now rewrite (gridded_row_lengths G Nc) in Fr. }
      assert (Ei : dindex (table_of v) = dindex (table_of w) /\ dcols (table_of v) = dcols (table_of w)).
      { destruct v, w; cbn in Es; try discriminate; cbn; split; congruence. }
      destruct (same_ok mr mc np fill join_good op Sx Sy (proj1 Ei) (proj2 Ei)) as (f' & rl' & cl' & E1 & S1); auto.
      { destruct v; apply seq_NoDup. } { destruct v; [repeat constructor; easy|apply seq_NoDup]. }
      set (r := match v, w with Vec l, Vec l' => Vec (map2 op l l') | Mat w rows, Mat _ rows' => Mat w (map2 (map2 op) rows rows') | _, _ => Vec [] end).
      assert (Er : np_binary op v w = Some r).
      { destruct v as [l|p rows], w as [l'|q rows']; cbn in Es; try discriminate; [apply same_vecs; congruence|].
        injection Es as Es1 ->. apply same_mats; [apply wf_rect; exact Wv|apply wf_rect; exact Ww|exact Es1]. }
      assert (Nv : ndim v = ndim r) by (destruct v, w; cbn in Es; try discriminate; reflexivity).
      destruct (@finish B f' _ rl' cl' r S1) as (z & E2 & S2).
      - now apply (has_columns v).
      - unfold nrows, zip_cells. cbn [dindex]. destruct v as [l|p rows], w as [l'|q rows']; cbn in Es; try discriminate; cbn [r table_of dindex]; rewrite !seq_length, map2_length; injection Es; intros; lia.
      - unfold ncols, zip_cells. cbn [dcols]. destruct v as [l|p rows], w as [l'|q rows']; cbn in Es; try discriminate; reflexivity.
      - unfold zip_cells. cbn [dcells]. destruct v as [l|p rows], w as [l'|q rows']; cbn in Es; try discriminate; cbn [r table_of dcells]; [|reflexivity].
        clear. revert l'. unfold map2. induction l as [|a l IH]; intros [|b l']; try reflexivity. cbn. now rewrite IH.
      - exists z, r. rewrite E1. cbn [rbind]. rewrite Nv, E2. auto. }
    assert (List_refl : forall s, list_eqb Nat.eqb s s = true) by (intros s; now apply (list_eqb_spec Nat.eqb Nat.eqb_eq)).
    destruct Wk as [v w Es|m rows l El|m rows l El Hk|m rows col El].
    - rewrite (Same v w eq_refl Es), Nat.eqb_refl. cbn [negb]. rewrite Es, List_refl. cbn [rbind andb].
      destruct (CaseSame Es) as (z & r & E & S & N). exists z, r. rewrite <- (Same v w eq_refl Es).
      replace (match k with Mirrored => op | _ => op end) with op by now destruct k. auto.
    - cbn [ndim Nat.eqb negb shape]. rewrite El, Nat.eqb_refl. cbn [negb rbind andb].
      cbn [ndim width_of] in Pm. assert (P : 0 < m) by (apply Pm; discriminate).
      destruct (row_ok mr mc np fill join_good op Sx Sy El P) as (f' & rl' & cl' & E1 & S1).
      replace (match k with Mirrored => op | _ => op end) with op by now destruct k. rewrite E1. cbn [rbind].
      destruct (@finish B f' _ rl' cl' (Mat m (map (fun r => map2 op r l) rows)) S1) as (z & E2 & S2); auto.
      { cbn [table_of dcols]. destruct m; [lia|discriminate]. }
      cbn [ndim] in E2. rewrite E2. cbn [rbind]. exists z. eexists. split; [reflexivity|]. split; [exact S2|]. apply mat_vec; [now apply wf_rect|exact El].
    - cbn [ndim Nat.eqb negb shape]. rewrite El, Nat.eqb_refl. cbn [negb rbind andb].
      cbn [ndim width_of] in Pm. assert (P : 0 < m) by (rewrite <- El; apply Pm; discriminate).
      set (op' := fun a b => op b a).
      assert (Eop : (match k with Mirrored => fun a b => op b a | _ => op end) = op' \/ forall a b, op a b = op b a) by (destruct Hk as [->|[-> Hc]]; auto).
      assert (Nk : match k with Refused => true | _ => false end = false) by (destruct Hk as [->|[-> _]]; reflexivity). rewrite Nk.
      set (op1 := match k with Mirrored => fun a b => op b a | _ => op end) in *.
      assert (E' : forall a b, op1 a b = op b a).
      { destruct Eop as [->|Hc]; [reflexivity|]. intros a b. unfold op1. destruct k; auto. }
      destruct (row_ok mr mc np fill join_good op1 Sy Sx El P) as (f' & rl' & cl' & E1 & S1).
      change (match k with Plain => op | Mirrored => op' | Refused => op end) with op1. rewrite E1. cbn [rbind].
      destruct (@finish B f' _ rl' cl' (Mat m (map (fun r => map2 op1 r l) rows)) S1) as (z & E2 & S2); auto.
      { cbn [table_of dcols]. destruct m; [lia|discriminate]. }
      cbn [ndim] in E2. rewrite E2. cbn [rbind]. exists z. eexists. split; [reflexivity|]. split; [exact S2|].
      rewrite vec_mat; [|now apply wf_rect|exact El]. do 2 f_equal. apply map_ext. intros r. rewrite <- (map2_flip op l r).
      clear - E'. revert l. unfold map2. induction r as [|a r IH]; intros [|b l]; try reflexivity. cbn. now rewrite E', IH.
    - cbn [ndim Nat.eqb negb]. destruct (Nat.eq_dec m 1) as [->|N1].
      + assert (Es : shape (Mat 1 rows) = shape (Mat 1 col)) by (cbn; now rewrite El). rewrite Es, List_refl. cbn [rbind andb].
        destruct (CaseSame Es) as (z & r & E & S & N). exists z, r. replace (match k with Mirrored => op | _ => op end) with op by now destruct k. auto.
      + assert (En : list_eqb Nat.eqb (shape (Mat m rows)) (shape (Mat 1 col)) = false).
        { destruct (list_eqb Nat.eqb (shape (Mat m rows)) (shape (Mat 1 col))) eqn:E; [|reflexivity]. apply (list_eqb_spec Nat.eqb Nat.eqb_eq) in E. cbn in E. congruence. }
        rewrite En. cbn [shape]. rewrite El, Nat.eqb_refl, (proj2 (Nat.eqb_eq 1 1) eq_refl), orb_true_r. cbn [rbind andb].
        destruct (column_ok mr mc np fill join_good op Sx Sy (eq_sym El)) as (f' & rl' & cl' & E1 & S1).
        replace (match k with Mirrored => op | _ => op end) with op by now destruct k. rewrite E1. cbn [rbind].
        destruct (@finish B f' _ rl' cl' (Mat m (map2 (by_column op) rows col)) S1) as (z & E2 & S2); auto.
        { cbn [table_of dcols]. cbn in Pv. destruct m; [lia|discriminate]. }
        cbn [ndim] in E2. rewrite E2. cbn [rbind]. exists z. eexists. split; [reflexivity|]. split; [exact S2|]. apply mat_column; [now apply wf_rect|now apply wf_rect|auto]. Qed.

  Lemma shape_cast (g : A -> A) (v : nd A) : shape (nd_map (B:=A) g v) = shape v /\ ndim (nd_map (B:=A) g v) = ndim v /\ width_of (nd_map (B:=A) g v) = width_of v.
  Proof. clear. destruct v; cbn; rewrite map_length; auto. Qed.

  Lemma works_cast k (op : A -> A -> B) (g : A -> A) v w : works k op v w -> works k op (nd_map g v) (nd_map g w).
  Proof. clear. intros [v' w' E|m rows l E|m rows l E H|m rows col E]; [apply w_same; now rewrite !(proj1 (shape_cast _ _))|apply w_row|apply w_swap|apply w_column]; cbn [nd_map]; rewrite ?map_length; auto. Qed.

  Lemma np_op_ok (casts : bool) (k : mirror) (op : A -> A -> B) dtype (x y : @typed A D) v w : stands (tarr x) v -> stands (tarr y) w -> works k op v w ->
    (0 < width_of v \/ ndim v = 1) -> 0 < width_of w \/ ndim w = 1 -> (ndim v <> ndim w -> 0 < width_of v) ->
    (shape v = shape w -> full_rows (tarr x)) ->
    let out := out_dtype dtype x y in
    exists x' y' z r, np_op casts k op dtype x y = Ok (x', y', z)
      /\ stands z r /\ np_binary op (casted casts out v) (casted casts out w) = Some r
      /\ stands (tarr x') (casted casts out v) /\ tdt x' = dtype_after casts out (tdt x)
      /\ stands (tarr y') (casted casts out w) /\ tdt y' = dtype_after casts out (tdt y).
  Proof.
    intros Sx Sy Wk Pv Pw Pm Fr out. destruct casts; cbn [casted dtype_after].
    - destruct (astype_ok out x Sx) as (Sx' & Fx'). destruct (astype_ok out y Sy) as (Sy' & _).
      destruct (shape_cast (cast out) v) as (A1 & A2 & A3). destruct (shape_cast (cast out) w) as (B1 & B2 & B3).
      destruct (@core k op (astype out x) (astype out y) _ _ Sx' Sy' (works_cast (cast out) Wk)) as (z & r & E & S & N); rewrite ?A1, ?A2, ?A3, ?B1, ?B2, ?B3; auto.
      exists (astype out x), (astype out y), z, r. split; [|repeat split; auto; try apply S; try apply Sx'; apply Sy'].
      etransitivity; [|exact E]. reflexivity.
    - destruct (@core k op x y v w Sx Sy Wk Pv Pw Pm Fr) as (z & r & E & S & N).
      exists x, y, z, r. repeat split; auto; try apply S; try apply Sx; apply Sy. Qed.

  Lemma scalar_ok (casts : bool) (op : A -> A -> B) dtype (x : @typed A D) s v : stands (tarr x) v -> (0 < width_of v \/ ndim v = 1) ->
    let out := match dtype with Some d => d | None => tdt x end in
    exists x' z, np_op_scalar casts op dtype x s = Ok (x', z) /\ stands z (nd_map (fun a => op a s) (casted casts out v))
      /\ stands (tarr x') (casted casts out v) /\ tdt x' = dtype_after casts out (tdt x).
  Proof.
    intros Sx Pv out. unfold NbinModel.np_op_scalar. fold out.
    set (x' := if casts then astype out x else x).
    assert (S' : stands (tarr x') (casted casts out v)) by (unfold x', casted; destruct casts; [apply (astype_ok out x Sx)|exact Sx]).
    assert (T' : tdt x' = dtype_after casts out (tdt x)) by (unfold x', dtype_after; now destruct casts).
    assert (P' : 0 < width_of (casted casts out v) \/ ndim (casted casts out v) = 1).
    { destruct (shape_cast (cast out) v) as (_ & A2 & A3). unfold casted. destruct casts; rewrite ?A2, ?A3; auto. }
    clearbody x'. revert S' T' P'. generalize (casted casts out v) as u. intros u S' T' P'. assert (S2 := S'). destruct S2 as (Dx & rl & cl & ((G & _) & Nr & Nc & Pi & Pc)).
    destruct (@frame_map_ok nat nat A Nat.eqb Nat.eqb Nat.eqb_eq Nat.eqb_eq B (fun _ _ a => op a s) dynamic cpus nparts min_row min_col None (aqc (tarr x')) _ rl cl G Nr Nc np mr mc) as (f' & rl' & cl' & E1 & G1 & N1 & N2 & Q1 & Q2); [discriminate|].
    rewrite E1. cbn [rbind]. assert (Wu : wf (table_of u)) by apply G.
    assert (Ec : cellwise (fun _ _ a => op a s) (fun h => h) (table_of u) = mkdf (dindex (table_of u)) (dcols (table_of u)) (map (map (fun a => op a s)) (dcells (table_of u)))).
    { unfold cellwise. rewrite map_id. f_equal. destruct Wu as (W1 & W2). revert W1 W2. generalize (dindex (table_of u)). unfold ncols. generalize (dcols (table_of u)). intros cs is. clear. revert is.
      generalize (dcells (table_of u)). intros g. unfold map2. induction g as [|r g IH]; intros [|i is] W1 W2; try discriminate; [reflexivity|]. cbn. inversion W2; subst. f_equal; [|apply IH; auto].
      clear - H1. revert cs H1. induction r as [|a r IH]; intros [|c cs] E; try discriminate; [reflexivity|]. cbn. f_equal. apply IH. now injection E. }
    rewrite Ec in G1.
    assert (S3 : shows f' (mkdf (dindex (table_of u)) (dcols (table_of u)) (map (map (fun a => op a s)) (dcells (table_of u)))) rl' cl').
    { unfold shows, holds. cbn [dindex dcols]. rewrite Q1, Q2, Pi, Pc. repeat split; auto; apply G1. }
    assert (Nd : andim (tarr x') = ndim (nd_map (fun a => op a s) u)) by (rewrite Dx; now destruct u).
    destruct (@finish B f' _ rl' cl' (nd_map (fun a => op a s) u) S3) as (z & E2 & S4).
    - now apply (has_columns u).
    - unfold nrows. cbn [dindex]. destruct u; cbn; now rewrite map_length.
    - unfold ncols. destruct u; reflexivity.
    - cbn [dcells]. destruct u; cbn [nd_map table_of dcells]; [|reflexivity]. now rewrite !map_map.
    - rewrite Nd, E2. cbn [rbind]. exists x', z. auto. Qed.
End Nbin.
