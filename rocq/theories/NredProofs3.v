(** The reductions as a whole (C75). *)
From Coq Require Import Permutation.
From Verif Require Import Base Table ChunkModel ChunkSpec GridSpec GridModel FrameSpec GridProofs GridProofs2 GridProofs3 GridProofs4 GridProofs5
  SelSpec SelModel SelProofs SelProofs4 SelProofs5 SelProofs6 ShufProofs4 LabProofs ArrSpec ArrModel ArrProofs NbinSpec NbinProofs NbinProofs2 NbinProofs3 NredSpec NredModel NredProofs NredProofs2.

Section Whole.
  Variables min_row min_col nparts cpus : nat.
  Variable dynamic : bool.
  Hypothesis mr : 0 < min_row.
  Hypothesis mc : 0 < min_col.
  Hypothesis np : 0 < nparts.
  Variable unnamed : nat.
  Notation pf A := (@pframe nat nat A).
  Notation red := (red min_row min_col nparts cpus dynamic unnamed).
  Notation each := (each min_row min_col nparts cpus dynamic).
  Notation apply_initial := (apply_initial min_row min_col nparts cpus dynamic).
  Notation np_total := (np_total min_row min_col nparts cpus dynamic unnamed).
  Notation np_extreme := (np_extreme min_row min_col nparts cpus dynamic unnamed).
  Notation np_truth := (np_truth min_row min_col nparts cpus dynamic unnamed).
  Notation np_mean := (np_mean min_row min_col nparts cpus dynamic unnamed).
  Notation np_norm := (np_norm min_row min_col nparts cpus dynamic unnamed).

  Lemma nonempty_vec {A} (l : list A) : ~ In 0 (shape (Vec l)) -> l <> [].
  Proof. clear. intros N ->. apply N. now left. Qed.

  Lemma zone (k : bool) : ((if k then 1 else 0) =? 1)%Z = k /\ (1 <? (if k then 1 else 0))%Z = false.
  Proof. clear. now destruct k. Qed.

  Lemma total_ok {A} (agg : list A -> A) init to_dtype (x : @arr A) (v : nd A) (axis : option Z) (keep : bool) r : tree_law agg agg agg -> stands x v -> ~ In 0 (shape v) ->
    np_reduce (fun l => initial_cell init (agg l)) v axis keep = Some r ->
    (axis = None -> keep = true -> ndim v = 2 -> to_dtype (initial_cell init (agg (flat v))) = initial_cell init (agg (flat v))) ->
    exists g, np_total agg init to_dtype x axis keep = Ok g /\ got_is g r.
  Proof.
    intros Law S N R Cast. unfold NredModel.np_total. rewrite (proj1 S).
    destruct (reduce_cases _ _ _ _ R) as [(l & -> & -> & ax & V & O)|(w & rows & -> & [(-> & V & ->)|(k & _ & V & ->)])]; cbn [ndim]; rewrite V; cbn [rbind Nat.eqb].
    - rewrite O. destruct (vec_red cpus dynamic mr mc np unnamed Law S (nonempty_vec N)) as (f1 & rl1 & cl1 & E1 & S1). rewrite E1. cbn [rbind].
      destruct (initial_vec cpus dynamic mr mc np init S1) as (f2 & rl2 & cl2 & E2 & S2). rewrite E2. cbn [rbind].
      destruct (vec_out S2) as ((y & Y & Sy) & I). unfold whole. cbn [flat]. destruct keep.
      + rewrite Y. cbn. eauto.
      + rewrite I. cbn [rbind]. eexists. split; [reflexivity|]. reflexivity.
    - destruct (rows_then_column cpus dynamic mr mc np unnamed Law S N) as (f1 & f2 & rl & cl & E1 & E2 & S2). rewrite E1. cbn [rbind]. rewrite E2. cbn [rbind].
      destruct (vec_out S2) as (_ & I). rewrite I. cbn [rbind]. unfold whole. cbn [flat]. destruct keep; [|eexists; split; reflexivity].
      cbn [flat ndim] in Cast. rewrite Cast by reflexivity. destruct (of_cell_ok (initial_cell init (agg (concat rows)))) as (y & Y & Sy). unfold garr. rewrite Y. cbn [rbind]. eauto.
    - destruct (zone k) as (Z1 & Z2). rewrite Z1, Z2. destruct (mat_size S N) as (_ & _ & _ & P4).
      destruct (mat_red cpus dynamic mr mc np unnamed k Law S N) as (f1 & rl1 & cl1 & E1 & S1). rewrite E1. cbn [rbind].
      destruct (initial_ok cpus dynamic mr mc np unnamed k agg init _ S1) as (f2 & rl2 & cl2 & E2 & S2). rewrite E2. cbn [rbind].
      destruct (shaped_ok unnamed _ k keep (w:=w) (rows:=rows) P4 (stands_wf S) S2) as (y & Y & Sy). unfold garr. rewrite Y. cbn [rbind]. eauto.
  Qed.

  Lemma truth_ok {A} (agg : list A -> A) truth (x : @arr A) (v : nd A) (axis : option Z) (keep : bool) r : tree_law agg agg agg -> stands x v -> ~ In 0 (shape v) ->
    np_reduce agg v axis keep = Some r -> ~ (axis = None /\ keep = true /\ ndim v = 2) ->
    exists g, np_truth agg truth x axis keep = Ok g /\ got_is g r.
  Proof.
    intros Law S N R Ex. unfold NredModel.np_truth. rewrite (proj1 S).
    destruct (reduce_cases _ _ _ _ R) as [(l & -> & -> & ax & V & O)|(w & rows & -> & [(-> & V & ->)|(k & _ & V & ->)])]; cbn [ndim]; rewrite V; cbn [rbind Nat.eqb].
    - rewrite O. destruct (vec_red cpus dynamic mr mc np unnamed Law S (nonempty_vec N)) as (f1 & rl1 & cl1 & E1 & S1). rewrite E1. cbn [rbind].
      destruct (vec_out S1) as ((y & Y & Sy) & I). unfold whole. cbn [flat]. destruct keep.
      + rewrite Y. cbn. eauto.
      + rewrite I. cbn [rbind]. eexists. split; [reflexivity|]. reflexivity.
    - destruct (rows_then_column cpus dynamic mr mc np unnamed Law S N) as (f1 & f2 & rl & cl & E1 & E2 & S2). rewrite E1. cbn [rbind]. rewrite E2. cbn [rbind].
      destruct (vec_out S2) as (_ & I). destruct keep; [exfalso; apply Ex; now cbn|]. rewrite I. cbn [rbind]. unfold whole. cbn [flat]. eexists; split; reflexivity.
    - destruct (zone k) as (Z1 & Z2). rewrite Z1, Z2. destruct (mat_size S N) as (_ & _ & _ & P4).
      destruct (mat_red cpus dynamic mr mc np unnamed k Law S N) as (f1 & rl1 & cl1 & E1 & S1). rewrite E1. cbn [rbind].
      destruct (shaped_ok unnamed _ k keep (w:=w) (rows:=rows) P4 (stands_wf S) S1) as (y & Y & Sy). unfold garr. rewrite Y. cbn [rbind]. eauto.
  Qed.

  Lemma each_stands {A B : Type} (g : A -> B) (x : @arr A) (v : nd A) : stands x v ->
    exists f', each g (aqc x) = Ok f' /\ stands (mka f' (andim x)) (nd_map g v).
  Proof. intros (D & rl & cl & S). destruct (each_ok (min_row:=min_row) (min_col:=min_col) (nparts:=nparts) cpus dynamic mr mc np g S) as (f' & rl' & cl' & E & S').
    exists f'. split; [exact E|]. split; [cbn [andim]; rewrite D; now destruct v|]. exists rl', cl'. cbn [aqc].
    destruct v as [l|w rows]; cbn [nd_map table_of dindex dcols dcells] in *; rewrite ?map_map in *; rewrite ?map_length; exact S'. Qed.

  Lemma along_map {A B C} (agg : list A -> B) (g : B -> C) axis keep w rows : nd_map g (along agg axis keep w rows) = along (fun l => g (agg l)) axis keep w rows.
  Proof. clear. unfold along. destruct keep, axis; cbn; rewrite ?map_map; reflexivity. Qed.

  Lemma along_ext {A B} (agg agg' : list A -> B) (axis keep : bool) w rows : (forall l, In l (if axis then rows else transp w rows) -> agg l = agg' l) ->
    along agg axis keep w rows = along agg' axis keep w rows.
  Proof. clear. intros E. unfold along. now rewrite (map_ext_in _ _ _ E). Qed.

  Lemma line_incl {A} (axis : bool) w (rows : list (list A)) l : Forall (fun r => length r = w) rows -> In l (if axis then rows else transp w rows) -> incl l (concat rows).
  Proof. clear. intros F I a J. destruct axis; [apply in_concat; eauto|]. apply (Permutation_in _ (transp_perm F)), in_concat. eauto. Qed.

  Lemma line_nonempty {A} (axis : bool) w (rows : list (list A)) l : Forall (fun r => length r = w) rows -> 0 < w -> 0 < length rows -> In l (if axis then rows else transp w rows) -> l <> [].
  Proof. clear. intros F P1 P2 I ->. destruct axis.
    - rewrite Forall_forall in F. specialize (F _ I). cbn in F. lia.
    - pose proof (transp_rows F) as T. rewrite Forall_forall in T. specialize (T _ I). cbn in T. lia. Qed.

  Lemma mat_rect {A} (x : @arr A) w rows : stands x (Mat w rows) -> Forall (fun r => length r = w) rows.
  Proof. clear. intros S. destruct (stands_wf S) as (_ & W2). unfold ncols in W2. cbn in W2. rewrite seq_length in W2. exact W2. Qed.

  Definition over_initial {A : Type} (over : A -> A -> A) (initial : option A) (a : A) : A := match initial with Some i => over a i | None => a end.

  Lemma extreme_ok {A} (agg : list A -> A) (over : A -> A -> A) (beats : A -> A -> bool) initial (x : @arr A) (v : nd A) (axis : option Z) (keep : bool) r : tree_law agg agg agg -> (forall l l', Permutation l l' -> agg l = agg l') ->
    stands x v -> ~ In 0 (shape v) ->
    np_reduce (fun l => over_initial over initial (agg l)) v axis keep = Some r ->
    (keep = true -> ndim v = 1 -> initial = None) ->
    (forall i l, initial = Some i -> l <> [] -> incl l (flat v) -> (if beats (agg l) i then agg l else i) = over (agg l) i) ->
    exists g, np_extreme agg over beats initial x axis keep = Ok g /\ got_is g r.
  Proof.
    intros Law Pm S N R Ki Kb. unfold NredModel.np_extreme. rewrite (proj1 S).
    assert (Eb : forall a, (match initial with Some i => fun a => over a i | None => fun a => a end) a = over_initial over initial a) by (now destruct initial).
    destruct (reduce_cases _ _ _ _ R) as [(l & -> & -> & ax & V & O)|(w & rows & -> & [(-> & V & ->)|(k & Na & V & ->)])]; cbn [ndim]; rewrite V; cbn [rbind Nat.eqb].
    - rewrite O. destruct (vec_red cpus dynamic mr mc np unnamed Law S (nonempty_vec N)) as (f1 & rl1 & cl1 & E1 & S1). rewrite E1. cbn [rbind].
      destruct (vec_out S1) as ((y & Y & Sy) & I). unfold whole. cbn [flat]. destruct keep.
      + rewrite (Ki eq_refl eq_refl) in *. rewrite Y. cbn. eauto.
      + rewrite I. cbn [rbind]. rewrite Eb. eexists. split; [reflexivity|]. reflexivity.
    - destruct (columns_then_row cpus dynamic mr mc np unnamed Law Pm S N) as (f1 & f2 & rl & cl & E1 & E2 & S2). rewrite E1. cbn [rbind]. rewrite E2. cbn [rbind].
      destruct (vec_out S2) as (_ & I). rewrite I. cbn [rbind]. rewrite Eb. unfold whole. cbn [flat]. destruct keep; [|eexists; split; reflexivity].
      destruct (of_cell_ok (over_initial over initial (agg (concat rows)))) as (y & Y & Sy). unfold garr. rewrite Y. cbn [rbind]. eauto.
    - destruct axis as [z|]; [|easy]. destruct (zone k) as (Z1 & Z2). rewrite Z1, Z2. destruct (mat_size S N) as (_ & _ & P3 & P4). pose proof (mat_rect S) as F.
      destruct (mat_red cpus dynamic mr mc np unnamed k Law S N) as (f1 & rl1 & cl1 & E1 & S1). rewrite E1. cbn [rbind].
      destruct (shaped_ok unnamed _ k keep (w:=w) (rows:=rows) P4 (stands_wf S) S1) as (y & Y & Sy). rewrite Y. cbn [rbind].
      destruct initial as [i|]; [|cbn [over_initial]; exists (GArr y); split; [reflexivity|exact Sy]].
      destruct (each_stands (fun a => if beats a i then a else i) Sy) as (f2 & E2 & S2). rewrite E2. cbn [rbind]. eexists. split; [reflexivity|]. cbn [got_is over_initial].
      rewrite along_map in S2. rewrite (along_ext _ (fun l => over (agg l) i)) in S2; [exact S2|].
      intros l I. apply Kb; [reflexivity|exact (@line_nonempty A k w rows l F P4 P3 I)|cbn [flat]; exact (@line_incl A k w rows l F I)].
  Qed.

  (** mean *)
  Section Mean.
    Context {A : Type}.
    Variable sum skip_sum : list A -> A.
    Variable div : A -> nat -> A.
    Variable isna : A -> bool.
    Variable nan : A.
    Hypothesis sum_law : tree_law sum sum sum.
    Hypothesis skip_law : tree_law skip_sum skip_sum skip_sum.
    Hypothesis skip_same : forall l, existsb isna l = false -> skip_sum l = sum l.
    Hypothesis nan_sum : forall l n, existsb isna l = true -> div (sum l) n = nan.
    Definition mean (l : list A) : A := div (sum l) (length l).

    Lemma count_concat (p : list (list A)) : list_sum (map (fun l => length (filter (fun a => negb (isna a)) l)) p) = length (filter (fun a => negb (isna a)) (concat p)).
    Proof. clear. induction p as [|l p IH]; [reflexivity|]. cbn [map concat]. rewrite filter_app, app_length, <- IH. reflexivity. Qed.

    Lemma mean_law : tree_law (mean_map sum isna) (mean_reduce sum div) mean.
    Proof. clear - sum_law nan_sum. intros p N. unfold mean_reduce, mean_map, mean. rewrite !map_map. cbn [fst snd]. rewrite (map_ext _ sum) by reflexivity.
      rewrite sum_law by assumption. rewrite count_concat. destruct (existsb isna (concat p)) eqn:E; [now rewrite !nan_sum|]. f_equal.
      revert E. generalize (concat p). clear. induction l as [|a l IH]; [reflexivity|]. cbn. intros E. apply orb_false_elim in E. destruct E as (-> & E). cbn. now rewrite IH. Qed.

    Lemma any_law : tree_law (existsb (fun b : bool => b)) (existsb (fun b => b)) (existsb (fun b => b)).
    Proof. clear. intros p _. induction p as [|l p IH]; [reflexivity|]. cbn [map concat]. rewrite existsb_app. cbn. now rewrite IH. Qed.
    Lemma list_sum_law : tree_law list_sum list_sum list_sum.
    Proof. clear. intros p _. induction p as [|l p IH]; [reflexivity|]. cbn [map concat]. rewrite list_sum_app, <- IH. reflexivity. Qed.
    Lemma existsb_map {X} (g : X -> bool) l : existsb (fun b => b) (map g l) = existsb g l.
    Proof. clear. induction l; cbn; congruence. Qed.
    Lemma no_nan_count l : existsb isna l = false -> list_sum (map (fun a => if isna a then 1 else 0) l) = 0.
    Proof. clear. induction l as [|a l IH]; [reflexivity|]. cbn. intros E. apply orb_false_elim in E. destruct E as (E1 & E2). rewrite E1. unfold list_sum in *. cbn. auto. Qed.
    Lemma rect_length w (rows : list (list A)) : Forall (fun r => length r = w) rows -> length (concat rows) = length rows * w.
    Proof. clear. induction 1; [reflexivity|]. cbn. rewrite app_length, IHForall. lia. Qed.

    Lemma mean_ok to_dtype (x : @arr A) v axis keep r : stands x v -> ~ In 0 (shape v) -> np_reduce mean v axis keep = Some r ->
      (axis = None -> ndim v = 2 -> existsb isna (flat v) = true -> keep = false) ->
      (axis = None -> ndim v = 2 -> existsb isna (flat v) = false -> to_dtype (sum (flat v)) = sum (flat v) /\ (keep = true -> to_dtype (mean (flat v)) = mean (flat v))) ->
      exists g, np_mean sum skip_sum div isna nan to_dtype x axis keep = Ok g /\ got_is g r.
    Proof.
      intros S N R Kn Cast. unfold NredModel.np_mean. rewrite (proj1 S).
      destruct (reduce_cases _ _ _ _ R) as [(l & -> & -> & ax & V & O)|(w & rows & -> & [(-> & V & ->)|(k & _ & V & ->)])]; cbn [ndim]; rewrite V; cbn [rbind Nat.eqb].
      - rewrite O. destruct (vec_red cpus dynamic mr mc np unnamed mean_law S (nonempty_vec N)) as (f1 & rl1 & cl1 & E1 & S1). rewrite E1. cbn [rbind].
        destruct (vec_out S1) as ((y & Y & Sy) & I). unfold whole. cbn [flat]. destruct keep.
        + rewrite Y. cbn. eauto.
        + rewrite I. cbn [rbind]. eexists. split; [reflexivity|]. reflexivity.
      - destruct (each_stands isna S) as (f1 & E1 & S1). rewrite E1. cbn [rbind].
        assert (N1 : ~ In 0 (shape (nd_map isna (Mat w rows)))) by (cbn; rewrite map_length; exact N).
        destruct (rows_then_column cpus dynamic mr mc np unnamed any_law S1 N1) as (f2 & f3 & rl & cl & E2 & E3 & S3). cbn [aqc] in E2. rewrite E2. cbn [rbind]. rewrite E3. cbn [rbind].
        destruct (vec_out S3) as (_ & I). rewrite I. cbn [rbind]. rewrite <- concat_map, existsb_map. cbn [flat ndim] in *.
        destruct (existsb isna (concat rows)) eqn:En.
        + rewrite (Kn eq_refl eq_refl eq_refl). unfold whole. cbn [flat]. eexists. split; [reflexivity|]. cbn. unfold mean. now rewrite nan_sum.
        + destruct (each_stands (fun a => if isna a then 1 else 0) S) as (f4 & E4 & S4). rewrite E4. cbn [rbind].
          assert (N4 : ~ In 0 (shape (nd_map (fun a => if isna a then 1 else 0) (Mat w rows)))) by (cbn; rewrite map_length; exact N).
          destruct (rows_then_column cpus dynamic mr mc np unnamed list_sum_law S4 N4) as (f5 & f6 & rl' & cl' & E5 & E6 & S6). cbn [aqc] in E5. rewrite E5. cbn [rbind]. rewrite E6. cbn [rbind].
          destruct (vec_out S6) as (_ & I6). rewrite I6. cbn [rbind]. rewrite <- concat_map, no_nan_count by assumption.
          destruct (stands_reads S) as (_ & Sh). rewrite Sh. cbn [rbind].
          destruct (rows_then_column cpus dynamic mr mc np unnamed skip_law S N) as (f7 & f8 & rl'' & cl'' & E7 & E8 & S8). rewrite E7. cbn [rbind]. rewrite E8. cbn [rbind].
          destruct (vec_out S8) as (_ & I8). rewrite I8. cbn [rbind]. rewrite skip_same by assumption. destruct (Cast eq_refl eq_refl eq_refl) as (C1 & C2). rewrite C1.
          cbn [shape fold_right]. rewrite Nat.sub_0_r, Nat.mul_1_r, <- (rect_length (mat_rect S)). unfold whole. cbn [flat]. fold (mean (concat rows)).
          destruct keep; [|eexists; split; reflexivity]. rewrite (C2 eq_refl).
          destruct (of_cell_ok (mean (concat rows))) as (y & Y & Sy). unfold garr. rewrite Y. cbn [rbind]. eauto.
      - destruct (zone k) as (Z1 & Z2). rewrite Z1, Z2. destruct (mat_size S N) as (_ & _ & _ & P4).
        destruct (mat_red cpus dynamic mr mc np unnamed k mean_law S N) as (f1 & rl1 & cl1 & E1 & S1). rewrite E1. cbn [rbind].
        destruct (shaped_ok unnamed _ k keep (w:=w) (rows:=rows) P4 (stands_wf S) S1) as (y & Y & Sy). unfold garr. rewrite Y. cbn [rbind]. eauto.
    Qed.
  End Mean.

  Lemma norm_ok {A} (sq : A -> A) (sum : list A -> A) (root : A -> A) (x : @arr A) v : tree_law sum sum sum -> (forall l l', Permutation l l' -> sum l = sum l') ->
    stands x v -> ~ In 0 (shape v) -> np_norm sq sum root x None = Ok (GScalar (root (sum (map sq (flat v))))).
  Proof.
    intros Law Pm S N. unfold NredModel.np_norm. rewrite (proj1 S).
    destruct (each_stands sq S) as (f1 & E1 & S1). destruct v as [l|w rows]; cbn [ndim Z.of_nat Nat.eqb flat]; cbn [Z.leb Z.ltb Z.compare orb Pos.of_succ_nat].
    - rewrite E1. cbn [rbind].
      destruct (vec_red cpus dynamic mr mc np unnamed Law S1) as (f2 & rl2 & cl2 & E2 & S2); [destruct l; [exfalso; apply N; now left|discriminate]|]. cbn [aqc] in E2. rewrite E2. cbn [rbind].
      destruct (each_ok (min_row:=min_row) (min_col:=min_col) (nparts:=nparts) cpus dynamic mr mc np root S2) as (f3 & rl3 & cl3 & E3 & S3). rewrite E3. cbn [rbind].
      destruct (vec_out S3) as (_ & I). now rewrite I.
    - rewrite E1. cbn [rbind]. assert (N1 : ~ In 0 (shape (nd_map sq (Mat w rows)))) by (cbn; rewrite map_length; exact N).
      destruct (columns_then_row cpus dynamic mr mc np unnamed Law Pm S1 N1) as (f2 & f3 & rl & cl & E2 & E3 & S3). cbn [aqc] in E2. cbn [Z.eqb negb]. rewrite E2. cbn [rbind]. rewrite E3. cbn [rbind].
      destruct (each_ok (min_row:=min_row) (min_col:=min_col) (nparts:=nparts) cpus dynamic mr mc np root S3) as (f4 & rl4 & cl4 & E4 & S4). rewrite E4. cbn [rbind].
      destruct (vec_out S4) as (_ & I). rewrite I. cbn [rbind]. now rewrite <- concat_map.
  Qed.

  (** a 2-D array has no other axes *)
  Lemma bad_axis {A} (agg : list A -> A) init to_dtype (x : @arr A) w rows z keep : stands x (Mat w rows) -> axis_of 2 z = None ->
    np_total agg init to_dtype x (Some z) keep = Err ValueError.
  Proof. clear. intros S E. unfold NredModel.np_total. rewrite (proj1 S). cbn [ndim]. unfold axis_of in E. unfold validate_axis.
    destruct (Z.leb_spec (- Z.of_nat 2) z); [destruct (Z.ltb_spec z (Z.of_nat 2)); [discriminate|]|].
    - destruct (Z.ltb_spec z 0); [lia|]. cbn [rbind Nat.eqb]. destruct (Z.ltb_spec 1 z); [reflexivity|lia].
    - destruct (Z.ltb_spec z 0); [|lia]. cbn [Nat.eqb andb]. destruct (Z.eqb_spec (z + Z.of_nat 2) 0); [lia|]. destruct (Z.eqb_spec (z + Z.of_nat 2) 1); [lia|]. reflexivity. Qed.
End Whole.
