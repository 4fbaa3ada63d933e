(** Sums, products, extremes and truth (C75). *)
From Coq Require Import Permutation.
From Verif Require Import Base Table ChunkModel ChunkSpec GridSpec GridModel FrameSpec GridProofs GridProofs2 GridProofs3 GridProofs4 GridProofs5
  SelSpec SelModel SelProofs SelProofs4 SelProofs5 SelProofs6 ShufProofs4 LabProofs ArrSpec ArrModel ArrProofs NbinProofs NbinProofs2 NbinProofs3 NredSpec NredModel NredProofs.

Lemma transp_single {A} (l : list A) : transp 1 (map (fun a => [a]) l) = [l].
Proof. induction l as [|a l IH]; [reflexivity|]. cbn [map]. rewrite transp_cons, IH. reflexivity. Qed.
Lemma concat_single {A} (l : list A) : concat (map (fun a => [a]) l) = l.
Proof. induction l; cbn; congruence. Qed.

Lemma map2_cons_perm {A} (r : list A) : forall t, length r = length t -> Permutation (concat (map2 cons r t)) (r ++ concat t).
Proof. unfold map2. induction r as [|a r IH]; intros [|c t] E; try discriminate; [constructor|]. cbn. constructor. rewrite IH by (cbn in E; lia).
  rewrite !app_assoc. apply Permutation_app_tail, Permutation_app_comm. Qed.
Lemma transp_perm {A} w (g : list (list A)) : Forall (fun r => length r = w) g -> Permutation (concat (transp w g)) (concat g).
Proof. induction g as [|r g IH]; intros F.
  - rewrite transp_nil. clear. induction w; cbn; auto.
  - inversion F; subst. rewrite transp_cons. cbn [concat]. rewrite map2_cons_perm by (now rewrite transp_length). apply Permutation_app_head, IH. assumption. Qed.

Lemma validate_ok n z k : (n = 1 \/ n = 2) -> axis_of n z = Some k -> validate_axis n (Some z) = Ok (Some (Z.of_nat k)) /\ k < n.
Proof. intros N. unfold axis_of, validate_axis.
  destruct (Z.leb_spec (- Z.of_nat n) z); [|discriminate]. destruct (Z.ltb_spec z (Z.of_nat n)); [|discriminate]. cbn [andb]. intros [= <-].
  destruct (Z.ltb_spec z 0).
  - assert (C : (n = 1%nat /\ z + Z.of_nat n = 0 \/ n = 2%nat /\ (z + Z.of_nat n = 0 \/ z + Z.of_nat n = 1))%Z) by lia.
    split; [|lia]. destruct C as [(-> & C) | (-> & [C | C])]; rewrite C; reflexivity.
  - split; [|lia]. now rewrite Z2Nat.id by lia. Qed.

Section Axis.
  Context {A B : Type}.
  (** the result along an axis of a matrix *)
  Definition along (agg : list A -> B) (axis keep : bool) w (rows : list (list A)) : nd B :=
    let c := map agg (if axis then rows else transp w rows) in
    if keep then (if axis then Mat 1 (map (fun a => [a]) c) else Mat w [c]) else Vec c.

  Lemma reduce_cases (agg : list A -> B) v axis keep r : np_reduce agg v axis keep = Some r ->
    (exists l, v = Vec l /\ r = whole agg v keep /\ exists ax, validate_axis 1 axis = Ok ax /\ is_one ax = false)
    \/ (exists w rows, v = Mat w rows /\
        ((axis = None /\ validate_axis 2 axis = Ok None /\ r = whole agg v keep)
         \/ exists k : bool, axis <> None /\ validate_axis 2 axis = Ok (Some (if k then 1 else 0)%Z) /\ r = Array (along agg k keep w rows))).
  Proof.
    clear. unfold np_reduce. destruct v as [l|w rows]; cbn [ndim].
    - intros E. left. exists l. destruct axis as [z|]; [|injection E as <-; split; [reflexivity|]; split; [reflexivity|]; exists None; split; reflexivity].
      destruct (axis_of 1 z) as [k|] eqn:Ek; [|discriminate]. destruct (validate_ok (n:=1) z (or_introl eq_refl) Ek) as (V & K). assert (k = 0) as -> by lia. injection E as <-.
      split; [reflexivity|]. split; [reflexivity|]. exists (Some 0%Z). split; [exact V|]. reflexivity.
    - intros E. right. exists w, rows. split; [reflexivity|]. destruct axis as [z|]; [|left; injection E as <-; repeat split; reflexivity].
      destruct (axis_of 2 z) as [k|] eqn:Ek; [|discriminate]. destruct (validate_ok (n:=2) z (or_intror eq_refl) Ek) as (V & K). right.
      destruct k as [|[|k]]; [| |lia]; injection E as <-; [exists false|exists true]; (split; [discriminate|]); (split; [exact V|]); unfold along; now destruct keep. Qed.
End Axis.

Section Reductions.
  Variables min_row min_col nparts cpus : nat.
  Variable dynamic : bool.
  Hypothesis mr : 0 < min_row.
  Hypothesis mc : 0 < min_col.
  Hypothesis np : 0 < nparts.
  Variable unnamed : nat.
  Notation pf A := (@pframe nat nat A).
  Notation red := (red min_row min_col nparts cpus dynamic unnamed).
  Notation full_red := (full_red min_row min_col nparts unnamed).
  Notation each := (each min_row min_col nparts cpus dynamic).
  Notation apply_initial := (apply_initial min_row min_col nparts cpus dynamic).
  Notation reduced := (reduced unnamed).

  Lemma mat_size {A} (x : @arr A) w rows : stands x (Mat w rows) -> ~ In 0 (shape (Mat w rows)) ->
    0 < nrows (table_of (Mat w rows)) /\ 0 < ncols (table_of (Mat w rows)) /\ 0 < length rows /\ 0 < w.
  Proof. clear. intros _ N. cbn in N. unfold nrows, ncols. cbn. rewrite !seq_length. lia. Qed.

  Lemma vec_red {A M B} (magg : list A -> M) (ragg : list M -> B) agg (x : @arr A) l : tree_law magg ragg agg -> stands x (Vec l) -> l <> [] ->
    exists f' rl' cl', red false magg ragg (aqc x) = Ok f' /\ shows f' (mkdf [unnamed] [0] [[agg l]]) rl' cl'.
  Proof. intros Law (_ & rl & cl & S) N.
    destruct (red_ok (min_row:=min_row) (min_col:=min_col) (nparts:=nparts) cpus dynamic mr mc np unnamed false Law S) as (f' & rl' & cl' & E & S').
    { unfold nrows. cbn. rewrite seq_length. destruct l; [easy|cbn; lia]. } { cbn. unfold ncols. cbn. lia. }
    exists f', rl', cl'. split; [exact E|]. unfold NredProofs.reduced, reduce_columns, columns in S'. cbn [table_of dcols dcells] in S'. unfold ncols in S'. cbn [dcols length] in S'.
    now rewrite transp_single in S'. Qed.

  Lemma vec_full_red {A B} (agg : list A -> B) (x : @arr A) l : stands x (Vec l) -> l <> [] ->
    exists f' rl' cl', full_red false agg (aqc x) = Ok f' /\ shows f' (mkdf [unnamed] [0] [[agg l]]) rl' cl'.
  Proof. intros (_ & rl & cl & S) N.
    destruct (full_red_ok (min_row:=min_row) (min_col:=min_col) (nparts:=nparts) mr mc np unnamed false agg S) as (f' & rl' & cl' & E & S').
    { unfold nrows. cbn. rewrite seq_length. destruct l; [easy|cbn; lia]. } { cbn. unfold ncols. cbn. lia. }
    exists f', rl', cl'. split; [exact E|]. unfold NredProofs.reduced, reduce_columns, columns in S'. cbn [table_of dcols dcells] in S'. unfold ncols in S'. cbn [dcols length] in S'.
    now rewrite transp_single in S'. Qed.

  Lemma vec_out {A} (f : pf A) rl cl u c a : shows f (mkdf [u] [c] [[a]]) rl cl -> (exists y, np_array f 1 = Ok y /\ stands y (Vec [a])) /\ item f = Ok a.
  Proof. clear. intros S. split; [|apply (item_ok (a:=a) (r:=[]) (g:=[]) S eq_refl)].
    apply (@finish A f _ rl cl (Vec [a]) S); try reflexivity. discriminate. Qed.

  (** a column, then one cell; a row, then one cell *)
  Lemma column_red {A} (agg : list A -> A) (f : pf A) rl cl idx c l : tree_law agg agg agg -> shows f (mkdf idx [c] (map (fun a => [a]) l)) rl cl -> l <> [] ->
    exists f' rl' cl', red false agg agg f = Ok f' /\ shows f' (mkdf [unnamed] [c] [[agg l]]) rl' cl'.
  Proof. intros Law S N. assert (W : wf (mkdf idx [c] (map (fun a => [a]) l))) by apply S.
    destruct (red_ok (min_row:=min_row) (min_col:=min_col) (nparts:=nparts) cpus dynamic mr mc np unnamed false Law S) as (f' & rl' & cl' & E & S').
    { destruct W as (W1 & _). cbn in W1. rewrite map_length in W1. unfold nrows. cbn. destruct l; [easy|cbn in *; lia]. } { unfold ncols. cbn. lia. }
    exists f', rl', cl'. split; [exact E|]. unfold NredProofs.reduced, reduce_columns, columns, ncols in S'. cbn [dcols dcells length] in S'. now rewrite transp_single in S'. Qed.

  Lemma row_red {A} (agg : list A -> A) (f : pf A) rl cl i cols l : tree_law agg agg agg -> shows f (mkdf [i] cols [l]) rl cl -> l <> [] ->
    exists f' rl' cl', red true agg agg f = Ok f' /\ shows f' (mkdf [i] [unnamed] [[agg l]]) rl' cl'.
  Proof. intros Law S N. assert (W : wf (mkdf [i] cols [l])) by apply S.
    destruct (red_ok (min_row:=min_row) (min_col:=min_col) (nparts:=nparts) cpus dynamic mr mc np unnamed true Law S) as (f' & rl' & cl' & E & S').
    { unfold nrows. cbn. lia. } { destruct W as (_ & W2). inversion W2; subst. unfold ncols. cbn in *. destruct l; [easy|cbn in *; lia]. }
    exists f', rl', cl'. split; [exact E|]. exact S'. Qed.

  Lemma column_full {A B} (agg : list A -> B) (f : pf A) rl cl idx c l : shows f (mkdf idx [c] (map (fun a => [a]) l)) rl cl -> l <> [] ->
    exists f' rl' cl', full_red false agg f = Ok f' /\ shows f' (mkdf [unnamed] [c] [[agg l]]) rl' cl'.
  Proof. intros S N. assert (W : wf (mkdf idx [c] (map (fun a => [a]) l))) by apply S.
    destruct (full_red_ok (min_row:=min_row) (min_col:=min_col) (nparts:=nparts) mr mc np unnamed false agg S) as (f' & rl' & cl' & E & S').
    { destruct W as (W1 & _). cbn in W1. rewrite map_length in W1. unfold nrows. cbn. destruct l; [easy|cbn in *; lia]. } { unfold ncols. cbn. lia. }
    exists f', rl', cl'. split; [exact E|]. unfold NredProofs.reduced, reduce_columns, columns, ncols in S'. cbn [dcols dcells length] in S'. now rewrite transp_single in S'. Qed.

  Lemma shaped_ok {A B} (agg : list A -> B) (axis keep : bool) w rows (f : pf B) rl cl : 0 < w -> wf (table_of (Mat w rows)) -> shows f (reduced axis agg (table_of (Mat w rows))) rl cl ->
    exists y, shaped axis keep f = Ok y /\ stands y (along agg axis keep w rows).
  Proof.
    clear. intros P W S. assert (R : Forall (fun r => length r = w) rows).
    { destruct W as (_ & W2). unfold ncols in W2. cbn in W2. rewrite seq_length in W2. exact W2. }
    assert (T : length (transp w rows) = w) by (now apply transp_length).
    unfold shaped, along. unfold NredProofs.reduced in S. destruct keep, axis; cbn [rbind].
    - apply (@finish B f _ rl cl (Mat 1 (map (fun a => [a]) (map agg rows))) S); cbn; unfold nrows, ncols; cbn; rewrite ?seq_length, ?map_length, ?map_map; auto; discriminate.
    - apply (@finish B f _ rl cl (Mat w [map agg (transp w rows)]) S); cbn; unfold nrows, ncols, columns, ncols; cbn; rewrite ?seq_length; auto. destruct w; [lia|discriminate].
    - apply (@finish B f _ rl cl (Vec (map agg rows)) S); cbn; unfold nrows, ncols; cbn; rewrite ?seq_length, ?map_length, ?map_map; auto; discriminate.
    - destruct (transposed S) as (t & rl' & cl' & E & S'). rewrite E. cbn [rbind].
      assert (Ec : dcells (df_T (reduce_columns unnamed agg (table_of (Mat w rows)))) = map (fun a => [a]) (map agg (transp w rows))).
      { unfold df_T, reduce_columns, columns, ncols. cbn [dcells dcols table_of]. rewrite seq_length. rewrite <- (transp_one_row (map agg (transp w rows))). now rewrite map_length, T. }
      apply (@finish B t _ rl' cl' (Vec (map agg (transp w rows))) S').
      + cbn. discriminate.
      + unfold nrows. cbn. now rewrite !seq_length, map_length.
      + reflexivity.
      + rewrite Ec. reflexivity. Qed.

  Lemma initial_ok {A B} (axis : bool) (agg : list A -> B) (init : option (B -> B)) (f : pf B) d rl cl : shows f (reduced axis agg d) rl cl ->
    exists f' rl' cl', apply_initial init f = Ok f' /\ shows f' (reduced axis (fun l => initial_cell init (agg l)) d) rl' cl'.
  Proof. intros S. destruct init as [g|]; [|exists f, rl, cl; split; [reflexivity|exact S]].
    destruct (each_ok (min_row:=min_row) (min_col:=min_col) (nparts:=nparts) cpus dynamic mr mc np g S) as (f' & rl' & cl' & E & S'). exists f', rl', cl'. split; [exact E|].
    unfold NredProofs.reduced, reduce_rows, reduce_columns in *. destruct axis; cbn [dindex dcols dcells] in S'; cbn [map] in S'; rewrite !map_map in S'; exact S'. Qed.

  Lemma initial_vec {B} (init : option (B -> B)) (f : pf B) u c a rl cl : shows f (mkdf [u] [c] [[a]]) rl cl ->
    exists f' rl' cl', apply_initial init f = Ok f' /\ shows f' (mkdf [u] [c] [[initial_cell init a]]) rl' cl'.
  Proof. intros S. destruct init as [g|]; [|exists f, rl, cl; split; [reflexivity|exact S]].
    destruct (each_ok (min_row:=min_row) (min_col:=min_col) (nparts:=nparts) cpus dynamic mr mc np g S) as (f' & rl' & cl' & E & S'). exists f', rl', cl'. split; [exact E|]. exact S'. Qed.

  Lemma mat_red {A M B} (axis : bool) (magg : list A -> M) (ragg : list M -> B) agg (x : @arr A) w rows : tree_law magg ragg agg -> stands x (Mat w rows) -> ~ In 0 (shape (Mat w rows)) ->
    exists f' rl' cl', red axis magg ragg (aqc x) = Ok f' /\ shows f' (reduced axis agg (table_of (Mat w rows))) rl' cl'.
  Proof. intros Law S N. destruct (mat_size S N) as (P1 & P2 & _). destruct S as (_ & rl & cl & S).
    apply (red_ok (min_row:=min_row) (min_col:=min_col) (nparts:=nparts) cpus dynamic mr mc np unnamed axis Law S P1 P2). Qed.

  Lemma mat_full {A B} (axis : bool) (agg : list A -> B) (x : @arr A) w rows : stands x (Mat w rows) -> ~ In 0 (shape (Mat w rows)) ->
    exists f' rl' cl', full_red axis agg (aqc x) = Ok f' /\ shows f' (reduced axis agg (table_of (Mat w rows))) rl' cl'.
  Proof. intros S N. destruct (mat_size S N) as (P1 & P2 & _). destruct S as (_ & rl & cl & S).
    apply (full_red_ok (min_row:=min_row) (min_col:=min_col) (nparts:=nparts) mr mc np unnamed axis agg S P1 P2). Qed.

  (** rows first, then the column of results *)
  Lemma rows_then_column {A} (agg : list A -> A) (x : @arr A) w rows : tree_law agg agg agg -> stands x (Mat w rows) -> ~ In 0 (shape (Mat w rows)) ->
    exists f1 f2 rl cl, red true agg agg (aqc x) = Ok f1 /\ red false agg agg f1 = Ok f2 /\ shows f2 (mkdf [unnamed] [unnamed] [[agg (concat rows)]]) rl cl.
  Proof. intros Law S N. destruct (mat_size S N) as (_ & _ & P3 & _). destruct (mat_red true Law S N) as (f1 & rl1 & cl1 & E1 & S1).
    unfold NredProofs.reduced, reduce_rows in S1. cbn [table_of dcells dindex] in S1. rewrite <- (map_map agg (fun a => [a])) in S1.
    destruct (column_red Law S1) as (f2 & rl2 & cl2 & E2 & S2); [destruct rows; [cbn in P3; lia|discriminate]|].
    exists f1, f2, rl2, cl2. split; [exact E1|]. split; [exact E2|]. rewrite Law in S2; [exact S2|]. destruct rows; [cbn in P3; lia|discriminate]. Qed.

  Lemma columns_then_row {A} (agg : list A -> A) (x : @arr A) w rows : tree_law agg agg agg -> (forall l l', Permutation l l' -> agg l = agg l') ->
    stands x (Mat w rows) -> ~ In 0 (shape (Mat w rows)) ->
    exists f1 f2 rl cl, red false agg agg (aqc x) = Ok f1 /\ red true agg agg f1 = Ok f2 /\ shows f2 (mkdf [unnamed] [unnamed] [[agg (concat rows)]]) rl cl.
  Proof. intros Law Pm S N. destruct (mat_size S N) as (_ & _ & _ & P4). destruct (mat_red false Law S N) as (f1 & rl1 & cl1 & E1 & S1).
    assert (R : Forall (fun r => length r = w) rows).
    { destruct (stands_wf S) as (_ & W2). unfold ncols in W2. cbn in W2. rewrite seq_length in W2. exact W2. }
    unfold NredProofs.reduced, reduce_columns, columns in S1. cbn [table_of dcells dcols] in S1. unfold ncols in S1. cbn [dcols] in S1. rewrite seq_length in S1.
    assert (T : length (transp w rows) = w) by (now apply transp_length).
    destruct (row_red Law S1) as (f2 & rl2 & cl2 & E2 & S2); [destruct (transp w rows); [cbn in T; lia|discriminate]|].
    exists f1, f2, rl2, cl2. split; [exact E1|]. split; [exact E2|]. rewrite Law in S2; [|destruct (transp w rows); [cbn in T; lia|discriminate]].
    rewrite (Pm _ _ (transp_perm R)) in S2. exact S2. Qed.
End Reductions.
