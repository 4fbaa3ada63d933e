From Verif Require Import Base Table ChunkModel ChunkSpec ChunkProofs GridSpec GridModel FrameSpec GridProofs GridProofs2 GridProofs3 GridProofs4.

Section Construct.
  Context {L H A : Type}.
  Notation dframe := (df L H A).
  Notation pf := (@pframe L H A).

  Lemma gridded_validate (f : pf) (d : dframe) rl cl : gridded f d rl cl -> validate_axes_lengths f = true.
  Proof. intros (W & Hr & Hc & Hg & Hi & Hcc & Hrl & Hcl). unfold validate_axes_lengths. apply andb_true_iff. split.
    - destruct Hrl as [-> | ->]; [reflexivity|]. destruct (pindex f) as [i|]; [|reflexivity].
      specialize (Hi i eq_refl). destruct i; [reflexivity|]. rewrite Hr, <- Hi, Nat.eqb_refl. apply orb_true_r.
    - destruct Hcl as [-> | ->]; [reflexivity|]. destruct (pcols f) as [i|]; [|reflexivity].
      specialize (Hcc i eq_refl). destruct i; [reflexivity|]. rewrite Hc, <- Hcc, Nat.eqb_refl. apply orb_true_r. Qed.

  Lemma construct_gridded (f : pf) (d : dframe) rl cl :
    gridded f d rl cl -> rl <> [] -> cl <> [] ->
    exists f' rl' cl', construct f = Ok f' /\ gridded f' d rl' cl' /\ rl' <> [] /\ cl' <> []
      /\ pindex f' = pindex f /\ pcols f' = pcols f.
  Proof. intros Hg Hr Hc. unfold construct. rewrite (gridded_validate Hg).
    destruct (filter_empties_gridded false Hg Hr Hc) as (rl' & cl' & G1 & G2 & G3 & G4).
    exists (filter_empties false f), rl', cl'. split; [reflexivity|]. split; [exact G1|].
    assert (X : rl' <> [] /\ cl' <> []).
    { apply (gridded_ne G1 Hr Hc). destruct G4 as [G4|[G4|G4]]; tauto. }
    tauto. Qed.
End Construct.

Section Ops.
  Context {L H A : Type}.
  Variable leqb : L -> L -> bool.
  Variable heqb : H -> H -> bool.
  Hypothesis leqb_ok : forall x y, leqb x y = true <-> x = y.
  Hypothesis heqb_ok : forall x y, heqb x y = true <-> x = y.

  Lemma frame_map_ok {B} (f : L -> H -> A -> B) dynamic cpus nparts min_row min_col nc (x : pframe) d rl cl :
    gridded x d rl cl -> rl <> [] -> cl <> [] -> 0 < nparts -> 0 < min_row -> 0 < min_col ->
    (forall c, nc = Some c -> length c = ncols d) ->
    exists x' rl' cl',
      frame_map leqb heqb dynamic cpus nparts min_row min_col (fun t => Ok (cellwise f (fun h => h) t)) nc x = Ok x'
      /\ gridded x' (cellwise f (fun h => h) d) rl' cl' /\ rl' <> [] /\ cl' <> []
      /\ pindex x' = pindex x /\ pcols x' = (match nc with None => pcols x | c => c end).
  Proof.
    intros Hg Hr Hc Hp Hmr Hmc Hnc. assert (Hg' := Hg).
    destruct Hg' as (W & Hsr & Hsc & Hgr & Hi & Hcc & Hrl & Hcl).
    assert (Gr : forall c, (c = pcols x \/ c = nc) ->
      gridded (mkpf (cut_table rl cl (cellwise f (fun h => h) d)) (pindex x) c (prl x) (pcl x))
              (cellwise f (fun h => h) d) rl cl).
    { intros c Ec. unfold gridded; cbn [pgrid pindex pcols prl pcl].
      replace (ncols (cellwise f (fun h => h) d)) with (ncols d) by (unfold ncols; cbn; now rewrite map_length).
      change (nrows (cellwise f (fun h => h) d)) with (nrows d).
      split; [eapply cellwise_wf; eauto|]. repeat split; auto. intros c' E. destruct Ec as [-> | ->]; auto. }
    unfold frame_map. rewrite Hgr.
    rewrite (map_partitions_cellwise leqb heqb leqb_ok heqb_ok) by auto. cbn [rbind].
    destruct nc as [nc|].
    - assert (Q := construct_gridded (Gr (Some nc) (or_intror eq_refl)) Hr Hc).
      destruct (pcols x) as [c|] eqn:Ec; [|exact Q].
      rewrite (Hnc nc eq_refl), (Hcc c eq_refl), Nat.eqb_refl. exact Q.
    - apply (construct_gridded (Gr (pcols x) (or_introl eq_refl)) Hr Hc).
  Qed.
End Ops.

Section FullAxis.
  Context {L H A L2 H2 B : Type}.
  Variable leqb : L -> L -> bool.
  Variable heqb : H -> H -> bool.
  Hypothesis leqb_ok : forall x y, leqb x y = true <-> x = y.
  Hypothesis heqb_ok : forall x y, heqb x y = true <-> x = y.
  Variable F : df L H A -> df L2 H2 B.

  Lemma cut_table_length rl cl (d : df L2 H2 B) : length (cut_table rl cl d) = length rl.
  Proof. unfold cut_table. now rewrite map_length, bounds_length. Qed.

  Lemma one_len (l : list nat) n : length l = 1 -> list_sum l = n -> l = [n].
  Proof. destruct l as [|x [|y l]]; try discriminate. intros _ <-. lsum. f_equal. lia. Qed.

  Lemma apply_full_axis_columns (CW : column_wise F) nparts min_row min_col ni nc keep ns (x : pframe) d rl cl :
    gridded x d rl cl -> rl <> [] -> cl <> [] -> 0 < nparts -> 0 < min_row -> 0 < min_col ->
    ns <> Some 0 -> (keep = true -> ns = None) ->
    (forall i, ni = Some i -> length i = nrows (F d)) ->
    (forall c, nc = Some c -> length c = ncols (F d)) ->
    exists x' rl' cl',
      apply_full_axis leqb heqb nparts min_row min_col false (fun t => Ok (F t)) ni nc keep ns x = Ok x'
      /\ gridded x' (F d) rl' cl' /\ rl' <> [] /\ cl' <> []
      /\ pindex x' = ni /\ pcols x' = nc.
  Proof.
    intros Hg Hr Hc Hp Hmr Hmc Hns Hk Hni Hnc.
    destruct Hg as (W & Hsr & Hsc & Hgr & Hi & Hcc & Hrl & Hcl).
    unfold apply_full_axis. rewrite Hgr.
    destruct (map_axis_column_wise leqb heqb heqb_ok CW (d:=d) (rl:=rl) (cl:=cl)
                  (nparts:=nparts) (m:=min_row) (keep:=keep) (num_splits:=ns) (lengths:=None))
            as (rl' & E1 & E2 & E3 & E4 & _ & E6 & E7); auto; try discriminate.
    rewrite E1. cbn [rbind]. specialize (E6 eq_refl). specialize (E7 eq_refl).
    destruct (CW d W) as (WF & Hn & _).
    assert (Hr' : rl' <> []).
    { destruct keep.
      - specialize (E3 eq_refl (Hk eq_refl)). intros ->. destruct rl; [easy|discriminate].
      - specialize (E7 eq_refl). set (q := match ns with None => nparts | Some k => k end) in *.
        assert (Hq : 0 < q) by (destruct ns as [[|k]|]; cbn in *; try lia; congruence).
        destruct (get_length_list_ok (nrows (F d)) Hq Hmr) as (l & El & Hl & _).
        rewrite El in E7. injection E7 as ->. intros ->. cbn in Hl. lia. }
    rewrite cut_table_length, cut_table_width by assumption.
    assert (FIN : forall rows cols, (rows = None \/ rows = Some rl') -> (cols = None \/ cols = Some cl) ->
      exists x' rl'0 cl',
        construct (mkpf (cut_table rl' cl (F d)) ni nc rows cols) = Ok x'
        /\ gridded x' (F d) rl'0 cl' /\ rl'0 <> [] /\ cl' <> [] /\ pindex x' = ni /\ pcols x' = nc).
    { intros rows cols Hro Hco.
      apply construct_gridded with (f := mkpf (cut_table rl' cl (F d)) ni nc rows cols) (rl := rl') (cl := cl); auto.
      unfold gridded; cbn [pgrid pindex pcols prl pcl]. rewrite Hn. repeat split; auto; try apply WF. rewrite <- Hn; auto. }
    set (kwc := match nc with Some c => if length cl =? 1 then Some [length c] else None | None => None end).
    assert (Hkwc : kwc = None \/ kwc = Some cl).
    { unfold kwc. destruct nc as [c|]; [|auto]. destruct (Nat.eqb_spec (length cl) 1) as [El|]; [|auto].
      right. f_equal. symmetry. apply one_len; auto. rewrite (Hnc c eq_refl). lia. }
    destruct keep; cbn [negb].
    - apply FIN; [|exact Hkwc]. destruct (prl x) as [l|] eqn:Ep; [|auto].
      destruct ni as [i|]; [|auto]. destruct ((length i =? list_sum l) && _) eqn:Eb; [|auto].
      apply andb_true_iff in Eb as [Eb _]. apply Nat.eqb_eq in Eb.
      destruct Hrl as [Hrl|Hrl]; [discriminate|]. injection Hrl as ->. right. f_equal.
      symmetry. apply E4; auto. rewrite <- (Hni i eq_refl). lia.
    - specialize (E7 eq_refl).
      assert (RW : exists rows, match ni with
                    | Some i => do l <- get_length_list (length i) (length rl') min_row; Ok (Some l)
                    | None => Ok None end = Ok rows /\ (rows = None \/ rows = Some rl')).
      { destruct ni as [i|]; [|eauto]. rewrite (Hni i eq_refl).
        set (q := match ns with None => nparts | Some k => k end) in *.
        assert (Hq : 0 < q) by (destruct ns as [[|k]|]; cbn in *; try lia; congruence).
        destruct (get_length_list_ok (nrows (F d)) Hq Hmr) as (l & El & Hl & _).
        rewrite E7 in El. injection El as <-. rewrite Hl, E7. cbn. eauto. }
      destruct RW as (rows & Er & Hro). rewrite Er. cbn [rbind].
      clearbody kwc. destruct kwc as [k|]; [now apply FIN|].
      destruct nc as [c|]; [|now apply FIN; auto].
      destruct (pcl x) as [l|]; [|now apply FIN; auto]. destruct Hcl as [|Hcl]; [discriminate|]. injection Hcl as ->.
      destruct (length c =? list_sum cl); now apply FIN; auto.
  Qed.

  Lemma apply_full_axis_rows (RW : row_wise F) nparts min_row min_col ni nc keep ns (x : pframe) d rl cl :
    gridded x d rl cl -> rl <> [] -> cl <> [] -> 0 < nparts -> 0 < min_row -> 0 < min_col ->
    ns <> Some 0 -> (keep = true -> ns = None) ->
    (forall i, ni = Some i -> length i = nrows (F d)) ->
    (forall c, nc = Some c -> length c = ncols (F d)) ->
    exists x' rl' cl',
      apply_full_axis leqb heqb nparts min_row min_col true (fun t => Ok (F t)) ni nc keep ns x = Ok x'
      /\ gridded x' (F d) rl' cl' /\ rl' <> [] /\ cl' <> []
      /\ pindex x' = ni /\ pcols x' = nc.
  Proof.
    intros Hg Hr Hc Hp Hmr Hmc Hns Hk Hni Hnc.
    destruct Hg as (W & Hsr & Hsc & Hgr & Hi & Hcc & Hrl & Hcl).
    unfold apply_full_axis. rewrite Hgr.
    destruct (map_axis_row_wise leqb heqb leqb_ok RW (d:=d) (rl:=rl) (cl:=cl)
                  (nparts:=nparts) (m:=min_col) (keep:=keep) (num_splits:=ns) (lengths:=None))
            as (cl' & E1 & E2 & E3 & E4 & _ & E6 & E7); auto; try discriminate.
    rewrite E1. cbn [rbind]. specialize (E6 eq_refl). specialize (E7 eq_refl).
    destruct (RW d W) as (WF & Hn & _).
    assert (Hc' : cl' <> []).
    { destruct keep.
      - specialize (E3 eq_refl (Hk eq_refl)). intros ->. destruct cl; [easy|discriminate].
      - specialize (E7 eq_refl). set (q := match ns with None => nparts | Some k => k end) in *.
        assert (Hq : 0 < q) by (destruct ns as [[|k]|]; cbn in *; try lia; congruence).
        destruct (get_length_list_ok (ncols (F d)) Hq Hmc) as (l & El & Hl & _).
        rewrite El in E7. injection E7 as ->. intros ->. cbn in Hl. lia. }
    rewrite cut_table_length, cut_table_width by assumption.
    assert (FIN : forall rows cols, (rows = None \/ rows = Some rl) -> (cols = None \/ cols = Some cl') ->
      exists x' rl'0 cl'0,
        construct (mkpf (cut_table rl cl' (F d)) ni nc rows cols) = Ok x'
        /\ gridded x' (F d) rl'0 cl'0 /\ rl'0 <> [] /\ cl'0 <> [] /\ pindex x' = ni /\ pcols x' = nc).
    { intros rows cols Hro Hco.
      apply construct_gridded with (f := mkpf (cut_table rl cl' (F d)) ni nc rows cols) (rl := rl) (cl := cl'); auto.
      unfold gridded; cbn [pgrid pindex pcols prl pcl]. rewrite Hn. repeat split; auto; try apply WF. rewrite <- Hn; auto. }
    set (kwr := match ni with Some c => if length rl =? 1 then Some [length c] else None | None => None end).
    assert (Hkwr : kwr = None \/ kwr = Some rl).
    { unfold kwr. destruct ni as [c|]; [|auto]. destruct (Nat.eqb_spec (length rl) 1) as [El|]; [|auto].
      right. f_equal. symmetry. apply one_len; auto. rewrite (Hni c eq_refl). lia. }
    destruct keep; cbn [negb].
    - apply FIN; [exact Hkwr|]. destruct (pcl x) as [l|] eqn:Ep; [|auto].
      destruct nc as [i|]; [|auto]. destruct ((length i =? list_sum l) && _) eqn:Eb; [|auto].
      apply andb_true_iff in Eb as [Eb _]. apply Nat.eqb_eq in Eb.
      destruct Hcl as [Hcl|Hcl]; [discriminate|]. injection Hcl as ->. right. f_equal.
      symmetry. apply E4; auto. rewrite <- (Hnc i eq_refl). lia.
    - specialize (E7 eq_refl).
      assert (CL : exists cols, match nc with
                    | Some i => do l <- get_length_list (length i) (length cl') min_col; Ok (Some l)
                    | None => Ok None end = Ok cols /\ (cols = None \/ cols = Some cl')).
      { destruct nc as [i|]; [|eauto]. rewrite (Hnc i eq_refl).
        set (q := match ns with None => nparts | Some k => k end) in *.
        assert (Hq : 0 < q) by (destruct ns as [[|k]|]; cbn in *; try lia; congruence).
        destruct (get_length_list_ok (ncols (F d)) Hq Hmc) as (l & El & Hl & _).
        rewrite E7 in El. injection El as <-. rewrite Hl, E7. cbn. eauto. }
      destruct CL as (cols & Ecol & Hco).
      assert (FIN2 : forall rows, (rows = None \/ rows = Some rl) ->
        exists x' rl'0 cl'0,
         (do cols <- match nc with
                    | Some i => do l <- get_length_list (length i) (length cl') min_col; Ok (Some l)
                    | None => Ok None end;
          construct (mkpf (cut_table rl cl' (F d)) ni nc rows cols)) = Ok x'
          /\ gridded x' (F d) rl'0 cl'0 /\ rl'0 <> [] /\ cl'0 <> [] /\ pindex x' = ni /\ pcols x' = nc).
      { intros rows Hro. rewrite Ecol. now apply FIN. }
      clearbody kwr. destruct kwr as [k|]; [now apply FIN2|].
      destruct ni as [c|]; [|now apply FIN2; auto].
      destruct (prl x) as [l|]; [|now apply FIN2; auto]. destruct Hrl as [|Hrl]; [discriminate|]. injection Hrl as ->.
      destruct (length c =? list_sum rl); now apply FIN2; auto.
  Qed.
End FullAxis.

(** * Laws for the usual reductions *)
Section Laws.
  Context {A M : Type}.
  (** Mapping each value into a monoid and adding up: sum, prod, count, min, max, any, all. *)
  Lemma monoid_tree_law (e : M) (op : M -> M -> M) (h : A -> M) :
    (forall x, op e x = x) -> (forall x, op x e = x) -> (forall x y z, op x (op y z) = op (op x y) z) ->
    tree_law (fun l => fold_right (fun a m => op (h a) m) e l) (fold_right op e)
             (fun l => fold_right (fun a m => op (h a) m) e l).
  Proof. intros He1 He2 Ha ps _. induction ps as [|p ps IH]; [reflexivity|]. cbn [map concat fold_right].
    rewrite IH. clear IH. induction p as [|a p IH]; cbn [app fold_right]; [apply He1|].
    rewrite <- Ha. now rewrite IH. Qed.
End Laws.

Lemma values_app l1 l2 : values (l1 ++ l2) = values l1 ++ values l2.
Proof. unfold values. now rewrite map_app, concat_app. Qed.
Lemma values_cons o l : values (o :: l) = match o with Some x => x :: values l | None => values l end.
Proof. destruct o; reflexivity. Qed.

Lemma fold_right_app_sum f e (l1 l2 : list Z) :
  (forall x, f e x = x) -> (forall x y z, f x (f y z) = f (f x y) z) ->
  fold_right f e (l1 ++ l2) = f (fold_right f e l1) (fold_right f e l2).
Proof. intros He Ha. induction l1 as [|x l1 IH]; cbn; [now rewrite He|]. rewrite IH. apply Ha. Qed.

Lemma p_sum_law : tree_law p_sum p_sum p_sum.
Proof. intros ps _. unfold p_sum. f_equal. induction ps as [|p ps IH]; [reflexivity|].
  cbn [map concat]. rewrite values_cons, values_app. cbn [fold_right]. rewrite IH.
  now rewrite (fold_right_app_sum Z.add 0%Z) by (intros; lia). Qed.

Lemma p_prod_law : tree_law p_prod p_prod p_prod.
Proof. intros ps _. unfold p_prod. f_equal. induction ps as [|p ps IH]; [reflexivity|].
  cbn [map concat]. rewrite values_cons, values_app. cbn [fold_right]. rewrite IH.
  now rewrite (fold_right_app_sum Z.mul 1%Z) by (intros; ring). Qed.

Lemma p_count_law : tree_law p_count p_sum p_count.
Proof. intros ps _. unfold p_count, p_sum. f_equal. induction ps as [|p ps IH]; [reflexivity|].
  cbn [map concat]. rewrite values_cons, values_app, app_length. cbn [fold_right]. rewrite IH. lia. Qed.

Lemma p_any_law : tree_law p_any p_any p_any.
Proof. intros ps _. unfold p_any. f_equal. induction ps as [|p ps IH]; [reflexivity|].
  cbn [map concat]. rewrite values_cons, values_app, existsb_app. cbn [existsb].
  destruct (existsb _ (values p)); cbn; [reflexivity|exact IH]. Qed.

Lemma p_all_law : tree_law p_all p_all p_all.
Proof. intros ps _. unfold p_all. f_equal. induction ps as [|p ps IH]; [reflexivity|].
  cbn [map concat]. rewrite values_cons, values_app, forallb_app. cbn [forallb].
  destruct (forallb _ (values p)); cbn; [exact IH|reflexivity]. Qed.

(** extremum of a list, with an associative idempotent-free operator *)
Definition ext (f : Z -> Z -> Z) (l : list Z) : option Z :=
  match l with [] => None | x :: xs => Some (fold_right f x xs) end.
Lemma ext_cons f x l : (forall x y, f x y = f y x) -> (forall x y z, f x (f y z) = f (f x y) z) ->
  ext f (x :: l) = match ext f l with None => Some x | Some m => Some (f x m) end.
Proof. intros Hc Ha. destruct l as [|y l]; [reflexivity|]. cbn. f_equal.
  induction l as [|z l IH]; cbn in *; [apply Hc|].
  rewrite Ha, (Hc y z), <- Ha, IH, Ha, (Hc z x), <- Ha. reflexivity. Qed.
Lemma ext_app f l1 l2 : (forall x y, f x y = f y x) -> (forall x y z, f x (f y z) = f (f x y) z) ->
  ext f (l1 ++ l2) = match ext f l1, ext f l2 with
                     | None, o => o | o, None => o | Some a, Some b => Some (f a b) end.
Proof. intros Hc Ha. induction l1 as [|x l1 IH]; [cbn; now destruct (ext f l2)|]. cbn [app].
  rewrite !ext_cons by assumption. rewrite IH. destruct (ext f l1), (ext f l2); auto. now rewrite Ha. Qed.
Lemma ext_law f : (forall x y, f x y = f y x) -> (forall x y z, f x (f y z) = f (f x y) z) ->
  tree_law (fun l => ext f (values l)) (fun l => ext f (values l)) (fun l => ext f (values l)).
Proof. intros Hc Ha ps _. induction ps as [|p ps IH]; [reflexivity|]. cbn [map concat].
  rewrite values_cons, values_app, ext_app by assumption. rewrite <- IH.
  destruct (ext f (values p)) as [m|]; [|reflexivity]. rewrite ext_cons by assumption. reflexivity. Qed.

Lemma p_max_law : tree_law p_max p_max p_max.
Proof. exact (@ext_law Z.max Z.max_comm Z.max_assoc). Qed.
Lemma p_min_law : tree_law p_min p_min p_min.
Proof. exact (@ext_law Z.min Z.min_comm Z.min_assoc). Qed.
