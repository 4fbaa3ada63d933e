(** [df.loc[ ]] on a partitioned frame. *)
From Verif Require Import Base Table ChunkModel ChunkSpec GridModel GridSpec FrameSpec GridProofs GridProofs2 GridProofs3 GridProofs5 SelSpec SelModel
  SelProofs SelProofs2 SelProofs3 SelProofs4 SelProofs5 SelProofs6 SelProofs7 LabModel LabProofs LocSpec LocModel LocProofs.

Lemma empty_no {L A} (f : @pframe L L A) d rl cl : shows f d rl cl -> 0 < nrows d -> 0 < ncols d -> empty f = Ok false.
  Proof. intros (_ & _ & _ & Hi & Hc) H1 H2. unfold empty. rewrite Hi, Hc. cbn [labels rbind]. unfold nrows, ncols in *.
    destruct (Nat.eqb_spec (length (dindex d)) 0); [lia|]. destruct (Nat.eqb_spec (length (dcols d)) 0); [lia|]. reflexivity. Qed.

Section Frames.
  Context {L A : Type}.
  Variables leqb leb : L -> L -> bool.
  Hypothesis leqb_ok : forall x y, leqb x y = true <-> x = y.
  Variable of_Z : Z -> L.
  Variable num : L -> option Z.
  Hypothesis num_ok : forall l z, num l = Some z <-> l = of_Z z.
  Hypothesis leb_Z : forall a b, leb (of_Z a) (of_Z b) = (a <=? b)%Z.
  Variable coerce : L -> res L.
  Variables min_row min_col nparts : nat.
  Hypothesis min_row_pos : 0 < min_row.
  Hypothesis min_col_pos : 0 < min_col.
  Hypothesis nparts_pos : 0 < nparts.
  Variables known_l known_w : nat -> nat -> bool.
  Variable argsort : list Z -> list nat.
  Hypothesis argsort_ok : forall l, sorts l (argsort l).
  Notation pf := (@pframe L L A).
  Notation t2l := (take_2d_labels leqb leb of_Z num coerce min_row min_col nparts known_l known_w argsort).

  Lemma take_2d_labels_ok big (f : pf) d rl cl rk ck rows cols : shows f d rl cl ->
    located leqb leb of_Z (dindex d) rk = Some rows -> plain leqb leb of_Z num coerce (dindex d) rk ->
    located leqb leb of_Z (dcols d) ck = Some cols -> plain leqb leb of_Z num coerce (dcols d) ck ->
    NoDup rows -> NoDup cols ->
    exists f', t2l big rk ck f = Ok f' /\ pf_to_pandas leqb leqb f' = Ok (take2d rows cols d)
      /\ (rows <> [] -> cols <> [] -> exists rl' cl', shows f' (take2d rows cols d) rl' cl').
  Proof. intros S Er Pr Ec Pc Nr Nc. unfold take_2d_labels. pose proof S as (_ & _ & _ & Hi & Hc). rewrite Hi, Hc. cbn [labels rbind].
    destruct (@positions_ok L leqb leb leqb_ok of_Z num num_ok leb_Z coerce _ _ _ Er Pr) as (ri & -> & Sr).
    destruct (@positions_ok L leqb leb leqb_ok of_Z num num_ok leb_Z coerce _ _ _ Ec Pc) as (ci & -> & Sc). cbn [rbind].
    apply (@take_2d_ok L L A leqb leqb leqb_ok leqb_ok min_row min_col nparts min_row_pos min_col_pos nparts_pos known_l known_w argsort argsort_ok big f d rl cl ri ci rows cols S Sr Sc). right. auto. Qed.

  Lemma shows_sees (f : pf) d rl cl : shows f d rl cl -> sees (mklf f false false) d.
  Proof. intros ([G _] & Hr & Hc & Hi & Hcc). exists d, rl, cl. repeat split; auto. all: try (cbn; assumption). all: try apply G. Qed.
End Frames.

Section Meaning.
  Context {L : Type}.
  Variables eqb leb : L -> L -> bool.
  Hypothesis eqb_ok : forall x y, eqb x y = true <-> x = y.
  Hypothesis leb_refl : forall x, leb x x = true.
  Hypothesis leb_trans : forall x y z, leb x y = true -> leb y z = true -> leb x z = true.
  Hypothesis leb_anti : forall x y, leb x y = true -> leb y x = true -> x = y.
  Hypothesis leb_total : forall x y, leb x y = true \/ leb y x = true.

  Lemma in_order_le labels i j x y : in_order leb labels = true -> nth_error labels i = Some x -> nth_error labels j = Some y -> i <= j -> leb x y = true.
  Proof. revert i j x y. induction labels as [|l labels IH]; intros i j x y O Hi Hj Hij; [now destruct i|].
    destruct labels as [|l' labels].
    - destruct i; [|now destruct i]. destruct j; [|now destruct j]. cbn in *. injection Hi as <-. injection Hj as <-. apply leb_refl.
    - cbn [in_order] in O. apply andb_true_iff in O. destruct O as [O1 O2]. destruct i; [|destruct j; [lia|]; cbn [nth_error] in Hi, Hj; apply (IH i j x y); auto; lia].
      cbn in Hi. injection Hi as <-. destruct j; [cbn in Hj; injection Hj as <-; apply leb_refl|]. cbn [nth_error] in Hj.
      apply (leb_trans O1). apply (IH 0 j l' y); auto; lia. Qed.

  Lemma filter_prefix (f : L -> bool) labels : (forall i j x y, nth_error labels i = Some x -> nth_error labels j = Some y -> i <= j -> f y = true -> f x = true) ->
    forall i x, nth_error labels i = Some x -> (f x = true <-> i < length (filter f labels)).
  Proof. induction labels as [|l labels IH]; intros M i x Hi; [now destruct i|].
    assert (IH' : forall i x, nth_error labels i = Some x -> (f x = true <-> i < length (filter f labels))).
    { apply IH. intros a b u v Ha Hb Hab. apply (M (S a) (S b)); auto; lia. }
    cbn [filter]. destruct (f l) eqn:E.
    - destruct i; [cbn in *; injection Hi as <-; rewrite E; split; auto; lia|]. cbn [nth_error length] in *. rewrite (IH' i x Hi). lia.
    - destruct i.
      + cbn in Hi. injection Hi as <-. rewrite E. split; [discriminate|]. intros X. exfalso.
        destruct (filter f labels) as [|y ys] eqn:F; [cbn in X; lia|]. assert (I : In y (filter f labels)) by (rewrite F; now left).
        apply filter_In in I. destruct I as [I Y]. apply In_nth_error in I. destruct I as (k & Hk). rewrite (M 0 (S k) l y eq_refl Hk ltac:(lia) Y) in E. discriminate.
      + cbn [nth_error] in Hi. split; intros X.
        * rewrite (M 0 (S i) l x eq_refl Hi ltac:(lia) X) in E. discriminate.
        * exfalso. destruct (filter f labels) as [|y ys] eqn:F; [cbn in X; lia|]. assert (I : In y (filter f labels)) by (rewrite F; now left).
          apply filter_In in I. destruct I as [I Y]. apply In_nth_error in I. destruct I as (k & Hk). rewrite (M 0 (S k) l y eq_refl Hk ltac:(lia) Y) in E. discriminate. Qed.

  Lemma leb_total_lt x y : leb x y = false -> leb y x = true.
  Proof. intros E. destruct (leb_total x y); congruence. Qed.

  (** where a label starts and ends among labels in order *)
  Lemma place_meaning labels l a b : in_order leb labels = true -> place eqb leb labels l = Some (a, b) ->
    forall i x, nth_error labels i = Some x -> (leb l x = true <-> a <= i) /\ (leb x l = true <-> i < b).
  Proof. intros O P i x Hi. unfold place in P. pose proof (everywhere_in eqb eqb_ok labels l) as EI.
    destruct (everywhere eqb labels l) as [|p q] eqn:E.
    - rewrite O in P. injection P as <- <-.
      assert (X : less eqb leb x l = true <-> i < length (filter (fun x => less eqb leb x l) labels)).
      { refine (@filter_prefix (fun x => less eqb leb x l) labels _ i x Hi). intros i0 j0 x0 y0 H0 H1 H2 H3. unfold less in *. apply andb_true_iff in H3. destruct H3 as [H3 H4].
        pose proof (@in_order_le labels _ _ _ _ O H0 H1 H2) as H5. apply andb_true_iff. split; [eapply leb_trans; eauto|]. apply negb_true_iff, not_true_iff_false. intros EE. apply eqb_ok in EE. subst x0.
        apply (proj2 (EI i0)) in H0. destruct H0. }
      assert (NE : x <> l) by (intros ->; apply (proj2 (EI i)) in Hi; destruct Hi).
      assert (Y : less eqb leb x l = true <-> leb x l = true).
      { unfold less. rewrite andb_true_iff, negb_true_iff. split; [tauto|]. intros H. split; auto. apply not_true_iff_false. intros EE. apply eqb_ok in EE. auto. }
      split; [|tauto]. split; intros H.
      + destruct (Nat.le_gt_cases (length (filter (fun x0 => less eqb leb x0 l) labels)) i); auto. exfalso. apply NE. apply leb_anti; tauto.
      + destruct (leb_total l x); auto. exfalso. rewrite <- Y, X in H0. lia.
    - destruct (list_eqb Nat.eqb (p :: q) (seq p (S (length q)))) eqn:Q; [|discriminate]. injection P as <- <-. apply list_eqb_spec in Q; [|intros; apply Nat.eqb_eq].
      assert (EI' : forall k, nth_error labels k = Some l <-> p <= k < p + S (length q)).
      { intros k. rewrite <- EI. rewrite Q at 1. rewrite in_seq. reflexivity. }
      pose proof (proj2 (EI' p) ltac:(lia)) as Hp. pose proof (proj2 (EI' (p + length q)) ltac:(lia)) as Hq.
      split; split; intros H.
      + destruct (Nat.le_gt_cases p i) as [|G]; auto. exfalso. pose proof (@in_order_le labels _ _ _ _ O Hi Hp ltac:(lia)) as G2. pose proof (leb_anti G2 H) as ->. apply (proj1 (EI' i)) in Hi. lia.
      + apply (@in_order_le labels _ _ _ _ O Hp Hi H).
      + destruct (Nat.le_gt_cases (p + S (length q)) i) as [G|]; auto. exfalso. pose proof (@in_order_le labels _ _ _ _ O Hq Hi ltac:(lia)) as G2. pose proof (leb_anti G2 H) as <-. apply (proj1 (EI' i)) in Hi. lia.
      + apply (@in_order_le labels _ _ _ _ O Hi Hq). lia. Qed.
End Meaning.
