(** The partial aggregations of every entry combine to the aggregation of the whole group. *)
From Verif Require Import Base Table GridSpec GridModel GridProofs5 GroupSpec GroupModel GroupProofs GroupProofs2.
From Coq Require Import QArith Qcanon.
Open Scope nat_scope.

Lemma plain_law m r agg : tree_law m r agg -> impl_law (plain_impl m r) agg.
Proof.
  intros T. split; [repeat constructor; easy|]. split; [easy|]. split.
  - intros _. exists 0. split; [reflexivity|]. reflexivity.
  - intros ps Hp. cbn. now apply T.
Qed.

Lemma values_concat ps : values (concat ps) = concat (map values ps).
Proof. induction ps as [|p ps IH]; [reflexivity|]. cbn [concat map]. now rewrite values_app, IH. Qed.

Section AtLeast.
  Variable agg : list (option Z) -> option Z.
  Hypothesis same : forall l l', values l = values l' -> agg l = agg l'.
  Hypothesis some : forall l, values l <> [] -> exists x, agg l = Some x.
  Hypothesis law : tree_law agg agg agg.
  Let a1 := at_least 1 agg.
  Let full (p : list (option Z)) := match values p with [] => false | _ => true end.

  Lemma at_least_1 l : a1 l = match values l with [] => None | _ => agg l end.
  Proof. unfold a1, at_least. now destruct (values l). Qed.

  Lemma values_partials ps : values (map a1 ps) = values (map agg (filter full ps)).
  Proof. induction ps as [|p ps IH]; [reflexivity|]. cbn [map filter]. unfold full at 1. rewrite values_cons, at_least_1.
    destruct (values p); [exact IH|]. cbn [map]. now rewrite values_cons, IH. Qed.
  Lemma values_full ps : values (concat (filter full ps)) = values (concat ps).
  Proof. rewrite !values_concat. induction ps as [|p ps IH]; [reflexivity|]. cbn [filter map concat]. unfold full at 1.
    destruct (values p) eqn:E; cbn [map concat]; [exact IH|]. now rewrite IH, E. Qed.

  Lemma at_least_law_1 : tree_law (at_least 1 agg) (at_least 1 agg) (at_least 1 agg).
  Proof.
    intros ps Hp. fold a1. rewrite !at_least_1, values_partials.
    destruct (filter full ps) as [|q qs] eqn:E.
    - cbn. rewrite <- values_full, E. reflexivity.
    - assert (Q : values q <> []).
      { assert (In q (filter full ps)) by (rewrite E; now left). apply filter_In in H as [_ H]. unfold full in H. now destruct (values q). }
      assert (X : values (concat ps) <> []).
      { rewrite <- values_full, E. cbn [concat]. rewrite values_app. intros X. apply app_eq_nil in X as [X _]. easy. }
      destruct (values (map agg (q :: qs))) eqn:V.
      { exfalso. cbn [map] in V. rewrite values_cons in V. destruct (some q Q) as (x & Ex). rewrite Ex in V. discriminate. }
      destruct (values (concat ps)) eqn:Y; [easy|].
      change (map (at_least 1 agg) ps) with (map a1 ps). rewrite (same (map a1 ps) (map agg (q :: qs))) by (rewrite <- E; apply values_partials).
      rewrite law by discriminate. apply same. rewrite <- E. apply values_full.
  Qed.

  Lemma at_least_law n : n <= 1 -> tree_law (at_least n agg) (at_least n agg) (at_least n agg).
  Proof. intros Hn. destruct n as [|[|n]]; [|exact at_least_law_1|lia].
    assert (E : forall l, at_least 0 agg l = agg l) by reflexivity.
    intros ps Hp. exact (law Hp). Qed.
End AtLeast.

Lemma p_size_law : tree_law p_size p_sum p_size.
Proof. intros ps _. unfold p_size, p_sum. f_equal. induction ps as [|p ps IH]; [reflexivity|].
  cbn [map concat]. rewrite values_cons. cbn [fold_right]. rewrite IH, app_length. lia. Qed.

Lemma reduce_impl_law name min_count : min_count <= 1 -> impl_law (reduce_impl name min_count) (agg_of name min_count).
Proof.
  intros Hm. destruct name; cbn [reduce_impl agg_of]; apply plain_law.
  - apply at_least_law; auto; [|intros; unfold p_sum; eauto|apply p_sum_law]. intros l l' E. unfold p_sum. now rewrite E.
  - apply p_count_law.
  - apply p_size_law.
  - apply at_least_law; auto; [| |apply p_min_law].
    + intros l l' E. unfold p_min. now rewrite E.
    + intros l E. unfold p_min. destruct (values l); [easy|eauto].
  - apply at_least_law; auto; [| |apply p_max_law].
    + intros l l' E. unfold p_max. now rewrite E.
    + intros l E. unfold p_max. destruct (values l); [easy|eauto].
  - apply at_least_law; auto; [|intros; unfold p_prod; eauto|apply p_prod_law]. intros l l' E. unfold p_prod. now rewrite E.
  - apply p_any_law.
  - apply p_all_law.
Qed.

(** * Rationals *)
Lemma present_app {X} (l1 l2 : list (option X)) : present (l1 ++ l2) = present l1 ++ present l2.
Proof. unfold present. now rewrite map_app, concat_app. Qed.
Lemma present_map_some {X Y} (f : Y -> X) l : present (map (fun y => Some (f y)) l) = map f l.
Proof. unfold present. induction l as [|y l IH]; cbn; auto. now rewrite IH. Qed.
Lemma present_option_map {X Y} (f : X -> Y) l : present (map (option_map f) l) = map f (present l).
Proof. unfold present. induction l as [|[y|] l IH]; cbn; auto. now rewrite IH. Qed.

Open Scope Qc_scope.
Lemma qsum_app l1 l2 : qsum (l1 ++ l2) = qsum l1 + qsum l2.
Proof. unfold qsum. induction l1 as [|x l1 IH]; cbn; [ring|]. rewrite IH. ring. Qed.
Lemma qlen_nil {X} : qlen (@nil X) = Q2Qc 0.
Proof. reflexivity. Qed.
Lemma qlen_cons {X} (x : X) l : qlen (x :: l) = 1 + qlen l.
Proof. unfold qlen. cbn [length]. apply Qc_is_canon. unfold Qcplus, Q2Qc. cbn [this]. rewrite !Qred_correct, Nat2Z.inj_succ.
  unfold Z.succ. rewrite inject_Z_plus. ring. Qed.
Lemma qlen_app {X} (l1 l2 : list X) : qlen (l1 ++ l2) = qlen l1 + qlen l2.
Proof. induction l1 as [|x l1 IH]; [cbn [app]; rewrite qlen_nil; ring|]. cbn [app]. rewrite !qlen_cons, IH. ring. Qed.

Lemma q_sum_pieces (f : list (option Qc) -> Qc) (g : list (option Qc) -> Qc) ps :
  (forall l1 l2, g (l1 ++ l2) = g l1 + g l2) -> g nil = 0 -> (forall l, f l = g l) ->
  q_sum (map (fun l => Some (f l)) ps) = Some (g (concat ps)).
Proof. intros Ha Hn Hf. unfold q_sum. rewrite present_map_some. f_equal. induction ps as [|p ps IH]; cbn; [now rewrite Hn|].
  rewrite Ha, Hf. f_equal. exact IH. Qed.

Lemma q_sum_sum ps : q_sum (map q_sum ps) = q_sum (concat ps).
Proof. apply (q_sum_pieces (fun l => qsum (present l)) (fun l => qsum (present l))); auto. intros. now rewrite present_app, qsum_app. Qed.
Lemma q_sum_count ps : q_sum (map q_count ps) = q_count (concat ps).
Proof. apply (q_sum_pieces (fun l => qlen (present l)) (fun l => qlen (present l))); auto. intros. now rewrite present_app, qlen_app. Qed.
Lemma q_sum_pow n ps : q_sum (map (fun l => q_sum (map (option_map (fun x => Qcpower x n)) l)) ps)
  = q_sum (map (option_map (fun x => Qcpower x n)) (concat ps)).
Proof. apply (q_sum_pieces (fun l => qsum (present (map (option_map (fun x => Qcpower x n)) l))) (fun l => qsum (present (map (option_map (fun x => Qcpower x n)) l)))); auto.
  intros. now rewrite map_app, present_app, qsum_app. Qed.

Lemma qlen_zero {X} (l : list X) : qlen l = 0 -> l = nil.
Proof. destruct l as [|x l]; auto. intros E. exfalso. unfold qlen in E. apply (f_equal this) in E. cbn in E.
  unfold Q2Qc in E. cbn in E. assert (Z : (inject_Z (Z.pos (Pos.of_succ_nat (length l))) == 0)%Q).
  { rewrite <- Qred_correct. cbn. rewrite E. reflexivity. }
  unfold Qeq in Z. cbn in Z. lia. Qed.

Lemma mean_law : impl_law mean_impl mean.
Proof.
  split; [repeat constructor; cbn; intuition discriminate|]. split; [easy|]. split; [discriminate|].
  intros ps Hp. cbn [mean_impl ifin itags imap ired map Nat.eqb].
  rewrite q_sum_sum, q_sum_count. unfold q_sum, q_count, q_div, mean.
  destruct (Qc_eq_dec (qlen (present (concat ps))) (Q2Qc 0)) as [E|E].
  - apply qlen_zero in E. now rewrite E.
  - destruct (present (concat ps)); [now elim E|reflexivity].
Qed.

Lemma central_2 xs : xs <> nil -> let m := qsum xs / qlen xs in
  central 2 xs = qsum (map (fun x => Qcpower x 2) xs) - Q2Qc 2 * m * qsum xs + qlen xs * Qcpower m 2.
Proof.
  intros _ m. unfold central. fold m. generalize m. clear m. intros m. induction xs as [|x xs IH].
  - cbn [map]. unfold qsum. cbn [fold_right]. change (qlen (@nil Qc)) with (Q2Qc 0). cbn [Qcpower]. ring.
  - cbn [map]. unfold qsum in *. cbn [fold_right]. rewrite IH, qlen_cons. change (Q2Qc 2) with (1 + 1). cbn [Qcpower]. ring.
Qed.

Lemma central_3 xs : xs <> nil -> let m := qsum xs / qlen xs in
  central 3 xs = qsum (map (fun x => Qcpower x 3) xs) - Q2Qc 3 * m * qsum (map (fun x => Qcpower x 2) xs)
                 + Q2Qc 3 * qsum xs * Qcpower m 2 - qlen xs * Qcpower m 3.
Proof.
  intros _ m. unfold central. fold m. generalize m. clear m. intros m. induction xs as [|x xs IH].
  - cbn [map]. unfold qsum. cbn [fold_right]. change (qlen (@nil Qc)) with (Q2Qc 0). cbn [Qcpower]. ring.
  - cbn [map]. unfold qsum in *. cbn [fold_right]. rewrite IH, qlen_cons. change (Q2Qc 3) with (1 + 1 + 1). cbn [Qcpower]. ring.
Qed.

Lemma qlen_3 {X} (l : list X) : qlen l < Q2Qc 3 <-> (length l < 3)%nat.
Proof.
  unfold qlen, Qclt. cbn [Q2Qc this]. rewrite !Qred_correct. unfold Qlt. cbn. lia.
Qed.

Lemma skew_law root root3 : impl_law (skew_impl root root3) (skew root root3).
Proof.
  split; [repeat constructor; cbn; intuition discriminate|]. split; [easy|]. split; [discriminate|].
  intros ps Hp. cbn [skew_impl ifin itags imap ired map].
  rewrite q_sum_sum, q_sum_count, !q_sum_pow. set (l := concat ps). unfold q_sum, q_count, skew.
  rewrite !present_option_map. set (xs := present l).
  destruct (Qclt_le_dec (qlen xs) (Q2Qc 3)) as [E|E].
  - apply qlen_3 in E. apply Nat.ltb_lt in E. now rewrite E.
  - assert (L : (length xs <? 3)%nat = false).
    { apply Nat.ltb_ge. apply Nat.nlt_ge. intros X. apply qlen_3 in X. now apply Qcle_not_lt in E. }
    rewrite L. assert (N : xs <> nil) by (intros X; rewrite X in L; discriminate).
    rewrite (central_2 N), (central_3 N). reflexivity.
Qed.
