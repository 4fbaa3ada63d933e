(** Proofs for C58: the arithmetic, and the aggregations of one partition. *)
From Verif Require Import Base Table GridModel LabModel GroupSpec CorrSpec CorrModel GroupProofs7.
From Coq Require Import QArith Qcanon Permutation.
Open Scope nat_scope.

Notation num := (option Qc).

(** * Sums over the rows where both columns are present *)
Section Pairs.
  Implicit Types (x y : list num).
  Lemma qsum_cons a l : qsum (a :: l) = (a + qsum l)%Qc.
  Proof. reflexivity. Qed.
  Definition Msum (ps : list (Qc * Qc)) : Qc := qsum (map (fun p => (fst p * snd p)%Qc) ps).
  Definition Ssum (ps : list (Qc * Qc)) : Qc := qsum (map fst ps).
  Definition Qsum (ps : list (Qc * Qc)) : Qc := qsum (map (fun p => (fst p * fst p)%Qc) ps).

  Lemma both_cons a b x y : both (a :: x) (b :: y) = match a, b with Some p, Some q => [(p, q)] | _, _ => [] end ++ both x y.
  Proof. reflexivity. Qed.
  Lemma both_nil_l y : both [] y = []. Proof. reflexivity. Qed.
  Lemma both_nil_r x : both x [] = []. Proof. unfold both. now rewrite combine_nil. Qed.
  Lemma both_app x1 y1 x2 y2 : length x1 = length y1 -> both (x1 ++ x2) (y1 ++ y2) = both x1 y1 ++ both x2 y2.
  Proof. revert y1. induction x1 as [|a x1 IH]; intros [|b y1] E; try discriminate; [reflexivity|].
    cbn [app]. rewrite !both_cons, IH by now injection E. now rewrite app_assoc. Qed.
  Lemma both_swap x y : both y x = map (fun p => (snd p, fst p)) (both x y).
  Proof. revert y. induction x as [|a x IH]; intros [|b y]; rewrite ?both_nil_l, ?both_nil_r; auto.
    rewrite !both_cons, IH, map_app. now destruct a, b. Qed.
  Lemma Ssum_swap x y : Ssum (both y x) = qsum (map snd (both x y)).
  Proof. unfold Ssum. now rewrite both_swap, map_map. Qed.

  Lemma Msum_app p q : Msum (p ++ q) = (Msum p + Msum q)%Qc.
  Proof. unfold Msum. now rewrite map_app, qsum_app. Qed.
  Lemma Ssum_app p q : Ssum (p ++ q) = (Ssum p + Ssum q)%Qc.
  Proof. unfold Ssum. now rewrite map_app, qsum_app. Qed.
  Lemma Qsum_app p q : Qsum (p ++ q) = (Qsum p + Qsum q)%Qc.
  Proof. unfold Qsum. now rewrite map_app, qsum_app. Qed.

  (** centred sums from plain ones *)
  Lemma centred (ps : list (Qc * Qc)) (a b : Qc) :
    qsum (map (fun p => ((fst p - a) * (snd p - b))%Qc) ps)
    = (Msum ps - Ssum ps * b - a * qsum (map snd ps) + qlen ps * a * b)%Qc.
  Proof. unfold Msum, Ssum. induction ps as [|p ps IH].
    - cbn [map]. change (qsum []) with (Q2Qc 0). change (qlen []) with (Q2Qc 0). ring.
    - cbn [map]. rewrite !qsum_cons, IH, qlen_cons. ring. Qed.

  Lemma qlen_map {X Y} (f : X -> Y) l : qlen (map f l) = qlen l.
  Proof. unfold qlen. now rewrite map_length. Qed.

  Lemma dot_both x y : length x = length y -> dot (map zero_nan x) (map zero_nan y) = Msum (both x y).
  Proof. revert y. induction x as [|a x IH]; intros [|b y] E; try discriminate; [reflexivity|]. injection E as E.
    cbn [map]. unfold dot. rewrite map2_cons. rewrite both_cons, Msum_app, <- IH by exact E. unfold dot.
    rewrite qsum_cons.
    destruct a, b; cbn [zero_nan]; unfold Msum, qsum; cbn [map fold_right fst snd]; ring. Qed.

  Lemma putmask_both x y : length x = length y -> qsum (putmask (map zero_nan x) (map is_nan y)) = Ssum (both x y).
  Proof. revert y. induction x as [|a x IH]; intros [|b y] E; try discriminate; [reflexivity|]. injection E as E.
    cbn [map]. unfold putmask. rewrite map2_cons. rewrite both_cons, Ssum_app, <- IH by exact E. unfold putmask.
    rewrite qsum_cons.
    destruct a, b; cbn [zero_nan is_nan]; unfold Ssum, qsum; cbn [map fold_right fst snd]; ring. Qed.

  Lemma putmask_squares x y : length x = length y -> qsum (square (putmask (map zero_nan x) (map is_nan y))) = Qsum (both x y).
  Proof. revert y. induction x as [|a x IH]; intros [|b y] E; try discriminate; [reflexivity|]. injection E as E.
    cbn [map]. unfold putmask. rewrite map2_cons. rewrite both_cons, Qsum_app, <- IH by exact E. unfold putmask, square.
    cbn [map]. rewrite qsum_cons.
    destruct a, b; cbn [zero_nan is_nan]; unfold Qsum, qsum; cbn [map fold_right fst snd]; ring. Qed.

  Lemma count_both_nat x y : length x = length y ->
    length x = length (both x y) + length (filter (fun b => b) (map2 orb (map is_nan y) (map is_nan x))).
  Proof. revert y. induction x as [|a x IH]; intros [|b y] E; try discriminate; [reflexivity|]. injection E as E.
    cbn [map]. rewrite map2_cons. rewrite both_cons, app_length. cbn [length filter]. rewrite (IH y E).
    destruct a, b; cbn [is_nan orb length]; lia. Qed.
  Lemma count_both x y : length x = length y ->
    qz (Z.of_nat (length x) - Z.of_nat (length (filter (fun b => b) (map2 orb (map is_nan y) (map is_nan x))))) = qlen (both x y).
  Proof. intros E. unfold qz, qlen. do 2 f_equal. rewrite (count_both_nat _ _ E). lia. Qed.

  (** complete columns *)
  Definition complete x : Prop := existsb is_nan x = false.
  Lemma both_complete x y : length x = length y -> complete x -> complete y ->
    both x y = combine (map zero_nan x) (map zero_nan y).
  Proof. revert y. induction x as [|a x IH]; intros [|b y] E Cx Cy; try discriminate; [reflexivity|]. injection E as E.
    unfold complete in *. cbn in Cx, Cy. apply orb_false_iff in Cx, Cy. rewrite both_cons, (IH y E); try tauto.
    destruct a, b; cbn in Cx, Cy; try easy; destruct Cx, Cy; discriminate. Qed.
  Lemma map_fst_combine {X Y} (l : list X) (m : list Y) : length l = length m -> map fst (combine l m) = l.
  Proof. revert m. induction l as [|a l IH]; intros [|b m] E; try discriminate; cbn; auto. now rewrite IH by now injection E. Qed.
  Lemma Ssum_complete x y : length x = length y -> complete x -> complete y -> Ssum (both x y) = qsum (map zero_nan x).
  Proof. intros E Cx Cy. unfold Ssum. rewrite both_complete; auto. rewrite map_fst_combine; auto. now rewrite !map_length. Qed.
  Lemma Qsum_complete x y : length x = length y -> complete x -> complete y -> Qsum (both x y) = qsum (square (map zero_nan x)).
  Proof. intros E Cx Cy. unfold Qsum, square. rewrite both_complete; auto.
    rewrite <- (map_map fst (fun a => (a * a)%Qc)), map_fst_combine; auto. now rewrite !map_length. Qed.
  Lemma len_complete x y : length x = length y -> complete x -> complete y -> length (both x y) = length x.
  Proof. intros E Cx Cy. rewrite both_complete; auto. rewrite combine_length, !map_length. lia. Qed.
  Lemma qlen_complete x y : length x = length y -> complete x -> complete y -> qlen (both x y) = qlen (repeat tt (length x)).
  Proof. intros E Cx Cy. unfold qlen. now rewrite len_complete, repeat_length. Qed.
End Pairs.

(** * One cell of the result *)
Section Cell.
  Variable root : Qc -> Qc.
  Hypothesis root_0 : root (Q2Qc 0) = Q2Qc 0.

  Lemma std_devs (ps : list (Qc * Qc)) (f : Qc * Qc -> Qc) : qlen ps <> Q2Qc 0 ->
    let s := qsum (map f ps) in let m := (s / qlen ps)%Qc in
    std_of root (Some m) (Some s) (Some (qsum (map (fun p => (f p * f p)%Qc) ps))) (Some (qlen ps))
    = Some (root (deviations (map (fun p => (f p, f p)) ps))).
  Proof. intros Hn s m. unfold std_of, nadd, nsub, nmul, two, nan2. cbn [option_map]. f_equal. f_equal.
    unfold deviations. rewrite !map_map. cbn [fst snd]. rewrite qlen_map. fold s. fold m.
    rewrite <- (map_map (fun p => (f p, f p)) (fun p => ((fst p - m) * (snd p - m))%Qc)).
    rewrite centred. unfold Msum, Ssum. rewrite !map_map. cbn [fst snd]. rewrite qlen_map.
    change (map (fun x => f x) ps) with (map f ps). fold s. change (Q2Qc 2) with (1 + 1)%Qc. generalize m s. intros. ring. Qed.

  Lemma qltb_len {X} (l : list X) k : qltb (qlen l) (qlen (repeat tt k)) = (length l <? k).
  Proof. unfold qltb. destruct (Qclt_le_dec (qlen l) (qlen (repeat tt k))) as [H|H]; symmetry.
    - apply Nat.ltb_lt. unfold Qclt, qlen in H. cbn [this Q2Qc] in H. rewrite !Qred_correct, repeat_length in H.
      rewrite <- Zlt_Qlt in H. lia.
    - apply Nat.ltb_ge. unfold Qcle, qlen in H. cbn [this Q2Qc] in H. rewrite !Qred_correct, repeat_length in H.
      rewrite <- Zle_Qle in H. lia. Qed.

  Lemma cell_ok (x y : list num) (min_periods : nat) :
    let ps := both x y in
    let sa := Some (Ssum ps) in let sb := Some (qsum (map snd ps)) in
    let qa := Some (Qsum ps) in let qb := Some (qsum (map (fun p => (snd p * snd p)%Qc) ps)) in
    let n := Some (qlen ps) in
    let ma := ndiv sa n in let mb := ndiv sb n in
    (if qltb (qlen ps) (qlen (repeat tt min_periods)) then None
     else corr_of (Some (Msum ps)) sb ma mb sa n (std_of root mb sb qb n) (std_of root ma sa qa n))
    = correlation root min_periods x y.
  Proof.
    intros ps sa sb qa qb n ma mb. unfold correlation. fold ps. rewrite qltb_len.
    destruct (length ps <? min_periods); [reflexivity|].
    subst ma mb n. unfold ndiv, sa, sb. destruct (Qc_eq_dec (qlen ps) (Q2Qc 0)) as [E|E].
    - apply qlen_zero in E. rewrite E. cbn [map]. change (deviations []) with (Q2Qc 0). rewrite root_0.
      replace (Q2Qc 0 * Q2Qc 0)%Qc with (Q2Qc 0) by ring. destruct (Qc_eq_dec (Q2Qc 0) (Q2Qc 0)); [reflexivity|easy].
    - unfold Ssum. unfold qa, qb, Qsum. rewrite (@std_devs ps fst E), (@std_devs ps snd E).
      unfold corr_of, nadd, nsub, nmul, nan2, ndiv.
      rewrite (Qcmult_comm (root (deviations (map (fun p => (snd p, snd p)) ps)))).
      destruct (Qc_eq_dec _ (Q2Qc 0)); [reflexivity|]. do 2 f_equal.
      unfold deviations. rewrite centred. unfold Msum, Ssum. ring. Qed.
End Cell.
