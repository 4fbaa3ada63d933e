(** Removing rows and columns: marked positions; [drop]. *)
From Verif Require Import Base Table ChunkModel ChunkSpec GridModel GridSpec FrameSpec GridProofs GridProofs2 GridProofs3 GridProofs5 SelSpec SelModel
  SelProofs SelProofs2 SelProofs3 SelProofs4 SelProofs5 SelProofs6 SelProofs7 LocSpec LocModel LocProofs JoinModel JoinProofs3 RemSpec RemModel.

(** The positions marked true. *)
Definition marked_from (a : nat) (m : list bool) : list nat := map fst (filter snd (combine (seq a (length m)) m)).
Notation marked := (marked_from 0).
Lemma marked_cons a b m : marked_from a (b :: m) = if b then a :: marked_from (S a) m else marked_from (S a) m.
Proof. unfold marked_from. cbn [length seq combine filter snd]. now destruct b. Qed.
Lemma in_marked a m p : In p (marked_from a m) <-> a <= p /\ nth_error m (p - a) = Some true.
Proof. revert a. induction m as [|b m IH]; intros a; [cbn; split; [easy|]; intros [_ E]; now destruct (p - a)|].
  rewrite marked_cons. destruct b.
  - cbn [In]. rewrite IH. split.
    + intros [<-|[H1 H2]]; [now rewrite Nat.sub_diag|]. split; [lia|]. replace (p - a) with (S (p - S a)) by lia. exact H2.
    + intros [H1 H2]. destruct (Nat.eq_dec a p) as [|N]; [now left|right]. replace (p - a) with (S (p - S a)) in H2 by lia. split; [lia|exact H2].
  - rewrite IH. split.
    + intros [H1 H2]. split; [lia|]. replace (p - a) with (S (p - S a)) by lia. exact H2.
    + intros [H1 H2]. destruct (Nat.eq_dec a p) as [<-|N]; [rewrite Nat.sub_diag in H2; discriminate|]. replace (p - a) with (S (p - S a)) in H2 by lia. split; [lia|exact H2]. Qed.
Lemma marked_ge a m : Forall (fun p => a <= p) (marked_from a m).
Proof. apply Forall_forall. now intros p [H _]%in_marked. Qed.
Lemma marked_sorted a m : Sorted lt (marked_from a m).
Proof. revert a. induction m as [|b m IH]; intros a; [constructor|]. rewrite marked_cons. destruct b; [|apply IH].
  constructor; [apply IH|]. pose proof (marked_ge (S a) m) as F. destruct (marked_from (S a) m); constructor. inversion F; subst. lia. Qed.
Lemma marked_nodup a m : NoDup (marked_from a m).
Proof. revert a. induction m as [|b m IH]; intros a; [constructor|]. rewrite marked_cons. destruct b; [|apply IH].
  constructor; [|apply IH]. intros [H _]%in_marked. lia. Qed.
Lemma marked_bound m : Forall (fun p => p < length m) (marked m).
Proof. apply Forall_forall. intros p [_ E]%in_marked. rewrite Nat.sub_0_r in E. apply nth_error_Some. now rewrite E. Qed.
Lemma kept_pick {X} m (l : list X) : length m = length l -> kept m l = pick l (marked m).
Proof. intros E. assert (G : forall pre, kept m l = pick (pre ++ l) (marked_from (length pre) m)).
  { revert l E. induction m as [|b m IH]; intros [|x l] E pre; try discriminate; [reflexivity|]. cbn [kept]. rewrite marked_cons.
    specialize (IH l ltac:(now injection E) (pre ++ [x])). rewrite app_length in IH. cbn in IH. rewrite Nat.add_1_r, <- app_assoc in IH. cbn in IH.
    destruct b; [|exact IH]. rewrite pick_cons, nth_error_app2, Nat.sub_diag by lia. cbn. now f_equal. }
  apply (G []). Qed.
Lemma kept_length {X} m (l : list X) : length m = length l -> length (kept m l) = length (marked m).
Proof. intros E. rewrite kept_pick by exact E. apply pick_length. rewrite <- E. apply marked_bound. Qed.
Lemma kept_app {X} m1 m2 (l1 l2 : list X) : length m1 = length l1 -> kept (m1 ++ m2) (l1 ++ l2) = kept m1 l1 ++ kept m2 l2.
Proof. revert l1. induction m1 as [|b m1 IH]; intros [|x l1] E; try discriminate; [reflexivity|]. cbn [app kept]. injection E as E. rewrite (IH l1 E). now destruct b. Qed.
Lemma kept_map {X Y} (g : X -> Y) m l : kept m (map g l) = map g (kept m l).
Proof. revert l. induction m as [|b m IH]; intros [|x l]; try reflexivity. cbn [map kept]. rewrite IH. now destruct b. Qed.
Lemma kept_all {X} (l : list X) : kept (repeat true (length l)) l = l.
Proof. induction l as [|x l IH]; [reflexivity|]. cbn. now rewrite IH. Qed.
Lemma in_kept {X} m (l : list X) x : In x (kept m l) -> In x l.
Proof. revert l. induction m as [|b m IH]; intros [|y l] I; try easy. cbn in I. destruct b; [destruct I as [->|I]; [now left|]|]; right; auto. Qed.
(** how many of the first [a] are marked *)
Definition marks (m : list bool) : nat := length (filter (fun b => b) m).
Lemma marks_marked a m : length (marked_from a m) = marks m.
Proof. revert a. induction m as [|b m IH]; intros a; [reflexivity|]. rewrite marked_cons. unfold marks in *. cbn [filter]. destruct b; cbn [length]; now rewrite IH. Qed.
Lemma marks_app m1 m2 : marks (m1 ++ m2) = marks m1 + marks m2.
Proof. unfold marks. now rewrite filter_app, app_length. Qed.
Lemma kept_marks {X} m (l : list X) : length m = length l -> length (kept m l) = marks m.
Proof. intros E. rewrite kept_length by exact E. apply marks_marked. Qed.

Section KeepTables.
  Context {L H A : Type}.
  Notation dframe := (df L H A).
  Lemma keep_take2d mr mc (d : dframe) : wf d -> length mr = nrows d -> length mc = ncols d ->
    keep_rows mr (keep_columns mc d) = take2d (marked mr) (marked mc) d.
  Proof. intros [W1 W2] Er Ec. unfold keep_rows, keep_columns, take2d. cbn [dindex dcols dcells]. f_equal.
    - now apply kept_pick.
    - now apply kept_pick.
    - rewrite kept_map. rewrite kept_pick by (rewrite Er; unfold nrows in *; lia). apply map_ext_in. intros r I. apply kept_pick.
      apply (Forall_pick (marked mr)) in W2. rewrite Forall_forall in W2. rewrite (W2 r I). exact Ec. Qed.
End KeepTables.

(** * drop *)
Section Drop.
  Context {L A : Type}.
  Variable leqb : L -> L -> bool.
  Hypothesis leqb_ok : forall x y, leqb x y = true <-> x = y.
  Variable order : list L -> list L.
  Hypothesis order_ok : forall l, Permutation (order l) l.
  Notation difference := (difference leqb order).

  Lemma inb_in l ls : inb leqb l ls = true <-> In l ls.
  Proof. unfold inb. rewrite existsb_exists. split; [intros (x & I & E)|intros I; exists l]; [|split; auto; now apply leqb_ok]. apply leqb_ok in E. now subst. Qed.
  Lemma distinct_in ls l : In l (distinct leqb ls) <-> In l ls.
  Proof. induction ls as [|x ls IH]; [reflexivity|]. cbn [distinct In]. rewrite filter_In, IH. split; [tauto|]. intros [->|I]; [now left|].
    destruct (leqb x l) eqn:E; [left; now apply leqb_ok|right; auto]. Qed.
  Lemma distinct_nodup ls : NoDup (distinct leqb ls).
  Proof. induction ls as [|x ls IH]; [constructor|]. cbn [distinct]. constructor; [|now apply NoDup_filter].
    intros [_ E]%filter_In. assert (X : leqb x x = true) by now apply leqb_ok. now rewrite X in E. Qed.
  Lemma difference_in a b l : In l (difference a b) <-> In l a /\ ~ In l b.
  Proof. unfold RemModel.difference. assert (P := order_ok (filter (fun l => negb (inb leqb l b)) (distinct leqb a))).
    split.
    - intros I. apply (Permutation_in _ P) in I. apply filter_In in I as [I E]. split; [now apply distinct_in|].
      intros J. apply inb_in in J. now rewrite J in E.
    - intros [I N]. apply (Permutation_in _ (Permutation_sym P)). apply filter_In. split; [now apply distinct_in|].
      destruct (inb leqb l b) eqn:E; [|reflexivity]. exfalso. now apply N, inb_in. Qed.
  Lemma difference_nodup a b : NoDup (difference a b).
  Proof. eapply Permutation_NoDup; [symmetry; apply order_ok|]. apply NoDup_filter, distinct_nodup. Qed.

  Lemma sorted_lt_le l : Sorted lt l -> Sorted Z.le (map Z.of_nat l).
  Proof. induction 1 as [|x l S IH Hd]; [constructor|]. cbn. constructor; [exact IH|]. destruct Hd; constructor. lia. Qed.

  Lemma remaining_ok labels ls :
    np_sort (get_indexer leqb labels (difference labels ls)) = map Z.of_nat (marked (without leqb labels ls)).
  Proof.
    set (D := difference labels ls).
    assert (G : get_indexer leqb labels D = map Z.of_nat (concat (map (everywhere leqb labels) D))).
    { unfold get_indexer. rewrite concat_map, map_map. f_equal. apply map_ext_in. intros l I.
      destruct (everywhere leqb labels l) eqn:E; [|reflexivity]. exfalso. apply difference_in in I as [I _]. apply In_nth_error in I as (p & Hp).
      apply (everywhere_in leqb leqb_ok) in Hp. now rewrite E in Hp. }
    rewrite G. apply (sorted_perm_unique (R:=Z.le)).
    - intros x y z; lia.
    - intros x y; lia.
    - apply np_sort_sorted.
    - apply sorted_lt_le, marked_sorted.
    - etransitivity; [symmetry; apply np_sort_perm|]. apply Permutation_map. apply NoDup_Permutation.
      + assert (ND := difference_nodup labels ls). fold D in ND. clear G. clearbody D. induction D as [|l D' IH]; [constructor|].
        inversion ND as [|? ? N1 N2]; subst. cbn [map concat].
        assert (E : forall x (y : list nat), NoDup x -> NoDup y -> (forall p, In p x -> ~ In p y) -> NoDup (x ++ y)).
        { induction x as [|a x IHx]; intros y Nx Ny Dj; cbn; [exact Ny|]. inversion Nx; subst. constructor.
          - intros [I|I]%in_app_or; [easy|]. now apply (Dj a (or_introl eq_refl)).
          - apply IHx; auto. intros p I. apply Dj. now right. }
        apply E.
        * unfold everywhere. clear. generalize 0. induction labels as [|x tl IH]; intros a; cbn; [constructor|].
          destruct (leqb x l); cbn; [|apply IH]. constructor; [|apply IH]. intros ((q & y) & E & [I _]%filter_In)%in_map_iff. cbn in E. subst q.
          apply in_combine_l, in_seq in I. lia.
        * apply IH; auto. 
        * intros p I J. apply in_concat in J as (x & (l' & <- & I')%in_map_iff & J). apply (everywhere_in leqb leqb_ok) in I, J. rewrite I in J. injection J as ->. easy.
      + apply marked_nodup.
      + intros p. rewrite in_concat, in_marked. rewrite Nat.sub_0_r. unfold without. rewrite nth_error_map. split.
        * intros (x & (l & <- & I)%in_map_iff & J). apply (everywhere_in leqb leqb_ok) in J. split; [lia|]. rewrite J. cbn. f_equal.
          apply difference_in in I as [_ N]. destruct (inb leqb l ls) eqn:E; [|reflexivity]. now apply inb_in in E.
        * intros [_ E]. destruct (nth_error labels p) as [l|] eqn:Ep; [|discriminate]. cbn in E. injection E as E.
          exists (everywhere leqb labels l). split; [|now apply (everywhere_in leqb leqb_ok)]. apply in_map. apply difference_in. split; [now apply nth_error_In in Ep|].
          intros I. apply inb_in in I. now rewrite I in E. Qed.

  Lemma without_length labels ls : length (without leqb labels ls) = length labels.
  Proof. apply map_length. Qed.

  (** the labels one axis is searched for after the checks *)
  Lemma check_ok raise_ labels k ls : (forall l, In l (as_list k) -> In l labels) \/ raise_ = false ->
    ls = as_list k ->
    exists o, check leqb order raise_ labels (Some k) = Ok o
      /\ without leqb labels (match o with Some l => l | None => [] end) = without leqb labels ls.
  Proof. intros C ->. cbn [check]. destruct raise_.
    - destruct C as [C|]; [|discriminate]. destruct (difference (as_list k) labels) as [|l r] eqn:E.
      + eexists. split; reflexivity.
      + exfalso. assert (I : In l (difference (as_list k) labels)) by (rewrite E; now left). apply difference_in in I as [I N]. auto.
    - assert (W : forall fs, fs = filter (fun l => inb leqb l labels) (as_list k) -> without leqb labels fs = without leqb labels (as_list k)).
      { intros fs ->. unfold without. apply map_ext_in. intros l I. f_equal. apply eq_true_iff_eq. rewrite !inb_in, filter_In, inb_in. tauto. }
      destruct (filter _ _) as [|l r] eqn:E; eexists; (split; [reflexivity|]); now apply W. Qed.
  Lemma check_missing labels k l : In l (as_list k) -> ~ In l labels -> check leqb order true labels (Some k) = Err KeyError.
  Proof. intros I N. cbn [check]. destruct (difference (as_list k) labels) as [|x r] eqn:E; [|reflexivity]. exfalso.
    assert (J : In l (difference (as_list k) labels)) by now apply difference_in. now rewrite E in J. Qed.
  Lemma without_nil labels : without leqb labels [] = repeat true (length labels).
  Proof. unfold without. induction labels as [|l labels IH]; [reflexivity|]. cbn in *. now rewrite IH. Qed.
  Lemma marked_true a n : marked_from a (repeat true n) = seq a n.
  Proof. revert a. induction n as [|n IH]; intros a; [reflexivity|]. cbn [repeat seq]. now rewrite marked_cons, IH. Qed.
  Lemma remaining_selects labels o : selects (length labels) (remaining leqb order labels o)
    (marked (without leqb labels (match o with Some l => l | None => [] end))).
  Proof. destruct o as [ls|]; cbn [remaining option_map selects].
    - split; [exact I|]. split; [cbn [ipos]; apply remaining_ok|]. rewrite <- (without_length labels ls). apply marked_bound.
    - now rewrite without_nil, marked_true. Qed.
End Drop.
