(** read_csv against pandas: skipped lines, header and nrows. *)
From Coq Require Import Permutation Sorting.Sorted.
From Verif Require Import Base Table ChunkModel CsvSpec CsvModel CsvProofs CsvProofs2.

(* ---------------- dropping lines ---------------- *)
Section Drop.
  Context {X : Type}.
  Implicit Types (l : list X) (f g : nat -> bool).

  Lemma drop_lines_ext : forall l f g i, (forall j, i <= j < i + length l -> f j = g j) ->
    drop_lines f i l = drop_lines g i l.
  Proof.
    induction l as [|x l IH]; intros f g i H; [reflexivity|]. cbn [drop_lines length] in *.
    rewrite (H i) by lia. rewrite (IH f g (S i)); [reflexivity|]. intros j Hj. apply H. lia.
  Qed.
  Lemma drop_lines_none : forall (l : list X) (i : nat), drop_lines (fun _ => false) i l = l.
  Proof. induction l; intros; simpl; [|rewrite IHl]; reflexivity. Qed.
  Lemma drop_lines_all : forall (l : list X) (i : nat), drop_lines (fun _ => true) i l = [].
  Proof. induction l; intros; simpl; auto. Qed.
  Lemma drop_lines_app : forall (a b : list X) f i,
    drop_lines f i (a ++ b) = drop_lines f i a ++ drop_lines f (i + length a) b.
  Proof.
    induction a as [|x a IH]; intros b f i; cbn [app drop_lines length].
    - rewrite Nat.add_0_r. reflexivity.
    - rewrite (IH b f (S i)). replace (i + S (length a)) with (S i + length a) by lia.
      destruct (f i); reflexivity.
  Qed.
  Lemma drop_lines_shift : forall l f h i,
    drop_lines (fun x => f (x + h)) i l = drop_lines f (i + h) l.
  Proof. induction l; intros; cbn [drop_lines]; [reflexivity|]. rewrite !IHl. reflexivity. Qed.
  Lemma drop_lines_split : forall l f n,
    drop_lines f 0 l = drop_lines f 0 (firstn n l) ++ drop_lines f n (skipn n l).
  Proof.
    intros l f n. destruct (le_lt_dec n (length l)) as [H|H].
    - rewrite <- (firstn_skipn n l) at 1. rewrite drop_lines_app. simpl.
      rewrite firstn_length. replace (min n (length l)) with n by lia. reflexivity.
    - rewrite firstn_all2, skipn_all2 by lia. cbn [drop_lines]. rewrite app_nil_r. reflexivity.
  Qed.
  Lemma drop_lines_range : forall l a m,
    drop_lines (fun i => (a <=? i) && (i <? a + m)) 0 l = firstn a l ++ skipn (a + m) l.
  Proof.
    intros l a m. rewrite (drop_lines_split l _ a).
    rewrite (@drop_lines_ext (firstn a l) _ (fun _ => false)).
    2: { intros j Hj. rewrite firstn_length in Hj. destruct (a <=? j) eqn:E; [|reflexivity].
         apply Nat.leb_le in E. lia. }
    rewrite drop_lines_none. f_equal.
    rewrite <- (firstn_skipn m (skipn a l)) at 1. rewrite drop_lines_app.
    rewrite (@drop_lines_ext (firstn m (skipn a l)) _ (fun _ => true)).
    2: { intros j Hj. rewrite firstn_length in Hj. apply andb_true_iff.
         rewrite Nat.leb_le, Nat.ltb_lt. lia. }
    rewrite drop_lines_all. cbn [app]. rewrite skipn_skipn'.
    destruct (le_lt_dec (a + m) (length l)) as [H|H].
    - rewrite firstn_length, skipn_length.
      rewrite (@drop_lines_ext _ _ (fun _ => false)).
      2: { intros j Hj. apply andb_false_iff. right. apply Nat.ltb_ge. lia. }
      apply drop_lines_none.
    - rewrite (@skipn_all2 _ (a + m)) by lia. reflexivity.
  Qed.
  Lemma drop_lines_first : forall l k, drop_lines (fun i => i <? k) 0 l = skipn k l.
  Proof.
    intros. rewrite (@drop_lines_ext _ _ (fun i => (0 <=? i) && (i <? 0 + k))); [|reflexivity].
    apply drop_lines_range.
  Qed.
  Lemma drop_lines_Forall : forall l f i (P : X -> Prop), Forall P l -> Forall P (drop_lines f i l).
  Proof.
    induction l; intros f i P H; cbn [drop_lines]; [constructor|].
    apply Forall_inv in H as H0. apply Forall_inv_tail in H. destruct (f i); auto.
  Qed.
  Lemma drop_lines_length : forall l f i, length (drop_lines f i l) <= length l.
  Proof. induction l; intros; cbn [drop_lines]; [lia|]. specialize (IHl f (S i)). destruct (f i); simpl; lia. Qed.
End Drop.

(* ---------------- sorting ---------------- *)
Lemma insert_perm : forall x l, Permutation (x :: l) (insert x l).
Proof.
  induction l as [|y l IH]; simpl; [reflexivity|]. destruct (x <=? y); [reflexivity|].
  etransitivity; [apply perm_swap|]. constructor. exact IH.
Qed.
Lemma np_sort_perm : forall l, Permutation l (np_sort l).
Proof.
  induction l as [|x l IH]; simpl; [constructor|]. etransitivity; [|apply insert_perm]. constructor. exact IH.
Qed.
Lemma insert_sorted : forall x l, Sorted le l -> Sorted le (insert x l).
Proof.
  induction l as [|y l IH]; intros H; simpl; [repeat constructor|].
  destruct (x <=? y) eqn:E.
  - apply Nat.leb_le in E. constructor; [exact H|constructor; exact E].
  - apply Nat.leb_gt in E. inversion H; subst. constructor; [auto|].
    destruct l as [|z l]; simpl; [constructor; lia|].
    destruct (x <=? z); constructor; [lia|]. inversion H3; subst; lia.
Qed.
Lemma np_sort_sorted : forall l, Sorted le (np_sort l).
Proof. induction l; simpl; [constructor|]. apply insert_sorted; exact IHl. Qed.
Lemma np_sort_hd_le : forall l x, In x l -> hd 0 (np_sort l) <= x.
Proof.
  intros l x H. apply (Permutation_in _ (np_sort_perm l)) in H.
  pose proof (np_sort_sorted l) as S. apply Sorted_StronglySorted in S; [|unfold Relations_1.Transitive; intros; lia].
  destruct (np_sort l) as [|y t]; [destruct H|]. simpl. inversion S; subst.
  destruct H as [->|H]; [lia|]. rewrite Forall_forall in H3. apply H3. exact H.
Qed.
Lemma np_sort_hd_in : forall l, l <> [] -> In (hd 0 (np_sort l)) l.
Proof.
  intros l H. apply (Permutation_in _ (Permutation_sym (np_sort_perm l))).
  destruct (np_sort l) eqn:E; [|left; reflexivity].
  pose proof (np_sort_perm l) as P. rewrite E in P. apply Permutation_sym, Permutation_nil in P. congruence.
Qed.
Lemma uniform_seq : forall l, uniform l = true -> l = seq (hd 0 l) (length l).
Proof.
  induction l as [|x l IH]; intros H; [reflexivity|]. cbn [hd length seq]. f_equal.
  destruct l as [|y l]; [reflexivity|]. cbn [uniform] in H. apply andb_true_iff in H as [H1 H2].
  apply Nat.eqb_eq in H1. subst y. apply IH in H2. exact H2.
Qed.
Lemma existsb_perm : forall (f : nat -> bool) l l', Permutation l l' -> existsb f l = existsb f l'.
Proof.
  induction 1; simpl; auto.
  - rewrite IHPermutation. reflexivity.
  - destruct (f x), (f y); reflexivity.
  - congruence.
Qed.
Lemma existsb_seq : forall i a m, existsb (Nat.eqb i) (seq a m) = (a <=? i) && (i <? a + m).
Proof.
  intros. apply eq_true_iff_eq. rewrite existsb_exists, andb_true_iff, Nat.leb_le, Nat.ltb_lt. split.
  - intros (x & H & E). apply Nat.eqb_eq in E. subst x. apply in_seq in H. lia.
  - intros H. exists i. split; [apply in_seq; lia|apply Nat.eqb_refl].
Qed.

Section Csv.
  Context {B : Type}.
  Variable nl q : B -> bool.
  Variable is_quoting : bool.
  Variable file : list B.
  Variable is_row : list B -> bool.
  Notation Q := (qq q is_quoting).
  Notation records := (records nl Q).
  Notation R := (records file).
  Notation rows_ok := (Forall (fun r => is_row r = true)).

  Lemma skipn_filter : forall h (l : list (list B)), rows_ok (firstn h l) ->
    skipn h (filter is_row l) = filter is_row (skipn h l).
  Proof.
    induction h as [|h IH]; intros l H; [reflexivity|]. destruct l as [|r l]; [reflexivity|].
    cbn [firstn] in H. apply Forall_inv in H as H0. apply Forall_inv_tail in H. simpl. rewrite H0. apply IH. exact H.
  Qed.
  Lemma firstn_filter : forall h (l : list (list B)), rows_ok (firstn h l) ->
    firstn h (filter is_row l) = firstn h l.
  Proof.
    induction h as [|h IH]; intros l H; [reflexivity|]. destruct l as [|r l]; [reflexivity|].
    cbn [firstn] in H. apply Forall_inv in H as H0. apply Forall_inv_tail in H. simpl. rewrite H0. simpl.
    f_equal. apply IH. exact H.
  Qed.

  (** With nrows, the lines counted must all be rows. *)
  Definition counted (nrows : option nat) (l : list (list B)) : Prop :=
    match nrows with None => True | Some n => 0 < n /\ rows_ok (firstn n l) end.

  Lemma counted_rows : forall nrows l, counted nrows l ->
    filter is_row (take_n nrows 0 l) = first_rows nrows (filter is_row l).
  Proof.
    intros [[|n]|] l H; [destruct H; lia| |reflexivity]. destruct H as [_ H]. cbn [take_n first_rows].
    rewrite Nat.sub_0_r, firstn_filter, filter_all by exact H. reflexivity.
  Qed.

  Variable enc names usecols : bool.
  Variable h : nat.

  Definition lines_before_ok : Prop :=
    Forall (fun r => one_line nl r /\ is_row r = true) (firstn h R) /\
    (enc = true -> forall r, hd_error R = Some r -> one_line nl r /\ complete nl Q r).

  Lemma worker_header_ok : lines_before_ok -> forall b : bool,
    header_ok nl q is_quoting file is_row enc (if b then 0 else h).
  Proof.
    intros [H1 H2] b. split.
    - destruct b; [constructor|exact H1].
    - intros He _. apply H2. exact He.
  Qed.

  Variable np : nat.
  Notation read := (read_csv nl q file is_row np is_quoting enc names usecols).
  Notation spec a nrows := (pandas_rows nl Q is_row (skips a) h nrows file).

  Lemma le_if : forall (b : bool) x, (if b then 0 else h) <= x + h.
  Proof. intros []; lia. Qed.

  Lemma read_plain : forall a k nrows, lines_before_ok ->
    manage_skiprows a h = (MdNone, 0, k) ->
    skiprows_supported a MdNone h = true ->
    skipn h (drop_lines (skips a) 0 R) = skipn (k + h) R ->
    rows_ok (firstn h (drop_lines (skips a) 0 R)) ->
    counted nrows (skipn (k + h) R) ->
    read a h nrows = Ok (spec a nrows).
  Proof.
    intros a k nrows Hl Hm Hs Hk Hh Hc. unfold read_csv. rewrite Hm, Hs. cbn [negb].
    rewrite partition_rows_plain; [|apply worker_header_ok; exact Hl|apply le_if].
    unfold pandas_rows. rewrite skipn_filter, Hk by exact Hh. f_equal. apply counted_rows. exact Hc.
  Qed.

  Theorem read_none : forall nrows, lines_before_ok -> counted nrows (skipn h R) ->
    read SkipNone h nrows = Ok (spec SkipNone nrows).
  Proof.
    intros nrows H1 H2.
    assert (E : drop_lines (skips SkipNone) 0 R = R) by apply drop_lines_none.
    apply read_plain with (k := 0); auto; rewrite E; [reflexivity|].
    eapply Forall_impl; [|apply H1]. simpl. tauto.
  Qed.

  Theorem read_int : forall k nrows, lines_before_ok -> rows_ok (firstn h (skipn k R)) ->
    counted nrows (skipn (k + h) R) -> read (SkipInt k) h nrows = Ok (spec (SkipInt k) nrows).
  Proof.
    intros k nrows H1 H2 H3.
    assert (E : drop_lines (skips (SkipInt k)) 0 R = skipn k R) by apply drop_lines_first.
    apply read_plain with (k := k); auto; rewrite E; [apply skipn_skipn'|exact H2].
  Qed.

  Lemma contiguous_skips : forall l a m, Permutation l (seq a m) -> forall i,
    skips (SkipList l) i = (a <=? i) && (i <? a + m).
  Proof. intros l a m P i. cbn [skips]. rewrite (existsb_perm _ P). apply existsb_seq. Qed.

  Lemma sort_of_seq : forall l a m, Permutation l (seq a (S m)) -> np_sort l = seq a (S m).
  Proof.
    intros l a m P.
    assert (S1 : StronglySorted le (np_sort l)).
    { apply Sorted_StronglySorted; [unfold Relations_1.Transitive; intros; lia|apply np_sort_sorted]. }
    assert (S2 : forall n b, StronglySorted le (seq b n)).
    { clear. induction n; intros b; simpl; constructor; auto. apply Forall_forall. intros x H. apply in_seq in H. lia. }
    assert (P2 : Permutation (np_sort l) (seq a (S m))).
    { etransitivity; [apply Permutation_sym, np_sort_perm|exact P]. }
    revert S1 P2. generalize (np_sort l) as l1. specialize (S2 (S m) a). revert S2.
    generalize (seq a (S m)) as l2. clear.
    intros l2. induction l2 as [|x l2 IH]; intros S2 l1 S1 P.
    - apply Permutation_sym, Permutation_nil in P. exact P.
    - destruct l1 as [|y l1]; [apply Permutation_nil in P; discriminate|].
      inversion S1; inversion S2; subst. rewrite Forall_forall in *.
      assert (x = y).
      { assert (In x (y :: l1)) as Hx by (apply (Permutation_in _ (Permutation_sym P)); left; reflexivity).
        assert (In y (x :: l2)) as Hy by (apply (Permutation_in _ P); left; reflexivity).
        destruct Hx as [|Hx]; [auto|]. destruct Hy as [|Hy]; [auto|].
        specialize (H2 _ Hx). specialize (H6 _ Hy). lia. }
      subst y. f_equal. apply IH; auto. apply Permutation_cons_inv in P. exact P.
  Qed.

  Lemma uniform_of_seq : forall m a, uniform (seq a m) = true.
  Proof.
    induction m as [|m IH]; intros a; [reflexivity|]. destruct m as [|m]; [reflexivity|].
    cbn [seq uniform]. rewrite Nat.eqb_refl. apply (IH (S a)).
  Qed.

  Lemma manage_contiguous : forall l a m, Permutation l (seq a (S m)) ->
    manage_skiprows (SkipList l) h = (MdNone, (if h <? a then a - h else 0), S m).
  Proof.
    intros l a m P. cbn [manage_skiprows]. destruct l as [|x l'] eqn:El.
    { apply Permutation_nil in P. discriminate. }
    rewrite <- El in *. rewrite (sort_of_seq P), uniform_of_seq.
    rewrite seq_length. reflexivity.
  Qed.

  Lemma skipn_gap : forall (l : list (list B)) a m,
    skipn h (firstn a l ++ skipn (a + m) l) =
    if h <? a then firstn (a - h) (skipn h l) ++ skipn (a + m) l else skipn (m + h) l.
  Proof.
    intros l a m. rewrite skipn_app, skipn_firstn_comm, firstn_length.
    destruct (h <? a) eqn:E.
    - apply Nat.ltb_lt in E. f_equal. destruct (le_lt_dec (length l) (a + m)).
      + rewrite (@skipn_all2 _ (a + m)) by lia. apply skipn_nil.
      + replace (h - min a (length l)) with 0 by lia. reflexivity.
    - apply Nat.ltb_ge in E. replace (a - h) with 0 by lia. cbn [firstn app].
      rewrite skipn_skipn'. destruct (le_lt_dec a (length l)).
      + f_equal. lia.
      + rewrite !skipn_all2 by lia. reflexivity.
  Qed.

  (** [skiprows] a list of consecutive line numbers (in any order). *)
  Theorem read_contiguous : forall l a m nrows, Permutation l (seq a (S m)) -> lines_before_ok ->
    rows_ok (firstn h (drop_lines (skips (SkipList l)) 0 R)) ->
    counted nrows (skipn h (drop_lines (skips (SkipList l)) 0 R)) ->
    (h < a -> forall n, nrows = Some n -> a - h <= n) ->
    read (SkipList l) h nrows = Ok (spec (SkipList l) nrows).
  Proof.
    intros l a m nrows P Hl Hh Hc Hn.
    assert (E : drop_lines (skips (SkipList l)) 0 R = firstn a R ++ skipn (a + S m) R).
    { rewrite <- drop_lines_range. apply drop_lines_ext. intros j _. eapply contiguous_skips; exact P. }
    destruct (h <? a) eqn:Ea.
    - unfold read_csv. rewrite (@manage_contiguous l a m P), Ea. cbn [skiprows_supported negb].
      apply Nat.ltb_lt in Ea as Ea'.
      rewrite partition_rows_pre; [|apply worker_header_ok; exact Hl| |lia].
      2: { destruct (uses_inferred _ _ _); lia. }
      unfold pandas_rows. rewrite skipn_filter by exact Hh. f_equal. rewrite E, skipn_gap, Ea in *.
      replace (h + (a - h) + S m) with (a + S m) by lia.
      set (A := firstn (a - h) (skipn h R)) in *. set (C := skipn (a + S m) R) in *.
      assert (HA : length A = min (a - h) (length (skipn h R))) by (unfold A; apply firstn_length).
      rewrite <- HA. destruct nrows as [[|n]|].
      + destruct Hc; lia.
      + cbn [counted] in Hc. destruct Hc as [_ Hc]. cbn [take_n first_rows].
        rewrite firstn_filter by exact Hc. rewrite <- filter_app.
        assert (Hlen : length A <= S n) by (specialize (Hn Ea' (S n) eq_refl); lia).
        rewrite firstn_app, (@firstn_all2 _ (S n) A) by exact Hlen.
        rewrite firstn_app, (@firstn_all2 _ (S n) A) in Hc by exact Hlen. apply filter_all. exact Hc.
      + cbn [take_n first_rows]. rewrite filter_app. reflexivity.
    - apply read_plain with (k := S m); auto.
      + rewrite (@manage_contiguous l a m P), Ea. reflexivity.
      + rewrite E, skipn_gap, Ea. reflexivity.
      + rewrite E, skipn_gap, Ea in Hc. exact Hc.
  Qed.

  Lemma first_take : forall nrows (l : list (list B)), nrows <> Some 0 ->
    match nrows with Some (S _ as n) => firstn n l | _ => l end = first_rows nrows l.
  Proof. intros [[|n]|] l H; [congruence|reflexivity|reflexivity]. Qed.

  Lemma manage_list : forall l, l <> [] -> manage_skiprows (SkipList l) h =
    (if uniform (np_sort l)
     then (MdNone, (if h <? hd 0 (np_sort l) then hd 0 (np_sort l) - h else 0), length (np_sort l))
     else if h <? hd 0 (np_sort l) then (MdList (map (fun x => x - h) (np_sort l)), 0, 0)
     else (MdList (np_sort l), 0, 0)).
  Proof. intros [|x l] H; [congruence|reflexivity]. Qed.

  (** [skiprows] any other list of line numbers after the header. *)
  Theorem read_spread : forall l nrows, lines_before_ok ->
    uniform (np_sort l) = false -> (forall x, In x l -> (h < x \/ h = 0) /\ x < length R) ->
    rows_ok R -> nrows <> Some 0 ->
    read (SkipList l) h nrows = Ok (spec (SkipList l) nrows).
  Proof.
    intros l nrows Hl Hu Hx Hr Hn.
    assert (Hne : l <> []) by (intros ->; discriminate).
    set (md := np_sort l) in *.
    assert (Hmd0 : h < hd 0 md \/ h = 0).
    { destruct (Hx (hd 0 md)) as [H _]; [apply np_sort_hd_in; exact Hne|exact H]. }
    assert (Hm : manage_skiprows (SkipList l) h = (MdList (map (fun x => x - h) md), 0, 0)).
    { rewrite (manage_list Hne). fold md. rewrite Hu. destruct (h <? hd 0 md) eqn:E; [reflexivity|]. apply Nat.ltb_ge in E.
      destruct Hmd0 as [|H0]; [lia|]. do 3 f_equal. rewrite H0. clear. induction md; simpl; f_equal; auto; lia. }
    unfold read_csv. rewrite Hm. destruct (skiprows_supported _ _ h); cbn [negb]; [|reflexivity].
    rewrite partition_rows_plain; [|apply worker_header_ok; exact Hl|apply le_if]. cbn [take_n Nat.add].
    assert (Hd : rows_ok (skipn h R)).
    { rewrite <- (firstn_skipn h R) in Hr. apply Forall_app in Hr. tauto. }
    rewrite filter_all by exact Hd. unfold delete_positions.
    assert (Hin : forall x, In x md -> In x l).
    { intros x. apply Permutation_in, Permutation_sym, np_sort_perm. }
    assert (Hlen : existsb (fun i => length (skipn h R) <=? i) (map (fun x => x - h) md) = false).
    { apply not_true_iff_false. rewrite existsb_exists. intros (i & Hi & E). apply in_map_iff in Hi as (x & <- & Hi).
      apply Hin, Hx in Hi. rewrite skipn_length in E. apply Nat.leb_le in E. lia. }
    rewrite Hlen. cbn [rbind]. rewrite first_take by exact Hn. unfold pandas_rows. do 2 f_equal.
    rewrite filter_all by (apply drop_lines_Forall; exact Hr).
    rewrite (drop_lines_split R _ h).
    assert (Hfl : h <= length R).
    { destruct l as [|x l']; [congruence|]. destruct (Hx x) as [? ?]; [left; reflexivity|]. lia. }
    rewrite (@drop_lines_ext _ (firstn h R) _ (fun _ => false)).
    2: { intros j Hj. rewrite firstn_length in Hj. apply not_true_iff_false. cbn [skips].
         rewrite existsb_exists. intros (x & Hi & E). apply Nat.eqb_eq in E. subst x. apply Hx in Hi. lia. }
    rewrite drop_lines_none, skipn_app, (@skipn_all2 _ h (firstn h R)) by (rewrite firstn_length; lia).
    rewrite firstn_length. replace (h - min h (length R)) with 0 by lia. cbn [app skipn].
    etransitivity; [|exact (drop_lines_shift (skipn h R) (skips (SkipList l)) h 0)]. apply drop_lines_ext.
    intros j _. cbn [skips]. rewrite (existsb_perm _ (np_sort_perm l)). fold md.
    apply eq_true_iff_eq. rewrite !existsb_exists. split.
    - intros (y & Hy & E). apply Nat.eqb_eq in E. subst y. apply in_map_iff in Hy as (x & E & Hy).
      exists x. split; [exact Hy|]. apply Nat.eqb_eq. apply Hin, Hx in Hy. lia.
    - intros (x & Hy & E). apply Nat.eqb_eq in E. exists (x - h). split; [|apply Nat.eqb_eq; lia].
      apply in_map_iff. exists x. auto.
  Qed.

  (** [skiprows] a predicate on line numbers. *)
  Theorem read_callable : forall f nrows, lines_before_ok -> rows_ok R -> nrows <> Some 0 ->
    read (SkipFun f) h nrows = Ok (spec (SkipFun f) nrows).
  Proof.
    intros f nrows Hl Hr Hn. unfold read_csv. cbn [manage_skiprows skiprows_supported].
    destruct (existsb f (seq 0 h)) eqn:Ef; cbn [negb]; [reflexivity|].
    rewrite partition_rows_plain; [|apply worker_header_ok; exact Hl|apply le_if]. cbn [take_n Nat.add].
    assert (Hd : rows_ok (skipn h R)).
    { rewrite <- (firstn_skipn h R) in Hr. apply Forall_app in Hr. tauto. }
    rewrite filter_all by exact Hd. rewrite first_take by exact Hn. unfold pandas_rows. do 2 f_equal.
    rewrite filter_all by (apply drop_lines_Forall; exact Hr). cbn [skips].
    rewrite (drop_lines_split R _ h), (@drop_lines_ext _ (firstn h R) _ (fun _ => false)).
    2: { intros j Hj. rewrite firstn_length in Hj. cbn [skips]; destruct (f j) eqn:E; [|reflexivity].
         assert (existsb f (seq 0 h) = true) as He; [|congruence].
         apply existsb_exists. exists j. split; [apply in_seq; lia|exact E]. }
    rewrite drop_lines_none. destruct (le_lt_dec h (length R)) as [Hle|Hgt].
    - rewrite skipn_app, (@skipn_all2 _ h (firstn h R)) by (rewrite firstn_length; lia).
      rewrite firstn_length. replace (h - min h (length R)) with 0 by lia. cbn [app skipn].
      apply (drop_lines_shift (skipn h R) f h 0).
    - rewrite (@skipn_all2 _ h R) by lia. cbn [drop_lines]. rewrite app_nil_r, skipn_all2; [reflexivity|].
      rewrite firstn_length. lia.
  Qed.
End Csv.
