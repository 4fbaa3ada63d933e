From Verif Require Import Base Table ChunkModel ChunkSpec ChunkProofs GridModel GridSpec FrameSpec GridProofs GridProofs2 GridProofs3 SelSpec SelModel SelProofs.

(** * Sorted lists *)
Lemma sorted_perm_unique {X} (R : X -> X -> Prop) (l1 : list X) :
  (forall x y z, R x y -> R y z -> R x z) -> (forall x y, R x y -> R y x -> x = y) ->
  forall l2, Sorted R l1 -> Sorted R l2 -> Permutation l1 l2 -> l1 = l2.
Proof. intros T AS. induction l1 as [|x l1 IH]; intros l2 S1 S2 P.
  - now apply Permutation_nil in P.
  - destruct l2 as [|y l2]; [symmetry in P; now apply Permutation_nil in P|].
    apply Sorted_StronglySorted in S1, S2; try exact T. inversion S1 as [|? ? S1' F1]; subst. inversion S2 as [|? ? S2' F2]; subst.
    assert (x = y).
    { assert (Ix : In x (y :: l2)) by (eapply Permutation_in; [apply P|now left]).
      assert (Iy : In y (x :: l1)) by (eapply Permutation_in; [symmetry; apply P|now left]).
      destruct Ix as [->|Ix]; [reflexivity|]. destruct Iy as [->|Iy]; [reflexivity|].
      rewrite Forall_forall in F1, F2. apply AS; auto. }
    subst y. f_equal. apply IH; try (now apply StronglySorted_Sorted). eapply Permutation_cons_inv; eauto. Qed.

Lemma zinsert_perm x l : Permutation (x :: l) (zinsert x l).
Proof. induction l as [|y l IH]; cbn; [auto|]. destruct (x <=? y)%Z; [auto|].
  rewrite perm_swap. now apply perm_skip. Qed.
Lemma np_sort_perm l : Permutation l (np_sort l).
Proof. induction l as [|x l IH]; cbn; [auto|]. fold (np_sort l). rewrite <- zinsert_perm. now apply perm_skip. Qed.
Lemma zinsert_sorted x l : Sorted Z.le l -> Sorted Z.le (zinsert x l).
Proof. intros S. induction S as [|y l S IH F]; cbn; [auto|]. destruct (Z.leb_spec x y).
  - constructor; [now constructor|]. now constructor.
  - constructor; [exact IH|]. destruct l as [|z l]; cbn; [constructor; lia|]. inversion F; subst.
    destruct (x <=? z)%Z; constructor; lia. Qed.
Lemma np_sort_sorted l : Sorted Z.le (np_sort l).
Proof. induction l as [|x l IH]; cbn; [constructor|]. now apply zinsert_sorted. Qed.
Lemma increasing_sorted l : increasing l = true <-> Sorted Z.le l.
Proof. induction l as [|x [|y l] IH]; [split; [constructor|reflexivity]|split; [repeat constructor|reflexivity]|].
  cbn [increasing]. rewrite andb_true_iff, Z.leb_le. split.
  - intros [? ?]. constructor; [now apply IH|]. now constructor.
  - intros S. inversion S as [|? ? S' F]; subst. inversion F; subst. split; [lia|now apply IH]. Qed.
Lemma Sorted_map_of_nat l : Sorted Z.le (map Z.of_nat l) <-> Sorted le l.
Proof. induction l as [|x l IH]; [split; constructor|]. split; intros S; inversion S as [|? ? S' F]; subst; constructor; try (now apply IH).
  - destruct l; constructor. inversion F; lia.
  - destruct l; constructor. inversion F; lia. Qed.
Lemma seq_Sorted a n : Sorted le (seq a n).
Proof. revert a; induction n as [|n IH]; intros a; cbn; constructor; auto. destruct n; cbn; constructor; lia. Qed.

Lemma nodup_sorted_full l n : NoDup l -> Sorted le l -> Forall (fun p => p < n) l -> length l = n -> l = seq 0 n.
Proof. intros N S F E. apply (sorted_perm_unique (R:=le)); try lia; try assumption; try apply seq_Sorted.
  apply NoDup_Permutation_bis; auto. rewrite seq_length; lia.
  intros x I. rewrite Forall_forall in F. specialize (F x I). cbn in F. apply in_seq; lia. Qed.

Lemma filter_filter_and {X} (f g : X -> bool) l : filter f (filter g l) = filter (fun x => g x && f x) l.
Proof. induction l as [|x l IH]; [reflexivity|]. cbn. destruct (g x); cbn; [|apply IH]. destruct (f x); now rewrite IH. Qed.

Section Group.
  Context {X : Type} (key : X -> nat).
  Lemma sorted_split lo (xs : list X) : StronglySorted (fun x y => key x <= key y) xs -> Forall (fun x => lo <= key x) xs ->
    xs = filter (fun x => key x =? lo) xs ++ filter (fun x => negb (key x =? lo)) xs.
  Proof. induction 1 as [|x xs S IH F]; intros G; [reflexivity|]. inversion G; subst. cbn [filter].
    destruct (Nat.eqb_spec (key x) lo); cbn [negb].
    - cbn. f_equal. apply IH; auto.
    - rewrite (filter_all_false (fun x => key x =? lo)), (filter_all_true (fun x => negb (key x =? lo))); [reflexivity| |];
        apply forallb_forall; intros y I; rewrite Forall_forall in F; specialize (F y I); destruct (Nat.eqb_spec (key y) lo); cbn; auto; lia. Qed.
  Lemma sorted_groups k : forall lo (xs : list X), StronglySorted (fun x y => key x <= key y) xs ->
    Forall (fun x => lo <= key x < lo + k) xs ->
    concat (map (fun i => filter (fun x => key x =? i) xs) (seq lo k)) = xs.
  Proof. induction k as [|k IH]; intros lo xs SS F.
    - destruct xs; [reflexivity|]. inversion F; lia.
    - cbn [seq map concat].
      etransitivity; [|symmetry; apply (sorted_split (lo:=lo) SS); eapply Forall_impl; [|apply F]; cbn; lia]. f_equal.
      rewrite <- (IH (S lo) (filter (fun x => negb (key x =? lo)) xs)).
      + f_equal. apply map_ext_in. intros i Hi%in_seq. rewrite filter_filter_and. apply filter_ext. intros x.
        destruct (Nat.eqb_spec (key x) i); [|now rewrite andb_false_r]. destruct (Nat.eqb_spec (key x) lo); cbn; auto; lia.
      + clear -SS. induction SS as [|x xs SS IH F]; cbn; [constructor|]. destruct (negb (key x =? lo)); [|exact IH].
        constructor; [exact IH|]. apply Forall_forall. intros y Hy%filter_In. rewrite Forall_forall in F. now apply F.
      + apply Forall_forall. intros x [I E]%filter_In. rewrite Forall_forall in F. specialize (F x I). cbn in F.
        destruct (Nat.eqb_spec (key x) lo); cbn in E; [discriminate|lia]. Qed.
End Group.

Lemma slice_concat_nth {X} (gs : list (list X)) i : i < length gs ->
  slice (concat gs) (list_sum (firstn i (map (@length X) gs))) (list_sum (firstn (S i) (map (@length X) gs))) = nth i gs [].
Proof. intros Hi. rewrite <- (firstn_skipn i gs) at 1. rewrite concat_app.
  destruct (skipn i gs) as [|g rest] eqn:E.
  { apply (f_equal (@length _)) in E. rewrite skipn_length in E. cbn in E. lia. }
  assert (Eg : nth i gs [] = g).
  { rewrite <- (firstn_skipn i gs). rewrite app_nth2; rewrite firstn_length_le by lia; [|lia]. now rewrite Nat.sub_diag, E. }
  rewrite Eg. cbn [concat].
  assert (E1 : list_sum (firstn i (map (@length X) gs)) = length (concat (firstn i gs))).
  { now rewrite map_length_concat, firstn_map. }
  assert (E2 : list_sum (firstn (S i) (map (@length X) gs)) = length (concat (firstn i gs)) + length g).
  { replace (S i) with (i + 1) by lia. rewrite firstn_add, list_sum_app, E1. f_equal. rewrite skipn_map, E. cbn. lsum. lia. }
  rewrite E1, E2. unfold slice. rewrite skipn_app, skipn_all, Nat.sub_diag. cbn [app skipn].
  replace (length (concat (firstn i gs)) + length g - length (concat (firstn i gs))) with (length g + 0) by lia.
  rewrite firstn_app_2. cbn. apply app_nil_r. Qed.

(** * Locating positions in blocks *)
Lemma cumulative_one b : cumulative [b] = [].
Proof. reflexivity. Qed.
Lemma cumsum_from_shift acc lens : forall k, cumsum_from (k + acc) lens = map (fun c => k + c) (cumsum_from acc lens).
Proof. revert acc; induction lens as [|n lens IH]; intros acc k; cbn [cumsum_from map]; [reflexivity|].
  f_equal. rewrite <- IH. f_equal; lia. Qed.
Lemma cumulative_cons b b' bs : cumulative (b :: b' :: bs) = b :: map (fun c => b + c) (cumulative (b' :: bs)).
Proof. unfold cumulative, cumsum0. change (removelast (b :: b' :: bs)) with (b :: removelast (b' :: bs)).
  cbn [cumsum_from skipn]. rewrite Nat.add_0_l.
  destruct (removelast (b' :: bs)) as [|r rs] eqn:E; [reflexivity|]. cbn [cumsum_from skipn].
  f_equal. rewrite Nat.add_0_l. apply cumsum_from_shift. Qed.
Lemma cumulative_length bins : length (cumulative bins) = length bins - 1.
Proof. destruct bins as [|b bs]; [reflexivity|]. revert b; induction bs as [|b' bs IH]; intros b; [reflexivity|].
  rewrite cumulative_cons. cbn [length]. rewrite map_length, IH. cbn. lia. Qed.
Lemma cumulative_nth bins i : i < length bins - 1 -> nth i (cumulative bins) 0 = list_sum (firstn (S i) bins).
Proof. destruct bins as [|b bs]; [cbn; lia|]. revert b i; induction bs as [|b' bs IH]; intros b i Hi; [cbn in Hi; lia|].
  rewrite cumulative_cons. destruct i as [|i]; cbn [nth].
  - cbn. lsum. lia.
  - cbn [length] in Hi. rewrite (nth_indep _ 0 (b + 0)) by (rewrite map_length, cumulative_length; cbn; lia).
    rewrite (map_nth (fun c => b + c)), IH by (cbn; lia). cbn [firstn]. now lsum. Qed.

Lemma digitize_cons b b' bs x : digitize (b :: b' :: bs) x = if b <=? x then S (digitize (b' :: bs) (x - b)) else 0.
Proof. unfold digitize. rewrite cumulative_cons. cbn [filter]. destruct (Nat.leb_spec b x).
  - cbn [length]. f_equal. induction (cumulative (b' :: bs)) as [|c cs IH]; [reflexivity|]. cbn [map filter].
    destruct (Nat.leb_spec (b + c) x), (Nat.leb_spec c (x - b)); cbn [length]; try lia. 
  - rewrite filter_all_false; [reflexivity|]. apply forallb_forall. intros c [y [<- _]]%in_map_iff.
    destruct (Nat.leb_spec (b + y) x); cbn; auto; lia. Qed.

Lemma digitize_spec bins x : x < list_sum bins ->
  digitize bins x < length bins
  /\ list_sum (firstn (digitize bins x) bins) <= x < list_sum (firstn (digitize bins x) bins) + nth (digitize bins x) bins 0.
Proof. destruct bins as [|b bs]; [unfold list_sum; cbn; lia|]. revert b x; induction bs as [|b' bs IH]; intros b x Hx.
  - unfold digitize. cbn. revert Hx. lsum. lia.
  - rewrite digitize_cons. destruct (Nat.leb_spec b x).
    + revert Hx; rewrite list_sum_cons; intros Hx. destruct (IH b' (x - b) ltac:(lia)) as (I1 & I2).
      set (k := digitize (b' :: bs) (x - b)) in *. split; [cbn [length] in *; lia|].
      change (nth (S k) (b :: b' :: bs) 0) with (nth k (b' :: bs) 0).
      change (firstn (S k) (b :: b' :: bs)) with (b :: firstn k (b' :: bs)). rewrite list_sum_cons. lia.
    + cbn. lsum. lia. Qed.

Lemma filter_length_mono {X} (f g : X -> bool) l : (forall x, f x = true -> g x = true) -> length (filter f l) <= length (filter g l).
Proof. intros I. induction l as [|x l IH]; [auto|]. cbn. specialize (I x). destruct (f x), (g x); cbn; try lia. Qed.
Lemma digitize_mono bins x y : x <= y -> digitize bins x <= digitize bins y.
Proof. intros Hxy. apply filter_length_mono. intros c Hc. apply Nat.leb_le in Hc. apply Nat.leb_le. lia. Qed.

(** Start of block [i] and the positions (of the whole axis) an entry of the dict stands for. *)
Definition start_of (bins : list nat) (i : nat) : nat := list_sum (firstn i bins).
Definition entry_positions (bins : list nat) (e : nat * bidx) : list nat :=
  map (fun p => start_of bins (fst e) + p) (expand (nth (fst e) bins 0) (snd e)).
Definition entry_ok (bins : list nat) (e : nat * bidx) : Prop :=
  fst e < length bins /\ Forall (fun p => p < nth (fst e) bins 0) (expand (nth (fst e) bins 0) (snd e)).

Lemma existsb_neg_nat xs : existsb (fun z => (z <? 0)%Z) (map Z.of_nat xs) = false.
Proof. induction xs as [|x xs IH]; [reflexivity|]. cbn [map existsb]. rewrite IH. destruct (Z.ltb_spec (Z.of_nat x) 0); [lia|reflexivity]. Qed.

Lemma sorted_digitize bins xs : Sorted le xs -> StronglySorted (fun x y => digitize bins x <= digitize bins y) xs.
Proof. intros S. apply Sorted_StronglySorted in S; [|intros x y z; lia].
  induction S as [|x xs S IH F]; constructor; auto. eapply Forall_impl; [|apply F]. intros y; apply digitize_mono. Qed.

Lemma concat_filter_nonempty {X} (gs : nat -> list X) l :
  concat (map gs (filter (fun i => negb (length (gs i) =? 0)) l)) = concat (map gs l).
Proof. induction l as [|i l IH]; [reflexivity|]. cbn [filter map concat]. destruct (gs i) eqn:E; cbn [length Nat.eqb negb].
  - exact IH. - cbn [map concat]. now rewrite E, IH. Qed.

(** The entries for a sorted array of positions. *)
Lemma array_entries bins n xs srt : bins <> [] -> Sorted le xs -> Forall (fun x => x < list_sum bins) xs ->
  srt = true \/ length xs <= 1 ->
  block_index_array bins n (map Z.of_nat xs) srt
  = map (fun i => (i, map (fun p => p - start_of bins i) (filter (fun x => digitize bins x =? i) xs)))
        (filter (fun i => negb (length (filter (fun x => digitize bins x =? i) xs) =? 0)) (seq 0 (length bins))).
Proof. intros Hb SS F Hs. unfold block_index_array. rewrite existsb_neg_nat.
  assert (E0 : map (fun z => if (z <? 0)%Z then (z mod Z.of_nat n)%Z else z) (map Z.of_nat xs) = map Z.of_nat xs).
  { rewrite map_map. apply map_ext. intros x. destruct (Z.ltb_spec (Z.of_nat x) 0); [lia|reflexivity]. }
  rewrite E0. cbn [orb].
  assert (E1 : (if negb srt then np_sort (map Z.of_nat xs) else map Z.of_nat xs) = map Z.of_nat xs).
  { destruct Hs as [-> | Hl]; [reflexivity|]. destruct xs as [|x [|y xs]]; cbn in Hl; try lia; now destruct srt. }
  rewrite E1, map_map. rewrite (map_ext _ (fun x => x)) by (intros; apply Nat2Z.id). rewrite map_id.
  set (gs := fun i => filter (fun x => digitize bins x =? i) xs).
  rewrite cumulative_length. replace (S (length bins - 1)) with (length bins) by (destruct bins; [easy|cbn; lia]).
  assert (EC : map (fun i => length (filter (Nat.eqb i) (map (digitize bins) xs))) (seq 0 (length bins))
               = map (@length nat) (map gs (seq 0 (length bins)))).
  { rewrite map_map. apply map_ext. intros i. unfold gs. clear. induction xs as [|x xs IH]; [reflexivity|].
    cbn [map filter]. rewrite (Nat.eqb_sym i). destruct (digitize bins x =? i); cbn [length]; now rewrite IH. }
  rewrite EC.
  assert (EX : concat (map gs (seq 0 (length bins))) = xs).
  { apply sorted_groups; [now apply sorted_digitize|]. eapply Forall_impl; [|apply F]. intros x Hx.
    pose proof (digitize_spec bins Hx). lia. }
  assert (EN : forall i, i <= length bins -> nth i (cumsum0 (map (@length nat) (map gs (seq 0 (length bins))))) 0
               = list_sum (firstn i (map (@length nat) (map gs (seq 0 (length bins)))))).
  { intros i Hi. unfold cumsum0. rewrite cumsum_from_nth; [reflexivity|]. rewrite !map_length, seq_length. lia. }
  assert (EG : forall i, i < length bins -> nth i (map gs (seq 0 (length bins))) [] = gs i).
  { intros i Hi. rewrite (nth_indep _ [] (gs 0)) by (rewrite map_length, seq_length; lia).
    rewrite map_nth, seq_nth by lia. reflexivity. }
  assert (EL : forall i, i < length bins -> list_sum (firstn (S i) (map (@length nat) (map gs (seq 0 (length bins)))))
               = list_sum (firstn i (map (@length nat) (map gs (seq 0 (length bins))))) + length (gs i)).
  { intros i Hi. replace (S i) with (i + 1) by lia. rewrite firstn_add, list_sum_app. f_equal.
    rewrite skipn_map. destruct (skipn i (map gs (seq 0 (length bins)))) as [|g rest] eqn:E.
    { apply (f_equal (@length _)) in E. rewrite skipn_length, map_length, seq_length in E. cbn in E. lia. }
    cbn [map firstn]. lsum. rewrite Nat.add_0_r. f_equal. rewrite <- EG by lia.
    rewrite <- (firstn_skipn i (map gs (seq 0 (length bins)))). rewrite app_nth2; rewrite firstn_length_le; rewrite ?map_length, ?seq_length; try lia.
    now rewrite Nat.sub_diag, E. }
  rewrite (filter_ext_in (fun i => _ <? _) (fun i => negb (length (gs i) =? 0))).
  2:{ intros i Hi%in_seq. rewrite !EN, EL by lia. destruct (Nat.eqb_spec (length (gs i)) 0); cbn [negb].
      - apply Nat.ltb_ge. lia. - apply Nat.ltb_lt. lia. }
  apply map_ext_in. intros i [Hi%in_seq _]%filter_In. f_equal.
  rewrite !EN by lia.
  pose proof (@slice_concat_nth _ (map gs (seq 0 (length bins))) i ltac:(rewrite map_length, seq_length; lia)) as ES.
  rewrite EX, EG in ES by lia. rewrite !ES. fold (gs i).
  destruct (Nat.eqb_spec i 0) as [->|Hi0].
  - rewrite <- (map_id (gs 0)) at 1. apply map_ext. intros p. change (start_of bins 0) with 0. lia.
  - apply map_ext. intros p. rewrite cumulative_nth by lia. unfold start_of. now replace (S (i - 1)) with i by lia. Qed.

Lemma NoDup_map_in {X Y} (f : X -> Y) l : (forall x y, In x l -> In y l -> f x = f y -> x = y) -> NoDup l -> NoDup (map f l).
Proof. intros I N. induction N as [|x l Hx N IH]; cbn; constructor.
  - intros [y [E Iy]]%in_map_iff. apply I in E; [|now right|now left]. now subst.
  - apply IH. intros; apply I; auto; now right. Qed.

Definition barr (e : nat * list nat) : nat * bidx := (fst e, BList (snd e)).

Lemma array_ok bins n xs srt : bins <> [] -> Sorted le xs -> Forall (fun x => x < list_sum bins) xs ->
  srt = true \/ length xs <= 1 ->
  let dict := map barr (block_index_array bins n (map Z.of_nat xs) srt) in
  concat (map (entry_positions bins) dict) = xs
  /\ Forall (entry_ok bins) dict /\ Forall (fun e => expand (nth (fst e) bins 0) (snd e) <> []) dict
  /\ (NoDup xs -> Forall (fun e => length (expand (nth (fst e) bins 0) (snd e)) = nth (fst e) bins 0 ->
                                   expand (nth (fst e) bins 0) (snd e) = seq 0 (nth (fst e) bins 0)) dict).
Proof. intros Hb SS F Hs dict. subst dict. rewrite array_entries by assumption. rewrite (map_map _ barr).
  set (gs := fun i => filter (fun x => digitize bins x =? i) xs).
  assert (EX : concat (map gs (seq 0 (length bins))) = xs).
  { apply sorted_groups; [now apply sorted_digitize|]. eapply Forall_impl; [|apply F]. intros x Hx.
    pose proof (digitize_spec bins Hx). lia. }
  assert (G : forall i x, In x (gs i) -> start_of bins i <= x < start_of bins i + nth i bins 0).
  { intros i x [I E]%filter_In. apply Nat.eqb_eq in E. subst i. rewrite Forall_forall in F. specialize (F x I). cbn in F.
    unfold start_of. pose proof (digitize_spec bins F). lia. }
  unfold barr. cbn [fst snd]. repeat split.
  - rewrite map_map. unfold entry_positions. cbn [fst snd expand].
    rewrite (map_ext _ gs).
    2:{ intros i. rewrite map_map. etransitivity; [|apply (map_id (gs i))]. apply map_ext_in. intros p I. specialize (G i p I). lia. }
    rewrite concat_filter_nonempty. exact EX.
  - apply Forall_map, Forall_forall. intros i [Hi%in_seq _]%filter_In. split; cbn [fst snd expand]; [lia|].
    apply Forall_map, Forall_forall. intros p I. specialize (G i p I). lia.
  - apply Forall_map, Forall_forall. intros i [_ E]%filter_In. cbn [fst snd expand]. intros Z. apply map_eq_nil in Z.
    fold (gs i) in Z, E. rewrite Z in E. discriminate.
  - intros N. apply Forall_map, Forall_forall. intros i [Hi%in_seq _]%filter_In. cbn [fst snd expand].
    assert (SG : Sorted le (gs i)).
    { apply StronglySorted_Sorted. apply Sorted_StronglySorted in SS; [|intros x y z; lia]. unfold gs. clear -SS.
      induction SS as [|x xs SS IH F]; cbn [filter]; [constructor|]. destruct (digitize bins x =? i); [|exact IH].
      constructor; [exact IH|]. apply Forall_forall. intros y Hy%filter_In. rewrite Forall_forall in F. now apply F. }
    intros EL. apply nodup_sorted_full; auto.
    + fold (gs i). apply NoDup_map_in; [|now apply NoDup_filter].
      intros x y Ix Iy. pose proof (G i x Ix). pose proof (G i y Iy). lia.
    + fold (gs i). specialize (G i). revert SG G. generalize (start_of bins i) as s. generalize (gs i). clear.
      intros l s SG. induction SG as [|x l SG IH HR]; cbn; intros G; constructor.
      * apply IH. intros y I. apply G. now right.
      * destruct l as [|y l]; cbn; constructor. inversion HR; subst. lia.
    + apply Forall_map, Forall_forall. intros p I. specialize (G i p I). lia. Qed.

Lemma locate_ok bins n x : bins <> [] -> x < list_sum bins ->
  locate bins n (Z.of_nat x) = Ok (digitize bins x, x - start_of bins (digitize bins x)).
Proof. intros Hb Hx. unfold locate. change [Z.of_nat x] with (map Z.of_nat [x]).
  rewrite array_entries; auto. cbn [filter].
  pose proof (digitize_spec bins Hx) as [D _].
  assert (E : filter (fun i => negb (length (if digitize bins x =? i then [x] else []) =? 0)) (seq 0 (length bins)) = [digitize bins x]).
  { rewrite (filter_ext _ (fun i => digitize bins x =? i)).
    2:{ intros i. now destruct (digitize bins x =? i). }
    revert D. generalize (digitize bins x) as k. intros k D.
    replace (length bins) with (k + (1 + (length bins - k - 1))) by lia. rewrite !seq_app, !filter_app.
    rewrite (filter_all_false _ (seq 0 k)), (filter_all_false _ (seq (0 + k + 1) _)).
    - cbn. now rewrite Nat.eqb_refl.
    - apply forallb_forall. intros y Hy%in_seq. destruct (Nat.eqb_spec k y); auto; lia.
    - apply forallb_forall. intros y Hy%in_seq. destruct (Nat.eqb_spec k y); auto; lia. }
  rewrite E. cbn [map]. now rewrite Nat.eqb_refl. Qed.
