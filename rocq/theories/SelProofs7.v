From Verif Require Import Base Table ChunkModel ChunkSpec ChunkProofs GridModel GridSpec FrameSpec GridProofs GridProofs2 GridProofs3 GridProofs5 SelSpec SelModel SelProofs SelProofs2 SelProofs3 SelProofs4 SelProofs5 SelProofs6.

Lemma py_range_in_pos a b s z : (0 < s)%Z -> In z (py_range a b s) -> (a <= z < b)%Z.
Proof. intros Hs. unfold py_range, range_len. destruct (Z.gtb_spec s 0); [|lia]. intros (k & <- & Hk%in_seq)%in_map_iff.
  assert (K : (Z.of_nat k < (b - a + s - 1) / s)%Z) by lia. split; [nia|].
  assert (Z.of_nat k + 1 <= (b - a + s - 1) / s)%Z as K2 by lia.
  assert ((Z.of_nat k + 1) * s <= b - a + s - 1)%Z by (etransitivity; [apply Z.mul_le_mono_nonneg_r; [lia|exact K2]|]; rewrite Z.mul_comm; apply Z.mul_div_le; lia). nia. Qed.
Lemma py_range_in_neg a b s z : (s < 0)%Z -> In z (py_range a b s) -> (b < z <= a)%Z.
Proof. intros Hs. unfold py_range, range_len. destruct (Z.gtb_spec s 0); [lia|]. destruct (Z.ltb_spec s 0); [|lia].
  intros (k & <- & Hk%in_seq)%in_map_iff.
  assert (Z.of_nat k + 1 <= (a - b - s - 1) / - s)%Z as K2 by lia. split; [|nia].
  assert ((Z.of_nat k + 1) * - s <= a - b - s - 1)%Z by (etransitivity; [apply Z.mul_le_mono_nonneg_r; [lia|exact K2]|]; rewrite Z.mul_comm; apply Z.mul_div_le; lia). nia. Qed.

Lemma wrap_bound n z p : wrap n z = Some p -> p < n.
Proof. unfold wrap. destruct ((0 <=? z) && (z <? Z.of_nat n))%Z eqn:E; [intros [= <-]; lia|].
  destruct ((- Z.of_nat n <=? z) && (z <? 0))%Z eqn:E2; [intros [= <-]; lia|discriminate]. Qed.
Lemma wrap_all_bound n : forall zs ps, wrap_all n zs = Some ps -> Forall (fun p => p < n) ps.
Proof. induction zs as [|z zs IH]; cbn; intros ps; [intros [= <-]; constructor|].
  destruct (wrap n z) eqn:E; [|discriminate]. destruct (wrap_all n zs); [|discriminate]. intros [= <-]. constructor; eauto using wrap_bound. Qed.
Lemma wrap_all_nonneg n : forall zs ps, Forall (fun z => 0 <= z)%Z zs -> wrap_all n zs = Some ps -> zs = map Z.of_nat ps.
Proof. induction zs as [|z zs IH]; cbn; intros ps F; [intros [= <-]; reflexivity|]. inversion F; subst.
  destruct (wrap n z) eqn:E; [|discriminate]. destruct (wrap_all n zs) eqn:E2; [|discriminate]. intros [= <-]. cbn. f_equal; [|now apply IH].
  unfold wrap in E. destruct ((0 <=? z) && (z <? Z.of_nat n))%Z; [injection E as <-; lia|].
  destruct ((- Z.of_nat n <=? z) && (z <? 0))%Z eqn:E3; [lia|discriminate]. Qed.

(** The locators for which the current code follows pandas (no condition on ints, lists and masks). *)
Definition supported (n : nat) (loc : locator) : Prop :=
  match loc with
  | LSlice a b s => forall x y, slice_indices n a b s = Some (x, y, 1%Z) -> (x <= y)%Z
  | LRange x y s => (Forall (fun z => 0 <= z) (py_range x y s) /\ (s > 0 -> 0 <= x /\ 0 <= y) /\ (s = 1 -> x <= y))%Z
  | _ => True
  end.

Lemma array_lookup n zs ps : wrap_all n zs = Some ps ->
  exists ix, (if existsb (fun z => (z <? 0)%Z) zs
      then match wrap_all n zs with
           | Some ps => Ok (Some (IList (map Z.of_nat ps)))
           | None => Err IndexError
           end
      else Ok (Some (IList zs))) = Ok ix /\ selects n ix ps.
Proof. intros W. destruct (existsb _ zs) eqn:E.
  - rewrite W. eexists; split; [reflexivity|]. cbn. repeat split; auto. eapply wrap_all_bound; eauto.
  - eexists; split; [reflexivity|]. cbn. repeat split; auto; [|eapply wrap_all_bound; eauto].
    eapply wrap_all_nonneg; eauto. apply Forall_forall. intros z I. destruct (Z.ltb_spec z 0); [|lia].
    assert (X : existsb (fun z => (z <? 0)%Z) zs = true) by (apply existsb_exists; exists z; split; [assumption|now apply Z.ltb_lt]). congruence. Qed.

Lemma slice_lookup n a b s x y st ps : slice_indices n a b s = Some (x, y, st) -> (st = 1 -> x <= y)%Z ->
  wrap_all n (py_range x y st) = Some ps -> selects n (Some (IRange x y st)) ps.
Proof. intros E S1 W. cbn. unfold slice_indices in E. set (t := match s with Some s => s | None => 1%Z end) in *.
  destruct (Z.eqb_spec t 0); [discriminate|]. injection E as Ex Ey Et. subst st.
  assert (B : ((0 < t -> 0 <= x /\ 0 <= y) /\ (t < 0 -> -1 <= x /\ -1 <= y))%Z).
  { subst x y. destruct (Z.ltb_spec t 0); split; intros ?; try lia; destruct a as [a|], b as [b|]; try lia;
      repeat match goal with |- context [(?u <? ?v)%Z] => destruct (Z.ltb_spec u v) end; lia. }
  split; [repeat split; try tauto; try (destruct B as [B1 B2]; intros; apply B1; lia)|].
  split; [|eapply wrap_all_bound; eauto]. eapply wrap_all_nonneg; eauto. apply Forall_forall. intros z I.
  destruct (Z.ltb_spec t 0).
  - apply py_range_in_neg in I; [|lia]. destruct B as [_ B]. specialize (B ltac:(lia)). lia.
  - apply py_range_in_pos in I; [|lia]. destruct B as [B _]. specialize (B ltac:(lia)). lia. Qed.

Lemma mask_positions_bound n m : Forall (fun p => p < n) (map fst (filter (fun p : nat * bool => snd p) (combine (seq 0 n) m))).
Proof. apply Forall_forall. intros p ([q b] & <- & [I _]%filter_In)%in_map_iff. apply in_combine_l in I. apply in_seq in I. cbn. lia. Qed.

Lemma compute_lookup_ok n loc ps : positions n loc = Some ps -> supported n loc ->
  exists ix, compute_lookup n loc = Ok ix /\ selects n ix ps.
Proof. destruct loc as [z|a b s|x y s|m|zs]; cbn [positions supported]; intros P S.
  - unfold compute_lookup. now apply array_lookup.
  - destruct (slice_indices n a b s) as [[[x y] st]|] eqn:E; [|discriminate].
    assert (SL : selects n (Some (IRange x y st)) ps) by (eapply slice_lookup; eauto; intros ->; auto).
    assert (G : exists ix, (match slice_indices n a b s with Some (x, y, st) => Ok (Some (IRange x y st)) | None => Err ValueError end) = Ok ix /\ selects n ix ps) by (rewrite E; eauto).
    destruct a, b, s; try exact G. cbn [compute_lookup]. exists None. split; [reflexivity|].
    cbn in E. injection E as <- <- <-. cbn [selects]. destruct SL as (_ & Hp & _). cbn [ipos] in Hp.
    rewrite map_to_of in Hp || idtac. unfold py_range in Hp. rewrite range_len_1 in Hp.
    apply (f_equal (map Z.to_nat)) in Hp. rewrite !map_map in Hp. replace (Z.to_nat (Z.of_nat n - 0)) with n in Hp by lia.
    erewrite map_ext in Hp by (intros k; instantiate (1 := fun k => k); cbn beta; lia). rewrite map_id in Hp. rewrite Hp.
    erewrite map_ext; [symmetry; apply map_id|]. intros k. lia.
  - unfold compute_lookup. destruct (Z.eqb_spec s 0); [discriminate|]. eexists; split; [reflexivity|]. cbn.
    destruct S as (S1 & S2 & S3). repeat split; try tauto; try (now apply S2). { now apply wrap_all_nonneg in P. } eapply wrap_all_bound; eauto.
  - unfold compute_lookup. destruct (Nat.eqb_spec (length m) n) as [->|]; [|discriminate]. injection P as <-.
    eexists; split; [reflexivity|]. cbn. rewrite map_map. repeat split; auto. apply mask_positions_bound.
  - unfold compute_lookup. now apply array_lookup. Qed.

(** Masks and slices never repeat a position. *)
Lemma mask_positions_nodup n m : NoDup (map fst (filter (fun p : nat * bool => snd p) (combine (seq 0 n) m))).
Proof. generalize 0. revert m. induction n as [|n IH]; intros m a; cbn; [constructor|]. destruct m as [|b m]; cbn; [constructor|].
  destruct b; cbn; [|apply IH]. constructor; [|apply IH]. intros ([q c] & Hq & [I _]%filter_In)%in_map_iff. cbn in Hq. subst q.
  apply in_combine_l in I. apply in_seq in I. lia. Qed.
Lemma py_range_nodup a b s : s <> 0%Z -> NoDup (py_range a b s).
Proof. intros Hs. unfold py_range. apply FinFun.Injective_map_NoDup; [|apply seq_NoDup]. intros i j E. nia. Qed.
Lemma positions_nodup n loc ps : positions n loc = Some ps -> supported n loc ->
  match loc with LList _ => False | _ => True end -> NoDup ps.
Proof. intros P S. destruct loc as [z|a b s|x y s|m|zs]; cbn [positions] in P; intros T; try easy.
  - cbn in P. destruct (wrap n z); [|discriminate]. injection P as <-. constructor; [easy|constructor].
  - destruct (slice_indices n a b s) as [[[x y] st]|] eqn:E; [|discriminate].
    assert (SL : selects n (Some (IRange x y st)) ps) by (eapply slice_lookup; eauto; intros ->; now apply S).
    destruct SL as ((_ & _ & N) & Hp & _). cbn in Hp. pose proof (@py_range_nodup x y st N) as ND. rewrite Hp in ND. now apply NoDup_map_inv in ND.
  - destruct (Z.eqb_spec s 0) as [|N]; [discriminate|]. destruct S as (F & _). apply wrap_all_nonneg in P; auto.
    pose proof (@py_range_nodup x y s N) as ND. rewrite P in ND. now apply NoDup_map_inv in ND.
  - destruct (length m =? n); [|discriminate]. injection P as <-. apply mask_positions_nodup. Qed.

(** * Keys of the block dictionary *)
Lemma seq_Sorted_lt a n : Sorted lt (seq a n).
Proof. revert a. induction n as [|n IH]; intros a; [constructor|]. cbn [seq]. constructor; [apply IH|]. destruct n; constructor. lia. Qed.
Lemma filter_Sorted_lt f l : Sorted lt l -> Sorted lt (filter f l).
Proof. intros S. apply Sorted_StronglySorted in S; [|unfold Relations_1.Transitive; lia]. apply StronglySorted_Sorted.
  induction S as [|x l S IH F]; cbn; [constructor|]. destruct (f x); [|exact IH]. constructor; [exact IH|].
  apply Forall_forall. intros y [I _]%filter_In. rewrite Forall_forall in F. auto. Qed.
Lemma Sorted_lt_snoc l x : Sorted lt l -> Forall (fun y => y < x) l -> Sorted lt (l ++ [x]).
Proof. intros S F. induction S as [|y l S IH Hd]; cbn; [repeat constructor|]. inversion F; subst. constructor; [auto|].
  destruct l; cbn; constructor; [assumption|]. now inversion Hd. Qed.
Lemma seq_then a n x : a + n <= x -> Sorted lt (seq a n ++ [x]).
Proof. intros. apply Sorted_lt_snoc; [apply seq_Sorted_lt|]. apply Forall_forall. intros y I%in_seq. lia. Qed.
Lemma Sorted_lt_cons a l : Sorted lt l -> Forall (fun y => a < y) l -> Sorted lt (a :: l).
Proof. intros S F. constructor; [assumption|]. destruct F; constructor; assumption. Qed.
Lemma whole_keys a n : map fst (map (fun i => (i, whole)) (seq a n)) = seq a n.
Proof. rewrite map_map. cbn. apply map_id. Qed.

Lemma block_index_keys bins nparts n ix dict : block_index bins nparts n ix true = Ok dict ->
  (forall a b s, ix = IRange a b s -> (s = 1)%Z -> (0 <= a <= b)%Z) -> list_sum bins = n -> bins <> [] ->
  Sorted lt (map fst dict).
Proof.
  assert (AR : forall zs, Sorted lt (map fst (map (fun e : nat * list nat => (fst e, BList (snd e))) (block_index_array bins n zs true)))).
  { intros zs. rewrite map_map. cbn [fst]. unfold block_index_array. cbv zeta. rewrite map_map. cbn [fst]. rewrite map_id. apply filter_Sorted_lt, seq_Sorted_lt. }
  unfold block_index. intros E V Hn Hb. destruct ix as [a b s|zs].
  2:{ destruct zs; injection E as <-; [repeat constructor|apply AR]. }
  destruct (Z.eqb_spec s 1) as [->|]; cbn [negb] in E; [|injection E as <-; apply AR].
  specialize (V a b 1%Z eq_refl eq_refl).
  destruct (Z.eqb_spec a 0) as [->|Na]; cbn [andb] in E.
  - destruct (Z.leb_spec (Z.of_nat n) b); [injection E as <-; rewrite whole_keys; apply seq_Sorted_lt|].
    destruct (Z.eqb_spec 0 b); [injection E as <-; constructor|].
    destruct (locate bins n b) as [[q o]|] eqn:L; cbn [rbind] in E; [|discriminate]. injection E as <-. cbn [fst snd].
    rewrite map_app, whole_keys. cbn. now apply seq_then.
  - destruct (Z.eqb_spec a b); [injection E as <-; constructor|].
    destruct (Z.leb_spec (Z.of_nat n) b).
    + destruct (locate bins n a) as [[q o]|] eqn:L; cbn [rbind] in E; [|discriminate]. injection E as <-. cbn [fst snd map].
      rewrite whole_keys. apply Sorted_lt_cons; [apply seq_Sorted_lt|]. apply Forall_forall. intros y I%in_seq. lia.
    + rewrite <- (Z2Nat.id a), <- (Z2Nat.id b) in E by lia.
      rewrite !locate_ok in E by (auto; lia). cbn [rbind fst snd] in E.
      pose proof (@digitize_mono bins (Z.to_nat a) (Z.to_nat b) ltac:(lia)) as DM.
      destruct (Nat.eqb_spec (digitize bins (Z.to_nat a)) (digitize bins (Z.to_nat b))); injection E as <-; [repeat constructor|].
      cbn [map fst]. rewrite map_app, whole_keys. cbn [map fst]. apply Sorted_lt_cons; [apply seq_then; lia|].
      apply Forall_app. split; [apply Forall_forall; intros y I%in_seq; lia|]. constructor; [lia|constructor]. Qed.

(** * Cells of a selection *)
Section Cells.
  Context {L H A : Type}.
  Lemma take2d_cell (d : df L H A) r c i j p q : wf d -> Forall (fun p => p < nrows d) r -> Forall (fun p => p < ncols d) c ->
    nth_error r i = Some p -> nth_error c j = Some q ->
    cell (take2d r c d) i j = cell d p q /\ nth_error (dindex (take2d r c d)) i = nth_error (dindex d) p
    /\ nth_error (dcols (take2d r c d)) j = nth_error (dcols d) q.
  Proof. intros W Fr Fc Hi Hj.
    assert (P : forall X (l : list X) ps k v n, Forall (fun p => p < n) ps -> length l = n -> nth_error ps k = Some v -> nth_error (pick l ps) k = nth_error l v).
    { intros X l ps k v n F <- Hk. rewrite pick_nth_error by assumption. now rewrite Hk. }
    destruct W as [W1 W2]. split; [|split].
    - unfold cell, take2d. cbn [dcells]. rewrite nth_error_map. rewrite (P _ _ _ _ p (nrows d)) by (auto; unfold nrows; congruence).
      destruct (nth_error (dcells d) p) as [row|] eqn:E; cbn; [|reflexivity]. apply (P _ _ _ _ q (ncols d)); auto.
      rewrite Forall_forall in W2. apply W2. now apply nth_error_In in E.
    - cbn. apply (P _ _ _ _ p (nrows d)); auto.
    - cbn. apply (P _ _ _ _ q (ncols d)); auto. Qed.
End Cells.

(** * Per-block length caches *)
Section Cache.
  Context {L H A : Type}.
  Lemma recompute_ok kl kw ri ci (b b' : df L H A) prev l : wf b ->
    prev = None \/ prev = Some (nrows b) ->
    mask kl kw ri ci b = Ok b' -> recompute_cache ri prev = Some l -> nrows b' = l.
  Proof. intros W Pv M R. unfold mask in M. destruct (_ && _) eqn:E in M.
    - injection M as <-. apply andb_true_iff in E as [E _]. apply full_mask_length in E.
      destruct ri as [x y|ps]; cbn [recompute_cache] in R.
      + destruct prev as [n|]; [|discriminate]. destruct Pv as [|[= ->]]; [discriminate|]. injection R as <-. exact (eq_sym E).
      + injection R as <-. exact (eq_sym E).
    - unfold df_iloc in M. destruct (_ && _) eqn:F in M; [|discriminate]. injection M as <-. apply andb_true_iff in F as [F _].
      rewrite take2d_nrows; [|apply Forall_forall; intros p I; rewrite forallb_forall in F; apply Nat.ltb_lt, F, I].
      destruct ri as [x y|ps]; cbn [recompute_cache] in R.
      + destruct prev as [n|]; [|discriminate]. destruct Pv as [|[= ->]]; [discriminate|]. now injection R as <-.
      + now injection R as <-. Qed.
  Lemma recompute_width_ok kl kw ri ci (b b' : df L H A) prev l : wf b ->
    prev = None \/ prev = Some (ncols b) ->
    mask kl kw ri ci b = Ok b' -> recompute_cache ci prev = Some l -> ncols b' = l.
  Proof. intros W Pv M R. unfold mask in M. destruct (_ && _) eqn:E in M.
    - injection M as <-. apply andb_true_iff in E as [_ E]. apply full_mask_length in E.
      destruct ci as [x y|ps]; cbn [recompute_cache] in R.
      + destruct prev as [n|]; [|discriminate]. destruct Pv as [|[= ->]]; [discriminate|]. injection R as <-. exact (eq_sym E).
      + injection R as <-. exact (eq_sym E).
    - unfold df_iloc in M. destruct (_ && _) eqn:F in M; [|discriminate]. injection M as <-. apply andb_true_iff in F as [_ F].
      rewrite take2d_ncols; [|apply Forall_forall; intros p I; rewrite forallb_forall in F; apply Nat.ltb_lt, F, I].
      destruct ci as [x y|ps]; cbn [recompute_cache] in R.
      + destruct prev as [n|]; [|discriminate]. destruct Pv as [|[= ->]]; [discriminate|]. now injection R as <-.
      + now injection R as <-. Qed.
End Cache.

(** * A concrete argsort (insertion), to show that [sorts] can be met *)
Fixpoint pinsert (x : Z * nat) (l : list (Z * nat)) : list (Z * nat) :=
  match l with [] => [x] | y :: ys => if (fst x <=? fst y)%Z then x :: y :: ys else y :: pinsert x ys end.
Definition zargsort (l : list Z) : list nat := map snd (fold_right pinsert [] (combine l (seq 0 (length l)))).
Lemma pinsert_perm x l : Permutation (pinsert x l) (x :: l).
Proof. induction l as [|y l IH]; cbn; [reflexivity|]. destruct (_ <=? _)%Z; [reflexivity|]. rewrite IH. apply perm_swap. Qed.
Lemma psort_perm l : Permutation (fold_right pinsert [] l) l.
Proof. induction l as [|x l IH]; cbn; [reflexivity|]. rewrite pinsert_perm. now constructor. Qed.
Lemma pinsert_sorted x l : Sorted Z.le (map fst l) -> Sorted Z.le (map fst (pinsert x l)).
Proof. induction l as [|y l IH]; intros S; cbn; [repeat constructor|]. destruct (Z.leb_spec (fst x) (fst y)); cbn.
  - constructor; [exact S|]. constructor. assumption.
  - cbn in S. inversion S as [|? ? S' Hd]; subst. constructor; [auto|].
    destruct l as [|z l]; cbn; [constructor; lia|]. destruct (fst x <=? fst z)%Z; cbn; constructor; [lia|]. now inversion Hd. Qed.
Lemma psort_sorted l : Sorted Z.le (map fst (fold_right pinsert [] l)).
Proof. induction l as [|x l IH]; cbn; [constructor|]. now apply pinsert_sorted. Qed.
Lemma zargsort_ok l : sorts l (zargsort l).
Proof. split; unfold zargsort.
  - rewrite psort_perm. replace (map snd (combine l (seq 0 (length l)))) with (seq 0 (length l)); [reflexivity|].
    generalize 0. induction l as [|x l IH]; intros a; cbn; [reflexivity|]. f_equal. apply IH.
  - replace (pick l (map snd (fold_right pinsert [] (combine l (seq 0 (length l)))))) with (map fst (fold_right pinsert [] (combine l (seq 0 (length l))))); [apply psort_sorted|].
    assert (F : Forall (fun e => nth_error l (snd e) = Some (fst e)) (fold_right pinsert [] (combine l (seq 0 (length l))))).
    { eapply Forall_perm; [symmetry; apply psort_perm|].
      assert (G : forall k pre, k = length pre -> Forall (fun e => nth_error (pre ++ l) (snd e) = Some (fst e)) (combine l (seq k (length l)))).
      { induction l as [|x l IH]; intros k pre ->; cbn; [constructor|]. constructor; [cbn; now rewrite nth_error_app2, Nat.sub_diag by lia|].
        specialize (IH (S (length pre)) (pre ++ [x])). rewrite <- app_assoc in IH. apply IH. rewrite app_length. cbn. lia. }
      exact (G 0 [] eq_refl). }
    induction F as [|e r E F IH]; [reflexivity|]. cbn [map]. rewrite pick_cons, E. cbn. now rewrite IH. Qed.
