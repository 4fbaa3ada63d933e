(** Sorting the lookups together with the array. *)
From Verif Require Import Base Table ChunkModel ChunkSpec ChunkProofs GridModel GridSpec FrameSpec GridProofs GridProofs2 GridProofs3 GridProofs5 SelSpec SelModel
  SelProofs SelProofs2 SelProofs3 SelProofs4 SelProofs5 SelProofs6 SelProofs7 SetSpec SetModel SetProofs SetProofs2 SetProofs3.

(* ---------------- the stable argsort ---------------- *)
Fixpoint last_key (l : list (Z * nat)) (z : Z) : option nat :=
  match l with
  | [] => None
  | (a, b) :: t => match last_key t z with Some r => Some r | None => if (a =? z)%Z then Some b else None end
  end.

Lemma last_key_insert x l z : last_key (insert_pair x l) z = last_key (x :: l) z.
Proof.
  induction l as [|y t IH]; cbn [insert_pair]; [reflexivity|].
  destruct (Z.leb_spec (fst x) (fst y)); [reflexivity|]. destruct x as [a b], y as [a' b']. cbn [fst] in *.
  cbn [last_key] in *. rewrite IH. destruct (last_key t z); [reflexivity|].
  destruct (Z.eqb_spec a z), (Z.eqb_spec a' z); try reflexivity. lia.
Qed.
Lemma last_key_sort l z : last_key (sort_pairs l) z = last_key l z.
Proof.
  induction l as [|[a b] t IH]; [reflexivity|]. cbn [sort_pairs fold_right]. rewrite last_key_insert. cbn [last_key].
  unfold sort_pairs in IH. now rewrite IH.
Qed.
Lemma last_key_index l ps p : map fst l = map Z.of_nat ps ->
  last_key l (Z.of_nat p) = option_map (fun i => nth i (map snd l) 0) (last_index ps p).
Proof.
  revert ps. induction l as [|[a b] t IH]; intros [|x ps] E; try discriminate; [reflexivity|].
  cbn [map fst] in E. injection E as -> E. cbn [last_key last_index map snd]. rewrite (IH _ E).
  destruct (last_index ps p); [reflexivity|]. cbn [option_map].
  destruct (Z.eqb_spec (Z.of_nat x) (Z.of_nat p)), (Nat.eqb_spec x p); try reflexivity; lia.
Qed.

Lemma insert_pair_perm x l : Permutation (insert_pair x l) (x :: l).
Proof.
  induction l as [|y t IH]; cbn [insert_pair]; [reflexivity|]. destruct (fst x <=? fst y)%Z; [reflexivity|].
  rewrite IH. apply perm_swap.
Qed.
Lemma sort_pairs_perm l : Permutation (sort_pairs l) l.
Proof. induction l as [|x t IH]; cbn; [reflexivity|]. rewrite insert_pair_perm. now apply perm_skip. Qed.
Lemma insert_pair_sorted x l : Sorted Z.le (map fst l) -> Sorted Z.le (map fst (insert_pair x l)).
Proof.
  induction l as [|y t IH]; intros S; cbn [insert_pair map]; [repeat constructor|].
  destruct (Z.leb_spec (fst x) (fst y)).
  - cbn [map]. constructor; [exact S|]. now constructor.
  - cbn [map]. apply Sorted_inv in S as [S1 S2]. constructor; [now apply IH|].
    destruct t as [|w t]; cbn [insert_pair map].
    + constructor. lia.
    + destruct (fst x <=? fst w)%Z; cbn [map]; constructor; [lia|]. now inversion S2.
Qed.
Lemma sort_pairs_sorted l : Sorted Z.le (map fst (sort_pairs l)).
Proof. induction l as [|x t IH]; cbn [sort_pairs fold_right map]; [constructor|]. now apply insert_pair_sorted. Qed.
Lemma sort_pairs_id l : Sorted Z.le (map fst l) -> sort_pairs l = l.
Proof.
  induction l as [|x t IH]; intros S; [reflexivity|]. cbn [map] in S. apply Sorted_inv in S as [S1 S2].
  cbn [sort_pairs fold_right]. unfold sort_pairs in IH. rewrite (IH S1). destruct t as [|y t]; [reflexivity|].
  cbn [insert_pair]. cbn [map] in S2. inversion S2; subst. now rewrite (proj2 (Z.leb_le _ _)).
Qed.

Lemma combine_fst {X Y} (l : list X) (l' : list Y) : length l = length l' -> map fst (combine l l') = l.
Proof. revert l'. induction l as [|x t IH]; intros [|y t'] E; try discriminate; [reflexivity|]. cbn in *. f_equal. apply IH. lia. Qed.
Lemma combine_snd {X Y} (l : list X) (l' : list Y) : length l = length l' -> map snd (combine l l') = l'.
Proof. revert l'. induction l as [|x t IH]; intros [|y t'] E; try discriminate; [reflexivity|]. cbn in *. f_equal. apply IH. lia. Qed.
Lemma in_combine_nth {X} (l : list X) d0 : forall k x i, In (x, i) (combine l (seq k (length l))) -> nth (i - k) l d0 = x /\ k <= i < k + length l.
Proof.
  induction l as [|y t IH]; intros k x i Hin; [destruct Hin|]. cbn [length seq combine] in Hin. destruct Hin as [[= -> ->]|Hin].
  - rewrite Nat.sub_diag. cbn. split; [reflexivity|lia].
  - apply IH in Hin as [E B]. cbn [length]. split; [|lia]. replace (i - k) with (S (i - S k)) by lia. exact E.
Qed.

Lemma last_index_lt l p i : last_index l p = Some i -> i < length l.
Proof. intros E. apply last_index_spec in E as [E _]. apply nth_error_Some. congruence. Qed.

Lemma sort_index_ok ix ps : ipos ix = map Z.of_nat ps ->
  exists o ps', sort_index ix = (o, IList (map Z.of_nat ps')) /\ Sorted le ps' /\ Permutation ps' ps
    /\ length o = length ps /\ Forall (fun i => i < length ps) o
    /\ (forall p, last_index ps p = option_map (fun i => nth i o 0) (last_index ps' p))
    /\ (Sorted le ps -> o = seq 0 (length ps)).
Proof.
  intros E. unfold sort_index, stable_argsort. rewrite E, map_length.
  set (prs := combine (map Z.of_nat ps) (seq 0 (length ps))).
  assert (Lz : length (map Z.of_nat ps) = length (seq 0 (length ps))) by now rewrite map_length, seq_length.
  assert (Pp := sort_pairs_perm prs).
  assert (Efst : map fst (sort_pairs prs) = map Z.of_nat (map Z.to_nat (map fst (sort_pairs prs)))).
  { rewrite !map_map. apply map_ext_in. intros [z i] Hin. cbn [fst].
    apply (Permutation_in _ Pp) in Hin. unfold prs in Hin. apply in_combine_l in Hin. apply in_map_iff in Hin as (x & <- & _). lia. }
  assert (Et : take_z (map Z.of_nat ps) (map snd (sort_pairs prs)) = map fst (sort_pairs prs)).
  { unfold take_z. rewrite map_map. apply map_ext_in. intros [z i] Hin. cbn [fst snd]. apply (Permutation_in _ Pp) in Hin.
    unfold prs in Hin. rewrite <- (map_length Z.of_nat ps) in Hin. apply (in_combine_nth _ 0%Z) in Hin as [En _]. now rewrite Nat.sub_0_r in En. }
  exists (map snd (sort_pairs prs)), (map Z.to_nat (map fst (sort_pairs prs))).
  split; [now rewrite Et, <- Efst|]. split.
  { apply Sorted_map_of_nat. rewrite <- Efst. apply sort_pairs_sorted. }
  split.
  { apply of_nat_perm. rewrite <- Efst. rewrite (Permutation_map fst Pp). unfold prs. now rewrite combine_fst. }
  split. { rewrite map_length, (Permutation_length Pp). unfold prs. rewrite combine_length, map_length, seq_length. lia. }
  split.
  { apply Forall_forall. intros i Hin. apply (Permutation_in _ (Permutation_map snd Pp)) in Hin. unfold prs in Hin. rewrite combine_snd in Hin by exact Lz.
    apply in_seq in Hin. lia. }
  split.
  { intros p. rewrite <- (@last_key_index _ _ p Efst), last_key_sort. rewrite (@last_key_index prs ps p).
    2:{ unfold prs. now rewrite combine_fst. }
    unfold prs. rewrite combine_snd by exact Lz. destruct (last_index ps p) as [i|] eqn:El; [|reflexivity]. cbn. f_equal.
    apply last_index_lt in El. now rewrite seq_nth. }
  intros S. rewrite sort_pairs_id; unfold prs.
  - now rewrite combine_snd.
  - rewrite combine_fst by exact Lz. now apply Sorted_map_of_nat.
Qed.

(* ---------------- the array ---------------- *)
Section Broadcast.
  Context {L H A : Type}.
  Notation dframe := (df L H A).

  Lemma vec_shape r c n (w v0 : nat -> A) v : (forall i, i < n -> w i = v0 i) -> wanted r c (Vector n v0) = Some v ->
    exists v', to_shape r c (Vector n w) = Ok v' /\ forall i j, i < r -> j < c -> v' i j = v i j.
  Proof.
    intros Hw. cbn [wanted to_shape]. destruct (Nat.eqb_spec n c) as [->|Nc].
    - intros [= <-]. destruct (Nat.eqb_spec c (r * c)) as [E|E].
      + eexists. split; [reflexivity|]. intros i j Hi Hj. assert (r = 1) by nia. assert (i = 0) by lia. subst i. cbn. now apply Hw.
      + eexists. split; [reflexivity|]. intros i j Hi Hj. now apply Hw.
    - destruct ((c =? 1) && (n =? r)) eqn:E; [|discriminate]. apply andb_true_iff in E as [E1 E2]. apply Nat.eqb_eq in E1, E2. subst c n.
      intros [= <-]. rewrite Nat.mul_1_r, Nat.eqb_refl. eexists. split; [reflexivity|]. intros i j Hi Hj.
      assert (j = 0) by lia. subst j. rewrite Nat.mul_1_r, Nat.add_0_r. now apply Hw.
  Qed.
  Lemma mat_shape r c (v : nat -> nat -> A) :
    exists v', to_shape r c (Matrix r c v) = Ok v' /\ forall i j, i < r -> j < c -> v' i j = v i j.
  Proof.
    cbn [to_shape]. rewrite Nat.eqb_refl. eexists. split; [reflexivity|]. intros i j Hi Hj. cbv beta.
    assert (c <> 0) by lia. rewrite Nat.add_comm, Nat.div_add, Nat.mod_add by assumption. rewrite Nat.div_small, Nat.mod_small by assumption. reflexivity.
  Qed.

  Definition reorders (o : nat -> nat) (ps ps' : list nat) : Prop :=
    forall p, last_index ps p = option_map o (last_index ps' p).
  Lemma reorders_id ps : reorders (fun i => i) ps ps.
  Proof. intros p. destruct (last_index ps p); reflexivity. Qed.

  Lemma put_reorder rows cols v rows' cols' v' fr fc (d : dframe) : wf d -> reorders fr rows rows' -> reorders fc cols cols' ->
    (forall i j, i < length rows' -> j < length cols' -> v' i j = v (fr i) (fc j)) ->
    put rows' cols' v' d = put rows cols v d.
  Proof.
    intros W Hr Hc Hv. apply put_ext; [exact W|]. intros p q _ _. rewrite (Hr p), (Hc q).
    destruct (last_index rows' p) as [i|] eqn:E1; [|reflexivity]. cbn [option_map]. destruct (last_index cols' q) as [j|] eqn:E2; [|reflexivity].
    cbn [option_map]. f_equal. apply Hv; eapply last_index_lt; eauto.
  Qed.

  Lemma in_bounds_ok o n : Forall (fun i => i < n) o -> in_bounds o n = true.
  Proof. intros F. apply forallb_forall. rewrite Forall_forall in F. intros i Hi. apply Nat.ltb_lt. auto. Qed.

  (** Which flat sequences arrive in the right order: the columns must be in order; the rows must be a range
      counting up, or the sequence must run down a single column, or be as long as the rows, these in order. *)
  Definition fits (rows : indexer) (rps cps : list nat) (it : item A) : Prop :=
    match it with
    | Vector n _ => Sorted le cps
        /\ (should_avoid_sort rows = true \/ length cps = 1 /\ n = length rps \/ Sorted le rps /\ n = length rps)
    | _ => True
    end.

  Definition lookup_ok (n : nat) (ix : indexer) (ps : list nat) : Prop :=
    range_ok ix /\ ipos ix = map Z.of_nat ps /\ Forall (fun p => p < n) ps.

  Lemma avoid_sorted ix ps : should_avoid_sort ix = true -> ipos ix = map Z.of_nat ps -> Sorted le ps.
  Proof.
    destruct ix as [a b s|zs]; cbn [should_avoid_sort ipos]; [|discriminate]. intros Hs E. apply Sorted_map_of_nat. rewrite <- E.
    apply py_range_sorted. apply Z.gtb_lt in Hs. lia.
  Qed.
  Lemma lookup_sorted n ix ps o ps' : lookup_ok n ix ps -> sort_index ix = (o, IList (map Z.of_nat ps')) -> Permutation ps' ps ->
    lookup_ok n (IList (map Z.of_nat ps')) ps'.
  Proof.
    intros (_ & _ & F) _ P. split; [exact I|]. split; [reflexivity|]. eapply Forall_perm; [apply Permutation_sym; exact P|exact F].
  Qed.

  (** What the code writes after sorting is what was asked for. *)
  Definition faithful (n m : nat) (rows cols : indexer) (rps cps : list nat) (v : nat -> nat -> A)
      (v' : nat -> nat -> A) (rows' cols' : indexer) : Prop :=
    exists rps' cps', lookup_ok n rows' rps' /\ lookup_ok m cols' cps'
      /\ Sorted le rps' /\ Sorted le cps' /\ length rps' = length rps /\ length cps' = length cps
      /\ (rows' = rows /\ rps' = rps \/ exists zs, rows' = IList zs)
      /\ (cols' = cols /\ cps' = cps \/ exists zs, cols' = IList zs)
      /\ forall d : dframe, wf d -> put rps' cps' v' d = put rps cps v d.

  Lemma broadcast_ok n m rows cols rps cps it v : lookup_ok n rows rps -> lookup_ok m cols cps ->
    wanted (length rps) (length cps) it = Some v -> fits rows rps cps it -> (forall a, it <> Scalar a) ->
    exists v' rows' cols', broadcast_item rows cols it = Ok (v', rows', cols') /\ faithful n m rows cols rps cps v v' rows' cols'.
  Proof.
    intros Lr Lc Wt Ft Ns. assert (Er := proj1 (proj2 Lr)). assert (Ec := proj1 (proj2 Lc)).
    destruct (@sort_index_ok rows rps Er) as (o & rps' & So & Srt & Pr & Lo & Bo & Ro & Io).
    destruct (@sort_index_ok cols cps Ec) as (o2 & cps' & So2 & Srt2 & Pc & Lo2 & Bo2 & Ro2 & Io2).
    pose proof (lookup_sorted Lr So Pr) as Lr'. pose proof (lookup_sorted Lc So2 Pc) as Lc'.
    pose proof (Permutation_length Pr) as Lpr. pose proof (Permutation_length Pc) as Lpc.
    assert (Rr : reorders (fun i => nth i o 0) rps rps') by exact Ro.
    assert (Rc : reorders (fun i => nth i o2 0) cps cps') by exact Ro2.
    unfold broadcast_item. rewrite Er, Ec, !map_length, So, So2. destruct it as [a|k v0|r0 c0 v0]; [now destruct (Ns a)| |].
    - (* flat *)
      destruct Ft as [Sc Ft]. destruct (should_avoid_sort rows) eqn:Av.
      + destruct (@vec_shape _ _ k v0 v0 v (fun _ _ => eq_refl) Wt) as (v' & -> & Hv). cbn [rbind].
        exists v', rows, cols. split; [reflexivity|]. exists rps, cps. repeat (split; [solve [auto|exact (@avoid_sorted rows rps Av Er)]|]).
        intros d W. eapply put_reorder; [exact W|exact (reorders_id rps)|exact (reorders_id cps)|]. exact Hv.
      + assert (Ek : k = length rps) by (destruct Ft as [Ft|[[_ Ft]|[_ Ft]]]; [discriminate|exact Ft|exact Ft]). subst k.
        unfold take_rows_of. rewrite (in_bounds_ok Bo), Lo. cbn [rbind].
        destruct Ft as [Ft|[[Hc1 _]|[Sr _]]]; [discriminate| |].
        * (* down one column *)
          rewrite Hc1 in *. assert (Wt' : wanted (length rps) 1 (Vector (length rps) (fun i => v0 (nth i o 0))) = Some (fun i _ => v0 (nth i o 0))
            \/ length rps = 1).
          { cbn [wanted]. destruct (Nat.eqb_spec (length rps) 1); [now right|left]. now rewrite !Nat.eqb_refl. }
          destruct Wt' as [Wt'|R1].
          -- destruct (@vec_shape _ _ _ _ _ _ (fun _ _ => eq_refl) Wt') as (v' & -> & Hv). cbn [rbind].
             exists v', (IList (map Z.of_nat rps')), cols. split; [reflexivity|]. exists rps', cps. repeat (split; [solve [auto|right; eauto]|]).
             intros d W. eapply put_reorder; [exact W|exact Rr|exact (reorders_id cps)|]. rewrite Lpr, Hc1. intros i j Hi Hj. rewrite Hv by assumption.
             cbn [wanted] in Wt. destruct (length rps =? 1) eqn:E1.
             ++ injection Wt as <-. apply Nat.eqb_eq in E1. f_equal. rewrite Forall_forall in Bo. 
                assert (In (nth i o 0) o) by (apply nth_In; lia). specialize (Bo _ H0). lia.
             ++ rewrite !Nat.eqb_refl in Wt. cbn [andb] in Wt. now injection Wt as <-.
          -- assert (Ho : forall i, i < 1 -> nth i o 0 = i).
             { intros i Hi. rewrite Forall_forall in Bo. assert (In (nth i o 0) o) by (apply nth_In; lia). specialize (Bo _ H0). lia. }
             destruct (@vec_shape (length rps) 1 (length rps) (fun i => v0 (nth i o 0)) v0 v) as (v' & -> & Hv); [|exact Wt|].
             { intros i Hi. f_equal. apply Ho. lia. }
             cbn [rbind]. exists v', (IList (map Z.of_nat rps')), cols. split; [reflexivity|]. exists rps', cps. repeat (split; [solve [auto|right; eauto]|]).
             intros d W. eapply put_reorder; [exact W|exact Rr|exact (reorders_id cps)|]. rewrite Lpr, Hc1. intros i j Hi Hj. rewrite Hv by assumption.
             rewrite Ho by lia. reflexivity.
        * (* rows in order *)
          rewrite (Io Sr) in *. 
          destruct (@vec_shape (length rps) (length cps) (length rps) (fun i => v0 (nth i (seq 0 (length rps)) 0)) v0 v) as (v' & -> & Hv); [|exact Wt|].
          { intros i Hi. now rewrite seq_nth. }
          cbn [rbind]. exists v', (IList (map Z.of_nat rps')), cols. split; [reflexivity|]. exists rps', cps. repeat (split; [solve [auto|right; eauto]|]).
          intros d W. eapply put_reorder; [exact W|exact Rr|exact (reorders_id cps)|]. rewrite Lpr. intros i j Hi Hj. rewrite Hv by assumption.
          now rewrite seq_nth.
    - (* two-dimensional *)
      cbn [wanted] in Wt. destruct ((r0 =? length rps) && (c0 =? length cps)) eqn:E; [|discriminate]. injection Wt as <-.
      apply andb_true_iff in E as [E1 E2]. apply Nat.eqb_eq in E1, E2. subst r0 c0.
      destruct (should_avoid_sort rows) eqn:Av, (should_avoid_sort cols) eqn:Ac.
      + destruct (mat_shape (length rps) (length cps) v0) as (v' & -> & Hv). cbn [rbind].
        exists v', rows, cols. split; [reflexivity|]. exists rps, cps.
        repeat (split; [solve [auto|exact (@avoid_sorted rows rps Av Er)|exact (@avoid_sorted cols cps Ac Ec)]|]).
        intros d W. eapply put_reorder; [exact W|exact (reorders_id rps)|exact (reorders_id cps)|]. exact Hv.
      + cbn [take_cols_of]. rewrite (in_bounds_ok Bo2), Lo2. cbn [rbind].
        destruct (mat_shape (length rps) (length cps) (fun i j => v0 i (nth j o2 0))) as (v' & -> & Hv). cbn [rbind].
        exists v', rows, (IList (map Z.of_nat cps')). split; [reflexivity|]. exists rps, cps'.
        repeat (split; [solve [auto|exact (@avoid_sorted rows rps Av Er)|right; eauto]|]).
        intros d W. eapply put_reorder; [exact W|exact (reorders_id rps)|exact Rc|]. rewrite Lpc. exact Hv.
      + cbn [take_rows_of]. rewrite (in_bounds_ok Bo), Lo. cbn [rbind].
        destruct (mat_shape (length rps) (length cps) (fun i j => v0 (nth i o 0) j)) as (v' & -> & Hv). cbn [rbind].
        exists v', (IList (map Z.of_nat rps')), cols. split; [reflexivity|]. exists rps', cps.
        repeat (split; [solve [auto|exact (@avoid_sorted cols cps Ac Ec)|right; eauto]|]).
        intros d W. eapply put_reorder; [exact W|exact Rr|exact (reorders_id cps)|]. rewrite Lpr. exact Hv.
      + cbn [take_rows_of]. rewrite (in_bounds_ok Bo), Lo. cbn [rbind take_cols_of]. rewrite (in_bounds_ok Bo2), Lo2. cbn [rbind].
        destruct (mat_shape (length rps) (length cps) (fun i j => v0 (nth i o 0) (nth j o2 0))) as (v' & -> & Hv). cbn [rbind].
        exists v', (IList (map Z.of_nat rps')), (IList (map Z.of_nat cps')). split; [reflexivity|]. exists rps', cps'.
        repeat (split; [solve [auto|right; eauto]|]).
        intros d W. eapply put_reorder; [exact W|exact Rr|exact Rc|]. rewrite Lpr, Lpc. exact Hv.
  Qed.
End Broadcast.
