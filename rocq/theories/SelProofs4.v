From Verif Require Import Base Table ChunkModel ChunkSpec ChunkProofs GridModel GridSpec FrameSpec GridProofs GridProofs2 GridProofs3 GridProofs5 SelSpec SelModel SelProofs SelProofs2 SelProofs3.

(** * Ranges *)
Lemma py_range_nil a b s : range_len a b s = 0 -> py_range a b s = [].
Proof. unfold py_range. now intros ->. Qed.
Lemma py_range_length a b s : length (py_range a b s) = range_len a b s.
Proof. unfold py_range. now rewrite map_length, seq_length. Qed.
Lemma py_range_sorted a b s : (0 < s)%Z -> Sorted Z.le (py_range a b s).
Proof. intros Hs. unfold py_range. generalize 0 as i. generalize (range_len a b s) as n. induction n as [|n IH]; intros i; cbn [seq map]; constructor; auto.
  destruct n; cbn [seq map]; constructor. rewrite Nat2Z.inj_succ. nia. Qed.
Lemma py_range_rev_sorted a b s : (s < 0)%Z -> Sorted Z.le (rev (py_range a b s)).
Proof. intros Hs. unfold py_range. rewrite <- map_rev. induction (range_len a b s) as [|n IH]; [constructor|].
  rewrite seq_S, rev_app_distr. cbn [rev app map]. constructor; [exact IH|].
  destruct n; [constructor|]. rewrite seq_S, rev_app_distr. cbn [rev app map]. constructor. rewrite !Nat.add_0_l, Nat2Z.inj_succ. nia. Qed.

Lemma range_clip n a b s ps : (0 < s)%Z -> (0 <= a)%Z -> (0 <= b)%Z -> py_range a b s = map Z.of_nat ps -> Forall (fun p => p < n) ps ->
  py_range (Z.min a (Z.of_nat n)) (Z.min b (Z.of_nat n)) s = py_range a b s.
Proof. intros Hs Ha Hb E F.
  assert (RL : forall a b, range_len a b s = Z.to_nat ((b - a + s - 1) / s)).
  { intros. unfold range_len. destruct (Z.gtb_spec s 0); [reflexivity|lia]. }
  destruct (Z.le_gt_cases b a) as [Hba|Hab].
  - rewrite !py_range_nil; [reflexivity| |]; rewrite RL.
    + enough ((b - a + s - 1) / s <= 0)%Z by lia. apply Z.lt_succ_r. apply Z.div_lt_upper_bound; lia.
    + enough ((Z.min b (Z.of_nat n) - Z.min a (Z.of_nat n) + s - 1) / s <= 0)%Z by lia. apply Z.lt_succ_r. apply Z.div_lt_upper_bound; lia.
  - assert (K : (1 <= (b - a + s - 1) / s)%Z) by (apply Z.div_le_lower_bound; lia).
    assert (Hall : forall k, k < range_len a b s -> (a + Z.of_nat k * s < Z.of_nat n)%Z).
    { intros k Hk. assert (I : In (a + Z.of_nat k * s)%Z (map Z.of_nat ps)).
      { rewrite <- E. unfold py_range. apply in_map_iff. exists k. split; [reflexivity|]. apply in_seq. lia. }
      apply in_map_iff in I as (p & Ep & Ip). rewrite Forall_forall in F. specialize (F p Ip). cbn in F. lia. }
    assert (Ha' : (a < Z.of_nat n)%Z) by (specialize (Hall 0); rewrite RL in Hall; lia).
    rewrite (Z.min_l a) by lia. unfold py_range. f_equal. f_equal. rewrite !RL. f_equal.
    destruct (Z.le_gt_cases b (Z.of_nat n)) as [H1|H1]; [now rewrite Z.min_l by lia|]. rewrite Z.min_r by lia.
    apply Z.le_antisymm.
    + apply Z.div_le_mono; lia.
    + apply Z.div_le_lower_bound; [lia|]. specialize (Hall (Z.to_nat ((b - a + s - 1) / s - 1))). rewrite RL in Hall.
      specialize (Hall ltac:(lia)). rewrite Z2Nat.id in Hall by lia. nia. Qed.

Lemma wrap_of_nat n p : p < n -> wrap n (Z.of_nat p) = Some p.
Proof. intros Hp. unfold wrap. destruct (Z.leb_spec 0 (Z.of_nat p)); [|lia]. destruct (Z.ltb_spec (Z.of_nat p) (Z.of_nat n)); [|lia].
  cbn. now rewrite Nat2Z.id. Qed.
Lemma wrap_all_of_nat n ps : Forall (fun p => p < n) ps -> wrap_all n (map Z.of_nat ps) = Some ps.
Proof. induction 1 as [|p ps Hp F IH]; [reflexivity|]. cbn [map wrap_all]. now rewrite wrap_of_nat, IH. Qed.
Lemma np_take_nat {X} (l : list X) ps : Forall (fun p => p < length l) ps -> np_take l (map Z.of_nat ps) = Ok (pick l ps).
Proof. intros F. unfold np_take. now rewrite wrap_all_of_nat. Qed.

Lemma pick_rev {X} (l : list X) ps : pick l (rev ps) = rev (pick l ps).
Proof. induction ps as [|p ps IH]; [reflexivity|]. cbn [rev]. rewrite pick_app, IH, (pick_cons l p ps), rev_app_distr. f_equal.
  unfold pick. cbn. destruct (nth_error l p); reflexivity. Qed.
Lemma pick_perm {X} (l : list X) ps qs : Permutation ps qs -> Permutation (pick l ps) (pick l qs).
Proof. intros P. unfold pick. rewrite <- !flat_map_concat_map. now apply Permutation_flat_map. Qed.
Lemma pick_perm_seq {X} (l : list X) ps : Permutation ps (seq 0 (length l)) -> Permutation (pick l ps) l.
Proof. intros P. rewrite (pick_perm l P). now rewrite pick_all. Qed.
Lemma perm_seq_bound ps n : Permutation ps (seq 0 n) -> Forall (fun p => p < n) ps.
Proof. intros P. apply Forall_forall. intros p I. apply (Permutation_in _ P), in_seq in I. lia. Qed.
Lemma Forall_perm {X} (P : X -> Prop) l l' : Permutation l l' -> Forall P l -> Forall P l'.
Proof. intros Hp F. rewrite Forall_forall in *. intros x I. apply F. eapply Permutation_in; [symmetry|]; eauto. Qed.
Lemma of_nat_perm l l' : Permutation (map Z.of_nat l) (map Z.of_nat l') -> Permutation l l'.
Proof. intros P. apply (Permutation_map Z.to_nat) in P. now rewrite !map_to_of in P. Qed.

Lemma unsort_twice argsort ps s : (forall l, sorts l (argsort l)) -> Permutation s ps -> Sorted le s ->
  let o := argsort (map Z.of_nat (argsort (map Z.of_nat ps))) in
  Forall (fun p => p < length s) o /\ pick s o = ps /\ length o = length ps.
Proof. intros AS P HS o. pose proof (AS (map Z.of_nat ps)) as [P1 S1]. rewrite map_length in P1. rewrite pick_map in S1.
  set (a := argsort (map Z.of_nat ps)) in *. pose proof (AS (map Z.of_nat a)) as [P2 S2]. fold o in P2, S2. rewrite map_length in P2. rewrite pick_map in S2.
  assert (La : length a = length ps) by (rewrite (Permutation_length P1), seq_length; reflexivity).
  apply Sorted_map_of_nat in S1, S2.
  assert (Es : pick ps a = s).
  { apply (sorted_perm_unique (R:=le)); try lia; auto. rewrite (pick_perm_seq ps P1). now symmetry. }
  assert (Eq : pick a o = seq 0 (length ps)).
  { apply (sorted_perm_unique (R:=le)); try lia; auto; [apply seq_Sorted|]. rewrite (pick_perm_seq a P2). exact P1. }
  rewrite La in P2. split; [|split].
  - rewrite (Permutation_length P). now apply perm_seq_bound.
  - rewrite <- Es. rewrite pick_pick by (now apply perm_seq_bound). rewrite Eq. now apply pick_all.
  - now rewrite (Permutation_length P2), seq_length. Qed.

(** The positions [ps] an indexer selects on an axis of length [n]. *)
Definition selects (n : nat) (ix : option indexer) (ps : list nat) : Prop :=
  match ix with
  | None => ps = seq 0 n
  | Some ix => range_ok ix /\ ipos ix = map Z.of_nat ps /\ Forall (fun p => p < n) ps
  end.
Lemma selects_bound n ix ps : selects n ix ps -> Forall (fun p => p < n) ps.
Proof. destruct ix as [ix|]; [now intros (_ & _ & F)|]. intros ->. apply Forall_forall. intros p I%in_seq. lia. Qed.

Lemma get_new_lengths_eq bins dict : get_new_lengths bins dict = map (@length nat) (map (entry_positions bins) dict).
Proof. unfold get_new_lengths. rewrite map_map. apply map_ext. intros [i ix]. unfold entry_positions. rewrite map_length. cbn [fst snd]. now destruct ix. Qed.
Lemma wholes_lengths bins : map (@length nat) (map (entry_positions bins) (map (fun i => (i, whole)) (seq 0 (length bins)))) = bins.
Proof. rewrite !map_map. rewrite (map_ext _ (fun i => nth i bins 0)).
  2:{ intros i. now rewrite entry_whole, seq_length. }
  induction bins as [|b bs IH]; [reflexivity|]. cbn [length seq map nth]. f_equal. rewrite <- seq_shift, map_map. exact IH. Qed.

Lemma rev_seq_range n : py_range (Z.of_nat n - 1) (-1) (-1) = map Z.of_nat (rev (seq 0 n)).
Proof. unfold py_range, range_len. cbn [Z.gtb Z.ltb Z.compare]. replace (Z.to_nat ((Z.of_nat n - 1 - -1 - -1 - 1) / - -1)) with n.
  2:{ change (- -1)%Z with 1%Z. rewrite Z.div_1_r. lia. }
  assert (G : forall m, m <= n -> map (fun k => (Z.of_nat n - 1 + Z.of_nat k * -1)%Z) (seq (n - m) m) = map Z.of_nat (rev (seq 0 m))).
  { induction m as [|m IH]; intros Hm; [reflexivity|]. rewrite (seq_S m 0), rev_app_distr. cbn [rev app map seq]. f_equal; [lia|].
    rewrite <- IH by lia. f_equal. f_equal. lia. }
  specialize (G n ltac:(lia)). now rewrite Nat.sub_diag in G. Qed.

Section TakeAxis.
  Variable argsort : list Z -> list nat.
  Hypothesis argsort_ok : forall l, sorts l (argsort l).

  Lemma take_axis_ok {X} bins n (l : list X) ix ps cache :
    bins <> [] -> list_sum bins = n -> length l = n -> selects n ix ps -> cache = None \/ cache = Some bins ->
    exists dict cache' s,
      take_axis bins (length bins) cache (Some l) ix = Ok (dict, cache', Some (pick l s))
      /\ dict_ok bins dict s /\ Permutation s ps /\ Sorted le s
      /\ (cache' = None \/ cache' = Some (map (@length nat) (map (entry_positions bins) dict)))
      /\ (ix <> None -> cache' <> None)
      /\ (in_order ix = true -> s = ps)
      /\ match unsort_order argsort ix with
         | None => s = ps
         | Some o => exists on, o = map Z.of_nat on /\ Forall (fun p => p < length s) on /\ pick s on = ps /\ length on = length ps
         end.
  Proof.
    intros Hb Hn Hl Hsel Hc. destruct ix as [ix|]; cbn [take_axis].
    2:{ cbn in Hsel. subst ps. exists (map (fun i => (i, whole)) (seq 0 (length bins))), cache, (seq 0 n). split; [|split; [|split; [|split; [|split; [|split; [|split]]]]]]; auto.
        - rewrite pick_all by assumption. reflexivity.
        - split; [|split; [now apply wholes_ok|intros; apply wholes_safe]]. rewrite wholes by lia. rewrite start_of_0, Nat.add_0_l, start_of_all. f_equal. lia.
        - apply seq_Sorted.
        - now rewrite wholes_lengths.
        - easy. }
    destruct Hsel as (Hok & Hp & F). cbn [labels rbind].
    set (sorted := if increasing (ipos ix) then ix else get_sorted_positions ix).
    assert (HS : exists s, ipos sorted = map Z.of_nat s /\ Sorted le s /\ Permutation s ps /\ range_ok sorted
                 /\ (increasing (ipos ix) = true -> s = ps)
                 /\ match sorted with IRange _ _ _ => s = ps | _ => True end).
    { unfold sorted. destruct (increasing (ipos ix)) eqn:E.
      - exists ps. repeat split; auto. + apply Sorted_map_of_nat. rewrite <- Hp. now apply increasing_sorted. + now destruct ix.
      - exists (map Z.to_nat (np_sort (map Z.of_nat ps))).
        assert (EZ : np_sort (map Z.of_nat ps) = map Z.of_nat (map Z.to_nat (np_sort (map Z.of_nat ps)))).
        { rewrite map_map. rewrite <- (map_id (np_sort _)) at 1. apply map_ext_in. intros z I.
          apply (Permutation_in _ (Permutation_sym (np_sort_perm _))) in I. apply in_map_iff in I as (p & <- & _). now rewrite Nat2Z.id. }
        assert (ES : get_sorted_positions ix = IList (np_sort (map Z.of_nat ps))).
        { destruct ix as [a b s|zs]; cbn [get_sorted_positions]; cbn [ipos] in Hp, E; [|now rewrite Hp].
          destruct (Z.gtb_spec s 0); [|now rewrite Hp]. exfalso.
          rewrite (proj2 (increasing_sorted _)) in E; [discriminate|]. apply py_range_sorted. lia. }
        rewrite ES. repeat split; auto.
        + apply Sorted_map_of_nat. rewrite <- EZ. apply np_sort_sorted.
        + rewrite <- np_sort_perm. now rewrite map_to_of.
        + discriminate. }
    destruct HS as (s & Es & Ss & Ps & Hok' & Einc & Erng).
    assert (Fs : Forall (fun p => p < n) s) by (eapply Forall_perm; [symmetry; exact Ps|exact F]).
    destruct (@block_index_ok bins n sorted s) as (dict & BI & BD); auto. rewrite Hl, BI. cbn [rbind].
    assert (EL : get_new_index_obj l ix sorted = Ok (pick l s)).
    { assert (EN : np_take l (ipos sorted) = Ok (pick l s)) by (rewrite Es; apply np_take_nat; rewrite Hl; exact Fs).
      unfold get_new_index_obj. destruct ix as [a b st|zs]; [|exact EN]. destruct (Z.gtb_spec st 0) as [Hst|Hst]; [|exact EN].
      destruct Hok as (Ok0 & _ & _). destruct (Ok0 ltac:(lia)) as [Ha Hb0].
      unfold slice_indices. destruct (Z.eqb_spec st 0); [lia|]. destruct (Z.ltb_spec st 0); [lia|].
      destruct (Z.ltb_spec a 0); [lia|]. destruct (Z.ltb_spec b 0); [lia|]. cbn [ipos] in Hp. rewrite Hl.
      rewrite (@range_clip n a b st ps) by (auto; lia).
      assert (EI : increasing (ipos (IRange a b st)) = true) by (apply increasing_sorted; cbn [ipos]; apply py_range_sorted; lia).
      unfold sorted in EN. rewrite EI in EN. exact EN. }
    rewrite EL. cbn [rbind]. exists dict. eexists. exists s. split; [reflexivity|].
    split; [exact BD|]. split; [exact Ps|]. split; [exact Ss|]. split; [right; now rewrite get_new_lengths_eq|]. split; [easy|]. split.
    - intros IO. unfold in_order in IO. rewrite !orb_true_iff in IO.
      destruct IO as [[IO|IO]|IO]; [| |now apply Einc].
      + destruct ix as [a b st|]; [|discriminate]. apply Einc, increasing_sorted. cbn [ipos]. apply py_range_sorted.
        destruct (Z.gtb_spec st 0); [lia|discriminate].
      + apply Einc. apply Nat.eqb_eq in IO. destruct (ipos ix) as [|x [|y zs]]; try discriminate. reflexivity.
    - unfold unsort_order. destruct ix as [a b st|zs].
      + destruct (Z.ltb_spec st 0) as [Hst|Hst].
        * cbn [ipos] in Hp. assert (ER : s = rev ps).
          { apply (sorted_perm_unique (R:=le)); try lia; auto.
            - apply Sorted_map_of_nat. rewrite map_rev, <- Hp. apply py_range_rev_sorted. lia.
            - rewrite Ps. apply Permutation_rev. }
          exists (rev (seq 0 (length ps))). rewrite <- rev_seq_range. split.
          { f_equal. f_equal. rewrite <- py_range_length, Hp, map_length. reflexivity. }
          subst s. rewrite !rev_length, seq_length. split; [|split; [|reflexivity]].
          -- apply Forall_rev. apply Forall_forall. intros p I%in_seq. lia.
          -- rewrite pick_rev, pick_all by (apply rev_length). apply rev_involutive.
        * destruct Hok as (_ & _ & Hnz). apply Einc, increasing_sorted. cbn [ipos]. apply py_range_sorted. lia.
      + cbn [ipos] in Hp. subst zs. eexists. split; [reflexivity|]. now apply unsort_twice.
  Qed.
End TakeAxis.
