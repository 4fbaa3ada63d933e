(** Block indices of unsorted lookups, and the sizes used while cutting up the array. *)
From Verif Require Import Base Table ChunkModel ChunkSpec ChunkProofs GridModel GridSpec FrameSpec GridProofs GridProofs2 GridProofs3 GridProofs5 SelSpec SelModel
  SelProofs SelProofs2 SelProofs3 SelProofs4 SelProofs5 SelProofs6 SelProofs7 SetSpec SetModel SetProofs SetProofs2.

(** A unit-step range needs even blocks, or its first position in the first block, for the counters to keep
    in step with the blocks. *)
Definition in_step (bins : list nat) (ix : indexer) (ps : list nat) : Prop :=
  match ix with
  | IRange _ _ s => s = 1%Z -> even bins \/ (forall p, hd_error ps = Some p -> p < hd 0 bins)
  | IList _ => True
  end.

Lemma np_sort_nat ps : exists s, np_sort (map Z.of_nat ps) = map Z.of_nat s /\ Permutation s ps /\ Sorted le s.
Proof.
  pose proof (np_sort_perm (map Z.of_nat ps)) as P. pose proof (np_sort_sorted (map Z.of_nat ps)) as S.
  apply Permutation_sym in P. assert (P2 := P). apply Permutation_map_inv in P2 as (s & E & Ps).
  exists s. split; [exact E|]. split; [now apply Permutation_sym|]. apply Sorted_map_of_nat. now rewrite <- E.
Qed.

Lemma map_nonneg n l : map (fun z => if (z <? 0)%Z then (z mod Z.of_nat n)%Z else z) (map Z.of_nat l) = map Z.of_nat l.
Proof.
  rewrite map_map. apply map_ext. intros x. destruct (Z.ltb_spec (Z.of_nat x) 0); [lia|reflexivity].
Qed.

Lemma array_unsorted bins n ps s : np_sort (map Z.of_nat ps) = map Z.of_nat s ->
  block_index_array bins n (map Z.of_nat ps) false = block_index_array bins n (map Z.of_nat s) true.
Proof.
  intros E. unfold block_index_array. rewrite !existsb_neg_nat, !map_nonneg. cbn [orb negb]. now rewrite E.
Qed.

Lemma digitize_first bins x : x < hd 0 bins -> digitize bins x = 0.
Proof.
  intros Hx. destruct bins as [|b [|b' bs]].
  - cbn in Hx. lia.
  - unfold digitize. now rewrite cumulative_one.
  - rewrite digitize_cons. cbn in Hx. destruct (Nat.leb_spec b x); [lia|reflexivity].
Qed.

Lemma run_bound bins p0 dict : run_from p0 dict -> Forall (entry_ok bins) dict -> dict <> [] -> p0 + length dict <= length bins.
Proof.
  intros [R _] F Hn. assert (Hin : In (p0 + length dict - 1) (map fst dict)).
  { rewrite R. apply in_seq. destruct dict; [easy|]. cbn [length]. lia. }
  apply in_map_iff in Hin as (e & E & Hin). rewrite Forall_forall in F. destruct (F e Hin) as [Hl _]. destruct dict; [easy|]. cbn [length] in *. lia.
Qed.

Lemma block_index_set bins n ix ps : bins <> [] -> list_sum bins = n -> range_ok ix ->
  ipos ix = map Z.of_nat ps -> Forall (fun p => p < n) ps ->
  exists dict s, block_index bins (length bins) n ix false = Ok dict
    /\ concat (map (entry_positions bins) dict) = s /\ Forall (entry_ok bins) dict
    /\ Permutation s ps /\ Sorted le s
    /\ forall exact cache, cache = None \/ cache = Some bins -> (exact = true -> in_step bins ix ps) ->
         steps exact (cache_after n ix cache bins) bins 0 dict.
Proof.
  intros Hb Hs Hr Hip Hps.
  assert (Arr : exists s, concat (map (entry_positions bins) (map barr (block_index_array bins n (map Z.of_nat ps) false))) = s
     /\ Forall (entry_ok bins) (map barr (block_index_array bins n (map Z.of_nat ps) false)) /\ Permutation s ps /\ Sorted le s).
  { destruct (np_sort_nat ps) as (s & E & P & S). rewrite (@array_unsorted bins n ps s E).
    destruct (@array_ok bins n s true Hb S) as (A1 & A2 & _); [|now left|].
    - rewrite Hs. eapply Forall_perm; [apply Permutation_sym; exact P|exact Hps].
    - exists s. split; [exact A1|]. split; [exact A2|]. auto. }
  assert (Lists : forall exact cache l, steps exact cache bins 0 (map barr l)).
  { intros exact cache l. apply steps_lists. apply Forall_map, Forall_forall. intros e _. now exists (snd e). }
  destruct ix as [a b s|zs]; cbn [ipos] in Hip.
  - destruct (Z.eqb_spec s 1) as [->|Ns].
    + (* unit step *)
      cbn [range_ok] in Hr. destruct Hr as (Hr1 & Hr2 & _). assert (Hab : (a <= b)%Z) by (apply Hr2; reflexivity).
      assert (Ha : (0 <= a)%Z) by (apply Hr1; lia).
      destruct (Z.eqb_spec a b) as [<-|Nab].
      { (* empty *)
        assert (Eps : ps = []). { rewrite py_range_nil in Hip by (rewrite range_len_1; lia). now destruct ps. }
        subst ps. cbn [block_index Z.eqb negb]. change (negb (1 =? 1)%Z) with false. cbn [negb].
        destruct ((a =? 0) && (Z.of_nat n <=? a))%Z eqn:E0.
        - assert (n = 0). { apply andb_true_iff in E0 as [E0 E1]. apply Z.eqb_eq in E0. apply Z.leb_le in E1. lia. }
          eexists. exists []. split; [reflexivity|]. pose proof (@wholes bins (length bins) 0 ltac:(lia)) as Wh. rewrite start_of_0, Nat.add_0_l, start_of_all, Hs in Wh.
          split; [rewrite Wh, H; reflexivity|]. split; [apply wholes_ok; lia|]. split; [constructor|]. split; [constructor|].
          intros exact cache Hc Hi. unfold cache_after. replace (reads_lengths n (IRange a a 1)) with false.
          2:{ unfold reads_lengths. rewrite (Z.eqb_refl a), orb_true_r. reflexivity. }
          destruct Hc as [->| ->]; [apply steps_unknown|]. apply (@steps_run exact bins _ 0 0); [apply run_wholes| |auto].
          rewrite map_length, seq_length. lia.
        - rewrite Z.eqb_refl. exists [], []. split; [reflexivity|]. split; [reflexivity|]. split; [constructor|]. split; [constructor|]. split; [constructor|].
          intros; exact I. }
      destruct (@py_range_1 a b ps n) as (s0 & k & Ea & Eb & Hk & Eps & Hle); [lia|exact Hip|exact Hps|].
      assert (Sps : Sorted le ps) by (rewrite Eps; apply seq_Sorted).
      destruct (@block_index_ok bins n (IRange a b 1) ps Hb Hs) as (dict & Ed & D1 & D2 & _); [cbn; repeat split; auto; lia|exact Hip|exact Hps|exact Sps|].
      assert (Flag : block_index bins (length bins) n (IRange a b 1) false = Ok dict) by (rewrite <- Ed; reflexivity).
      exists dict, ps. split; [exact Flag|]. split; [exact D1|]. split; [exact D2|]. split; [apply Permutation_refl|]. split; [exact Sps|].
      intros exact cache Hc Hi.
      assert (Nd : dict <> []). { intros ->. cbn in D1. rewrite Eps in D1. destruct k; [lia|discriminate]. }
      assert (Run : exists p0, run_from p0 dict /\ (p0 = 0 \/ a <> 0%Z /\ p0 = digitize bins s0)).
      { clear Ed. revert Flag. cbn [block_index]. change (negb (1 =? 1)%Z) with false. cbv iota.
        destruct ((a =? 0) && (Z.of_nat n <=? b))%Z eqn:E0.
        { intros [= <-]. exists 0. split; [apply run_wholes|now left]. }
        destruct (Z.eqb_spec a b); [lia|].
        destruct (Z.eqb_spec a 0) as [Za|Za].
        { assert (Hbn : s0 + k < n). { cbn in E0. apply Z.leb_gt in E0. lia. }
          rewrite Eb, locate_ok by (auto; lia). cbn [rbind fst snd]. intros [= <-]. exists 0. split; [|now left].
          apply run_app; [apply run_wholes|]. rewrite map_length, seq_length, Nat.add_0_l. apply run_one. }
        destruct (Z.leb_spec (Z.of_nat n) b) as [Lb|Lb].
        { rewrite Ea, locate_ok by (auto; lia). cbn [rbind fst snd]. intros [= <-]. exists (digitize bins s0). split; [|right; split; [lia|reflexivity]].
          match goal with |- run_from ?p (?x :: ?l) => change (run_from p ([x] ++ l)) end.
          apply run_app; [apply run_one|]. cbn [length]. rewrite Nat.add_1_r. apply run_wholes. }
        rewrite Ea, locate_ok by (auto; lia). cbn [rbind]. rewrite Eb, locate_ok by (auto; lia). cbn [rbind fst snd].
        destruct (Nat.eqb_spec (digitize bins s0) (digitize bins (s0 + k))) as [Eq|Ne].
        - intros [= <-]. exists (digitize bins s0). split; [apply run_one|right; split; [lia|reflexivity]].
        - intros [= <-]. exists (digitize bins s0). split; [|right; split; [lia|reflexivity]].
          pose proof (@digitize_mono bins s0 (s0 + k) ltac:(lia)) as M.
          match goal with |- run_from ?p (?x :: ?l) => change (run_from p ([x] ++ l)) end.
          apply run_app; [apply run_one|]. cbn [length]. rewrite Nat.add_1_r. apply run_app; [apply run_wholes|].
          rewrite map_length, seq_length. replace (S (digitize bins s0) + (digitize bins (s0 + k) - S (digitize bins s0))) with (digitize bins (s0 + k)) by lia.
          apply run_one. }
      destruct Run as (p0 & Run & Hp0). pose proof (run_bound Run D2 Nd) as Bd.
      unfold cache_after. destruct (reads_lengths n (IRange a b 1)) eqn:Rd.
      2:{ destruct Hc as [->| ->]; [apply steps_unknown|].
          (* a full range *)
          assert (p0 = 0).
          { unfold reads_lengths in Rd. apply negb_false_iff in Rd. cbn in Rd. apply orb_true_iff in Rd as [Rd|Rd]; [|apply Z.eqb_eq in Rd; lia].
            apply andb_true_iff in Rd as [R0 _]. apply Z.eqb_eq in R0. assert (s0 = 0) by lia. subst s0.
            destruct Hp0 as [->|[Hp0 _]]; [reflexivity|lia]. }
          subst p0. apply (@steps_run exact bins dict 0 0); [exact Run|exact Bd|now left]. }
      apply (@steps_run exact bins dict 0 p0); [now rewrite Nat.add_0_r|lia|].
      intros Ex. destruct (Hi Ex eq_refl) as [Ev|Hh]; [now right|left].
      destruct Hp0 as [->|[_ ->]]; [reflexivity|]. apply digitize_first. apply Hh. rewrite Eps. destruct k; [lia|reflexivity].
    + destruct Arr as (s' & A1 & A2 & A3 & A4). exists (map barr (block_index_array bins n (map Z.of_nat ps) false)), s'.
      split; [|split; [exact A1|split; [exact A2|split; [exact A3|split; [exact A4|]]]]].
      * cbn [block_index]. rewrite (proj2 (Z.eqb_neq s 1) Ns). cbn [negb]. now rewrite Hip.
      * intros. apply Lists.
  - destruct zs as [|z zs].
    + destruct ps; [|discriminate]. exists [(0, BList [])], []. split; [reflexivity|]. split; [reflexivity|]. split.
      { constructor; [|constructor]. split; [cbn; destruct bins; [easy|cbn; lia]|constructor]. }
      split; [constructor|]. split; [constructor|]. intros exact cache _ _. apply steps_lists. repeat constructor. now exists [].
    + destruct Arr as (s' & A1 & A2 & A3 & A4). exists (map barr (block_index_array bins n (map Z.of_nat ps) false)), s'.
      split; [|split; [exact A1|split; [exact A2|split; [exact A3|split; [exact A4|]]]]].
      * cbn [block_index]. now rewrite Hip.
      * intros. apply Lists.
Qed.
