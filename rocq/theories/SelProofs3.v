From Verif Require Import Base Table ChunkModel ChunkSpec ChunkProofs GridModel GridSpec FrameSpec GridProofs GridProofs2 GridProofs3 SelSpec SelModel SelProofs SelProofs2.

Lemma map_plus_seq a s n : map (fun p => a + p) (seq s n) = seq (a + s) n.
Proof. revert s; induction n as [|n IH]; intros s; cbn; [reflexivity|]. f_equal. rewrite IH. f_equal. lia. Qed.

Lemma start_of_S bins i : i < length bins -> start_of bins (S i) = start_of bins i + nth i bins 0.
Proof. unfold start_of. revert i; induction bins as [|b bs IH]; intros [|i] Hi; cbn [length] in Hi; try lia.
  - cbn. lsum. lia.
  - change (firstn (S (S i)) (b :: bs)) with (b :: firstn (S i) bs). change (firstn (S i) (b :: bs)) with (b :: firstn i bs).
    rewrite !list_sum_cons, IH by lia. cbn [nth]. lia. Qed.
Lemma start_of_0 bins : start_of bins 0 = 0.
Proof. reflexivity. Qed.
Lemma start_of_all bins : start_of bins (length bins) = list_sum bins.
Proof. unfold start_of. now rewrite firstn_all. Qed.
Lemma start_of_mono bins i j : i <= j -> start_of bins i <= start_of bins j.
Proof. intros Hij. unfold start_of. replace j with (i + (j - i)) by lia. rewrite firstn_add, list_sum_app. lia. Qed.

Lemma expand_slice len a b : expand len (BSlice a b) = seq (Nat.min (match a with Some a => a | None => 0 end) len)
  (Nat.min (match b with Some b => b | None => len end) len - Nat.min (match a with Some a => a | None => 0 end) len).
Proof. reflexivity. Qed.
Lemma expand_whole len : expand len whole = seq 0 len.
Proof. unfold whole. rewrite expand_slice. f_equal; lia. Qed.
Lemma entry_whole bins i : entry_positions bins (i, whole) = seq (start_of bins i) (nth i bins 0).
Proof. unfold entry_positions. cbn [fst snd]. rewrite expand_whole, map_plus_seq. f_equal. lia. Qed.
Lemma entry_slice_ok bins i a b : i < length bins -> entry_ok bins (i, BSlice a b).
Proof. intros Hi. split; [exact Hi|]. cbn [fst snd]. rewrite expand_slice. apply Forall_forall. intros p Hp%in_seq. lia. Qed.

(** An entry whose length is that of its block stands for the whole block. *)
Definition entry_safe (bins : list nat) (e : nat * bidx) : Prop :=
  length (expand (nth (fst e) bins 0) (snd e)) = nth (fst e) bins 0 ->
  expand (nth (fst e) bins 0) (snd e) = seq 0 (nth (fst e) bins 0).
Lemma entry_slice_safe bins i a b : entry_safe bins (i, BSlice a b).
Proof. unfold entry_safe. cbn [fst snd]. rewrite expand_slice, seq_length. intros E. f_equal; lia. Qed.

Lemma wholes bins : forall k i, i + k <= length bins ->
  concat (map (entry_positions bins) (map (fun j => (j, whole)) (seq i k))) = seq (start_of bins i) (start_of bins (i + k) - start_of bins i).
Proof. induction k as [|k IH]; intros i Hk.
  - cbn. replace (i + 0) with i by lia. now rewrite Nat.sub_diag.
  - cbn [seq map concat]. rewrite IH by lia. rewrite entry_whole, start_of_S by lia.
    replace (i + S k) with (S i + k) by lia.
    pose proof (@start_of_mono bins (S i) (S i + k) ltac:(lia)). pose proof (@start_of_S bins i ltac:(lia)).
    rewrite <- seq_app. f_equal. lia. Qed.
Lemma wholes_ok bins k i : i + k <= length bins -> Forall (entry_ok bins) (map (fun j => (j, whole)) (seq i k)).
Proof. intros Hk. apply Forall_map, Forall_forall. intros j Hj%in_seq. apply entry_slice_ok. lia. Qed.
Lemma wholes_safe bins k i : Forall (entry_safe bins) (map (fun j => (j, whole)) (seq i k)).
Proof. apply Forall_map, Forall_forall. intros j _. apply entry_slice_safe. Qed.

Lemma map_to_of l : map Z.to_nat (map Z.of_nat l) = l.
Proof. rewrite map_map. rewrite (map_ext _ (fun x => x)) by (intros; apply Nat2Z.id). apply map_id. Qed.

Lemma range_len_1 a b : range_len a b 1 = Z.to_nat (b - a).
Proof. unfold range_len. cbn. f_equal. rewrite Z.div_1_r. lia. Qed.

Lemma py_range_1 a b ps n : (a < b)%Z -> py_range a b 1 = map Z.of_nat ps -> Forall (fun p => p < n) ps ->
  exists s k, a = Z.of_nat s /\ b = Z.of_nat (s + k) /\ 0 < k /\ ps = seq s k /\ s + k <= n.
Proof. intros Hab E F. unfold py_range in E. rewrite range_len_1 in E.
  assert (Hk : 0 < Z.to_nat (b - a)) by lia. remember (Z.to_nat (b - a)) as k.
  assert (Ha : (0 <= a)%Z).
  { destruct k; [lia|]. destruct ps as [|p ps]; [discriminate|]. cbn [seq map] in E. injection E as E _. lia. }
  exists (Z.to_nat a), k. assert (EP : ps = seq (Z.to_nat a) k).
  { apply (f_equal (map Z.to_nat)) in E. rewrite map_to_of, map_map in E. rewrite <- E.
    rewrite <- (Nat.add_0_r (Z.to_nat a)). rewrite <- map_plus_seq. apply map_ext. intros; lia. }
  repeat split; try lia; [exact EP|]. subst ps. rewrite Forall_forall in F.
  specialize (F (Z.to_nat a + (k - 1))). rewrite in_seq in F. specialize (F ltac:(lia)). lia. Qed.

Definition dict_ok (bins : list nat) (dict : list (nat * bidx)) (ps : list nat) : Prop :=
  concat (map (entry_positions bins) dict) = ps /\ Forall (entry_ok bins) dict
  /\ (NoDup ps -> Forall (entry_safe bins) dict).

(** A range, as the indexer code may handle it: ranges built from a slice have these bounds, and so
    has every range of valid positions.  A unit-step range must not run backwards. *)
Definition range_ok (ix : indexer) : Prop :=
  match ix with
  | IRange a b s => ((s > 0 -> 0 <= a /\ 0 <= b) /\ (s = 1 -> a <= b) /\ s <> 0)%Z
  | IList _ => True
  end.

Lemma block_index_ok bins n ix ps : bins <> [] -> list_sum bins = n -> range_ok ix ->
  ipos ix = map Z.of_nat ps -> Forall (fun p => p < n) ps -> Sorted le ps ->
  exists dict, block_index bins (length bins) n ix true = Ok dict /\ dict_ok bins dict ps.
Proof.
  intros Hb Hn Hok Hp F Hs. subst n. unfold block_index.
  assert (Harr : dict_ok bins (map barr (block_index_array bins (list_sum bins) (map Z.of_nat ps) true)) ps).
  { destruct (@array_ok bins (list_sum bins) ps true Hb Hs F (or_introl eq_refl)) as (A1 & A2 & A3 & A4). repeat split; auto. }
  destruct ix as [a b s | zs].
  - destruct (Z.eqb_spec s 1) as [->|Hs1]; cbn [negb].
    2:{ eexists. split; [reflexivity|]. cbn [ipos] in Hp. rewrite Hp. exact Harr. }
    cbn [ipos] in Hp. destruct Hok as (Ok0 & Ok1 & _). specialize (Ok0 ltac:(lia)). specialize (Ok1 eq_refl).
    assert (Hlen : length bins > 0) by (destruct bins; [easy|cbn; lia]).
    destruct (Z.eqb_spec a b) as [->|Hab].
    + assert (ps = []) as ->.
      { unfold py_range in Hp. rewrite range_len_1 in Hp. replace (Z.to_nat (b - b)) with 0 in Hp by lia.
        destruct ps; [reflexivity|discriminate]. }
      destruct ((b =? 0)%Z && (Z.of_nat (list_sum bins) <=? b)%Z) eqn:E.
      * apply andb_true_iff in E as [E1 E2]. eexists; split; [reflexivity|]. split; [|split; [now apply wholes_ok|intros; apply wholes_safe]].
        rewrite wholes by lia. rewrite start_of_0, Nat.add_0_l, start_of_all. replace (list_sum bins - 0) with 0 by lia. reflexivity.
      * eexists; split; [reflexivity|]. repeat split; constructor.
    + destruct (@py_range_1 a b ps (list_sum bins) ltac:(lia) Hp F) as (p0 & k & -> & -> & Hk & -> & Hle).
      destruct (Z.eqb_spec (Z.of_nat p0) 0) as [E0|E0]; cbn [andb].
      * assert (p0 = 0) as -> by lia. rewrite Nat.add_0_l in *.
        destruct (Z.leb_spec (Z.of_nat (list_sum bins)) (Z.of_nat k)).
        -- eexists; split; [reflexivity|]. split; [|split; [now apply wholes_ok|intros; apply wholes_safe]].
           rewrite wholes by lia. rewrite start_of_0, Nat.add_0_l, start_of_all. f_equal. lia.
        -- rewrite locate_ok by (auto; lia). cbn [rbind fst snd].
           destruct (@digitize_spec bins k ltac:(lia)) as (D1 & D2). set (q := digitize bins k) in *. fold (start_of bins q) in D2.
           eexists; split; [reflexivity|]. split; [|split].
           ++ rewrite map_app, concat_app, wholes by lia. cbn [map concat]. rewrite app_nil_r.
              unfold entry_positions. cbn [fst snd]. rewrite expand_slice, map_plus_seq, start_of_0. cbn [Nat.add].
              replace (start_of bins q + Nat.min 0 (nth q bins 0)) with (0 + (start_of bins q - 0)) by lia.
              rewrite <- seq_app. f_equal. lia.
           ++ apply Forall_app; split; [apply wholes_ok; lia|]. constructor; [apply entry_slice_ok; lia|constructor].
           ++ intros _. apply Forall_app; split; [apply wholes_safe|]. constructor; [apply entry_slice_safe|constructor].
      * destruct (Z.leb_spec (Z.of_nat (list_sum bins)) (Z.of_nat (p0 + k))).
        -- rewrite locate_ok by (auto; lia). cbn [rbind fst snd].
           destruct (@digitize_spec bins p0 ltac:(lia)) as (D1 & D2). set (q := digitize bins p0) in *. fold (start_of bins q) in D2.
           eexists; split; [reflexivity|]. split; [|split].
           ++ cbn [map concat]. rewrite wholes by lia. unfold entry_positions at 1. cbn [fst snd].
              rewrite expand_slice, map_plus_seq. replace (S q + (length bins - S q)) with (length bins) by lia.
              rewrite start_of_all, start_of_S by lia.
              pose proof (@start_of_mono bins (S q) (length bins) ltac:(lia)) as M. rewrite start_of_all, start_of_S in M by lia.
              replace (start_of bins q + nth q bins 0) with (start_of bins q + Nat.min (p0 - start_of bins q) (nth q bins 0) + (nth q bins 0 - (p0 - start_of bins q))) at 1 by lia.
              replace (Nat.min (nth q bins 0) (nth q bins 0) - Nat.min (p0 - start_of bins q) (nth q bins 0)) with (nth q bins 0 - (p0 - start_of bins q)) by lia.
              rewrite <- seq_app. f_equal; lia.
           ++ constructor; [now apply entry_slice_ok|]. apply wholes_ok. lia.
           ++ intros _. constructor; [apply entry_slice_safe|apply wholes_safe].
        -- rewrite !locate_ok by (auto; lia). cbn [rbind fst snd].
           destruct (@digitize_spec bins p0 ltac:(lia)) as (D1 & D2). destruct (@digitize_spec bins (p0 + k) ltac:(lia)) as (D3 & D4).
           pose proof (@digitize_mono bins p0 (p0 + k) ltac:(lia)) as DM.
           set (q := digitize bins p0) in *. set (r := digitize bins (p0 + k)) in *. fold (start_of bins q) in D2. fold (start_of bins r) in D4.
           destruct (Nat.eqb_spec q r) as [Eqr|Nqr].
           ++ eexists; split; [reflexivity|]. split; [|split].
              ** cbn [map concat]. rewrite app_nil_r. unfold entry_positions. cbn [fst snd]. rewrite expand_slice, map_plus_seq, <- Eqr in *.
                 f_equal; lia.
              ** constructor; [now apply entry_slice_ok|constructor].
              ** intros _. constructor; [apply entry_slice_safe|constructor].
           ++ eexists; split; [reflexivity|]. split; [|split].
              ** cbn [map concat]. rewrite map_app, concat_app. rewrite wholes by lia. cbn [map concat]. rewrite app_nil_r.
                 unfold entry_positions. cbn [fst snd]. rewrite !expand_slice, !map_plus_seq. replace (S q + (r - S q)) with r by lia.
                 pose proof (@start_of_mono bins (S q) r ltac:(lia)) as M. rewrite start_of_S in * by lia.
                 replace (start_of bins r + Nat.min 0 (nth r bins 0)) with (start_of bins q + nth q bins 0 + (start_of bins r - (start_of bins q + nth q bins 0))) by lia.
                 rewrite <- seq_app.
                 replace (start_of bins q + nth q bins 0) with (start_of bins q + Nat.min (p0 - start_of bins q) (nth q bins 0) + (nth q bins 0 - (p0 - start_of bins q))) at 1 by lia.
                 replace (Nat.min (nth q bins 0) (nth q bins 0) - Nat.min (p0 - start_of bins q) (nth q bins 0)) with (nth q bins 0 - (p0 - start_of bins q)) by lia.
                 rewrite <- seq_app. f_equal; lia.
              ** constructor; [now apply entry_slice_ok|]. apply Forall_app; split; [apply wholes_ok; lia|]. constructor; [now apply entry_slice_ok|constructor].
              ** intros _. constructor; [apply entry_slice_safe|]. apply Forall_app; split; [apply wholes_safe|]. constructor; [apply entry_slice_safe|constructor].
  - cbn [ipos] in Hp. subst zs. destruct ps as [|p ps].
    + cbn [map]. eexists; split; [reflexivity|]. split; [reflexivity|]. split.
      * repeat constructor. cbn. destruct bins; [easy|cbn; lia].
      * intros _. repeat constructor. unfold entry_safe. cbn [fst snd expand length]. now intros <-.
    + cbn [map]. eexists; split; [reflexivity|]. exact Harr.
Qed.
