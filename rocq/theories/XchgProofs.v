From Verif Require Import Base Table ChunkModel ChunkSpec ChunkProofs GridModel GridSpec FrameSpec GridProofs GridProofs2 GridProofs3 GridProofs5 SelSpec SelModel SelProofs SelProofs2 SelProofs3 SelProofs4 SelProofs5 SelProofs6 JoinSpec XchgSpec XchgModel.

Lemma bounds_le a lens iv : In iv (bounds a lens) -> fst iv <= snd iv.
Proof. revert a; induction lens as [|n ns IH]; intros a; cbn; [easy|]. intros [<-|Hi]; [cbn; lia|]. eauto. Qed.

Lemma take2d_rows {L H A} (d : df L H A) a b : wf d -> a <= b -> b <= nrows d ->
  take2d (seq a (b - a)) (seq 0 (ncols d)) d = iloc_rows d a b.
Proof. intros [W1 W2] Hab Hb. unfold nrows in Hb. apply df_eq; cbn.
  - rewrite pick_seq by lia. f_equal. lia.
  - now apply pick_all.
  - rewrite pick_seq by lia. replace (a + (b - a)) with b by lia.
    rewrite <- (map_id (slice (dcells d) a b)) at 2. apply map_ext_in. intros r Hr. apply pick_all.
    rewrite Forall_forall in W2. apply W2. unfold slice in Hr.
    rewrite <- (firstn_skipn a (dcells d)). apply in_or_app. right. rewrite <- (firstn_skipn (b - a) (skipn a (dcells d))). apply in_or_app. now left.
Qed.

  (** the lengths of the repartitioned frame *)
  Definition even_lengths (n k : nat) : list nat := repeat (n / k) (k - 1) ++ [n mod k + n / k].
  Lemma even_lengths_ok n k : 0 < k -> k <= n ->
    length (even_lengths n k) = k /\ list_sum (even_lengths n k) = n /\ Forall (fun x => 0 < x) (even_lengths n k).
  Proof.
    intros Hk Hn. unfold even_lengths. assert (D : n = k * (n / k) + n mod k) by (apply Nat.div_mod; lia).
    assert (P : 0 < n / k) by (apply Nat.div_str_pos; lia).
    split; [rewrite app_length, repeat_length; cbn; lia|]. split.
    - rewrite list_sum_app. lsum. rewrite list_sum_repeat. destruct k as [|k']; [lia|]. replace (S k' - 1) with k' by lia. nia.
    - apply Forall_app. split; [|repeat constructor; lia]. apply Forall_forall. intros x Hx%repeat_spec. lia.
  Qed.

Section Chunks.
  Context {L H A : Type}.
  Notation dframe := (df L H A).
  Notation pf := (@pframe L H A).
  Variable leqb : L -> L -> bool.
  Variable heqb : H -> H -> bool.
  Hypothesis leqb_ok : forall x y, leqb x y = true <-> x = y.
  Hypothesis heqb_ok : forall x y, heqb x y = true <-> x = y.
  Variables min_row min_col nparts : nat.
  Hypothesis mr : 0 < min_row.
  Hypothesis mc : 0 < min_col.
  Hypothesis np : 0 < nparts.
  Variables known_l known_w : nat -> nat -> bool.
  Variable argsort : list Z -> list nat.
  Hypothesis argsort_ok : forall l, sorts l (argsort l).
  Variable big : nat -> bool.
  Notation take := (take_2d_positional leqb heqb min_row min_col nparts known_l known_w argsort).

  Definition chunk_ok (d : dframe) (iv : nat * nat) (g : pf) : Prop :=
    pf_to_pandas leqb heqb g = Ok (iloc_rows d (fst iv) (snd iv))
    /\ (fst iv < snd iv -> 0 < ncols d -> exists rl' cl', shows g (iloc_rows d (fst iv) (snd iv)) rl' cl').

  Lemma rmap_forall2 {X Y} (P : X -> Y -> Prop) (f : X -> res Y) l :
    (forall x, In x l -> exists y, f x = Ok y /\ P x y) -> exists ys, rmap f l = Ok ys /\ Forall2 P l ys.
  Proof. induction l as [|x l IH]; intros Hf; [exists []; split; [reflexivity|constructor]|].
    destruct (Hf x) as (y & E & Py); [now left|]. destruct IH as (ys & E' & Pys); [intros; apply Hf; now right|].
    exists (y :: ys). cbn. rewrite E. cbn. rewrite E'. split; [reflexivity|now constructor]. Qed.

  Lemma range_selects n a b : a <= b -> b <= n -> selects n (Some (IRange (Z.of_nat a) (Z.of_nat b) 1)) (seq a (b - a)).
  Proof. intros Hab Hb. split; [cbn; lia|]. split.
    - cbn [ipos]. unfold py_range. rewrite range_len_1. replace (Z.to_nat (Z.of_nat b - Z.of_nat a)) with (b - a) by lia.
      generalize (b - a). intros n0. clear. revert a. induction n0 as [|n0 IH]; intros a; [reflexivity|]. cbn [seq map].
      f_equal; [lia|]. rewrite <- IH, <- seq_shift, map_map. apply map_ext. intros k. lia.
    - apply Forall_forall. intros p I%in_seq. lia. Qed.

  Lemma yield_ok (f : pf) (d : dframe) rl cl : shows f d rl cl ->
    exists fs, yield_chunks leqb heqb min_row min_col nparts known_l known_w argsort big f = Ok fs
      /\ Forall2 (chunk_ok d) (bounds 0 rl) fs.
  Proof.
    intros Hs. assert (Hs' := Hs). destruct Hs' as ([Hg HL] & Hr & Hc & Hi & Hcol). assert (Hg' := Hg).
    destruct Hg' as (W & Hsr & Hsc & _). unfold yield_chunks. rewrite (gridded_row_lengths Hg Hc).
    rewrite <- (bounds_cumsum_from 0 rl). fold (cumsum0 rl).
    set (iv := fun i => (nth i (cumsum0 rl) 0, nth (S i) (cumsum0 rl) 0)).
    destruct (@rmap_forall2 nat pf (fun i g => chunk_ok d (iv i) g)
      (fun i => take (big i) (Some (IRange (Z.of_nat (nth i (cumsum0 rl) 0)) (Z.of_nat (nth (S i) (cumsum0 rl) 0)) 1)) None f)
      (seq 0 (length (cumsum0 rl) - 1))) as (fs & E & F2).
    - intros i Hin. assert (Hiv : In (iv i) (bounds 0 rl)).
      { rewrite <- (bounds_cumsum_from 0 rl). fold (cumsum0 rl). apply (in_map iv), Hin. }
      pose proof (bounds_within 0 rl) as Fw. rewrite Forall_forall in Fw. specialize (Fw _ Hiv). cbn beta in Fw.
      assert (Fle : fst (iv i) <= snd (iv i)) by (eapply bounds_le; eauto).
      destruct (@take_2d_ok L H A leqb heqb leqb_ok heqb_ok min_row min_col nparts mr mc np known_l known_w argsort argsort_ok (big i) f d rl cl
        (Some (IRange (Z.of_nat (nth i (cumsum0 rl) 0)) (Z.of_nat (nth (S i) (cumsum0 rl) 0)) 1)) None
        (seq (fst (iv i)) (snd (iv i) - fst (iv i))) (seq 0 (ncols d)) Hs) as (g & E1 & E2 & E3).
      + unfold iv in *; cbn [fst snd] in *. apply range_selects; lia.
      + reflexivity.
      + right. split; apply seq_NoDup.
      + exists g. split; [exact E1|]. rewrite take2d_rows in E2, E3 by (auto; unfold iv in *; cbn [fst snd] in *; lia).
        split; [exact E2|]. intros Hlt Hn. apply E3; intros E0; apply (f_equal (@length nat)) in E0; rewrite seq_length in E0; cbn in *; lia.
    - exists fs. split; [exact E|]. clear -F2. revert F2. generalize (seq 0 (length (cumsum0 rl) - 1)). intros l.
      revert fs. induction l; intros fs F; inversion F; subst; cbn; constructor; auto.
  Qed.

  Lemma rechunk_ok (f : pf) (d : dframe) rl cl k : shows f d rl cl -> 0 < k -> k <= nrows d -> k mod length rl = 0 ->
    exists g cl', rechunk leqb heqb min_row nparts (Z.of_nat k) f = Ok g /\ shows g d (even_lengths (nrows d) k) cl'.
  Proof.
    intros Hs Hk Hn Hm. assert (Hs' := Hs). destruct Hs' as ([Hg HL] & Hr & Hc & Hi & Hcol). assert (Hg' := Hg).
    destruct Hg' as (W & Hsr & Hsc & Hgr & _). unfold rechunk, num_rows. rewrite Hi. cbn [labels rbind]. fold (nrows d).
    assert (HN : num_chunks f = length rl) by (unfold num_chunks; rewrite Hgr; apply cut_table_length).
    assert (Hrl : length rl <> 0) by (destruct rl; [easy|cbn; lia]).
    rewrite HN. rewrite (proj2 (Nat.eqb_neq _ _) Hrl).
    rewrite <- Nat2Z.inj_mod, Hm. cbn [negb Z.eqb Z.of_nat].
    rewrite (proj2 (Z.ltb_ge _ _)) by lia. rewrite (proj2 (Z.eqb_neq _ _)) by lia. rewrite (proj2 (Z.ltb_ge _ _)) by lia.
    rewrite Nat2Z.id. fold (even_lengths (nrows d) k).
    destruct (even_lengths_ok Hk Hn) as (E1 & E2 & E3).
    rewrite Hgr. rewrite (gridded_column_widths Hg Hr).
    assert (CW : column_wise (fun x : dframe => x)) by (intros e We; repeat split; auto; apply We).
    destruct (@map_axis_column_wise L H A L H A leqb heqb heqb_ok (fun x => x) CW d rl cl nparts min_row false None (Some (even_lengths (nrows d) k)))
      as (rl' & M1 & M2 & _ & _ & M3 & _); auto; [discriminate|intros l [= <-]; auto|].
    rewrite M1. cbn [rbind]. assert (NE : even_lengths (nrows d) k <> []) by (intros E0; rewrite E0 in E1; cbn in E1; lia).
    rewrite (M3 _ eq_refl NE).
    set (f0 := mkpf _ _ _ _ _). assert (G0 : gridded f0 d (even_lengths (nrows d) k) cl).
    { unfold f0. unfold gridded. cbn. rewrite Hcol. repeat split; auto; try apply W; intros ? [= <-]; reflexivity. }
    unfold construct. rewrite (gridded_validate G0).
    destruct (filter_empties_gridded false G0 NE Hc) as (rl2 & cl2 & G1 & G2 & G3 & G4).
    assert (NZ : nonzero (even_lengths (nrows d) k) = even_lengths (nrows d) k).
    { unfold nonzero. clear -E3. induction E3 as [|x l Hx _ IH]; [reflexivity|]. cbn. destruct (Nat.eqb_spec x 0); [lia|]. cbn. now rewrite IH. }
    assert (rl2 = even_lengths (nrows d) k).
    { destruct G4 as [(_ & _ & _ & -> & _)|[(_ & -> & _)|(_ & _ & -> & _)]]; auto. }
    subst rl2. exists (filter_empties false f0), cl2. split; [reflexivity|].
    split; [split; [exact G1|rewrite G2, G3; unfold f0; cbn; tauto]|]. split; [exact NE|].
    split; [|rewrite G2, G3; auto].
    apply (gridded_ne G1 NE Hc). destruct G4 as [G4|[G4|G4]]; tauto.
  Qed.

  (** The number of chunks asked for is admissible: none, the current one, or a positive multiple of it that is
      at most the number of rows. *)
  Lemma get_chunks_ok (f : pf) (d : dframe) rl cl n : shows f d rl cl ->
    match n with
    | None => True
    | Some n => n = Z.of_nat (length rl) \/ (0 < n <= Z.of_nat (nrows d) /\ n mod Z.of_nat (length rl) = 0)%Z
    end ->
    exists fs lens, get_chunks leqb heqb min_row min_col nparts known_l known_w argsort big n f = Ok fs
      /\ Forall2 (chunk_ok d) (bounds 0 lens) fs /\ list_sum lens = nrows d
      /\ match n with
         | None => lens = rl
         | Some n => length lens = Z.to_nat n
             /\ lens = (if (n =? Z.of_nat (length rl))%Z then rl else even_lengths (nrows d) (Z.to_nat n))
         end.
  Proof.
    intros Hs Hn. assert (Hs' := Hs). destruct Hs' as ([Hg HL] & Hr & Hc & Hi & Hcol).
    assert (Hg' := Hg). destruct Hg' as (W & Hsr & Hsc & Hgr & _).
    assert (HN : num_chunks f = length rl) by (unfold num_chunks; rewrite Hgr; apply cut_table_length).
    destruct (yield_ok Hs) as (fs & E & F). unfold get_chunks. destruct n as [n|].
    - rewrite HN. destruct (Z.eqb_spec n (Z.of_nat (length rl))) as [->|Hne].
      + exists fs, rl. rewrite Nat2Z.id. auto.
      + destruct Hn as [Hn|((H1 & H2) & H3)]; [easy|].
        assert (Ek : n = Z.of_nat (Z.to_nat n)) by lia. set (k := Z.to_nat n) in *.
        assert (Hm : k mod length rl = 0) by (rewrite Ek, <- Nat2Z.inj_mod in H3; lia).
        destruct (@rechunk_ok f d rl cl k Hs) as (g & cl' & R1 & R2); [lia|lia|exact Hm|].
        rewrite Ek, R1. cbn [rbind]. destruct (yield_ok R2) as (gs & Y1 & Y2).
        destruct (@even_lengths_ok (nrows d) k) as (L1 & L2 & L3); [lia|lia|].
        exists gs, (even_lengths (nrows d) k). auto.
    - exists fs, rl. auto.
  Qed.

  Lemma chunks_tile (d : dframe) lens (ts : list dframe) : wf d -> list_sum lens = nrows d ->
    ts = map (fun iv => iloc_rows d (fst iv) (snd iv)) (bounds 0 lens) -> tile ts d.
  Proof.
    intros [W1 W2] Hs ->. unfold tile. rewrite !map_map. cbn [iloc_rows dindex dcells]. split; [|split].
    - rewrite concat_bounds. apply slice_full. unfold nrows in Hs. lia.
    - rewrite concat_bounds. apply slice_full. unfold nrows in Hs. lia.
    - apply Forall_forall. intros t (iv & <- & Hin)%in_map_iff. cbn. split; [reflexivity|]. rewrite !slice_length. lia.
  Qed.
End Chunks.

Section Reject.
  Context {L H A : Type}.
  Variable leqb : L -> L -> bool.
  Variable heqb : H -> H -> bool.
  Lemma get_chunks_rejects mr mc np kl kw ag big (f : @pframe L H A) (d : df L H A) rl cl n :
    shows f d rl cl -> n <> Z.of_nat (length rl) ->
    (n mod Z.of_nat (length rl) <> 0 \/ Z.of_nat (nrows d) < n)%Z ->
    get_chunks leqb heqb mr mc np kl kw ag big (Some n) f = Err RuntimeError.
  Proof.
    intros ([(W & Hsr & Hsc & Hgr & _) HL] & Hr & Hc & Hi & Hcol) Hne Hbad. unfold get_chunks, rechunk, num_rows.
    assert (HN : num_chunks f = length rl) by (unfold num_chunks; rewrite Hgr; apply cut_table_length).
    rewrite HN, Hi. rewrite (proj2 (Z.eqb_neq _ _) Hne). cbn [labels rbind]. fold (nrows d).
    destruct (Nat.eqb_spec (length rl) 0) as [E|_]; [destruct rl; easy|].
    destruct (Z.eqb_spec (n mod Z.of_nat (length rl)) 0) as [E|_]; [|reflexivity]. cbn [negb].
    destruct Hbad as [?|Hb]; [easy|]. rewrite (proj2 (Z.ltb_lt _ _) Hb). reflexivity.
  Qed.
End Reject.
