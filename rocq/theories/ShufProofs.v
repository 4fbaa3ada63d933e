From Verif Require Import Base Table ChunkModel GridModel ShufSpec ShufModel.
From Coq Require Import Permutation Sorted.

(* ---------------- lists ---------------- *)
Lemma filter_filter {X} (p q : X -> bool) l : filter p (filter q l) = filter (fun x => q x && p x) l.
Proof. induction l as [|x l IH]; cbn; [reflexivity|]. destruct (q x); cbn; rewrite IH; reflexivity. Qed.

Lemma filter_none {X} (p : X -> bool) l : (forall x, In x l -> p x = false) -> filter p l = [].
Proof. induction l as [|x l IH]; cbn; intros E; [reflexivity|]. rewrite (E x) by auto. apply IH; auto. Qed.

Lemma filter_concat {X} (p : X -> bool) ls : filter p (concat ls) = concat (map (filter p) ls).
Proof. induction ls as [|l ls IH]; cbn; [reflexivity|]. now rewrite filter_app, IH. Qed.

Lemma filter_split_perm {X} (p : X -> bool) l : Permutation (filter (fun x => negb (p x)) l ++ filter p l) l.
Proof.
  induction l as [|x l IH]; cbn; [constructor|]. destruct (p x); cbn.
  - rewrite <- Permutation_middle. now constructor.
  - now constructor.
Qed.

Lemma perm_concat {X} (ls ls' : list (list X)) : Forall2 (@Permutation X) ls ls' ->
  Permutation (concat ls) (concat ls').
Proof. induction 1; cbn; [constructor|]. now apply Permutation_app. Qed.

Lemma concat_map_nil {X Y} (l : list X) : concat (map (fun _ => @nil Y) l) = [].
Proof. induction l; cbn; auto. Qed.

Lemma concat_map_app {X Y} (f g : X -> list Y) l :
  Permutation (concat (map (fun x => f x ++ g x) l)) (concat (map f l) ++ concat (map g l)).
Proof.
  induction l as [|x l IH]; cbn; [constructor|]. rewrite <- !app_assoc. apply Permutation_app_head.
  rewrite IH. rewrite !app_assoc. apply Permutation_app_tail. apply Permutation_app_comm.
Qed.

Lemma concat_swap {X Y Z} (g : X -> Y -> list Z) xs ys :
  Permutation (concat (map (fun y => concat (map (fun x => g x y) xs)) ys))
              (concat (map (fun x => concat (map (g x) ys)) xs)).
Proof.
  induction xs as [|x xs IH]; cbn.
  - now rewrite concat_map_nil.
  - rewrite concat_map_app. now rewrite IH.
Qed.

Lemma concat_map_pick {Y} (k n a : nat) (l : list Y) : a <= k -> k < a + n ->
  concat (map (fun i => if k =? i then l else []) (seq a n)) = l.
Proof.
  revert a; induction n as [|n IH]; intros a Ha Hk; [lia|]. cbn.
  destruct (Nat.eqb_spec k a) as [->|N].
  - replace (map _ (seq (S a) n)) with (map (fun _ : nat => @nil Y) (seq (S a) n)).
    + now rewrite concat_map_nil, app_nil_r.
    + apply map_ext_in. intros i Hi. apply in_seq in Hi. destruct (Nat.eqb_spec a i); [lia|reflexivity].
  - cbn. apply IH; lia.
Qed.

Lemma bins_perm {X} (bin : X -> nat) n l : (forall x, In x l -> bin x < n) ->
  Permutation (concat (map (fun k => filter (fun x => bin x =? k) l) (seq 0 n))) l.
Proof.
  induction l as [|x l IH]; intros B; cbn.
  - now rewrite concat_map_nil.
  - transitivity (concat (map (fun k => (if bin x =? k then [x] else []) ++ filter (fun y => bin y =? k) l)
                              (seq 0 n))).
    + apply perm_concat. clear. induction (seq 0 n) as [|k ks IH]; cbn; constructor; [|exact IH].
      destruct (bin x =? k); reflexivity.
    + rewrite concat_map_app. rewrite concat_map_pick; [|lia|rewrite Nat.add_0_l; apply B; now left].
      cbn. constructor. apply IH. intros; apply B; now right.
Qed.

Lemma strongly_app {X} (R : X -> X -> Prop) l1 l2 : StronglySorted R l1 -> StronglySorted R l2 ->
  (forall x y, In x l1 -> In y l2 -> R x y) -> StronglySorted R (l1 ++ l2).
Proof.
  induction l1 as [|x l1 IH]; cbn; intros S1 S2 E; [exact S2|]. inversion S1; subst. constructor.
  - apply IH; auto.
  - apply Forall_app; split; [assumption|]. apply Forall_forall. intros; apply E; auto.
Qed.

(* ---------------- distributing rows over bins and sorting each bin ---------------- *)
Section Bins.
  Context {R : Type}.
  Variable bin : R -> nat.
  Variable na : R -> bool.
  Variable n : nat.
  Hypothesis bin_lt : forall x, bin x < n.

  (** The rows of bin [k] in one partition: the missing ones come last. *)
  Definition share (k : nat) (p : list R) : list R :=
    filter (fun x => negb (na x) && (bin x =? k)) p ++ filter (fun x => na x && (bin x =? k)) p.
  Definition whole (parts : list (list R)) (k : nat) : list R := concat (map (share k) parts).

  Lemma share_perm k p : Permutation (share k p) (filter (fun x => bin x =? k) p).
  Proof.
    unfold share. rewrite <- (filter_split_perm na (filter (fun x => bin x =? k) p)), !filter_filter.
    apply Permutation_app; erewrite filter_ext; try reflexivity; intros; apply andb_comm.
  Qed.

  Lemma whole_perm parts : Permutation (concat (map (whole parts) (seq 0 n))) (concat parts).
  Proof.
    unfold whole. rewrite (concat_swap (fun p k => share k p) parts (seq 0 n)).
    apply perm_concat. induction parts as [|p ps IH]; cbn; constructor; [|exact IH].
    transitivity (concat (map (fun k => filter (fun x => bin x =? k) p) (seq 0 n))); [|now apply bins_perm].
    apply perm_concat. clear. induction (seq 0 n) as [|k ks IH]; cbn; constructor; [apply share_perm|exact IH].
  Qed.

  Lemma in_share k p x : In x (share k p) -> bin x = k.
  Proof.
    unfold share. rewrite in_app_iff, !filter_In, !andb_true_iff, !Nat.eqb_eq. tauto.
  Qed.
  Lemma in_whole k parts x : In x (whole parts k) -> bin x = k.
  Proof.
    unfold whole. rewrite in_concat. intros (l & Hl & Hx). apply in_map_iff in Hl.
    destruct Hl as (p & <- & _). eapply in_share; eassumption.
  Qed.

  (** A test that implies "same bin, both missing or both not" is answered inside one bin, in the original order. *)
  Lemma whole_filter (t : R -> bool) x parts k :
    (forall y, t y = true -> bin y = bin x /\ na y = na x) ->
    filter t (whole parts k) = if bin x =? k then filter t (concat parts) else [].
  Proof.
    intros T. destruct (Nat.eqb_spec (bin x) k) as [<-|N].
    - unfold whole. rewrite !filter_concat, !map_map. f_equal. apply map_ext. intros p.
      unfold share. rewrite filter_app, !filter_filter.
      destruct (na x) eqn:E.
      + rewrite (filter_none (fun y => negb (na y) && (bin y =? bin x) && t y)).
        * cbn. apply filter_ext. intros y. destruct (t y) eqn:Ty; [|now rewrite !andb_false_r].
          destruct (T y Ty) as [-> ->]. cbn. now rewrite Nat.eqb_refl.
        * intros y _. destruct (t y) eqn:Ty; [|now rewrite !andb_false_r].
          destruct (T y Ty) as [-> ->]. reflexivity.
      + rewrite (filter_none (fun y => na y && (bin y =? bin x) && t y)).
        * rewrite app_nil_r. apply filter_ext. intros y. destruct (t y) eqn:Ty; [|now rewrite !andb_false_r].
          destruct (T y Ty) as [-> ->]. cbn; now rewrite Nat.eqb_refl.
        * intros y _. destruct (t y) eqn:Ty; [|now rewrite !andb_false_r].
          destruct (T y Ty) as [-> ->]. reflexivity.
    - apply filter_none. intros y Hy. apply in_whole in Hy.
      destruct (t y) eqn:Ty; [|reflexivity]. destruct (T y Ty); lia.
  Qed.

  Variable le : R -> R -> bool.
  Hypothesis le_total : total_preorder le.
  Hypothesis bin_mono : forall x y, bin x < bin y -> le y x = false.
  Hypothesis same_na : forall x y, same le x y = true -> na y = na x.

  Lemma same_bin x y : same le x y = true -> bin y = bin x.
  Proof.
    unfold same. rewrite andb_true_iff. intros [E1 E2].
    destruct (Nat.lt_trichotomy (bin x) (bin y)) as [Lt|[->|Lt]]; [|reflexivity|].
    - apply bin_mono in Lt. congruence.
    - apply bin_mono in Lt. congruence.
  Qed.

  Section Sorted.
    Variable sort : list R -> list R.

    Lemma sorted_bins_strong parts ks : (forall k, sorts le (whole parts k) (sort (whole parts k))) ->
      StronglySorted lt ks ->
      StronglySorted (fun x y => le x y = true) (concat (map (fun k => sort (whole parts k)) ks)).
    Proof.
      intros HS. induction 1 as [|k ks _ IH F]; cbn; [constructor|].
      apply strongly_app; [apply HS|exact IH|]. intros x y Hx Hy.
      apply in_concat in Hy. destruct Hy as (l & Hl & Hy). apply in_map_iff in Hl. destruct Hl as (k' & <- & Hk').
      destruct (HS k) as [P1 _]. destruct (HS k') as [P2 _].
      apply (Permutation_in _ (Permutation_sym P1)) in Hx. apply (Permutation_in _ (Permutation_sym P2)) in Hy.
      apply in_whole in Hx, Hy. rewrite Forall_forall in F. specialize (F k' Hk').
      assert (B : bin x < bin y) by lia. apply bin_mono in B.
      destruct le_total as [T _]. destruct (T x y); congruence.
    Qed.

    Lemma seq_sorted a m : StronglySorted lt (seq a m).
    Proof. revert a; induction m; intros; cbn; constructor; auto. apply Forall_forall. intros x Hx.
      apply in_seq in Hx. lia. Qed.

    Lemma sorted_bins parts : (forall k, sorts le (whole parts k) (sort (whole parts k))) ->
      sorts le (concat parts) (concat (map (fun k => sort (whole parts k)) (seq 0 n))).
    Proof.
      intros HS. split.
      - rewrite <- whole_perm. apply perm_concat. induction (seq 0 n); cbn; constructor; auto. apply HS.
      - apply sorted_bins_strong; [exact HS|apply seq_sorted].
    Qed.

    Lemma stably_sorted_bins parts : (forall k, stably_sorts le (whole parts k) (sort (whole parts k))) ->
      stably_sorts le (concat parts) (concat (map (fun k => sort (whole parts k)) (seq 0 n))).
    Proof.
      intros HS. split; [apply sorted_bins; intros; apply HS|]. intros x.
      rewrite filter_concat, map_map.
      rewrite (map_ext _ (fun k => if bin x =? k then filter (same le x) (concat parts) else [])).
      - apply concat_map_pick; [lia|]. apply bin_lt.
      - intros k. destruct (HS k) as [_ ->]. apply whole_filter. intros y Hy.
        split; [now apply same_bin|now apply same_na].
    Qed.
  End Sorted.
End Bins.

(* ---------------- the bin of a row ---------------- *)
Definition prod (ns : list nat) : nat := fold_right Nat.mul 1 ns.
Fixpoint rank (ns cs : list nat) : nat :=
  match ns, cs with
  | _ :: ns, c :: cs => c * prod ns + rank ns cs
  | _, _ => 0
  end.

Lemma rank_lt ns cs : Forall2 (fun c n => c < n) cs ns -> rank ns cs < prod ns.
Proof.
  induction 1 as [|c n cs ns H _ IH]; cbn; [lia|]. change (fold_right Nat.mul 1 ns) with (prod ns). nia.
Qed.

Lemma rank_inj ns cs cs' : Forall2 (fun c n => c < n) cs ns -> Forall2 (fun c n => c < n) cs' ns ->
  rank ns cs = rank ns cs' -> cs = cs'.
Proof.
  intros V; revert cs'. induction V as [|c n cs ns H V IH]; intros cs' V' E; inversion V'; subst; [reflexivity|].
  cbn in E. pose proof (rank_lt V) as L1. match goal with H : Forall2 _ ?l ns |- _ => 
    match l with cs => fail 1 | _ => pose proof (rank_lt H) as L2; rename H into V2 end end.
  match goal with |- c :: _ = ?x :: ?xs => assert (c = x) by nia; subst x; f_equal; apply IH; [exact V2|lia] end.
Qed.

Lemma product_map {X} ns : forall (g : list nat -> X) (h : nat -> X) a,
  (forall cs, Forall2 (fun c n => c < n) cs ns -> g cs = h (a + rank ns cs)) ->
  map g (product ns) = map h (seq a (prod ns)).
Proof.
  induction ns as [|n ns IH]; intros g h a E.
  - cbn. rewrite (E []) by constructor. cbn. now rewrite Nat.add_0_r.
  - cbn [product prod]. cbn [fold_right]. change (fold_right Nat.mul 1 ns) with (prod ns).
    assert (G : forall m b, b + m <= n ->
      map g (flat_map (fun c => map (cons c) (product ns)) (seq b m)) = map h (seq (a + b * prod ns) (m * prod ns))).
    { induction m as [|m IHm]; intros b Hb; [reflexivity|].
      cbn [seq flat_map]. rewrite map_app, map_map. cbn [Nat.mul].
      rewrite seq_app, map_app. f_equal.
      - apply IH. intros cs V. rewrite E by (constructor; [lia|exact V]). cbn [rank]. f_equal. lia.
      - rewrite IHm by lia. f_equal. f_equal. cbn [Nat.mul]. lia. }
    rewrite G by lia. now rewrite Nat.mul_0_l, Nat.add_0_r.
Qed.

Lemma append_last_map {X} (g : nat -> list X) (na : list X) n a : 0 < n ->
  append_last (map g (seq a n)) na
  = map (fun k => g k ++ if a + n - 1 =? k then na else []) (seq a n).
Proof.
  revert a; induction n as [|n IH]; intros a Hn; [lia|]. destruct n as [|n].
  - cbn. replace (a + 1 - 1) with a by lia. now rewrite Nat.eqb_refl.
  - cbn [seq map append_last] in *. f_equal.
    + destruct (Nat.eqb_spec (a + S (S n) - 1) a); [lia|]. now rewrite app_nil_r.
    + rewrite IH by lia. cbn [seq map]. replace (S a + S n - 1) with (a + S (S n) - 1) by lia. reflexivity.
Qed.

Lemma append_first_map {X} (g : nat -> list X) (na : list X) n : 0 < n ->
  append_first (map g (seq 0 n)) na = map (fun k => g k ++ if 0 =? k then na else []) (seq 0 n).
Proof.
  intros Hn. destruct n as [|n]; [lia|]. cbn [seq map append_first]. f_equal.
  apply map_ext_in. intros k Hk. apply in_seq in Hk. destruct k; [lia|]. cbn. now rewrite app_nil_r.
Qed.

Section Codes.
  Context {L A K : Type}.
  Notation row := (@row L A).
  Variable kle : K -> K -> bool.
  Hypothesis kle_total : total_preorder kle.
  Variable raw_na : nat -> row -> bool.
  Variable kval : nat -> row -> option K.
  Variable numeric : nat -> bool.
  Notation npleb := (npleb kle).
  Notation npltb := (npltb kle).
  Notation group_code := (group_code kle kval numeric).
  Notation split_rows := (split_rows kle raw_na kval numeric).

  Lemma npleb_total x y : npleb x y = true \/ npleb y x = true.
  Proof. destruct kle_total as [T _]. destruct x, y; cbn; auto. Qed.
  Lemma npleb_trans x y z : npleb x y = true -> npleb y z = true -> npleb x z = true.
  Proof. destruct kle_total as [_ T]. destruct x, y, z; cbn; eauto; try discriminate. Qed.
  Lemma npltb_le x y : npltb x y = true -> npleb x y = true.
  Proof. unfold ShufModel.npltb. destruct (npleb_total x y) as [E|E]; rewrite E; cbn; auto; discriminate. Qed.

  Lemma count_le {X} (p : X -> bool) l : length (filter p l) <= length l.
  Proof. induction l; cbn; [lia|]. destruct (p a); cbn; lia. Qed.
  Lemma count_mono {X} (p q : X -> bool) l : (forall x, p x = true -> q x = true) ->
    length (filter p l) <= length (filter q l).
  Proof.
    intros E. induction l as [|x l IH]; cbn; [lia|]. destruct (p x) eqn:P.
    - rewrite (E x P). cbn. lia.
    - destruct (q x); cbn; lia.
  Qed.

  Lemma searchsorted_mono pivots x y left : npleb x y = true ->
    searchsorted kle pivots x left <= searchsorted kle pivots y left.
  Proof.
    intros E. apply count_mono. intros p. destruct left.
    - unfold ShufModel.npltb. rewrite !negb_true_iff. intros N. destruct (npleb y p) eqn:Q; [|reflexivity].
      rewrite (npleb_trans _ _ _ E Q) in N. discriminate.
    - intros Q. eapply npleb_trans; eassumption.
  Qed.
  Lemma digitize_down_mono (pivots : list (option K)) x y (right : bool) : npleb x y = true ->
    length (filter (fun p => if right then npleb y p else npltb y p) pivots)
    <= length (filter (fun p => if right then npleb x p else npltb x p) pivots).
  Proof.
    intros E. apply count_mono. intros p. destruct right.
    - intros Q. eapply npleb_trans; eassumption.
    - unfold ShufModel.npltb. rewrite !negb_true_iff. intros N. destruct (npleb p x) eqn:Q; [|reflexivity].
      rewrite (npleb_trans _ _ _ Q E) in N. discriminate.
  Qed.

  Lemma digitize_le x pivots right : digitize kle x pivots right <= length pivots.
  Proof. unfold digitize, searchsorted. destruct (increasing kle pivots); apply count_le. Qed.

  Lemma group_code_le ascending cr ci r : group_code ascending cr ci r <= length (snd ci).
  Proof.
    destruct ci as [i pivots]. cbn [snd]. unfold ShufModel.group_code. destruct (numeric i).
    - pose proof (digitize_le (kval i r) (if ascending then pivots else rev pivots) cr) as E.
      assert (E2 : length (if ascending then pivots else rev pivots) = length pivots)
        by (destruct ascending; [reflexivity|apply rev_length]).
      rewrite E2 in *. destruct (_ && _); lia.
    - pose proof (count_le (fun p => if cr then npltb p (kval i r) else npleb p (kval i r)) pivots) as E.
      fold (searchsorted kle pivots (kval i r) cr) in E. destruct ascending; lia.
  Qed.

  (** pivots as [np.unique] returns them *)
  Definition ascends (l : list (option K)) : Prop := StronglySorted (fun x y => npltb x y = true) l.

  Lemma ascends_increasing l : ascends l -> increasing kle l = true.
  Proof.
    induction 1 as [|x l S IH F]; [reflexivity|]. cbn. destruct l as [|y l]; [reflexivity|].
    rewrite IH. inversion F; subst. rewrite npltb_le by assumption. reflexivity.
  Qed.
  Lemma increasing_app2 l x y : increasing kle (l ++ [x; y]) = true -> npleb x y = true.
  Proof.
    induction l as [|a l IH]; cbn.
    - now rewrite andb_true_r.
    - destruct (l ++ [x; y]) eqn:E; [now destruct l|]. rewrite andb_true_iff. intros [_ ?]. now apply IH.
  Qed.
  Lemma ascends_rev l : ascends l -> 1 < length l -> increasing kle (rev l) = false.
  Proof.
    intros S N. destruct l as [|x [|y l]]; cbn in N; try lia. cbn [rev]. rewrite <- app_assoc. cbn [app].
    inversion S as [|? ? _ F]; subst. inversion F as [|? ? E _]; subst.
    destruct (increasing kle (rev l ++ [y; x])) eqn:I; [|reflexivity].
    apply increasing_app2 in I. unfold ShufModel.npltb in E. rewrite I in E. discriminate.
  Qed.

  (** the code of a row follows the order of its key *)
  Lemma group_code_mono (ascending cr : bool) (ci : @info K) r s : ascends (snd ci) ->
    npleb (kval (fst ci) r) (kval (fst ci) s) = true ->
    if ascending then group_code ascending cr ci r <= group_code ascending cr ci s
    else group_code ascending cr ci s <= group_code ascending cr ci r.
  Proof.
    destruct ci as [i pivots]. cbn [fst snd]. intros AS E. unfold ShufModel.group_code.
    destruct (numeric i).
    - destruct ascending; cbn [negb andb].
      + unfold digitize. rewrite (ascends_increasing AS). now apply searchsorted_mono.
      + rewrite rev_length. destruct (Nat.eqb_spec (length pivots) 1) as [L1|L1].
        * destruct pivots as [|p [|? ?]]; try discriminate. cbn [rev app]. unfold digitize. cbn [increasing].
          apply (searchsorted_mono [p] _ _ cr) in E. lia.
        * destruct pivots as [|p [|p2 ps]].
          -- cbn. lia.
          -- now cbn in L1.
          -- unfold digitize. rewrite (ascends_rev AS) by (cbn; lia). now apply digitize_down_mono.
    - apply (searchsorted_mono pivots _ _ cr) in E. destruct ascending; lia.
  Qed.

  Section Split.
    Variable infos : list (@info K).
    Variable ascending cr na_first : bool.
    Definition is_na (r : row) : bool := existsb (fun ci => raw_na (fst ci) r) infos.
    Definition with_pivots : list (@info K) := filter (fun ci => negb (length (snd ci) =? 0)) infos.
    Definition sizes : list nat := map (fun ci : @info K => S (length (snd ci))) with_pivots.
    Definition code (r : row) : list nat := map (fun ci => group_code ascending cr ci r) with_pivots.
    Definition nbins : nat := prod sizes.
    Definition bin (r : row) : nat :=
      if is_na r then if na_first then 0 else nbins - 1 else rank sizes (code r).

    Lemma code_valid r : Forall2 (fun c n => c < n) (code r) sizes.
    Proof.
      unfold code, sizes. induction with_pivots as [|ci cs IH]; cbn; constructor; [|exact IH].
      pose proof (group_code_le ascending cr ci r). lia.
    Qed.
    Lemma nbins_pos : 0 < nbins.
    Proof.
      unfold nbins, sizes. induction with_pivots as [|ci cs IH]; cbn; [lia|].
      change (fold_right Nat.mul 1 ?x) with (prod x). lia.
    Qed.
    Lemma bin_lt r : bin r < nbins.
    Proof.
      unfold bin. pose proof nbins_pos. destruct (is_na r).
      - destruct na_first; lia.
      - apply rank_lt, code_valid.
    Qed.

    (** the split is by [bin], missing rows at the end of their bin *)
    Lemma split_rows_ok rs gs : 1 < nbins ->
      split_rows infos ascending cr na_first rs = Ok gs ->
      gs = map (fun k => share bin is_na k rs) (seq 0 nbins).
    Proof.
      intros N. unfold ShufModel.split_rows. destruct infos as [|i0 is0] eqn:Ei.
      { exfalso. unfold nbins, sizes, with_pivots in N. rewrite Ei in N. cbn in N. lia. }
      rewrite <- Ei in *. clear Ei i0 is0. fold with_pivots.
      destruct with_pivots as [|w0 ws] eqn:Ew.
      { exfalso. unfold nbins, sizes in N. rewrite Ew in N. cbn in N. lia. }
      rewrite <- Ew. clear w0 ws Ew. destruct (_ && _) ; [discriminate|]. intros E. injection E as <-.
      change (filter (fun r => existsb (fun ci => raw_na (fst ci) r) infos) rs) with (filter is_na rs).
      match goal with |- context[map ?g (product ?ns)] =>
        rewrite (@product_map _ ns g (fun k => filter (fun r => negb (is_na r) && (bin r =? k)) rs) 0) end.
      - change (prod (map _ with_pivots)) with nbins.
        assert (NA : forall k, filter (fun x => is_na x && (bin x =? k)) rs
                       = if (if na_first then 0 else nbins - 1) =? k then filter is_na rs else []).
        { intros k. destruct (Nat.eqb_spec (if na_first then 0 else nbins - 1) k) as [Ek|Ek].
          - apply filter_ext. intros r. unfold bin. destruct (is_na r); [|reflexivity].
            rewrite Ek. now rewrite Nat.eqb_refl.
          - apply filter_none. intros r _. unfold bin. destruct (is_na r); [|reflexivity]. cbn.
            now apply Nat.eqb_neq. }
        unfold share. destruct na_first.
        + rewrite append_first_map by apply nbins_pos. apply map_ext. intros k. now rewrite NA.
        + rewrite append_last_map by apply nbins_pos. apply map_ext. intros k. now rewrite NA.
      - intros cs V. rewrite filter_filter. apply filter_ext. intros r. fold (is_na r).
        destruct (is_na r) eqn:Er; [reflexivity|]. cbn [negb andb]. unfold bin. rewrite Er. cbn [Nat.add].
        change (map (fun ci => group_code ascending cr ci r) with_pivots) with (code r).
        change (map (fun ci => S (length (snd ci))) with_pivots) with sizes in *.
        apply eq_true_iff_eq. rewrite Nat.eqb_eq.
        rewrite (@list_eqb_spec nat Nat.eqb (fun x y => Nat.eqb_eq x y)).
        split; [now intros ->|]. apply rank_inj; [apply code_valid|exact V].
    Qed.

    Lemma split_rows_single rs : 1 < nbins -> length with_pivots = 1 ->
      exists gs, split_rows infos ascending cr na_first rs = Ok gs.
    Proof.
      intros N W. unfold ShufModel.split_rows. destruct infos as [|i0 is0] eqn:Ei; [eauto|]. rewrite <- Ei in *.
      fold with_pivots. destruct with_pivots as [|w [|? ?]]; cbn in W; try discriminate. cbn [length Nat.ltb Nat.leb]. rewrite andb_false_r. eauto.
    Qed.
  End Split.
End Codes.
