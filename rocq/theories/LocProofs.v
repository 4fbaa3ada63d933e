(** Proofs about [df.loc[ ]]: the positions the code finds are those of the labels asked for. *)
From Verif Require Import Base Table ChunkModel ChunkSpec GridModel GridSpec FrameSpec GridProofs GridProofs2 GridProofs3 GridProofs5 SelSpec SelModel
  SelProofs SelProofs2 SelProofs3 SelProofs4 SelProofs5 SelProofs6 SelProofs7 SetProofs4 LabModel LabProofs LocSpec LocModel.

Section Everywhere.
  Context {L : Type}.
  Variable eqb : L -> L -> bool.
  Hypothesis eqb_ok : forall x y, eqb x y = true <-> x = y.

  Lemma nth_error_combine {X Y} (s : list X) (l : list Y) k : nth_error (combine s l) k =
    match nth_error s k, nth_error l k with Some a, Some b => Some (a, b) | _, _ => None end.
  Proof. revert l k. induction s as [|a s IH]; intros l k; [now destruct k|]. destruct l as [|b l].
    - destruct k; cbn; [reflexivity|]. now destruct (nth_error s k).
    - destruct k; cbn; auto. Qed.
  Lemma nth_error_seq a n k : nth_error (seq a n) k = if k <? n then Some (a + k) else None.
  Proof. destruct (Nat.ltb_spec k n).
    - rewrite nth_error_nth' with (d := 0) by (now rewrite seq_length). now rewrite seq_nth.
    - apply nth_error_None. rewrite seq_length. lia. Qed.

  Lemma everywhere_in labels l p : In p (everywhere eqb labels l) <-> nth_error labels p = Some l.
  Proof. unfold everywhere. rewrite in_map_iff. split.
    - intros ([q x] & <- & [I E]%filter_In). cbn in *. apply eqb_ok in E. subst x.
      apply In_nth_error in I. destruct I as (k & Hk). rewrite nth_error_combine, nth_error_seq in Hk. destruct (k <? length labels); [|discriminate].
      destruct (nth_error labels k) eqn:E; [|discriminate]. injection Hk as <- <-. exact E.
    - intros E. exists (p, l). split; [reflexivity|]. apply filter_In. split; [|now apply eqb_ok].
      apply (nth_error_In _ p). rewrite nth_error_combine, nth_error_seq, E. destruct (Nat.ltb_spec p (length labels)); auto.
      exfalso. assert (p < length labels) by (apply nth_error_Some; congruence). lia. Qed.

  Lemma everywhere_bound labels l : Forall (fun p => p < length labels) (everywhere eqb labels l).
  Proof. apply Forall_forall. intros p I. apply everywhere_in in I. apply nth_error_Some. congruence. Qed.

  Lemma all_of_bound labels ls ps : all_of eqb labels ls = Some ps -> Forall (fun p => p < length labels) ps.
  Proof. revert ps. induction ls as [|l ls IH]; intros ps E; cbn [all_of] in E; [injection E as <-; constructor|].
    pose proof (everywhere_bound labels l) as B. destruct (everywhere eqb labels l) as [|p q]; [discriminate|].
    destruct (all_of eqb labels ls) as [qs|]; [|discriminate]. injection E as <-. change (p :: q ++ qs) with ((p :: q) ++ qs). apply Forall_app. split; auto. Qed.

  Lemma all_of_found labels ls ps : all_of eqb labels ls = Some ps -> found (get_indexer eqb labels ls) = Ok (Some (IList (map Z.of_nat ps))).
  Proof. intros E. assert (G : get_indexer eqb labels ls = map Z.of_nat ps).
    { revert ps E. induction ls as [|l ls IH]; intros ps E; cbn [all_of] in E; [injection E as <-; reflexivity|].
      change (get_indexer eqb labels (l :: ls)) with (match everywhere eqb labels l with [] => [(-1)%Z] | ps => map Z.of_nat ps end ++ get_indexer eqb labels ls).
      destruct (everywhere eqb labels l) as [|p q]; [discriminate|]. destruct (all_of eqb labels ls) as [qs|]; [|discriminate].
      injection E as <-. rewrite (IH qs eq_refl). change (p :: q ++ qs) with ((p :: q) ++ qs). now rewrite map_app. }
    unfold found. rewrite G. replace (existsb _ _) with false; auto. symmetry. apply not_true_iff_false. intros X. apply existsb_exists in X.
    destruct X as (z & (p & <- & _)%in_map_iff & Hz). apply Z.eqb_eq in Hz. lia. Qed.

  Lemma all_of_missing labels ls l : In l ls -> ~ In l labels -> found (get_indexer eqb labels ls) = Err KeyError.
  Proof. intros I N. unfold found. replace (existsb _ _) with true; auto. symmetry. apply existsb_exists. exists (-1)%Z. split; auto.
    unfold get_indexer. apply in_concat. exists [(-1)%Z]. split; [|now left]. apply in_map_iff. exists l. split; auto.
    destruct (everywhere eqb labels l) as [|p q] eqn:E; auto. exfalso. apply N.
    assert (X : In p (everywhere eqb labels l)) by (rewrite E; now left). apply everywhere_in in X. now apply nth_error_In in X. Qed.

  Variable of_Z : Z -> L.
  Variable num : L -> option Z.
  Hypothesis num_ok : forall l z, num l = Some z <-> l = of_Z z.
  Lemma of_Z_inj a b : of_Z a = of_Z b -> a = b.
  Proof. intros E. assert (X : num (of_Z a) = Some a) by now apply num_ok. assert (Y : num (of_Z b) = Some b) by now apply num_ok. congruence. Qed.

  Lemma all_of_default n zs ps : all_of eqb (map of_Z (map Z.of_nat (seq 0 n))) (map of_Z zs) = Some ps -> map Z.of_nat ps = zs.
  Proof. revert ps. induction zs as [|z zs IH]; intros ps E; cbn [all_of map] in E; [now injection E as <-|].
    set (labels := map of_Z (map Z.of_nat (seq 0 n))) in *.
    assert (U : forall p, In p (everywhere eqb labels (of_Z z)) -> Z.of_nat p = z).
    { intros p I. apply everywhere_in in I. unfold labels in I. rewrite map_map in I. rewrite nth_error_map in I.
      rewrite nth_error_seq in I. destruct (p <? n); [|discriminate]. cbn in I. injection I as I. now apply of_Z_inj in I. }
    assert (N : NoDup (everywhere eqb labels (of_Z z))).
    { unfold everywhere. assert (X : NoDup (map fst (combine (seq 0 (length labels)) labels))) by (rewrite SetProofs4.combine_fst by (now rewrite seq_length); apply seq_NoDup).
      revert X. generalize (combine (seq 0 (length labels)) labels). intros l. induction l as [|x l IHl]; cbn; intros X; [constructor|]. inversion X as [|? ? X1 X2]; subst.
      destruct (eqb (snd x) (of_Z z)); cbn; auto. constructor; auto. intros I. apply X1. apply in_map_iff in I. destruct I as (y & <- & [I _]%filter_In). now apply in_map. }
    destruct (everywhere eqb labels (of_Z z)) as [|p q]; [discriminate|]. destruct (all_of eqb labels (map of_Z zs)) as [qs|]; [|discriminate].
    injection E as <-. destruct q as [|p' q].
    - cbn. rewrite (U p (or_introl eq_refl)), (IH qs eq_refl). reflexivity.
    - exfalso. pose proof (U p (or_introl eq_refl)). pose proof (U p' (or_intror (or_introl eq_refl))). inversion N as [|? ? X _]; subst. apply X. left. lia. Qed.
End Everywhere.

Section Bounds.
  Context {L : Type}.
  Variable eqb : L -> L -> bool.
  Hypothesis eqb_ok : forall x y, eqb x y = true <-> x = y.
  Variable leb : L -> L -> bool.
  Lemma place_bound labels l a b : place eqb leb labels l = Some (a, b) -> a <= length labels /\ b <= length labels.
  Proof. unfold place. pose proof (everywhere_bound eqb eqb_ok labels l) as B. destruct (everywhere eqb labels l) as [|p q].
    - destruct (in_order leb labels); [|discriminate]. intros E. injection E as <- <-. assert (X : length (filter (fun x => less eqb leb x l) labels) <= length labels) by (clear; induction labels as [|y ls IH]; cbn; [lia|]; destruct (less eqb leb y l); cbn; lia). lia.
    - destruct (list_eqb Nat.eqb (p :: q) (seq p (S (length q)))) eqn:E; [|discriminate]. intros X. injection X as <- <-.
      apply list_eqb_spec in E; [|intros; apply Nat.eqb_eq]. rewrite E in B. rewrite Forall_forall in B.
      assert (I : In (p + length q) (seq p (S (length q)))) by (apply in_seq; lia). specialize (B _ I). lia. Qed.
  Lemma first_bound labels o a : first_of eqb leb labels o = Some a -> a <= length labels.
  Proof. destruct o as [l|]; cbn [first_of]; [|intros E; injection E as <-; lia]. destruct (place eqb leb labels l) as [[x y]|] eqn:E; [|discriminate].
    intros X. injection X as <-. now apply place_bound in E. Qed.
  Lemma past_bound labels o b : past_of eqb leb labels o = Some b -> b <= length labels.
  Proof. destruct o as [l|]; cbn [past_of]; [|intros E; injection E as <-; lia]. destruct (place eqb leb labels l) as [[x y]|] eqn:E; [|discriminate].
    intros X. injection X as <-. now apply place_bound in E. Qed.
End Bounds.

Section Axis.
  Context {L A : Type}.
  Variables leqb leb : L -> L -> bool.
  Hypothesis leqb_ok : forall x y, leqb x y = true <-> x = y.
  Variable of_Z : Z -> L.
  Variable num : L -> option Z.
  Hypothesis num_ok : forall l z, num l = Some z <-> l = of_Z z.
  Hypothesis leb_Z : forall a b, leb (of_Z a) (of_Z b) = (a <=? b)%Z.
  Variable coerce : L -> res L.

  Lemma rmap_coerce ls : Forall (fun l => coerce l = Ok l) ls -> rmap coerce ls = Ok ls.
  Proof. induction 1 as [|l ls E F IH]; auto. cbn [rmap]. rewrite E. cbn [rbind]. rewrite IH. reflexivity. Qed.

  (** a numeric slice *)
  Lemma range_selects n x y st (ps : list nat) : st <> 0%Z -> ((0 < st -> 0 <= x <= Z.of_nat n /\ 0 <= y <= Z.of_nat n) /\ (st < 0 -> -1 <= x < Z.of_nat n /\ -1 <= y) /\ (st = 1 -> x <= y))%Z ->
    ps = map Z.to_nat (py_range x y st) -> selects n (Some (IRange x y st)) ps.
  Proof. intros Hs (H1 & H2 & H3) ->. cbn [selects]. assert (B : Forall (fun z => 0 <= z < Z.of_nat n)%Z (py_range x y st)).
    { apply Forall_forall. intros z I. destruct (Z.ltb_spec 0 st).
      - specialize (H1 ltac:(lia)). apply py_range_in_pos in I; lia.
      - specialize (H2 ltac:(lia)). apply py_range_in_neg in I; lia. }
    split; [|split].
    - cbn [range_ok]. repeat split; auto; intros; apply H1; lia.
    - cbn [ipos]. rewrite map_map. rewrite <- (map_id (py_range x y st)) at 1. apply map_ext_in. intros z I. rewrite Forall_forall in B. specialize (B z I). lia.
    - apply Forall_map. eapply Forall_impl; [|exact B]. cbn beta. intros z Hz. lia. Qed.

  Lemma up_down n z : (-1 <= z)%Z ->
    (if (0 <=? if (z =? -1)%Z then (z - Z.of_nat n)%Z else z)%Z then if (z =? -1)%Z then (z - Z.of_nat n)%Z else z
     else (if (z =? -1)%Z then (z - Z.of_nat n)%Z else z) + Z.of_nat n)%Z = z.
  Proof. intros Hz. destruct (Z.eqb_spec z (-1)) as [->|N]; [destruct (Z.leb_spec 0 (-1 - Z.of_nat n)); lia|]. destruct (Z.leb_spec 0 z); lia. Qed.

  Lemma slice_ok labels a b stop s ps : sliced leqb leb labels a stop s = Some ps ->
    match b with Some l => match num l with Some z => Some (of_Z (z - match s with None => 0 | Some s => s end)) | None => Some l end | None => None end = stop ->
    (forall lo hi, match s with Some s => s = 1%Z | None => True end -> first_of leqb leb labels a = Some lo -> past_of leqb leb labels stop = Some hi -> lo <= hi) ->
    exists ix, slice_lookup leqb leb of_Z num labels a b s = Ok (Some ix) /\ ipos ix = ps /\ selects (length labels) (Some ix) (map Z.to_nat ps).
  Proof. intros E Es Hb. unfold slice_lookup. rewrite Es. unfold sliced in E. unfold slice_indexer.
    set (st := match s with Some s => s | None => 1%Z end) in *.
    destruct (Z.eqb_spec st 0) as [|Hst]; [discriminate|].
    destruct (Z.ltb_spec 0 st) as [Hp|Hp].
    - assert (match s with Some s => (0 <=? s)%Z | None => true end = true) as -> by (destruct s; auto; apply Z.leb_le; subst st; lia).
      destruct (first_of leqb leb labels a) as [lo|] eqn:El; [|discriminate]. destruct (past_of leqb leb labels stop) as [hi|] eqn:Eh; [|discriminate].
      injection E as <-. cbn [rbind fst snd]. eexists. split; [reflexivity|]. pose proof (first_bound leqb leqb_ok leb _ _ El). pose proof (past_bound leqb leqb_ok leb _ _ Eh).
      assert ((0 <=? Z.of_nat lo)%Z = true) as -> by (apply Z.leb_le; lia). assert ((0 <=? Z.of_nat hi)%Z = true) as -> by (apply Z.leb_le; lia). split; [reflexivity|].
      apply range_selects; auto. repeat split; try lia. intros E1. assert (lo <= hi); [|lia]. apply (Hb lo hi); auto. destruct s; auto.
    - assert (match s with Some s => (0 <=? s)%Z | None => true end = false) as -> by (destruct s; [apply Z.leb_gt; subst st; lia|subst st; lia]).
      destruct (past_of leqb leb labels a) as [hi|] eqn:Eh; [|discriminate]. destruct (first_of leqb leb labels stop) as [lo|] eqn:El; [|discriminate].
      injection E as <-. cbn [rbind fst snd]. eexists. split; [reflexivity|]. pose proof (first_bound leqb leqb_ok leb _ _ El). pose proof (past_bound leqb leqb_ok leb _ _ Eh).
      rewrite (up_down (length labels) (z := (Z.of_nat hi - 1)%Z)) by lia. rewrite (up_down (length labels) (z := (Z.of_nat lo - 1)%Z)) by lia. split; [reflexivity|].
      apply range_selects; auto. repeat split; lia. Qed.

  Lemma default_in_order n a : in_order leb (map of_Z (map Z.of_nat (seq a n))) = true.
  Proof. revert a. induction n as [|[|n] IH]; intros a; auto. specialize (IH (S a)). cbn [seq map in_order] in *. rewrite IH, leb_Z. rewrite andb_true_r. apply Z.leb_le. lia. Qed.
  Lemma default_count n a z : (Z.of_nat a + Z.of_nat n <= z)%Z -> filter (fun x => less leqb leb x (of_Z z)) (map of_Z (map Z.of_nat (seq a n))) = map of_Z (map Z.of_nat (seq a n)).
  Proof. revert a. induction n as [|n IH]; intros a Hz; auto. cbn [seq map filter]. unfold less at 1. rewrite leb_Z.
    destruct (Z.leb_spec (Z.of_nat a) z); [|lia]. destruct (leqb (of_Z (Z.of_nat a)) (of_Z z)) eqn:E.
    { apply leqb_ok in E. apply (of_Z_inj of_Z num num_ok) in E. lia. }
    cbn [andb negb]. rewrite IH by lia. reflexivity. Qed.
  Lemma default_count0 n a z : (z < Z.of_nat a)%Z -> filter (fun x => less leqb leb x (of_Z z)) (map of_Z (map Z.of_nat (seq a n))) = [].
  Proof. revert a. induction n as [|n IH]; intros a Hz; auto. cbn [seq map filter]. unfold less at 1. rewrite leb_Z.
    destruct (Z.leb_spec (Z.of_nat a) z); [lia|]. cbn [andb]. apply IH. lia. Qed.
  Lemma default_nth n p : nth_error (map of_Z (map Z.of_nat (seq 0 n))) p = if p <? n then Some (of_Z (Z.of_nat p)) else None.
  Proof. rewrite map_map, nth_error_map, nth_error_seq. now destruct (p <? n). Qed.
  Lemma default_everywhere n z : (0 <= z < Z.of_nat n)%Z -> everywhere leqb (map of_Z (map Z.of_nat (seq 0 n))) (of_Z z) = [Z.to_nat z].
  Proof. intros Hz. pose proof (everywhere_in leqb leqb_ok (map of_Z (map Z.of_nat (seq 0 n))) (of_Z z)) as E.
    destruct (all_of leqb (map of_Z (map Z.of_nat (seq 0 n))) (map of_Z [z])) as [ps|] eqn:X.
    - pose proof (all_of_default leqb leqb_ok of_Z num num_ok n [z] X) as Y. cbn [all_of map] in X.
      destruct (everywhere leqb _ (of_Z z)) as [|p q]; [discriminate|]. injection X as <-. rewrite app_nil_r in Y. destruct q; [|discriminate]. cbn in Y. injection Y as Y. f_equal. lia.
    - exfalso. cbn [all_of map] in X. destruct (everywhere leqb _ (of_Z z)) as [|p q]; [|discriminate].
      apply (E (Z.to_nat z)). rewrite default_nth. destruct (Nat.ltb_spec (Z.to_nat z) n); [|lia]. do 2 f_equal. lia. Qed.
  Lemma default_absent n z : (z < 0 \/ Z.of_nat n <= z)%Z -> everywhere leqb (map of_Z (map Z.of_nat (seq 0 n))) (of_Z z) = [].
  Proof. intros Hz. destruct (everywhere leqb _ (of_Z z)) as [|p q] eqn:X; auto. exfalso.
    assert (I : In p (everywhere leqb (map of_Z (map Z.of_nat (seq 0 n))) (of_Z z))) by (rewrite X; now left).
    apply (everywhere_in leqb leqb_ok) in I. rewrite default_nth in I. destruct (Nat.ltb_spec p n); [|discriminate]. injection I as I. apply (of_Z_inj of_Z num num_ok) in I. lia. Qed.
  Lemma default_place n z : (-1 <= z <= Z.of_nat n)%Z ->
    place leqb leb (map of_Z (map Z.of_nat (seq 0 n))) (of_Z z) = Some (Z.to_nat z, Nat.min n (Z.to_nat (z + 1))).
  Proof. intros Hz. unfold place. destruct (Z.eq_dec z (-1)) as [->|H1]; [|destruct (Z.eq_dec z (Z.of_nat n)) as [->|H2]].
    - rewrite default_absent by lia. rewrite default_in_order, default_count0 by lia. cbn. f_equal. f_equal; lia.
    - rewrite default_absent by lia. rewrite default_in_order, default_count by lia. rewrite !map_length, seq_length. f_equal. f_equal; lia.
    - rewrite default_everywhere by lia. cbn [length seq list_eqb]. rewrite Nat.eqb_refl. cbn. f_equal. f_equal. lia. Qed.

  Lemma positions_ok labels k ps : located leqb leb of_Z labels k = Some ps -> plain leqb leb of_Z num coerce labels k ->
    exists ix, positions_from_labels leqb leb of_Z num coerce labels k = Ok ix /\ selects (length labels) ix ps.
  Proof. destruct k as [l|ls|ls|a b s|x y s|x y s|m]; cbn [located plain positions_from_labels]; intros E P.
    - exists (Some (IList (map Z.of_nat ps))). split; [now apply all_of_found|]. cbn. repeat split; auto. now apply (all_of_bound leqb leqb_ok) in E.
    - rewrite (rmap_coerce P). cbn [rbind]. exists (Some (IList (map Z.of_nat ps))). split; [now apply all_of_found|]. cbn. repeat split; auto. now apply (all_of_bound leqb leqb_ok) in E.
    - exists (Some (IList (map Z.of_nat ps))). split; [now apply all_of_found|]. cbn. repeat split; auto. now apply (all_of_bound leqb leqb_ok) in E.
    - destruct P as [P1 P2]. destruct (sliced leqb leb labels a b s) as [zs|] eqn:Es; [|discriminate]. injection E as <-.
      destruct (@slice_ok labels a b b s zs Es) as (ix & E1 & E2 & E3); auto.
      { destruct b as [l|]; auto. destruct (num l) as [z|] eqn:En; auto. apply num_ok in En. destruct (P1 l eq_refl) as [->|Nn]; [subst l; do 2 f_equal; lia|]. exfalso. apply num_ok in En. congruence. }
      destruct a, b, s; try (exists (Some ix); split; [exact E1|exact E3]).
      exists None. split; [reflexivity|]. cbn [selects]. unfold sliced in Es. cbn [Z.eqb Z.ltb Z.compare first_of past_of] in Es. injection Es as <-. unfold py_range. rewrite map_map.
      rewrite range_len_1. change (Z.of_nat 0) with 0%Z. rewrite Z.sub_0_r, Nat2Z.id. rewrite (map_ext _ (fun k => k)) by (intros k; lia). apply map_id.
    - destruct P as (Hd & -> & Hx & Hy). cbn [Z.eqb] in *.
      unfold default_labels in Hd. set (n := length labels) in *. rewrite Hd in *.
      pose proof (all_of_default leqb leqb_ok of_Z num num_ok n _ E) as Eps. 
      destruct (@slice_ok (map of_Z (map Z.of_nat (seq 0 n))) (Some (of_Z x)) (Some (of_Z y)) (Some (of_Z (y - 1))) (Some 1%Z) (py_range x y 1)) as (ix & E1 & E2 & E3).
      + unfold sliced, first_of, past_of. cbn [Z.eqb Z.ltb Z.compare]. rewrite !default_place by lia. cbn [option_map fst snd]. do 2 f_equal; lia.
      + assert (num (of_Z y) = Some y) as -> by now apply num_ok. reflexivity.
      + intros lo hi _. unfold first_of, past_of. rewrite !default_place by lia. cbn [option_map fst snd]. intros X Y. injection X as <-. injection Y as <-. lia.
      + exists (Some ix). split; [exact E1|]. rewrite !map_length, seq_length in *. rewrite <- Eps in E3. rewrite map_map in E3. rewrite (map_ext _ (fun k => k)) in E3 by (intros k; lia). now rewrite map_id in E3.
    - destruct P as (Hd & P1 & P2). destruct (Z.eqb_spec s 0) as [|Hs]; [discriminate|]. unfold default_labels in Hd. set (n := length labels) in *. rewrite Hd in E.
      pose proof (all_of_default leqb leqb_ok of_Z num num_ok n _ E) as Eps. apply (all_of_bound leqb leqb_ok) in E. rewrite !map_length, seq_length in E.
      eexists. split; [reflexivity|]. cbn. repeat split; auto; now apply P1.
    - destruct (Nat.eqb_spec (length m) (length labels)) as [Em|]; [|discriminate]. injection E as <-. rewrite Em. eexists. split; [reflexivity|]. cbn. rewrite map_map. repeat split; auto.
      apply mask_positions_bound. Qed.
End Axis.
