From Verif Require Import Base Table ChunkSpec ChunkModel GridModel FrameSpec GridProofs GridProofs3 SelSpec SelModel SelProofs SelProofs4 SelProofs5 SelProofs6 SelProofs7 ArrSpec ArrModel ArrProofs.

Lemma range_nat a b : a <= b -> py_range (Z.of_nat a) (Z.of_nat b) 1 = map Z.of_nat (seq a (b - a)).
Proof.
  intros Hab. unfold py_range, range_len. cbn [Z.gtb Z.compare]. replace (Z.to_nat ((Z.of_nat b - Z.of_nat a + 1 - 1) / 1)) with (b - a) by (rewrite Z.div_1_r; lia).
  rewrite <- (Nat.add_0_r a) at 2. generalize 0 as s. induction (b - a) as [|k IH]; intros s; [reflexivity|]. cbn [seq map]. f_equal; [lia|].
  rewrite IH. f_equal. f_equal. lia.
Qed.

Lemma range_steps k s : 0 < s -> py_range 0 (Z.of_nat (k * s)) (Z.of_nat s) = map (fun i => Z.of_nat (i * s)) (seq 0 k).
Proof.
  intros Hs. unfold py_range, range_len. destruct (Z.of_nat s >? 0)%Z eqn:E; [|lia].
  replace (Z.to_nat ((Z.of_nat (k * s) - 0 + Z.of_nat s - 1) / Z.of_nat s)) with k.
  - apply map_ext. intros i. lia.
  - replace (Z.of_nat (k * s) - 0 + Z.of_nat s - 1)%Z with (Z.of_nat k * Z.of_nat s + (Z.of_nat s - 1))%Z by lia.
    rewrite Z.div_add_l by lia. rewrite (Z.div_small (Z.of_nat s - 1)) by lia. lia.
Qed.

Section Split.
  Context {A : Type}.
  Variables min_row min_col nparts : nat.
  Hypothesis mr : 0 < min_row.
  Hypothesis mc : 0 < min_col.
  Hypothesis np : 0 < nparts.
  Variables known_l known_w : nat -> nat -> bool.
  Variable argsort : list Z -> list nat.
  Hypothesis argsort_ok : forall l, sorts l (argsort l).
  Variable big : bool.
  Notation pf := (@pframe nat nat A).
  Notation nd := (nd A).
  Notation take_span := (take_span min_row min_col nparts known_l known_w argsort big).
  Notation one_chunk := (one_chunk min_row min_col nparts known_l known_w argsort big).
  Notation split_loop := (split_loop min_row min_col nparts known_l known_w argsort big).
  Notation split := (split min_row min_col nparts known_l known_w argsort big).
  Notation split_even := (split_even min_row min_col nparts known_l known_w argsort big).

  Lemma axis_size_is axis (v : nd) : (axis = true -> ndim v = 2) -> nth (if axis then 1 else 0) (shape v) 0 = axis_len axis v.
  Proof. clear. destruct axis, v; cbn; try reflexivity. intros H. now specialize (H eq_refl). Qed.

  Lemma take_span_ok axis (x : arr) (v : nd) a b : stands x v -> (axis = true -> ndim v = 2) -> ~ In 0 (shape v) -> a < b -> b <= axis_len axis v ->
    exists c, take_span axis x (Z.of_nat a) (Z.of_nat b) = Ok c /\ chunk_is c (part axis v a b).
  Proof.
    intros Hx Ha Hn Hab Hb. destruct Hx as (En & rl & cl & S). assert (S' := S). destruct S' as (((W & _) & _) & _ & _ & Pi & Pco).
    assert (N1 : 0 < nrows (table_of v)). { unfold nrows. destruct v as [l|w rows]; cbn in *; rewrite seq_length; destruct (length _); lia || tauto. }
    assert (N2 : 0 < ncols (table_of v)). { unfold ncols. destruct v as [l|w rows]; cbn in *; [lia|]. rewrite seq_length. destruct w; lia || tauto. }
    assert (NDs : forall s n, NoDup (seq s n)) by (intros; apply seq_NoDup).
    unfold ArrModel.take_span. rewrite range_nat by lia. destruct axis.
    - destruct v as [l|w rows]; [now specialize (Ha eq_refl)|]. cbn [axis_len] in Hb.
      destruct (@take_2d_ok nat nat A Nat.eqb Nat.eqb Nat.eqb_eq Nat.eqb_eq min_row min_col nparts mr mc np known_l known_w argsort argsort_ok big (aqc x) (table_of (Mat w rows)) rl cl
        None (Some (IList (map Z.of_nat (seq a (b - a))))) (seq 0 (nrows (table_of (Mat w rows)))) (seq a (b - a)) S eq_refl) as (f' & E1 & _ & E3).
      { split; [exact I|]. split; [reflexivity|]. apply Forall_forall. intros p I%in_seq. unfold ncols. cbn [table_of dcols]. rewrite seq_length. lia. }
      { right; auto. }
      rewrite E1. cbn [rbind]. destruct E3 as (rl' & cl' & Sh).
      { destruct (nrows (table_of (Mat w rows))); [lia|discriminate]. }
      { destruct (b - a) eqn:E; [lia|discriminate]. }
      assert (Fc : Forall (fun p => p < ncols (table_of (Mat w rows))) (seq a (b - a))). { apply Forall_forall. intros p I%in_seq. unfold ncols. cbn [table_of dcols]. rewrite seq_length. lia. }
      assert (Fr : Forall (fun p => p < nrows (table_of (Mat w rows))) (seq 0 (nrows (table_of (Mat w rows))))). { apply Forall_forall. intros p I%in_seq. lia. }
      pose proof (@take2d_ncols nat nat A (seq 0 (nrows (table_of (Mat w rows)))) (seq a (b - a)) (table_of (Mat w rows)) Fc) as Lm. rewrite seq_length in Lm.
      pose proof (@take2d_nrows nat nat A (seq 0 (nrows (table_of (Mat w rows)))) (seq a (b - a)) (table_of (Mat w rows)) Fr) as Ln. rewrite seq_length in Ln.
      destruct (@finish A f' _ rl' cl' (part true (Mat w rows) a b) Sh) as (y & F1 & F2).
      + intros Z. unfold ncols in Lm. rewrite Z in Lm. cbn in Lm. lia.
      + rewrite Ln. unfold nrows. cbn. now rewrite !seq_length, map_length.
      + rewrite Lm. unfold ncols. cbn [part table_of dcols]. rewrite !seq_length, slice_length, seq_length. lia.
      + cbn [take2d dcells table_of part]. rewrite pick_all by (unfold nrows; cbn; now rewrite seq_length). apply map_ext_in. intros r I.
        destruct W as (_ & W2). cbn [table_of dcells dcols] in W2. rewrite Forall_forall in W2. specialize (W2 r I). rewrite seq_length in W2.
        rewrite pick_seq by lia. f_equal. lia.
      + cbn [part ndim] in F1. rewrite En. cbn [ndim]. rewrite F1. cbn [rbind]. eexists. split; [reflexivity|exact F2].
    - assert (Hb' : b <= nrows (table_of v)). { unfold nrows. destruct v; cbn in *; now rewrite seq_length. }
      destruct (@take_2d_ok nat nat A Nat.eqb Nat.eqb Nat.eqb_eq Nat.eqb_eq min_row min_col nparts mr mc np known_l known_w argsort argsort_ok big (aqc x) (table_of v) rl cl
        (Some (IList (map Z.of_nat (seq a (b - a))))) None (seq a (b - a)) (seq 0 (ncols (table_of v))) S) as (f' & E1 & _ & E3).
      { split; [exact I|]. split; [reflexivity|]. apply Forall_forall. intros p I%in_seq. lia. }
      { reflexivity. }
      { right; auto. }
      rewrite E1. cbn [rbind]. destruct E3 as (rl' & cl' & Sh).
      { destruct (b - a) eqn:E; [lia|discriminate]. }
      { destruct (ncols (table_of v)); [lia|discriminate]. }
      assert (Fr : Forall (fun p => p < nrows (table_of v)) (seq a (b - a))). { apply Forall_forall. intros p I%in_seq. lia. }
      assert (Fc : Forall (fun p => p < ncols (table_of v)) (seq 0 (ncols (table_of v)))). { apply Forall_forall. intros p I%in_seq. lia. }
      pose proof (@take2d_ncols nat nat A (seq a (b - a)) (seq 0 (ncols (table_of v))) (table_of v) Fc) as Lm. rewrite seq_length in Lm.
      pose proof (@take2d_nrows nat nat A (seq a (b - a)) (seq 0 (ncols (table_of v))) (table_of v) Fr) as Ln. rewrite seq_length in Ln.
      destruct (@finish A f' _ rl' cl' (part false v a b) Sh) as (y & F1 & F2).
      + intros Z. unfold ncols in Lm at 1. rewrite Z in Lm. cbn in Lm. lia.
      + rewrite Ln. unfold nrows in *. destruct v; cbn [part table_of dindex] in *; rewrite seq_length in *; rewrite slice_length; lia.
      + rewrite Lm. destruct v; reflexivity.
      + cbn [take2d dcells]. destruct W as (W1 & W2).
        rewrite (map_ext_in _ (fun r => r)).
        * rewrite map_id. rewrite pick_seq by (unfold nrows in Hb'; lia). replace (a + (b - a)) with b by lia. destruct v; cbn [table_of part dcells]; [apply slice_map|reflexivity].
        * intros r I. rewrite pick_seq in I by (unfold nrows in Hb'; lia). rewrite Forall_forall in W2. apply MelProofs2.in_slice in I. apply pick_all. now apply W2.
      + replace (ndim (part false v a b)) with (ndim v) in F1 by (destruct v; reflexivity). rewrite En, F1. cbn [rbind]. eexists. split; [reflexivity|exact F2].
  Qed.

  Lemma empty_chunk axis (v : nd) a : (axis = true -> ndim v = 2) -> @chunk_is A (CEmpty (without axis (shape v))) (part axis v a a).
  Proof.
    clear. intros Ha. destruct v as [l|w rows], axis; cbn [chunk_is shape part without]; try now specialize (Ha eq_refl).
    - rewrite slice_length. replace (a - a) with 0 by lia. cbn. auto.
    - rewrite slice_length, seq_length, map_length. replace (a - a) with 0 by lia. cbn. auto.
    - rewrite slice_length. replace (a - a) with 0 by lia. cbn. auto.
  Qed.

  Lemma one_chunk_ok axis (x : arr) (v : nd) a b : stands x v -> (axis = true -> ndim v = 2) -> ~ In 0 (shape v) -> a <= b -> b <= axis_len axis v ->
    exists c, one_chunk axis x (shape v) (axis_len axis v) (Z.of_nat a) (Z.of_nat b) = Ok c /\ chunk_is c (part axis v a b).
  Proof.
    intros Hx Ha Hn Hab Hb. unfold ArrModel.one_chunk. destruct (Z.of_nat (axis_len axis v) <? Z.of_nat a)%Z eqn:E1; [lia|]. cbn [orb].
    destruct (Z.of_nat a =? Z.of_nat b)%Z eqn:E2.
    - assert (a = b) by lia. subst b. eexists. split; [reflexivity|]. now apply empty_chunk.
    - rewrite Z.min_l by lia. apply take_span_ok; auto. lia.
  Qed.

  Lemma split_loop_ok axis (x : arr) (v : nd) : stands x v -> (axis = true -> ndim v = 2) -> ~ In 0 (shape v) ->
    forall idx a, a <= axis_len axis v ->
    Forall (fun z => - Z.of_nat (axis_len axis v) <= z <= Z.of_nat (axis_len axis v))%Z idx ->
    StronglySorted le (a :: map (bound (axis_len axis v)) idx) ->
    exists cs, split_loop axis x (shape v) (axis_len axis v) (Z.of_nat a) idx = Ok cs /\ Forall2 chunk_is cs (pieces axis v a idx).
  Proof.
    intros Hx Ha Hn. set (n := axis_len axis v) in *. induction idx as [|z idx IH]; intros a La F Ss; cbn [ArrModel.split_loop pieces]; fold n.
    - destruct (@one_chunk_ok axis x v a n Hx Ha Hn La (le_n _)) as (c & E & C). fold n in E. rewrite E. cbn [rbind]. eauto.
    - inversion F as [|? ? Fz F']; subst. cbn [map] in Ss. inversion Ss as [|? ? Ss' Sa]; subst. inversion Sa as [|? ? Hz _]; subst.
      assert (Bn : bound n z <= n) by (unfold bound; destruct (z <? 0)%Z eqn:E; lia).
      destruct (IH (bound n z) Bn F' Ss') as (cs & E2 & C2).
      destruct (z =? 0)%Z eqn:E0.
      + assert (z = 0)%Z by lia. subst z. assert (a = 0) by (cbn in Hz; lia). subst a. change (bound n 0) with 0 in *. rewrite E2. cbn [rbind]. eexists. split; [reflexivity|].
        constructor; [|exact C2]. now apply empty_chunk.
      + set (stop := if (z <? 0)%Z then (Z.of_nat n + z)%Z else z).
        assert (Es : stop = Z.of_nat (bound n z)) by (unfold stop, bound; destruct (z <? 0)%Z eqn:E; lia). rewrite Es.
        destruct (@one_chunk_ok axis x v a (bound n z) Hx Ha Hn Hz Bn) as (c & E & C). fold n in E. rewrite E. cbn [rbind]. rewrite E2. cbn [rbind].
        eexists. split; [reflexivity|]. constructor; auto.
  Qed.

  Lemma split_ok axis (x : arr) (v : nd) idx : stands x v -> (axis = true -> ndim v = 2) -> ~ In 0 (shape v) ->
    Forall (fun z => - Z.of_nat (axis_len axis v) <= z <= Z.of_nat (axis_len axis v))%Z idx ->
    StronglySorted le (map (bound (axis_len axis v)) idx) ->
    exists cs, split axis x idx = Ok cs /\ Forall2 chunk_is cs (np_split axis v idx).
  Proof.
    intros Hx Ha Hn F Ss. unfold ArrModel.split. destruct (stands_reads Hx) as (_ & ->). cbn [rbind].
    destruct Hx as (En & Hx'). rewrite En. replace (axis && (ndim v =? 1)) with false by (destruct axis; [rewrite Ha by auto|]; reflexivity).
    rewrite axis_size_is by auto. change 0%Z with (Z.of_nat 0). apply split_loop_ok; auto; [split; auto|lia|].
    constructor; [exact Ss|]. apply Forall_forall. intros; lia.
  Qed.

  Lemma split_even_ok axis (x : arr) (v : nd) k : stands x v -> (axis = true -> ndim v = 2) -> ~ In 0 (shape v) ->
    0 < k -> axis_len axis v mod k = 0 ->
    exists cs, split_even axis x k = Ok cs /\ Forall2 chunk_is cs (np_split_even axis v k).
  Proof.
    intros Hx Ha Hn Hk Hm. unfold ArrModel.split_even. destruct (stands_reads Hx) as (_ & ->). cbn [rbind].
    assert (En : andim x = ndim v) by (destruct Hx; auto). rewrite En. replace (axis && (ndim v =? 1)) with false by (destruct axis; [rewrite Ha by auto|]; reflexivity).
    rewrite axis_size_is by auto. set (n := axis_len axis v) in *. destruct (k =? 0) eqn:E0; [lia|]. rewrite Hm. cbn [Nat.eqb negb].
    assert (Nn : n <> 0). { intros Z. apply Hn. unfold n in Z. destruct v, axis; cbn in *; auto. }
    assert (Ek : n = k * (n / k)). { pose proof (Nat.div_mod n k). lia. }
    destruct (n / k =? 0) eqn:E1. { apply Nat.eqb_eq in E1. rewrite E1 in Ek. lia. }
    apply Nat.eqb_neq in E1. set (s := n / k) in *. replace (Z.of_nat n) with (Z.of_nat (k * s)) by lia. rewrite range_steps by lia. unfold np_split_even. fold n. fold s.
    assert (Hi : forall i, In i (seq 0 k) -> i < k) by (intros i I%in_seq; lia). revert Hi. generalize (seq 0 k) as ks. induction ks as [|i ks IH]; intros Hi; cbn [map rmap].
    - eauto.
    - destruct IH as (cs & E & C); [intros; apply Hi; now right|].
      destruct (@take_span_ok axis x v (i * s) (S i * s) Hx Ha Hn) as (c & E2 & C2); [lia| |].
      { fold n. rewrite Ek. apply Nat.mul_le_mono_r. specialize (Hi i (or_introl eq_refl)). lia. }
      replace (Z.of_nat (i * s) + Z.of_nat s)%Z with (Z.of_nat (S i * s)) by lia. rewrite E2. cbn [rbind]. rewrite E. cbn [rbind]. eauto.
  Qed.
End Split.

(** the parts between sorted positions are the whole, in order *)
Lemma pieces_whole {A} (l : list A) idx : forall a, a <= length l ->
  Forall (fun z => - Z.of_nat (length l) <= z <= Z.of_nat (length l))%Z idx ->
  StronglySorted le (a :: map (bound (length l)) idx) ->
  flat_map (fun v => match v with Vec l => l | Mat _ _ => [] end) (pieces false (Vec l) a idx) = skipn a l.
Proof.
  induction idx as [|z idx IH]; intros a La F Ss; cbn [pieces flat_map part axis_len].
  - rewrite app_nil_r. unfold slice. apply firstn_all2. rewrite skipn_length. lia.
  - inversion F as [|? ? Fz F']; subst. cbn [map] in Ss. inversion Ss as [|? ? Ss' Sa]; subst. inversion Sa as [|? ? Hz _]; subst.
    assert (Bn : bound (length l) z <= length l) by (unfold bound; destruct (z <? 0)%Z eqn:E; lia).
    rewrite IH by auto. unfold slice. set (b := bound (length l) z) in *.
    replace (skipn b l) with (skipn (b - a) (skipn a l)); [apply firstn_skipn|]. rewrite skipn_skipn'. f_equal. lia.
Qed.
