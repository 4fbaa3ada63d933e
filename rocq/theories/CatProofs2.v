(** The missing keys go to the right partitions. *)
From Verif Require Import Base CatSpec CatModel CatProofs.

Section Find.
  Context {K V : Type}.
  Variable lead : K -> V.
  Variable vle : V -> V -> bool.
  Hypothesis vle_trans : forall a b c, vle a b = true -> vle b c = true -> vle a c = true.
  Hypothesis vle_total : forall a b, vle a b = true \/ vle b a = true.

  Definition lastk (idx : list K) : option K := match rev idx with [] => None | k :: _ => Some k end.
  Fixpoint find (idxs : list (list K)) (m : K) : nat :=
    match idxs with
    | [] => 0
    | idx :: rest =>
        match lastk idx with
        | Some l => if vle (lead m) (lead l) then 0 else S (find rest m)
        | None => S (find rest m)
        end
    end.
  Fixpoint binsof (idxs : list (list K)) : list V :=
    match idxs with [] => [] | idx :: rest => match lastk idx with Some l => lead l :: binsof rest | None => binsof rest end end.
  Fixpoint offsof (idxs : list (list K)) (off : nat) : list nat :=
    match idxs with
    | [] => [off]
    | idx :: rest => match lastk idx with Some _ => off :: offsof rest off | None => offsof rest (S off) end
    end.
  Lemma bins_loop_eq idxs : forall bins offs off,
    bins_loop lead idxs bins offs off = (bins ++ binsof idxs, offs ++ offsof idxs off).
  Proof. induction idxs as [|idx rest IH]; intros bins offs off; cbn; [now rewrite app_nil_r|].
    unfold lastk. destruct (rev idx); rewrite IH; [easy|]. now rewrite <- !app_assoc. Qed.

  (** The last keys of the partitions ascend. *)
  Fixpoint ascending (idxs : list (list K)) : Prop :=
    match idxs with
    | [] => True
    | idx :: rest => (forall l b, lastk idx = Some l -> In b (binsof rest) -> vle b (lead l) = false) /\ ascending rest
    end.
  Lemma ssl_find idxs m : ascending idxs -> forall off,
    let p := searchsorted_left vle (binsof idxs) (lead m) in p + nth p (offsof idxs off) 0 = off + find idxs m.
  Proof. induction idxs as [|idx rest IH]; intros AS off; cbn; [lia|]. destruct AS as [A AS].
    destruct (lastk idx) as [l|] eqn:E.
    - unfold searchsorted_left. cbn [filter]. destruct (vle (lead m) (lead l)) eqn:C; cbn [negb].
      + rewrite filter_none; [cbn; lia|]. intros b Hb. specialize (A l b eq_refl Hb).
        destruct (vle_total b (lead l)) as [T|T]; [congruence|]. now rewrite (vle_trans C T).
      + cbn [length nth]. specialize (IH AS off). cbn in IH. unfold searchsorted_left in IH. lia.
    - specialize (IH AS (S off)). cbn in IH. unfold searchsorted_left in IH. lia. Qed.
  Lemma place_find idxs m : ascending (removelast idxs) -> place lead vle idxs m = find (removelast idxs) m.
  Proof. intros AS. unfold place. rewrite bins_loop_eq. cbn [app]. pose proof (ssl_find _ m AS 0) as X. cbn in X.
    destruct (binsof (removelast idxs)) eqn:E; [exact X|]. exact X. Qed.

  Lemma find_before idxs m : forall i idx l, i < find idxs m -> nth_error idxs i = Some idx -> lastk idx = Some l ->
    vle (lead m) (lead l) = false.
  Proof. induction idxs as [|x rest IH]; intros i idx l; cbn; [lia|].
    destruct (lastk x) as [l'|] eqn:E; [destruct (vle (lead m) (lead l')) eqn:C|]; intros Hi; try lia;
      destruct i as [|i]; cbn; intros N L.
    - injection N as <-. congruence.
    - apply (IH i idx l); auto. lia.
    - injection N as <-. congruence.
    - apply (IH i idx l); auto. lia. Qed.
  Lemma find_at idxs m : find idxs m < length idxs ->
    exists idx l, nth_error idxs (find idxs m) = Some idx /\ lastk idx = Some l /\ vle (lead m) (lead l) = true.
  Proof. induction idxs as [|x rest IH]; cbn; [lia|].
    destruct (lastk x) as [l'|] eqn:E; [destruct (vle (lead m) (lead l')) eqn:C|]; intros Hi.
    - exists x, l'. auto.
    - apply IH. lia.
    - apply IH. lia. Qed.
  Lemma lastk_in idx l : lastk idx = Some l -> In l idx.
  Proof. unfold lastk. destruct (rev idx) eqn:E; [easy|]. intros [= <-]. apply in_rev. rewrite E. now left. Qed.
  Lemma lastk_some idx k : In k idx -> exists l, lastk idx = Some l.
  Proof. intros I. apply in_rev in I. unfold lastk. destruct (rev idx) as [|l ?]; [easy|]. eauto. Qed.
  Lemma lastk_max idx l k : StronglySorted (fun a b => vle (lead a) (lead b) = true) idx -> lastk idx = Some l -> In k idx ->
    vle (lead k) (lead l) = true.
  Proof. intros S. revert l. induction S as [|x idx S IH F]; intros l L I; [easy|].
    destruct idx as [|y idx].
    - cbn in L. injection L as <-. destruct I as [->|[]]. now destruct (vle_total (lead k) (lead k)).
    - assert (L' : lastk (y :: idx) = Some l).
      { unfold lastk in *. cbn [rev] in L |- *. destruct (rev idx ++ [y]) as [|z zs] eqn:E; [now destruct (rev idx)|]. exact L. }
      destruct I as [<-|I]; [|now apply IH]. rewrite Forall_forall in F. apply F. now apply lastk_in. Qed.
End Find.

Lemma StronglySorted_filter {X} (Q : X -> X -> Prop) f l : StronglySorted Q l -> StronglySorted Q (filter f l).
Proof. intros S. induction S as [|x l S IH F]; cbn; [constructor|].
  destruct (f x); [|assumption]. constructor; [assumption|]. rewrite Forall_forall in *.
  intros y Hy. apply F. now apply filter_In in Hy. Qed.

Section Order.
  Context {K V R A : Type}.
  Variable kdec : forall a b : K, {a = b} + {a <> b}.
  Variable lead : K -> V.
  Variable vle : V -> V -> bool.
  Variable key : R -> option K.
  Variable agg : list R -> list A.
  Variable nan : A.
  Variable difference : list K -> list K.
  Variable complete : list K.
  Variable ncols : nat.
  Variable pivots : list V.
  Variable parts : list (list R).
  Notation code := (fun k => searchsorted_right vle pivots (lead k)).
  Notation n := (S (length pivots)).
  Notation rows := (concat parts).
  Notation home := (home kdec lead vle key agg complete code n parts true).
  Notation dfs := (map (groupby_observed kdec key agg complete true) (shuffle key code n parts)).
  Hypothesis vle_trans : forall a b c, vle a b = true -> vle b c = true -> vle a c = true.
  Hypothesis vle_total : forall a b, vle a b = true \/ vle b a = true.
  Hypothesis known : forall k, In k (keys key rows) -> In k complete.
  Hypothesis sorted : StronglySorted (fun a b => vle (lead a) (lead b) = true) complete.

  Lemma code_le k : code k < n.
  Proof. unfold searchsorted_right. induction pivots as [|p ps IH]; cbn; [lia|]. destruct (vle p (lead k)); cbn in *; lia. Qed.
  Lemma code_mono a b : vle (lead a) (lead b) = true -> code a <= code b.
  Proof. intros L. unfold searchsorted_right. induction pivots as [|p ps IH]; cbn; [lia|].
    destruct (vle p (lead a)) eqn:E; cbn.
    - rewrite (vle_trans E L). cbn. lia.
    - destruct (vle p (lead b)); cbn; lia. Qed.

  Definition part (i : nat) : list K := filter (fun k => is_in kdec k (keys key (bin key code n parts i))) complete.
  Lemma part_nth i idx : nth_error (removelast (map (map fst) dfs)) i = Some idx -> i < length pivots /\ idx = part i.
  Proof.
    assert (E : removelast (map (map fst) dfs) = map part (seq 0 (length pivots))).
    { unfold shuffle. rewrite !map_map. rewrite seq_S, map_app. cbn [map]. rewrite removelast_last.
      apply map_ext. intros j. unfold groupby_observed. rewrite map_map. cbn [fst]. now rewrite map_id. }
    rewrite E. intros N. assert (L : i < length (map part (seq 0 (length pivots)))) by (apply nth_error_Some; congruence).
    rewrite map_length, seq_length in L. split; [assumption|].
    rewrite (map_nth_error part i _ (d := i)) in N; [congruence|].
    rewrite (nth_error_nth' _ 0) by now rewrite seq_length. now rewrite seq_nth. Qed.
  Lemma part_in i k : i < n -> In k (part i) <-> In k (keys key rows) /\ code k = i.
  Proof. intros Hi. unfold part. rewrite filter_In, is_in_iff. rewrite (bin_keys kdec lead vle key code parts k Hi).
    split; [tauto|]. intros [I E]. auto. Qed.
  Lemma part_sorted i : StronglySorted (fun a b => vle (lead a) (lead b) = true) (part i).
  Proof. now apply StronglySorted_filter. Qed.

  Lemma dfs_ascending : ascending lead vle (removelast (map (map fst) dfs)).
  Proof.
    assert (X : forall idxs o, (forall i idx, nth_error idxs i = Some idx -> o + i < length pivots /\ idx = part (o + i)) -> ascending lead vle idxs).
    { induction idxs as [|idx rest IH]; intros o N; cbn; [easy|]. split.
      - intros l b L Hb. destruct (N 0 idx eq_refl) as [H0 E0]. rewrite Nat.add_0_r in *.
        assert (Y : exists i idx' l', nth_error rest i = Some idx' /\ lastk idx' = Some l' /\ b = lead l').
        { clear - Hb. induction rest as [|x rest IH]; [easy|]. cbn in Hb. destruct (lastk x) as [l'|] eqn:E.
          - destruct Hb as [<-|Hb]; [exists 0, x, l'; auto|]. destruct (IH Hb) as (i & i' & l2 & H). exists (S i), i', l2. exact H.
          - destruct (IH Hb) as (i & i' & l2 & H). exists (S i), i', l2. exact H. }
        destruct Y as (i & idx' & l' & Ni & L' & ->). destruct (N (S i) idx' Ni) as [H1 E1].
        apply lastk_in in L, L'. rewrite E0 in L. rewrite E1 in L'. apply part_in in L as [_ L]; [|lia]. apply part_in in L' as [_ L']; [|lia].
        destruct (vle (lead l') (lead l)) eqn:C; [|easy]. apply code_mono in C. cbv beta in *. lia.
      - apply (IH (S o)). intros i idx' Ni. specialize (N (S i) idx' Ni). replace (S o + i) with (o + S i) by lia. exact N. }
    apply (X _ 0). intros i idx N. apply part_nth in N. exact N. Qed.

  Lemma home_mono : StronglySorted (fun a b => home a <= home b) complete.
  Proof.
    assert (X : forall a b, In a complete -> In b complete -> vle (lead a) (lead b) = true -> home a <= home b).
    { intros a b Ia Ib L. unfold CatProofs.home. rewrite !(@place_find K V lead vle vle_trans vle_total) by exact dfs_ascending.
      set (idxs := removelast (map (map fst) dfs)).
      assert (Len : length idxs = length pivots).
      { unfold idxs, shuffle. rewrite !map_map, seq_S, map_app. cbn [map]. rewrite removelast_last. now rewrite map_length, seq_length. }
      assert (N : forall i, i < length pivots -> exists idx, nth_error idxs i = Some idx /\ idx = part i).
      { intros i Hi. destruct (nth_error idxs i) as [idx|] eqn:E.
        - exists idx. split; [easy|]. now apply part_nth in E.
        - apply nth_error_None in E. lia. }
      destruct (is_in kdec a (keys key rows)) eqn:Oa, (is_in kdec b (keys key rows)) eqn:Ob.
      - now apply code_mono.
      - (* [a] occurs, [b] is missing *)
        apply is_in_iff in Oa. destruct (Nat.le_gt_cases (code a) (find lead vle idxs b)); [assumption|].
        pose proof (code_le a). assert (F : find lead vle idxs b < length idxs) by (cbv beta in *; lia).
        destruct (find_at lead vle idxs b F) as (idx & l & Ni & Ll & C). apply part_nth in Ni as [Hf ->].
        apply lastk_in, part_in in Ll as [_ E]; [|lia].
        assert (Y : code a <= code l) by (apply code_mono; now apply (@vle_trans _ (lead b))). cbv beta in *. lia.
      - (* [a] is missing, [b] occurs *)
        apply is_in_iff in Ob. destruct (Nat.le_gt_cases (find lead vle idxs a) (code b)) as [|F]; [assumption|].
        assert (Hf : forall idxs, find lead vle idxs a <= length idxs).
        { clear. induction idxs as [|x r IH]; cbn; [lia|]. destruct (lastk x); [destruct (vle _ _)|]; lia. }
        specialize (Hf idxs). assert (Hb : code b < length pivots) by (cbv beta in *; lia).
        destruct (N _ Hb) as (idx & Ni & ->).
        assert (Ip : In b (part (code b))) by (apply part_in; [cbv beta in *; lia|auto]).
        destruct (lastk_some _ _ Ip) as [l Ll].
        pose proof (@find_before _ _ lead vle idxs a (code b) _ l F Ni Ll) as C.
        pose proof (@lastk_max _ _ lead vle vle_total _ l b (part_sorted _) Ll Ip) as M.
        rewrite (vle_trans L M) in C. discriminate.
      - destruct (Nat.le_gt_cases (find lead vle idxs a) (find lead vle idxs b)) as [|F]; [assumption|].
        assert (Hf : forall idxs, find lead vle idxs a <= length idxs).
        { clear. induction idxs as [|x r IH]; cbn; [lia|]. destruct (lastk x); [destruct (vle _ _)|]; lia. }
        specialize (Hf idxs). destruct (find_at lead vle idxs b) as (idx & l & Ni & Ll & C); [lia|].
        pose proof (@find_before _ _ lead vle idxs a _ _ l F Ni Ll) as C'.
        rewrite (vle_trans L C) in C'. discriminate. }
    assert (Y : forall l, incl l complete -> StronglySorted (fun a b => vle (lead a) (lead b) = true) l -> StronglySorted (fun a b => home a <= home b) l).
    { intros l IN S. induction S as [|x l S IH F]; [constructor|]. constructor.
      - apply IH. intros y Hy. apply IN. now right.
      - rewrite Forall_forall in *. intros y Hy. apply X; [apply IN; now left | apply IN; now right | now apply F]. }
    apply Y; [easy|assumption]. Qed.
End Order.
