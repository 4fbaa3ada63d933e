(** Proofs for C93. *)
From Verif Require Import Base Table ChunkModel ChunkSpec GridModel GridSpec FrameSpec SelSpec SelModel SelProofs SelProofs5 SelProofs7 SelProps TruSpec TruModel.

Lemma wrap_all_nat n ps : Forall (fun p => p < n) ps -> wrap_all n (map Z.of_nat ps) = Some ps.
Proof. induction 1 as [|p ps Hp _ IH]; [reflexivity|]. cbn [map wrap_all]. unfold wrap.
  assert ((0 <=? Z.of_nat p) && (Z.of_nat p <? Z.of_nat n) = true)%Z as -> by lia. rewrite IH, Nat2Z.id. reflexivity. Qed.

Lemma slice_clip n lo hi : lo <= hi -> hi <= n -> slice_indices n (Some (Z.of_nat lo)) (Some (Z.of_nat hi)) None = Some (Z.of_nat lo, Z.of_nat hi, 1%Z).
Proof. intros. unfold slice_indices. cbn [Z.eqb Z.ltb Z.compare].
  assert (Z.of_nat lo <? 0 = false)%Z as -> by lia. assert (Z.of_nat hi <? 0 = false)%Z as -> by lia. rewrite !Z.min_l by lia. reflexivity. Qed.

Lemma positions_slice n lo hi : lo <= hi -> hi <= n -> positions n (LSlice (Some (Z.of_nat lo)) (Some (Z.of_nat hi)) None) = Some (seq lo (hi - lo)).
Proof. intros H1 H2. cbn [positions]. rewrite slice_clip by assumption. unfold py_range, range_len. cbn [Z.gtb Z.compare].
  replace (Z.of_nat hi - Z.of_nat lo + 1 - 1)%Z with (Z.of_nat (hi - lo)) by lia. rewrite Z.div_1_r, Nat2Z.id.
  rewrite (map_ext _ (fun k => Z.of_nat (lo + k))) by (intros k; lia).
  replace (map (fun k => Z.of_nat (lo + k)) (seq 0 (hi - lo))) with (map Z.of_nat (seq lo (hi - lo))).
  - apply wrap_all_nat. apply Forall_forall. intros p Hp. apply in_seq in Hp. lia.
  - clear. generalize (hi - lo). intros m. rewrite <- (Nat.add_0_r lo) at 1. generalize 0. induction m as [|m IH]; intros k; [reflexivity|].
    cbn [seq map]. f_equal. rewrite <- IH. now rewrite Nat.add_succ_r. Qed.

Section Split.
  Context {L A : Type}.
  Variable leb : L -> L -> bool.
  Hypothesis leb_trans : forall x y z, leb x y = true -> leb y z = true -> leb x z = true.
  Lemma increasing_all x l : increasing leb (x :: l) = true -> Forall (fun y => leb x y = true) l.
  Proof. revert x. induction l as [|y l IH]; intros x E; [constructor|]. cbn [increasing] in E. apply andb_prop in E as [E1 E2]. constructor; [assumption|].
    specialize (IH y E2). eapply Forall_impl; [|exact IH]. intros z Hz. exact (@leb_trans _ _ _ E1 Hz). Qed.
  Lemma increasing_tail x l : increasing leb (x :: l) = true -> increasing leb l = true.
  Proof. destruct l; [reflexivity|]. cbn [increasing]. intros E. now apply andb_prop in E. Qed.
  (** rows by increasing label: those that pass a test closed downwards come first *)
  Lemma split_rows (p : L -> bool) (rows : list (L * A)) : (forall x y, leb x y = true -> p y = true -> p x = true) -> increasing leb (map fst rows) = true ->
    rows = filter (fun r => p (fst r)) rows ++ filter (fun r => negb (p (fst r))) rows.
  Proof. intros Hp. induction rows as [|r rows IH]; [reflexivity|]. intros E. cbn [map] in E. pose proof (increasing_all _ _ E) as F. specialize (IH (increasing_tail _ _ E)).
    cbn [filter]. destruct (p (fst r)) eqn:X; cbn [negb app]; [now rewrite <- IH|].
    assert (N : Forall (fun s => p (fst s) = false) rows).
    { apply Forall_forall. intros s Hs. rewrite Forall_forall in F. specialize (F _ (in_map fst _ _ Hs)). destruct (p (fst s)) eqn:Y; [|reflexivity].
      rewrite (Hp _ _ F Y) in X. discriminate. }
    clear - N. assert (E1 : filter (fun r => p (fst r)) rows = []) by (induction N as [|s l Hs _ IH]; cbn; [reflexivity|now rewrite Hs]).
    assert (E2 : filter (fun r => negb (p (fst r))) rows = rows) by (clear E1; induction N as [|s l Hs _ IH]; cbn; [reflexivity|rewrite Hs; cbn; now rewrite IH]).
    now rewrite E1, E2. Qed.
  Lemma increasing_app l m : increasing leb (l ++ m) = true -> increasing leb l = true.
  Proof. induction l as [|x l IH]; [reflexivity|]. destruct l as [|y l]; [reflexivity|]. cbn [app increasing] in *. intros E. apply andb_prop in E as [E1 E2]. rewrite E1. cbn [andb]. now apply IH. Qed.
  Lemma filter_both (p q : L * A -> bool) rows : filter p (filter q rows) = filter (fun r => q r && p r) rows.
  Proof. induction rows as [|r rows IH]; [reflexivity|]. cbn. destruct (q r); cbn; [destruct (p r); now rewrite IH|exact IH]. Qed.

  (** a stretch of rows by increasing label *)
  Lemma middle (below upto : L -> bool) (rows : list (L * A)) :
    (forall x y, leb x y = true -> below y = true -> below x = true) -> (forall x y, leb x y = true -> upto y = true -> upto x = true) ->
    (forall x, below x = true -> upto x = true) -> increasing leb (map fst rows) = true ->
    let lo := count (fun r => below (fst r)) rows in let hi := count (fun r => upto (fst r)) rows in
    lo <= hi /\ hi <= length rows /\ slice rows lo hi = filter (fun r => negb (below (fst r)) && upto (fst r)) rows.
  Proof.
    intros Hb Hu Hbu E lo hi. pose proof (split_rows upto rows Hu E) as S1. set (R1 := filter (fun r => upto (fst r)) rows) in *.
    assert (E1 : increasing leb (map fst R1) = true) by (rewrite S1, map_app in E; now apply increasing_app in E).
    pose proof (split_rows below R1 Hb E1) as S2.
    assert (X : filter (fun r => below (fst r)) R1 = filter (fun r => below (fst r)) rows).
    { unfold R1. rewrite filter_both. apply filter_ext. intros r. destruct (below (fst r)) eqn:Y; [now rewrite (Hbu _ Y)|apply andb_false_r]. }
    assert (M : filter (fun r => negb (below (fst r))) R1 = filter (fun r => negb (below (fst r)) && upto (fst r)) rows).
    { unfold R1. rewrite filter_both. apply filter_ext. intros r. apply andb_comm. }
    rewrite X, M in S2. assert (Lh : hi = length R1) by reflexivity. assert (Ll : lo = length (filter (fun r => below (fst r)) rows)) by reflexivity.
    assert (L2 := f_equal (@length _) S2). rewrite app_length in L2. assert (L1 := f_equal (@length _) S1). rewrite app_length in L1.
    split; [lia|]. split; [lia|]. unfold slice. rewrite S1 at 1. rewrite S2 at 1. rewrite <- app_assoc.
    rewrite skipn_app, skipn_all2 by lia. replace (lo - length _) with 0 by lia. cbn [skipn app].
    rewrite firstn_app, firstn_all2 by lia. replace (hi - lo - length _) with 0 by lia. cbn [firstn]. now rewrite app_nil_r. Qed.
End Split.

(** what lies between two bounds, by increasing key *)
Lemma cut_between {K V} (leb : K -> K -> bool) (before after : option K) (keys : list K) (vals : list V) :
  (forall x y z, leb x y = true -> leb y z = true -> leb x z = true) -> (forall x y, leb x y = true \/ leb y x = true) ->
  increasing leb keys = true -> length vals = length keys ->
  match before, after with Some b, Some a => leb b a = true | _, _ => True end ->
  let s := slice_locs leb before after keys in
  fst s <= snd s /\ snd s <= length keys /\ slice vals (fst s) (snd s) = map snd (filter (fun c => between leb before after (fst c)) (combine keys vals)).
Proof.
  intros Ht Htot Inc Len Ord.
  set (below := fun x => match before with Some b => negb (leb b x) | None => false end).
  set (upto := fun x => match after with Some a => leb x a | None => true end).
  assert (Ef : map fst (combine keys vals) = keys).
  { clear - Len. revert vals Len. induction keys as [|x l IH]; intros [|y m] E; try discriminate E; [reflexivity|]. cbn. f_equal. apply IH. now injection E. }
  assert (Es : map snd (combine keys vals) = vals).
  { clear - Len. revert vals Len. induction keys as [|x l IH]; intros [|y m] E; try discriminate E; [reflexivity|]. cbn. f_equal. apply IH. now injection E. }
  set (rows := combine keys vals) in *.
  destruct (@middle K V leb Ht below upto rows) as (B1 & B2 & B3).
  - intros x y Hxy. unfold below. destruct before as [b|]; [|auto]. intros Hb. destruct (leb b x) eqn:Y; [|reflexivity]. rewrite (Ht _ _ _ Y Hxy) in Hb. discriminate.
  - intros x y Hxy. unfold upto. destruct after as [a|]; [|auto]. intros Hy. exact (Ht _ _ _ Hxy Hy).
  - intros x. unfold below, upto. destruct before as [b|]; [|discriminate]. destruct after as [a|]; [|auto]. intros Hx.
    destruct (Htot x b) as [Y|Y]; [exact (Ht _ _ _ Y Ord)|]. rewrite Y in Hx. discriminate.
  - now rewrite Ef.
  - assert (C : forall p, count (fun r : K * V => p (fst r)) rows = count p keys).
    { intros p. rewrite <- Ef. clear. unfold count. induction rows as [|r l IH]; [reflexivity|]. cbn. destruct (p (fst r)); cbn; now rewrite IH. }
    rewrite (C below), (C upto) in *.
    assert (Ln : length rows = length keys) by (rewrite <- Ef; now rewrite map_length).
    assert (E : slice_locs leb before after keys = (count below keys, count upto keys)).
    { unfold slice_locs. rewrite Inc. unfold below, upto. f_equal.
      - destruct before; [reflexivity|]. unfold count. clear. induction keys; [reflexivity|]. assumption.
      - destruct after; [reflexivity|]. unfold count. clear. induction keys; [reflexivity|]. cbn. now f_equal. }
    rewrite E. cbn [fst snd]. split; [assumption|]. split; [lia|].
    rewrite <- Es at 1. unfold slice in *. rewrite skipn_map, firstn_map. f_equal. rewrite B3. apply filter_ext. intros r. unfold below, upto, between.
    destruct before; [now rewrite negb_involutive|reflexivity].
Qed.
