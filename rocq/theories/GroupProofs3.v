(** Column blocks: reducing the mapped pieces of every column of blocks and putting the results side by side. *)
From Verif Require Import Base Table ChunkModel ChunkSpec ChunkProofs GridSpec FrameSpec GridModel GridProofs SelModel GroupSpec GroupModel GroupProofs GroupProofs2.
Open Scope nat_scope.

(** * Tables side by side *)
Section Hcat.
  Context {K L H A : Type}.
  Definition part : Type := list H * (K -> list A).
  Definition table (lab : list L) (out : list K) (f : part) : df L H A := mkdf lab (fst f) (map (snd f) out).
  Definition hcat (fs : list part) : part := (concat (map fst fs), fun k => concat (map (fun f => snd f k) fs)).
  Definition fits (out : list K) (f : part) : Prop := forall k, In k out -> length (snd f k) = length (fst f).

  Lemma slice_mid {X} (p x q : list X) : slice (p ++ x ++ q) (length p) (length p + length x) = x.
  Proof. unfold slice. rewrite skipn_app, skipn_all, Nat.sub_diag. cbn [skipn app].
    replace (length p + length x - length p) with (length x) by lia.
    rewrite firstn_app, firstn_all, Nat.sub_diag. cbn. now rewrite app_nil_r. Qed.

  Lemma fits_hcat out fs : Forall (fits out) fs -> fits out (hcat fs).
  Proof. intros F k Hk. unfold hcat. cbn [fst snd]. induction F as [|f fs Hf _ IH]; cbn; auto.
    rewrite !app_length, Hf, IH; auto. Qed.

  Lemma blocks_hcat lab out pre fs ri : Forall (fits out) pre -> Forall (fits out) fs ->
    map (fun ci => block (table lab out (hcat (pre ++ fs))) ri ci)
        (bounds (length (concat (map fst pre))) (map (fun f => length (fst f)) fs))
    = map (fun f => iloc_rows (table lab out f) (fst ri) (snd ri)) fs.
  Proof.
    intros Fp Ff. revert pre Fp. induction Ff as [|f fs Hf Ff IH]; intros pre Fp; [reflexivity|].
    cbn [map bounds]. f_equal.
    - unfold block, iloc_rows, table, hcat. cbn [dindex dcols dcells fst snd]. f_equal.
      + rewrite map_app, concat_app. cbn [map concat]. apply slice_mid.
      + rewrite !slice_map, map_map. apply map_ext_in. intros k Hk.
        assert (Hin : In k out).
        { unfold slice in Hk. rewrite <- (firstn_skipn (fst ri) out). apply in_or_app. right.
          rewrite <- (firstn_skipn (snd ri - fst ri) (skipn (fst ri) out)). apply in_or_app. now left. }
        rewrite map_app, concat_app. cbn [map concat].
        replace (length (concat (map fst pre))) with (length (concat (map (fun f => snd f k) pre))).
        2:{ exact (fits_hcat Fp k Hin). }
        rewrite <- (Hf k Hin). apply slice_mid.
    - specialize (IH (pre ++ [f])). rewrite <- app_assoc in IH. cbn [app] in IH.
      rewrite <- IH by (apply Forall_app; split; auto).
      rewrite map_app, concat_app, app_length. cbn [map concat]. rewrite app_nil_r. reflexivity.
  Qed.

  Lemma cut_hcat lab out fs rl : Forall (fits out) fs ->
    cut_table rl (map (fun f => length (fst f)) fs) (table lab out (hcat fs))
    = map (fun ri => map (fun f => iloc_rows (table lab out f) (fst ri) (snd ri)) fs) (bounds 0 rl).
  Proof. intros F. unfold cut_table. apply map_ext. intros ri.
    exact (@blocks_hcat lab out [] fs ri (Forall_nil _) F). Qed.
End Hcat.

(** * Selecting columns *)
Section Keep.
  Context {H : Type}.
  Variable p : H -> bool.
  Lemma keepl_app {X} (c1 c2 : list H) (l1 l2 : list X) : length c1 = length l1 ->
    keepl p (c1 ++ c2) (l1 ++ l2) = keepl p c1 l1 ++ keepl p c2 l2.
  Proof. unfold keepl. revert l1. induction c1 as [|c c1 IH]; intros [|x l1] E; try discriminate; cbn; auto.
    injection E as E. destruct (p c); cbn; now rewrite IH. Qed.
  Lemma keepl_length {X} (c : list H) (l : list X) : length c = length l -> length (keepl p c l) = length (filter p c).
  Proof. unfold keepl. revert l. induction c as [|x c IH]; intros [|y l] E; try discriminate; cbn; auto.
    injection E as E. destruct (p x); cbn; now rewrite IH. Qed.
  Lemma keepl_mapr {X Y} (f : X -> Y) (c : list H) (l : list X) : keepl p c (map f l) = map f (keepl p c l).
  Proof. unfold keepl. revert l. induction c as [|x c IH]; intros [|y l]; cbn; auto. destruct (p x); cbn; now rewrite IH. Qed.
  Lemma keepl_map2_cons {X} (c : list H) (r : list X) (t : list (list X)) :
    length r = length c -> length t = length c ->
    keepl p c (map2 cons r t) = map2 cons (keepl p c r) (keepl p c t).
  Proof. unfold keepl. revert r t. induction c as [|x c IH]; intros [|a r] [|b t] E1 E2; try discriminate; cbn; auto.
    rewrite map2_cons. cbn. injection E1 as E1. injection E2 as E2. destruct (p x); cbn; rewrite IH by assumption; auto.
  Qed.
  Lemma keepl_repeat {X} (c : list H) (x : X) : keepl p c (repeat x (length c)) = repeat x (length (filter p c)).
  Proof. unfold keepl. induction c as [|y c IH]; cbn; auto. destruct (p y); cbn; now rewrite IH. Qed.
  Lemma transp_keep {X} (c : list H) (g : list (list X)) : Forall (fun r => length r = length c) g ->
    transp (length (filter p c)) (map (keepl p c) g) = keepl p c (transp (length c) g).
  Proof. induction 1 as [|r g Hr F IH]; cbn [map].
    - rewrite !transp_nil. symmetry. apply keepl_repeat.
    - rewrite !transp_cons, IH. symmetry. apply keepl_map2_cons; auto. apply transp_length.
      eapply Forall_impl; [|exact F]. auto. Qed.
  Lemma concat_keepl_bounds {X} (c : list H) (l : list X) lens : length c = length l -> list_sum lens = length c ->
    concat (map (fun ci => keepl p (slice c (fst ci) (snd ci)) (slice l (fst ci) (snd ci))) (bounds 0 lens)) = keepl p c l.
  Proof.
    intros E Hs.
    enough (G : forall a, a + list_sum lens <= length c ->
      concat (map (fun ci => keepl p (slice c (fst ci) (snd ci)) (slice l (fst ci) (snd ci))) (bounds a lens))
      = keepl p (slice c a (a + list_sum lens)) (slice l a (a + list_sum lens))).
    { rewrite G by lia. cbn [Nat.add]. rewrite Hs, !slice_full; auto; lia. }
    clear Hs. induction lens as [|n ns IH]; intros a Ha; cbn [bounds map concat].
    - rewrite list_sum_nil, Nat.add_0_r. unfold slice. now rewrite Nat.sub_diag.
    - rewrite list_sum_cons in Ha. cbn [fst snd]. rewrite IH by lia. rewrite list_sum_cons.
      rewrite <- keepl_app by (rewrite !slice_length; lia). f_equal.
      + rewrite Nat.add_assoc. apply slice_app; lia.
      + rewrite Nat.add_assoc. apply slice_app; lia.
  Qed.
  Lemma concat_filter_bounds (c : list H) lens : list_sum lens = length c ->
    concat (map (fun ci => filter p (slice c (fst ci) (snd ci))) (bounds 0 lens)) = filter p c.
  Proof. intros Hs. transitivity (filter p (concat (map (fun ci => slice c (fst ci) (snd ci)) (bounds 0 lens)))).
    - generalize (bounds 0 lens). induction l as [|x l IH]; cbn [map concat]; auto. now rewrite filter_app, IH.
    - f_equal. rewrite concat_bounds. cbn [Nat.add]. rewrite Hs. apply slice_full. lia. Qed.
End Keep.
