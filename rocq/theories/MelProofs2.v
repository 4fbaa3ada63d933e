(** [melt] on one block. *)
From Coq Require Import Permutation.
From Verif Require Import Base Table ChunkModel ChunkSpec ChunkProofs GridModel GridSpec FrameSpec GridProofs GridProofs2 GridProofs3 GridProofs4 GridProofs5 SelSpec SelModel
  SelProofs SelProofs2 SelProofs3 SelProofs4 SelProofs5 SelProofs6 LocSpec LocModel LocProofs SetProofs3 KeyProofs MelSpec MelModel MelProofs.

Lemma nth_error_firstn_some {X} : forall n (l : list X) k x, nth_error (firstn n l) k = Some x -> nth_error l k = Some x.
Proof. induction n as [|n IH]; intros [|y l] [|k] x E; try discriminate; cbn in *; auto. Qed.
Lemma nth_error_skipn_add {X} : forall n (l : list X) k, nth_error (skipn n l) k = nth_error l (n + k).
Proof. induction n as [|n IH]; intros [|y l] k; cbn; auto. now destruct k. Qed.
Lemma nth_error_slice {X} (l : list X) a b k x : nth_error (slice l a b) k = Some x -> nth_error l (a + k) = Some x.
Proof. unfold slice. intros E. apply nth_error_firstn_some in E. now rewrite nth_error_skipn_add in E. Qed.
Lemma in_slice {X} (l : list X) a b x : In x (slice l a b) -> In x l.
Proof. intros I. destruct (In_nth_error _ _ I) as [k E]. apply nth_error_slice in E. eapply nth_error_In; eauto. Qed.
Lemma NoDup_parts {X} (a b : list X) : NoDup (a ++ b) -> NoDup a /\ NoDup b.
Proof. induction a as [|x a IH]; cbn; intros N; [split; [constructor|exact N]|]. inversion N as [|? ? Nx N']; subst. destruct (IH N') as [I1 I2]. split; [|exact I2].
  constructor; [|exact I1]. intros I. apply Nx, in_or_app. now left. Qed.
Lemma NoDup_both {X} (a b : list X) : NoDup a -> NoDup b -> (forall x, In x a -> ~ In x b) -> NoDup (a ++ b).
Proof. intros Na Nb Dj. induction Na as [|x a Nx Na IH]; [exact Nb|]. cbn. constructor; [|apply IH; intros; apply Dj; now right].
  intros I. apply in_app_or in I as [I|I]; [auto|]. exact (Dj x (or_introl eq_refl) I). Qed.
Lemma NoDup_slice {X} (l : list X) a b : NoDup l -> NoDup (slice l a b).
Proof. intros N. unfold slice. rewrite <- (firstn_skipn a l) in N. apply NoDup_parts in N as [_ N]. rewrite <- (firstn_skipn (b - a) (skipn a l)) in N. now apply NoDup_parts in N as [N _]. Qed.
Lemma forall2_nth_l {X Y} (R : X -> Y -> Prop) l m : Forall2 R l m -> forall k x, nth_error l k = Some x -> exists y, nth_error m k = Some y /\ R x y.
Proof. induction 1 as [|x y l m E F IH]; intros [|k] z Ez; try discriminate; cbn in *; [injection Ez as <-; eauto|auto]. Qed.
Lemma NoDup_pick {X} (l : list X) ps : NoDup l -> NoDup ps -> NoDup (pick l ps).
Proof. intros ND Np. induction Np as [|p ps N Np IH]; [constructor|]. rewrite pick_cons. destruct (nth_error l p) as [x|] eqn:E; [|exact IH]. cbn. constructor; [|exact IH].
  intros I. unfold pick in I. apply in_concat in I as (m & Im & Ix). apply in_map_iff in Im as (q & <- & Iq). destruct (nth_error l q) as [y|] eqn:E2; [|easy]. destruct Ix as [-> | []].
  apply N. replace p with q; [exact Iq|]. apply (proj1 (NoDup_nth_error l) ND); [apply nth_error_Some; congruence|congruence]. Qed.

Lemma pick_first {X} (a b : list X) ps : Forall (fun p => p < length a) ps -> pick (a ++ b) ps = pick a ps.
Proof. induction 1 as [|p ps Hp Fp IH]; [reflexivity|]. now rewrite !pick_cons, IH, nth_error_app1 by lia. Qed.

Section Block.
  Context {L H A : Type}.
  Notation dframe := (df L H A).
  Variable leqb : L -> L -> bool.
  Variable heqb : H -> H -> bool.
  Hypothesis leqb_ok : forall x y, leqb x y = true <-> x = y.
  Hypothesis heqb_ok : forall x y, heqb x y = true <-> x = y.
  Variable fill : A.
  Variable name : H -> A.
  Variable num : nat -> L.
  Notation under := (under heqb).

  Lemma has_in {X} (eqb : X -> X -> bool) (ok : forall x y, eqb x y = true <-> x = y) x l : has eqb x l = true <-> In x l.
  Proof. clear - ok. unfold has. rewrite existsb_exists. split; [intros (y & I & E)|intros I; exists x; split; [exact I|now apply ok]]. apply ok in E. now subst. Qed.
  Lemma has_not {X} (eqb : X -> X -> bool) (ok : forall x y, eqb x y = true <-> x = y) x l : has eqb x l = false <-> ~ In x l.
  Proof. clear - ok. rewrite <- (has_in eqb ok), not_true_iff_false. tauto. Qed.
  Lemma unique_ok {X} (eqb : X -> X -> bool) (ok : forall x y, eqb x y = true <-> x = y) l : unique eqb l = true <-> NoDup l.
  Proof. clear - ok. induction l as [|x l IH]; [split; [constructor|reflexivity]|]. cbn [unique]. rewrite andb_true_iff, negb_true_iff, (has_not eqb ok), IH.
    split; [intros [N1 N2]; now constructor|intros N; now inversion N]. Qed.

  Lemma under_none {X} cols (row : list X) h : ~ In h cols -> under cols row h = [].
  Proof. clear - heqb_ok. revert row. induction cols as [|c cols IH]; intros [|x row] N; try reflexivity. unfold MelModel.under in *. cbn [combine filter fst].
    destruct (heqb c h) eqn:E; [apply heqb_ok in E; subst; exfalso; apply N; now left|]. apply IH. intros I. apply N. now right. Qed.
  Lemma under_at {X} : forall cols (row : list X) h p, NoDup cols -> length row = length cols -> nth_error cols p = Some h -> under cols row h = pick row [p].
  Proof. clear - heqb_ok. induction cols as [|c cols IH]; intros [|x row] h [|p] ND E Hp; try discriminate; inversion ND as [|? ? Nc ND']; subst.
    - cbn in Hp. injection Hp as ->. change (under (h :: cols) (x :: row) h) with (map snd (if heqb h h then (h, x) :: filter (fun q => heqb (fst q) h) (combine cols row) else filter (fun q => heqb (fst q) h) (combine cols row))).
      rewrite (proj2 (heqb_ok h h) eq_refl). cbn [map snd]. fold (under cols row h). rewrite under_none by exact Nc. reflexivity.
    - cbn in Hp. change (under (c :: cols) (x :: row) h) with (map snd (if heqb c h then (c, x) :: filter (fun q => heqb (fst q) h) (combine cols row) else filter (fun q => heqb (fst q) h) (combine cols row))).
      destruct (heqb c h) eqn:Ec; [apply heqb_ok in Ec; subst; exfalso; apply Nc; eapply nth_error_In; eauto|]. fold (under cols row h).
      rewrite (IH row h p); auto. Qed.
  Lemma under_app {X} c1 c2 (r1 r2 : list X) h : length c1 = length r1 -> under (c1 ++ c2) (r1 ++ r2) h = under c1 r1 h ++ under c2 r2 h.
  Proof. clear. revert r1. induction c1 as [|c c1 IH]; intros [|x r1] E; try discriminate; [reflexivity|]. injection E as E. unfold MelModel.under in *. cbn [app combine filter fst].
    destruct (heqb c h); cbn [map app]; now rewrite IH. Qed.

  (** [first_only] and the popped identifiers do nothing to distinct labels *)
  Lemma filter_all {X} (f : X -> bool) l : (forall x, In x l -> f x = true) -> filter f l = l.
  Proof. clear. intros F. induction l as [|x l IH]; [reflexivity|]. cbn. rewrite (F x) by now left. now rewrite IH by (intros; apply F; now right). Qed.
  Lemma first_only_same l : NoDup l -> first_only heqb l = l.
  Proof. clear - heqb_ok. induction 1 as [|x l N ND IH]; [reflexivity|]. cbn [first_only]. rewrite IH, filter_all; [reflexivity|]. intros y I. apply negb_true_iff, not_true_iff_false. intros E. apply heqb_ok in E. now subst. Qed.

  (** [melt] of a table that has the rows [rows] under other columns *)
  Lemma melt_on idx colsT (rows : list (list A)) (g : list A -> list A) ids idp vals (valp : list nat) (cols : list H) var value :
    length idx = length rows -> NoDup colsT -> ~ In value colsT -> NoDup ids -> NoDup vals -> (forall h, In h ids -> ~ In h vals) ->
    Forall2 (fun h p => nth_error cols p = Some h) ids idp -> Forall2 (fun h p => nth_error cols p = Some h) vals valp ->
    Forall (fun h => In h colsT) ids -> Forall (fun h => In h colsT) vals ->
    (forall h p r, In h (ids ++ vals) -> nth_error cols p = Some h -> In r rows -> under colsT (g r) h = pick r [p]) ->
    pandas_melt heqb name num ids vals var value (mkdf idx colsT (map g rows))
    = Ok (mkdf (map num (seq 0 (length rows * length valp))) (ids ++ [var; value])
           (flat_map (fun j => map (fun r => pick r idp ++ map name (pick cols [j]) ++ pick r [j]) rows) valp)).
  Proof.
    clear leqb leqb_ok fill. intros Li ND Nv Ni Nw Dj Fi Fv Ii Iv U. unfold pandas_melt. cbn [dcols dcells]. rewrite (proj2 (has_not heqb heqb_ok value colsT) Nv).
    assert (E1 : forallb (fun h => has heqb h colsT) (ids ++ vals) = true).
    { apply forallb_forall. intros h I. apply (has_in heqb heqb_ok). rewrite Forall_forall in Ii, Iv. apply in_app_or in I as [I|I]; auto. }
    rewrite E1, (proj2 (unique_ok heqb heqb_ok ids) Ni), (proj2 (unique_ok heqb heqb_ok colsT) ND). cbn [negb].
    rewrite first_only_same by exact Nw. rewrite filter_all.
    2:{ intros h I. apply negb_true_iff, (has_not heqb heqb_ok). intros I2. exact (Dj h I2 I). }
    unfold nrows. cbn [dindex]. rewrite Li. f_equal.
    assert (El : length vals = length valp) by (clear - Fv; induction Fv; cbn; congruence). rewrite El. f_equal.
    assert (Ui : forall r, In r rows -> flat_map (under colsT (g r)) ids = pick r idp).
    { intros r Ir. assert (U' : forall h p, In h ids -> nth_error cols p = Some h -> under colsT (g r) h = pick r [p]) by (intros; apply U; auto; apply in_or_app; now left).
      clear - Fi U'. induction Fi as [|h p ids idp E F IH]; [reflexivity|]. cbn [flat_map]. rewrite (U' h p) by (auto; now left). rewrite IH by (intros; apply U'; auto; now right).
      rewrite !pick_cons. cbn [pick concat map]. now rewrite app_nil_r. }
    assert (U' : forall h p r, In h vals -> nth_error cols p = Some h -> In r rows -> under colsT (g r) h = pick r [p]) by (intros; apply U; auto; apply in_or_app; now right).
    clear - Fv U' Ui. induction Fv as [|h p vals valp E F IH]; [reflexivity|]. cbn [flat_map]. rewrite IH by (intros; apply U'; auto; now right). f_equal.
    rewrite map_map. apply map_ext_in. intros r I. rewrite Ui by exact I. rewrite (U' h p r) by (auto; now left). rewrite (pick_cons cols), E. reflexivity.
  Qed.

  (** [melt] of the block [ri], [ci] with the identifiers [ids] brought to it, value columns at [ps] in the block *)
  Lemma applyier_ok (d : dframe) ri (s w : nat) ids idp ps var value cl' : wf d -> NoDup (dcols d) -> fst ri <= snd ri <= nrows d -> s + w <= ncols d ->
    NoDup ids -> Forall2 (fun h p => nth_error (dcols d) p = Some h) ids idp -> ~ In value (dcols d) ->
    Forall (fun p => p < w) ps -> NoDup ps -> (forall p, In p ps -> ~ In (s + p) idp) -> cl' <> [] -> list_sum cl' = length idp ->
    applyier leqb heqb fill name num ids var value ps
      (match ids with [] => [] | _ => map (fun ci => block (take2d (seq 0 (nrows d)) idp d) ri ci) (bounds 0 cl') end) (block d ri (s, s + w))
    = Ok (mkdf (map num (seq 0 ((snd ri - fst ri) * length ps))) (ids ++ [var; value])
           (flat_map (fun j => map (fun r => pick r idp ++ map name (pick (dcols d) [j]) ++ pick r [j]) (slice (dcells d) (fst ri) (snd ri))) (map (fun p => s + p) ps))).
  Proof.
    intros W ND Hri Hw Ni Fi Nv Fp NDp Dj Hcl Hsum. assert (W' := W). destruct W' as [W1 W2].
    set (rows := slice (dcells d) (fst ri) (snd ri)).
    assert (Hrows : forall r, In r rows -> length r = ncols d). { intros r I. rewrite Forall_forall in W2. apply W2. eapply in_slice. exact I. }
    assert (Lrows : length rows = snd ri - fst ri). { unfold rows. rewrite slice_length. unfold nrows in *. lia. }
    assert (Lidx : length (slice (dindex d) (fst ri) (snd ri)) = length rows). { rewrite slice_length, Lrows. unfold nrows in *. lia. }
    set (cs := slice (dcols d) s (s + w)).
    assert (Lcs : length cs = w). { unfold cs. rewrite slice_length. unfold ncols in *. lia. }
    assert (NDcs : NoDup cs) by now apply NoDup_slice.
    assert (Ecs : forall ps, Forall (fun p => p < w) ps -> pick cs ps = pick (dcols d) (map (fun p => s + p) ps)).
    { intros qs Fq. unfold cs. apply pick_slice. eapply Forall_impl; [|exact Fq]. cbn. intros; lia. }
    set (valp := map (fun p => s + p) ps). set (vals := pick cs ps).
    assert (Fvb : Forall (fun p => p < length (dcols d)) valp). { unfold valp. apply Forall_map. eapply Forall_impl; [|exact Fp]. cbn. unfold ncols in *. intros; lia. }
    assert (Fv : Forall2 (fun h p => nth_error (dcols d) p = Some h) vals valp). { unfold vals. rewrite Ecs by exact Fp. now apply pick_at. }
    assert (NDv : NoDup vals). { unfold vals. rewrite Ecs by exact Fp. apply NoDup_pick; auto. unfold valp. apply FinFun.Injective_map_NoDup; [intros x y E; lia|exact NDp]. }
    assert (Iv : Forall (fun h => In h cs) vals). { unfold vals. apply Forall_pick. apply Forall_forall. auto. }
    assert (Disj : forall h, In h ids -> ~ In h vals).
    { intros h I1 I2. destruct (In_nth_error _ _ I1) as [k Hk]. destruct (forall2_nth_l Fi k Hk) as (p & Ep & E1).
      destruct (In_nth_error _ _ I2) as [k2 Hk2]. destruct (forall2_nth_l Fv k2 Hk2) as (q & Eq & E2).
      assert (p = q). { apply (proj1 (NoDup_nth_error (dcols d)) ND); [apply nth_error_Some; congruence|congruence]. } subst q.
      apply nth_error_In in Ep, Eq. unfold valp in Eq. apply in_map_iff in Eq as (p0 & <- & I3). exact (Dj p0 I3 Ep). }
    assert (Uslice : forall h p r, In h cs -> nth_error (dcols d) p = Some h -> In r rows -> under cs (slice r s (s + w)) h = pick r [p]).
    { intros h p r I E Ir. destruct (In_nth_error _ _ I) as [k Hk]. assert (k < w) by (rewrite <- Lcs; apply nth_error_Some; congruence).
      rewrite (@under_at A cs (slice r s (s + w)) h k NDcs); [|rewrite slice_length, (Hrows r Ir); lia|exact Hk].
      rewrite pick_slice by (constructor; [lia|constructor]). cbn [map]. apply nth_error_slice in Hk.
      assert (Esk : s + k = p). { apply (proj1 (NoDup_nth_error (dcols d)) ND); [apply nth_error_Some; congruence|congruence]. } now rewrite Esk. }
    assert (Nvc : ~ In value cs). { intros I. apply Nv. destruct (In_nth_error _ _ I) as [k Hk]. apply nth_error_slice in Hk. eapply nth_error_In; eauto. }
    unfold applyier.
    destruct ids as [|i0 ids'].
    - inversion Fi; subst idp. cbn [rbind]. unfold block at 1. unfold ncols. cbn [dcols fst snd]. fold cs. rewrite Lcs.
      rewrite (proj2 (forallb_forall _ _)) by (intros p I; rewrite Forall_forall in Fp; apply Nat.ltb_lt; auto). cbn [negb].
      unfold block. cbn [fst snd dcols]. fold rows cs vals valp. rewrite <- Lrows. replace (length ps) with (length valp) by (unfold valp; apply map_length).
      apply melt_on with (cols := dcols d); auto.
      intros h p r I E Ir. cbn [app] in I. rewrite Forall_forall in Iv. apply Uslice; auto.
    - set (ids := i0 :: ids') in *. set (O := take2d (seq 0 (nrows d)) idp d).
      assert (Fib : Forall (fun p => p < ncols d) idp). { unfold ncols. apply (@at_pick H _ _ _ Fi). }
      assert (WO : wf O) by (apply wf_take2d; auto using Forall_seq_lt).
      assert (OI : dindex O = dindex d) by (cbn; now apply pick_all).
      assert (OC : dcols O = ids) by (cbn; apply (@at_pick H _ _ _ Fi)).
      assert (OR : dcells O = map (fun r => pick r idp) (dcells d)). { cbn. rewrite pick_all; [reflexivity|exact W1]. }
      pose proof (@concat_cols_blocks_bounds L H A leqb heqb leqb_ok O 0 cl' ri WO Hcl) as CC. unfold concat_axis in CC.
      destruct (map (fun ci => block O ri ci) (bounds 0 cl')) as [|b0 bs] eqn:Eb; [destruct cl'; [easy|discriminate]|]. rewrite CC. cbn [rbind].
      assert (Ec : slice (dcols O) 0 (0 + list_sum cl') = ids). { rewrite OC. rewrite slice_full; [reflexivity|]. assert (length ids = length idp) by (clear - Fi; induction Fi; cbn; congruence). lia. }
      set (F := filter (fun h => negb (has heqb h cs)) ids).
      assert (NF : NoDup F) by now apply NoDup_filter.
      assert (Wh : beside leqb fill (block d ri (s, s + w)) (columns_to_add heqb (dcols (block d ri (s, s + w))) (block O ri (0, 0 + list_sum cl')))
         = Ok (mkdf (slice (dindex d) (fst ri) (snd ri)) (cs ++ F) (map (fun r => slice r s (s + w) ++ flat_map (under ids (pick r idp)) F) rows))).
      { unfold beside, columns_to_add, block. cbn [dindex dcols dcells fst snd]. rewrite OI, Ec, (list_eqb_refl leqb leqb_ok). fold cs F. f_equal. f_equal.
        rewrite OR, slice_map, !map_map. fold rows. rewrite zipapp_map. apply map_ext_in. intros r Ir. f_equal. rewrite slice_full; [reflexivity|].
        rewrite pick_length by (rewrite (Hrows r Ir); exact Fib). lia. }
      rewrite Wh. cbn [rbind]. unfold ncols at 1. cbn [dcols]. rewrite app_length, Lcs.
      rewrite (proj2 (forallb_forall _ _)) by (intros p I; rewrite Forall_forall in Fp; apply Nat.ltb_lt; specialize (Fp p I); lia). cbn [negb].
      assert (Ev : pick (cs ++ F) ps = vals).
      { unfold vals. apply pick_first. rewrite Lcs. exact Fp. }
      rewrite Ev. rewrite <- Lrows. replace (length ps) with (length valp) by (unfold valp; apply map_length).
      apply melt_on with (cols := dcols d); auto.
      + apply NoDup_both; auto. intros x I1 I2. unfold F in I2. apply filter_In in I2 as [_ I2]. apply negb_true_iff in I2. apply (has_not heqb heqb_ok) in I2. auto.
      + intros I. apply in_app_or in I as [I|I]; [auto|]. unfold F in I. apply filter_In in I as [I _]. destruct (In_nth_error _ _ I) as [k Hk]. destruct (forall2_nth_l Fi k Hk) as (p & _ & E1).
        apply Nv. eapply nth_error_In; eauto.
      + apply Forall_forall. intros h I. apply in_or_app. destruct (has heqb h cs) eqn:E; [left; now apply (has_in heqb heqb_ok)|right]. apply filter_In. rewrite E. auto.
      + eapply Forall_impl; [|exact Iv]. cbn. intros; apply in_or_app; auto.
      + intros h p r I E Ir. rewrite under_app by (rewrite slice_length, (Hrows r Ir); lia).
        assert (Lp : length (pick r idp) = length ids). { rewrite pick_length by (rewrite (Hrows r Ir); exact Fib). clear - Fi. induction Fi; cbn; congruence. }
        destruct (has heqb h cs) eqn:Eh.
        * apply (has_in heqb heqb_ok) in Eh. rewrite (Uslice h p r Eh E Ir). rewrite under_none; [apply app_nil_r|]. intros I2. unfold F in I2. apply filter_In in I2 as [_ I2].
          apply negb_true_iff in I2. apply (has_not heqb heqb_ok) in I2. auto.
        * assert (N : ~ In h cs) by now apply (has_not heqb heqb_ok). rewrite under_none by exact N. cbn [app].
          assert (Ii : In h ids). { apply in_app_or in I as [I|I]; [exact I|]. rewrite Forall_forall in Iv. exfalso. auto. }
          assert (If : In h F) by (apply filter_In; rewrite Eh; auto).
          destruct (In_nth_error _ _ Ii) as [k Hk]. destruct (forall2_nth_l Fi k Hk) as (q & Eq & E1).
          assert (q = p). { apply (proj1 (NoDup_nth_error (dcols d)) ND); [apply nth_error_Some; congruence|congruence]. } subst q.
          assert (Ue : under ids (pick r idp) h = pick r [p]).
          { rewrite (@under_at A ids (pick r idp) h k Ni Lp Hk). rewrite pick_pick by (rewrite (Hrows r Ir); exact Fib). rewrite !pick_cons, Eq. reflexivity. }
          rewrite <- Ue. clear - If NF Ni Lp heqb_ok F. assert (S : forall x, In x F -> In x ids) by (intros x I; unfold F in I; apply filter_In in I; tauto).
          clearbody F. induction F as [|x F' IH]; [easy|]. cbn [flat_map]. destruct (In_nth_error _ _ (S x (or_introl eq_refl))) as [k Hk].
          assert (U1 : under ids (pick r idp) x = pick (pick r idp) [k]) by (apply under_at; auto).
          assert (exists v, under ids (pick r idp) x = [v]) as [v Ev]. { rewrite U1, pick_cons. assert (k < length (pick r idp)) by (rewrite Lp; apply nth_error_Some; congruence). destruct (nth_error (pick r idp) k) as [v|] eqn:E; [exists v; reflexivity|apply nth_error_None in E; lia]. }
          rewrite Ev. inversion NF as [|? ? Nx NF']; subst. change (x :: F') with ([x] ++ F'). rewrite under_app by reflexivity.
          destruct If as [-> | If].
          -- rewrite (@under_none A F' _ h Nx), app_nil_r, Ev. unfold MelModel.under. cbn [combine filter fst]. now rewrite (proj2 (heqb_ok h h) eq_refl).
          -- rewrite under_none; [|intros [-> | []]; auto]. cbn [app]. apply IH; auto. intros y Iy. apply S. now right.
  Qed.
End Block.
