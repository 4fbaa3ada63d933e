From Verif Require Import Base Table ChunkSpec ChunkModel GridModel FrameSpec GridProofs GridProofs3 SelSpec SelModel SelProofs SelProofs4 SelProofs5 SelProofs6 SelProofs7 ShufProofs4 MelProofs3 ArrSpec ArrModel.

(** [x] is the array [v]: the dimensions, the cells and the numbering *)
Definition stands {A} (x : @arr A) (v : nd A) : Prop :=
  andim x = ndim v /\ exists rl cl, shows (aqc x) (table_of v) rl cl.
Definition chunk_is {A} (c : @chunk A) (v : nd A) : Prop :=
  match c with CArr x => stands x v | CEmpty sh => sh = shape v /\ In 0 sh end.

Section Arr.
  Context {A : Type}.
  Variables min_row min_col nparts : nat.
  Hypothesis mr : 0 < min_row.
  Hypothesis mc : 0 < min_col.
  Hypothesis np : 0 < nparts.
  Variables known_l known_w : nat -> nat -> bool.
  Variable argsort : list Z -> list nat.
  Hypothesis argsort_ok : forall l, sorts l (argsort l).
  Variable big : bool.
  Notation pf := (@pframe nat nat A).
  Notation nd := (nd A).
  Notation dframe := (df nat nat A).
  Notation take rows cols f := (take_2d_positional Nat.eqb Nat.eqb min_row min_col nparts known_l known_w argsort big rows cols f).

  Lemma np_array_ok (f : pf) (d : dframe) rl cl n : shows f d rl cl -> dcols d <> [] ->
    exists x rl' cl', np_array f n = Ok x /\ andim x = n /\ shows (aqc x) (mkdf (seq 0 (nrows d)) (seq 0 (ncols d)) (dcells d)) rl' cl'.
  Proof.
    clear. intros ((G & _) & Nr & Nc & Pi & Pc) Nn. unfold np_array. rewrite Pi, Pc. cbn [labels rbind].
    set (idx := seq 0 (length (dindex d))). set (cols := seq 0 (length (dcols d))).
    assert (G' : gridded (mkpf (pgrid f) (Some idx) (Some cols) (prl f) (pcl f)) d rl cl).
    { destruct G as (W & Sr & Sc & Eg & Li & Lc & Cr & Cc). repeat split; auto; try apply W; cbn; intros ? [= <-]; apply seq_length. }
    destruct (@propagate_ok_ne nat nat A None _ d rl cl idx cols G' Nr Nc eq_refl eq_refl) as (rl' & cl' & N1 & N2 & S1 & S2 & E1).
    destruct (dcols d) as [|c0 cs] eqn:Ed; [easy|]. rewrite E1. cbn [rbind relabel].
    eexists; exists rl', cl'. split; [reflexivity|]. split; [reflexivity|]. cbn [aqc].
    assert (We : wf (mkdf idx cols (dcells d))).
    { destruct G as ((W1 & W2) & _). split; cbn [dcells dindex dcols]; unfold idx, cols; rewrite seq_length; [exact W1|]. rewrite Ed in W2. exact W2. }
    unfold nrows, ncols. rewrite Ed. fold idx. replace (seq 0 (length (c0 :: cs))) with cols by reflexivity.
    split; [|repeat split; auto]. apply holds_intro; cbn [dindex dcols]; auto.
    - unfold nrows, idx. cbn [dindex]. rewrite seq_length. exact S1.
    - unfold ncols, cols. cbn [dcols]. rewrite seq_length. unfold ncols in S2. now rewrite Ed in S2.
  Qed.

  Lemma stands_reads (x : arr) (v : nd) : stands x v -> to_numpy x = Ok v /\ get_shape x = Ok (shape v).
  Proof.
    clear. intros (E & rl & cl & S). assert (S' := S). destruct S' as (Hh & Nr & Nc & Pi & Pc).
    unfold to_numpy, get_shape. rewrite Pi, Pc, E. cbn [labels rbind].
    rewrite (@pf_to_pandas_holds nat nat A Nat.eqb Nat.eqb Nat.eqb_eq Nat.eqb_eq (aqc x) (table_of v) rl cl) by (auto; now rewrite ?Pi, ?Pc).
    cbn [rbind]. destruct v as [l|w rows]; cbn [ndim Nat.eqb table_of dcells dindex dcols ncols shape]; unfold ncols; cbn [dcols].
    - rewrite seq_length. split; [|reflexivity]. f_equal. f_equal. clear. induction l; cbn; congruence.
    - now rewrite !seq_length.
  Qed.

  Lemma stands_wf (x : arr) (v : nd) : stands x v -> wf (table_of v).
  Proof. clear. intros (_ & rl & cl & ((W & _) & _) & _). exact W. Qed.

  Lemma finish (f : pf) (d : dframe) rl cl (v : nd) : shows f d rl cl -> dcols d <> [] ->
    nrows d = nrows (table_of v) -> ncols d = ncols (table_of v) -> dcells d = dcells (table_of v) ->
    exists x, np_array f (ndim v) = Ok x /\ stands x v.
  Proof.
    clear. intros S N En Em Ec. destruct (@np_array_ok f d rl cl (ndim v) S N) as (x & rl' & cl' & E & E2 & S'). exists x. split; [exact E|]. split; [exact E2|].
    exists rl', cl'. rewrite En, Em, Ec in S'. replace (table_of v) with (mkdf (seq 0 (nrows (table_of v))) (seq 0 (ncols (table_of v))) (dcells (table_of v))); [exact S'|].
    destruct v; cbn; unfold nrows, ncols; cbn; now rewrite ?seq_length.
  Qed.

  Lemma pick_column (l : list A) ps : map (fun r => pick r (seq 0 1)) (pick (map (fun a => [a]) l) ps) = map (fun a => [a]) (pick l ps).
  Proof. clear. rewrite pick_map, map_map. reflexivity. Qed.

  Lemma one_position n k ps : is_int k = true -> positions n k = Some ps -> exists p, ps = [p].
  Proof. clear. destruct k; try discriminate. intros _. cbn. destruct (wrap n z); [|discriminate]. intros [= <-]. eauto. Qed.

  Lemma one_column (g : list (list A)) : Forall (fun r => length r = 1) g -> map (fun a => [a]) (concat g) = g.
  Proof. clear. induction 1 as [|r g Hr _ IH]; [reflexivity|]. destruct r as [|a [|]]; try discriminate. cbn. now rewrite IH. Qed.

  Notation getitem := (getitem min_row min_col nparts known_l known_w argsort big).

  Definition got_is (g : @got A) (r : value A) : Prop :=
    match g, r with GScalar a, Scalar b => a = b | GArr x, Array v => stands x v | _, _ => False end.

  Definition listy (k : locator) : bool := negb (is_int k) && negb (is_slice k).

  Lemma getitem_ok (x : arr) (v : nd) rk ck ps qs r : stands x v ->
    let ck' := match ck with Some k => k | None => LSlice None None None end in
    positions (nrows (table_of v)) rk = Some ps -> positions (ncols (table_of v)) ck' = Some qs ->
    supported (nrows (table_of v)) rk -> supported (ncols (table_of v)) ck' ->
    NoDup ps -> NoDup qs -> ps <> [] -> qs <> [] -> listy rk && listy ck' = false ->
    np_get v rk ck = Some r -> exists g, getitem x rk ck = Ok g /\ got_is g r.
  Proof.
    intros Hx ck' Pr Pc Sr Sc Nr Nc Ner Nec Hl Hg.
    destruct Hx as (En & rl & cl & S). assert (S' := S). destruct S' as (((W & _) & _) & _ & _ & Pi & Pco).
    destruct (@compute_lookup_ok _ _ _ Pr Sr) as (rix & Er & SSr).
    destruct (@compute_lookup_ok _ _ _ Pc Sc) as (cix & Ec & SSc).
    destruct (@take_2d_ok nat nat A Nat.eqb Nat.eqb Nat.eqb_eq Nat.eqb_eq min_row min_col nparts mr mc np known_l known_w argsort argsort_ok big (aqc x) (table_of v) rl cl rix cix ps qs S SSr SSc)
      as (f' & E1 & E2 & E3); [right; auto|]. destruct (E3 Ner Nec) as (rl' & cl' & Sh).
    pose proof (@selects_bound _ _ _ SSr) as Fr. pose proof (@selects_bound _ _ _ SSc) as Fc.
    unfold ArrModel.getitem. fold ck'. rewrite Pi, Pco. cbn [labels rbind]. fold (nrows (table_of v)) (ncols (table_of v)).
    rewrite Er. cbn [rbind]. rewrite Ec. cbn [rbind]. rewrite E1. cbn [rbind].
    assert (Wd : wf (take2d ps qs (table_of v))) by now apply wf_take2d.
    assert (Ln : nrows (take2d ps qs (table_of v)) = length ps) by now apply take2d_nrows.
    assert (Lm : ncols (take2d ps qs (table_of v)) = length qs) by now apply take2d_ncols.
    assert (Nd : dcols (take2d ps qs (table_of v)) <> []). { intros Z. unfold ncols in Lm. rewrite Z in Lm. destruct qs; [easy|discriminate]. }
    assert (Cl : dcells (take2d ps qs (table_of v)) = cross (dcells (table_of v)) ps qs) by reflexivity.
    unfold from_view. rewrite En.
    destruct v as [l|w rows].
    - (* a vector *)
      destruct ck as [k|]; [discriminate|]. cbn [np_get] in Hg. unfold nrows in Pr. cbn [table_of dindex] in Pr. rewrite seq_length in Pr. rewrite Pr in Hg.
      cbn [positions ck' ncols table_of dcols] in Pc. cbn in Pc. injection Pc as <-.
      assert (Cc : dcells (take2d ps [0] (table_of (Vec l))) = map (fun a => [a]) (pick l ps)) by (exact (pick_column l ps)).
      cbn [ck' is_int ndim Nat.eqb negb andb orb]. destruct (is_int rk) eqn:Ei.
      + cbn [negb andb orb]. destruct (one_position _ _ Ei Pr) as (p & ->). rewrite E2. cbn [rbind]. rewrite Cc.
        destruct (pick l [p]) as [|a [|]] eqn:Ep; try discriminate. injection Hg as <-. cbn. eexists. split; [reflexivity|]. reflexivity.
      + cbn [negb andb]. injection Hg as <-.
        destruct (@finish f' _ _ _ (Vec (pick l ps)) Sh Nd) as (y & F1 & F2); [| |exact Cc|].
        * rewrite Ln. unfold nrows. cbn [table_of dindex]. rewrite seq_length. unfold nrows in Fr. cbn [table_of dindex] in Fr. rewrite seq_length in Fr. now rewrite pick_length.
        * rewrite Lm. reflexivity.
        * cbn [ndim] in F1. rewrite F1. cbn [rbind]. eauto.
    - (* a matrix *)
      assert (Hg2 : np_get2 w rows rk ck' = Some r) by (destruct ck; exact Hg). clear Hg. unfold np_get2 in Hg2.
      unfold nrows in Pr, Fr. unfold ncols in Pc, Fc. cbn [table_of dindex dcols] in Pr, Pc, Fr, Fc. rewrite seq_length in Pr, Pc, Fr, Fc. rewrite Pr, Pc in Hg2.
      change (cross (dcells (table_of (Mat w rows))) ps qs) with (cross rows ps qs) in Cl. cbn [ndim Nat.eqb andb orb].
      destruct (is_int rk) eqn:Ei; destruct (is_int ck') eqn:Ej; cbn [negb andb orb] in *.
      + destruct (one_position _ _ Ei Pr) as (p & ->). destruct (one_position _ _ Ej Pc) as (q & ->).
        rewrite E2. cbn [rbind]. rewrite Cl. destruct Wd as (W1 & W2). rewrite Cl in W1, W2.
        destruct (cross rows [p] [q]) as [|r1 [|]] eqn:Ex; try (unfold nrows in Ln; cbn [length] in Ln; rewrite Ln in W1; discriminate).
        apply Forall_inv in W2. unfold ncols in Lm. rewrite Lm in W2. destruct r1 as [|a [|]]; try discriminate. cbn in Hg2. injection Hg2 as <-.
        eexists. split; [reflexivity|]. reflexivity.
      + destruct (one_position _ _ Ei Pr) as (p & ->). injection Hg2 as <-.
        destruct Sh as (Hh & Nr' & Nc' & Pi' & Pc').
        destruct (@transpose_holds nat A f' _ rl' cl' Hh Nr' Nc') as (t & rl2 & cl2 & T1 & T2 & T3 & T4 & T5 & T6).
        rewrite T1. cbn [rbind].
        assert (St : shows t (df_T (take2d [p] qs (table_of (Mat w rows)))) cl2 rl2).
        { split; [exact T2|]. split; [exact T4|]. split; [exact T3|]. split; [rewrite T5; exact Pc'|rewrite T6; exact Pi']. }
        destruct Wd as (W1 & W2). rewrite Cl in W1, W2. unfold nrows in Ln. rewrite Ln in W1.
        destruct (cross rows [p] qs) as [|r1 [|]] eqn:Ex; try discriminate. apply Forall_inv in W2.
        destruct (@finish t _ _ _ (Vec (concat [r1])) St) as (y & F1 & F2).
        * cbn [df_T dcols]. intros Z. rewrite Z in Ln. discriminate.
        * unfold nrows. cbn [df_T dindex table_of concat]. rewrite seq_length, app_nil_r. now rewrite W2.
        * exact Ln.
        * change (transp (ncols (take2d [p] qs (table_of (Mat w rows)))) (dcells (take2d [p] qs (table_of (Mat w rows)))) = map (fun a => [a]) (concat [r1])).
          rewrite Cl. cbn [concat]. rewrite app_nil_r. unfold ncols. rewrite <- W2. apply transp_one_row.
        * cbn [ndim] in F1. rewrite F1. cbn [rbind]. eexists. split; [reflexivity|]. exact F2.
      + destruct (one_position _ _ Ej Pc) as (q & ->). injection Hg2 as <-.
        destruct (@finish f' _ _ _ (Vec (concat (cross rows ps [q]))) Sh Nd) as (y & F1 & F2).
        * destruct Wd as (W1 & W2). rewrite Cl in W1, W2. transitivity (length (cross rows ps [q])); [symmetry; exact W1|]. transitivity (length (concat (cross rows ps [q]))); [|symmetry; apply seq_length].
          rewrite <- (@one_column (cross rows ps [q])) at 1; [now rewrite map_length|]. eapply Forall_impl; [|exact W2]. intros r1 Hr1. etransitivity; [exact Hr1|exact Lm].
        * rewrite Lm. reflexivity.
        * destruct Wd as (W1 & W2). rewrite Cl in *. cbn [table_of dcells]. symmetry. apply one_column. eapply Forall_impl; [|exact W2]. intros r1 Hr1. etransitivity; [exact Hr1|exact Lm].
        * cbn [ndim] in F1. rewrite F1. cbn [rbind]. eexists. split; [reflexivity|]. exact F2.
      + assert (Hs : is_slice rk || is_slice ck' = true).
        { unfold listy in Hl. rewrite Ei, Ej in Hl. destruct (is_slice rk), (is_slice ck'); auto. }
        rewrite Hs in Hg2. injection Hg2 as <-.
        destruct (@finish f' _ _ _ (Mat (length qs) (cross rows ps qs)) Sh Nd) as (y & F1 & F2).
        * rewrite Ln. unfold nrows. cbn [table_of dindex]. rewrite seq_length. unfold cross. now rewrite map_length, pick_length.
        * rewrite Lm. unfold ncols. cbn [table_of dcols]. now rewrite seq_length.
        * exact Cl.
        * cbn [ndim] in F1. rewrite F1. cbn [rbind]. eexists. split; [reflexivity|]. exact F2.
  Qed.
End Arr.
