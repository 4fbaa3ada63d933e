(** Binary operations of modin.numpy. *)
From Verif Require Import Base Table ChunkModel ChunkSpec ChunkProofs GridModel GridSpec FrameSpec GridProofs GridProofs2 GridProofs3 GridProofs4 GridProofs5 SelSpec SelModel
  SelProofs SelProofs4 SelProofs5 JoinSpec JoinModel JoinProofs2 JoinProofs3 JoinProofs6 ShufProofs4 ArrSpec ArrModel ArrProofs NbinSpec NbinModel.

Lemma rmap_numbered {X Y} (g : nat * X -> res Y) (h : X -> Y) l : (forall k x, nth_error l k = Some x -> g (k, x) = Ok (h x)) ->
  rmap g (combine (seq 0 (length l)) l) = Ok (map h l).
Proof. intros E. assert (G : forall l' a, (forall k x, nth_error l' k = Some x -> g (a + k, x) = Ok (h x)) -> rmap g (combine (seq a (length l')) l') = Ok (map h l')).
  { induction l' as [|x l' IH]; intros a E'; [reflexivity|]. cbn [length seq combine rmap map]. pose proof (E' 0 x eq_refl) as E0. rewrite Nat.add_0_r in E0. rewrite E0. cbn [rbind].
    rewrite IH; [reflexivity|]. intros k y Ey. replace (S a + k) with (a + S k) by lia. now apply E'. }
  apply G. exact E. Qed.

Section Nbin.
  Context {A B D : Type}.
  Variables min_row min_col nparts cpus : nat.
  Variable dynamic : bool.
  Hypothesis mr : 0 < min_row.
  Hypothesis mc : 0 < min_col.
  Hypothesis np : 0 < nparts.
  Variable fill : A.
  Variable join : list (list nat) -> list nat * list (list (option nat)).
  Variable common : D -> D -> D.
  Variable cast : D -> A -> A.
  Notation pfA := (@pframe nat nat A).
  Notation pfB := (@pframe nat nat B).
  Notation dframe := (df nat nat A).
  Notation eqs := (fun x y => Nat.eqb_eq x y).

  Lemma one_block_cols (e : dframe) ck ri : wf e -> ck <> [] ->
    one_block true (map (fun ci => block e ri ci) (bounds 0 ck)) = Ok (block e ri (0, list_sum ck)).
  Proof. clear. intros W N. destruct ck as [|c ck]; [easy|]. pose proof (@concat_cols_blocks_bounds nat nat A Nat.eqb Nat.eqb Nat.eqb_eq e 0 (c :: ck) ri W N) as C. rewrite Nat.add_0_l in C.
    unfold one_block. destruct ck as [|c' ck]; [|exact C]. replace (list_sum [c]) with c by (unfold list_sum; cbn; lia). reflexivity. Qed.
  Lemma one_block_rows (e : dframe) rk ci : wf e -> rk <> [] ->
    one_block false (map (fun ri => block e ri ci) (bounds 0 rk)) = Ok (block e (0, list_sum rk) ci).
  Proof. clear. intros W N. destruct rk as [|c rk]; [easy|]. pose proof (@concat_rows_blocks nat nat A Nat.eqb Nat.eqb Nat.eqb_eq e 0 (c :: rk) ci W N) as C. rewrite Nat.add_0_l in C.
    unfold one_block. destruct rk as [|c' rk]; [|exact C]. replace (list_sum [c]) with c by (unfold list_sum; cbn; lia). reflexivity. Qed.

  Lemma blocks_rows (func : dframe -> dframe -> res (df nat nat B)) d e R base cl ck : wf e -> ck <> [] ->
    (forall ri ci, In ri (bounds 0 base) -> func (block d ri ci) (block e ri (0, list_sum ck)) = Ok (block R ri ci)) ->
    broadcast_blocks false func (cut_table base cl d) (cut_table base ck e) = Ok (cut_table base cl R).
  Proof. clear. intros W N E. unfold broadcast_blocks. cbn [negb].
    unfold cut_table at 1. rewrite (rmap_map_ok _ _ (fun ri => block e ri (0, list_sum ck))) by (intros; now apply one_block_cols). cbn [rbind].
    unfold cut_table. rewrite map_length, <- (map_length (fun ri => map (fun ci => block d ri ci) (bounds 0 cl))).
    assert (G : forall l a, (forall k x, nth_error l k = Some x -> nth_error (bounds 0 base) (a + k) = Some x) ->
      rmap (fun ir => rmap (fun jb : nat * dframe => match nth_error (map (fun ri => block e ri (0, list_sum ck)) (bounds 0 base)) (fst ir) with
                            | None => Err IndexError | Some o => func (snd jb) o end) (combine (seq 0 (length (snd ir))) (snd ir)))
        (combine (seq a (length l)) (map (fun ri => map (fun ci => block d ri ci) (bounds 0 cl)) l))
      = Ok (map (fun ri => map (fun ci => block R ri ci) (bounds 0 cl)) l)).
    { induction l as [|ri l IH]; intros a Ha; [reflexivity|]. cbn [length seq map combine rmap fst snd].
      pose proof (Ha 0 ri eq_refl) as E0. rewrite Nat.add_0_r in E0. rewrite nth_error_map, E0. cbn [option_map].
      assert (I : In ri (bounds 0 base)) by (eapply nth_error_In; eauto).
      assert (X : rmap (fun jb : nat * dframe => func (snd jb) (block e ri (0, list_sum ck)))
          (combine (seq 0 (length (map (fun ci => block d ri ci) (bounds 0 cl)))) (map (fun ci => block d ri ci) (bounds 0 cl))) = Ok (map (fun ci => block R ri ci) (bounds 0 cl))).
      { assert (Q : forall q s, rmap (fun jb : nat * dframe => func (snd jb) (block e ri (0, list_sum ck)))
          (combine (seq s (length q)) (map (fun ci => block d ri ci) q)) = Ok (map (fun ci => block R ri ci) q)).
        { induction q as [|ci q IHq]; intros s; [reflexivity|]. cbn [length seq map combine rmap snd]. rewrite E by exact I. cbn [rbind]. now rewrite IHq. }
        rewrite map_length. apply Q. }
      rewrite X. cbn [rbind]. rewrite IH; [reflexivity|]. intros k x Ek. replace (S a + k) with (a + S k) by lia. now apply Ha. }
    rewrite map_length. apply (G (bounds 0 base) 0). auto. Qed.

  Lemma blocks_cols (func : dframe -> dframe -> res (df nat nat B)) d e R base rl rk : wf e -> rk <> [] ->
    (forall ri ci, In ci (bounds 0 base) -> func (block d ri ci) (block e (0, list_sum rk) ci) = Ok (block R ri ci)) ->
    broadcast_blocks true func (cut_table rl base d) (cut_table rk base e) = Ok (cut_table rl base R).
  Proof. clear. intros W N E. unfold broadcast_blocks. cbn [negb].
    rewrite cut_table_width by exact N. unfold cut_table at 1.
    pose proof (transp_grid_iv (bounds 0 rk) base e) as T. unfold grid_iv in T. rewrite T. rewrite (rmap_map_ok _ _ (fun ci => block e (0, list_sum rk) ci)) by (intros; now apply one_block_rows). cbn [rbind].
    unfold cut_table.
    assert (X : forall ri, rmap (fun jb : nat * dframe => match nth_error (map (fun ci => block e (0, list_sum rk) ci) (bounds 0 base)) (fst jb) with
                            | None => Err IndexError | Some o => func (snd jb) o end)
          (combine (seq 0 (length (map (fun ci => block d ri ci) (bounds 0 base)))) (map (fun ci => block d ri ci) (bounds 0 base))) = Ok (map (fun ci => block R ri ci) (bounds 0 base))).
    { intros ri. assert (Q : forall q s, (forall k x, nth_error q k = Some x -> nth_error (bounds 0 base) (s + k) = Some x) ->
        rmap (fun jb : nat * dframe => match nth_error (map (fun ci => block e (0, list_sum rk) ci) (bounds 0 base)) (fst jb) with
                            | None => Err IndexError | Some o => func (snd jb) o end)
          (combine (seq s (length q)) (map (fun ci => block d ri ci) q)) = Ok (map (fun ci => block R ri ci) q)).
      { induction q as [|ci q IHq]; intros s Hs; [reflexivity|]. cbn [length seq map combine rmap fst snd].
        pose proof (Hs 0 ci eq_refl) as E0. rewrite Nat.add_0_r in E0. rewrite nth_error_map, E0. cbn [option_map].
        rewrite E by (eapply nth_error_In; eauto). cbn [rbind]. rewrite IHq; [reflexivity|]. intros k x Ek. replace (S s + k) with (s + S k) by lia. now apply Hs. }
      rewrite map_length. apply Q. auto. }
    rewrite map_length.
    assert (Q : forall q s, rmap (fun ir : nat * list dframe => rmap (fun jb : nat * dframe => match nth_error (map (fun ci => block e (0, list_sum rk) ci) (bounds 0 base)) (fst jb) with
                            | None => Err IndexError | Some o => func (snd jb) o end) (combine (seq 0 (length (snd ir))) (snd ir)))
        (combine (seq s (length q)) (map (fun ri => map (fun ci => block d ri ci) (bounds 0 base)) q)) = Ok (map (fun ri => map (fun ci => block R ri ci) (bounds 0 base)) q)).
    { induction q as [|ri q IHq]; intros s; [reflexivity|]. cbn [length seq map combine rmap fst snd]. rewrite X. cbn [rbind]. now rewrite IHq. }
    apply Q. Qed.

  Hypothesis join_good : forall a b, NoDup a -> NoDup b -> joins_well join [a; b].

  Lemma jio_same (l : list nat) : join_index_objects Nat.eqb join [l; l] = (l, [map Some (seq 0 (length l)); map Some (seq 0 (length l))]).
  Proof. clear. unfold join_index_objects. cbn [forallb]. rewrite (proj2 (list_eqb_spec Nat.eqb Nat.eqb_eq l l) eq_refl). reflexivity. Qed.

  Lemma apply_rows func (f other : pfA) d e rl cl rk ck (R : df nat nat B) :
    shows f d rl cl -> holds other e rk ck -> rk <> [] -> ck <> [] -> dindex d = dindex e -> NoDup (dindex d) ->
    wf R -> dindex R = dindex d -> dcols R = dcols d ->
    (forall ri ci, func (block d ri ci) (block e ri (0, list_sum ck)) = Ok (block R ri ci)) ->
    exists f' rl' cl', broadcast_apply min_row min_col nparts fill join false func f other = Ok f' /\ shows f' R rl' cl'.
  Proof.
    intros (Hf & Nr & Nc & Pi & Pc) Ho Nrk Nck Ei ND WR Ri Rc Ef. assert (We : wf e) by apply Ho. assert (Wd : wf d) by apply Hf.
    destruct (@copartition_rows_ok nat nat A Nat.eqb Nat.eqb Nat.eqb_eq Nat.eqb_eq fill nparts min_row np mr join (mkslot f d rl cl) [mkslot other e rk ck]
      (dindex d) [map Some (seq 0 (length (dindex d))); map Some (seq 0 (length (dindex d)))]) as (base & jc & lc & C1 & C2 & C3 & C4 & C5 & C6 & _).
    - constructor; [now apply row_rep_holds|]. constructor; [now apply row_rep_holds|constructor].
    - left. exact Nc.
    - cbn [map sd]. rewrite <- Ei. now apply join_good.
    - cbn [map sd]. rewrite <- Ei. apply jio_same.
    - cbn [sf so sd sl map length seq combine fst snd nth] in C1, C4, C5, C6. unfold broadcast_apply. rewrite C1. cbn [rbind].
      rewrite (pick_rows_id fill Wd). rewrite Ei, (pick_rows_id fill We).
      rewrite (@blocks_rows func d e R base cl ck We Nck) by auto. cbn [rbind].
      assert (Ej : jc = Some (dindex d)) by (destruct C4 as [C4|[_ C4]]; [exact C4|congruence]).
      destruct Hf as (Gf & _). destruct Gf as (_ & _ & Sc & _ & _ & _ & _ & Hcl).
      assert (G : gridded (mkpf (cut_table base cl R) jc (pcols f) lc (pcl f)) R base cl).
      { unfold gridded. cbn [pgrid pindex pcols prl pcl]. split; [exact WR|]. split; [now rewrite C2; unfold nrows; rewrite Ri|]. split; [now rewrite Sc; unfold ncols; rewrite Rc|]. split; [reflexivity|].
        rewrite Ej, Pc. split; [intros i [= <-]; unfold nrows; now rewrite Ri|]. split; [intros i [= <-]; unfold ncols; now rewrite Rc|].
        split; [|exact Hcl]. destruct C5 as [[C5 _]|C5]; auto. }
      destruct (construct_gridded G C3 Nc) as (f' & rl' & cl' & E' & G' & N1 & N2 & Q1 & Q2). cbn [pindex pcols] in Q1, Q2.
      exists f', rl', cl'. split; [exact E'|]. unfold shows, holds. rewrite Q1, Q2, Ej, Pc, Ri, Rc. repeat split; auto; apply G'. Qed.

  Lemma apply_cols func (f other : pfA) d e rl cl rk ck (R : df nat nat B) :
    shows f d rl cl -> holds other e rk ck -> rk <> [] -> ck <> [] -> dcols d = dcols e -> NoDup (dcols d) ->
    wf R -> dindex R = dindex d -> dcols R = dcols d ->
    (forall ri ci, func (block d ri ci) (block e (0, list_sum rk) ci) = Ok (block R ri ci)) ->
    exists f' rl' cl', broadcast_apply min_row min_col nparts fill join true func f other = Ok f' /\ shows f' R rl' cl'.
  Proof.
    intros (Hf & Nr & Nc & Pi & Pc) Ho Nrk Nck Ei ND WR Ri Rc Ef. assert (We : wf e) by apply Ho. assert (Wd : wf d) by apply Hf.
    destruct (@copartition_cols_ok nat nat A Nat.eqb Nat.eqb Nat.eqb_eq Nat.eqb_eq fill nparts min_col np mc join (mkslot f d cl rl) [mkslot other e ck rk]
      (dcols d) [map Some (seq 0 (length (dcols d))); map Some (seq 0 (length (dcols d)))]) as (base & jc & lc & C1 & C2 & C3 & C4 & C5 & C6 & _).
    - constructor; [apply col_rep_holds; auto|]. constructor; [apply col_rep_holds; auto|constructor].
    - left. exact Nr.
    - cbn [map sd]. rewrite <- Ei. now apply join_good.
    - cbn [map sd]. rewrite <- Ei. apply jio_same.
    - cbn [sf so sd sl map length seq combine fst snd nth] in C1, C4, C5, C6. unfold broadcast_apply. rewrite C1. cbn [rbind].
      rewrite (pick_cols_id fill Wd). rewrite Ei, (pick_cols_id fill We).
      rewrite (@blocks_cols func d e R base rl rk We Nrk) by auto. cbn [rbind].
      assert (Ej : jc = Some (dcols d)) by (destruct C4 as [C4|[_ C4]]; [exact C4|congruence]).
      destruct Hf as (Gf & _). destruct Gf as (_ & Sr & _ & _ & _ & _ & Hrl & _).
      assert (G : gridded (mkpf (cut_table rl base R) (pindex f) jc (prl f) lc) R rl base).
      { unfold gridded. cbn [pgrid pindex pcols prl pcl]. split; [exact WR|]. split; [now rewrite Sr; unfold nrows; rewrite Ri|]. split; [now rewrite C2; unfold ncols; rewrite Rc|]. split; [reflexivity|].
        rewrite Ej, Pi. split; [intros i [= <-]; unfold nrows; now rewrite Ri|]. split; [intros i [= <-]; unfold ncols; now rewrite Rc|].
        split; [exact Hrl|]. destruct C5 as [[C5 _]|C5]; auto. }
      destruct (construct_gridded G Nr C3) as (f' & rl' & cl' & E' & G' & N1 & N2 & Q1 & Q2). cbn [pindex pcols] in Q1, Q2.
      exists f', rl', cl'. split; [exact E'|]. unfold shows, holds. rewrite Q1, Q2, Ej, Pi, Ri, Rc. repeat split; auto; apply G'. Qed.
End Nbin.
