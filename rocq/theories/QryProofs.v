From Verif Require FilProofs2.
From Verif Require Import Base Table ChunkModel ChunkSpec ChunkProofs GridModel GridSpec FrameSpec
  GridProofs GridProofs2 GridProofs3 GridProofs5 JoinModel JoinProofs3 SelProofs5 RemSpec RemModel RemProofs RemProofs2 ResetSpec ResetModel ResetProofs ExplProofs DumSpec QrySpec QryModel.

Section Qry.
  Context {L H A X O : Type}.
  Variables (leqb : L -> L -> bool) (heqb : H -> H -> bool).
  Hypothesis leqb_ok : forall x y, leqb x y = true <-> x = y.
  Hypothesis heqb_ok : forall x y, heqb x y = true <-> x = y.
  Variable op1 : O -> A -> A.
  Variable op2 : O -> A -> A -> A.
  Variable agg : O -> list A -> A.
  Variable eqv : A -> A -> bool.
  Variables tt ff : A.
  Variable truth : A -> option bool.
  Variable env : X -> option (value A).
  Variables min_row min_col nparts : nat.
  Hypothesis (mr : 0 < min_row) (mc : 0 < min_col) (np : 0 < nparts).
  Notation pf := (@pframe L H A).
  Notation dframe := (df L H A).
  Notation expr := (expr H A X O).
  Notation eval := (eval heqb op1 op2 agg eqv tt ff env).
  Notation p_query := (p_query heqb op1 op2 agg eqv tt ff truth env).

  Lemma simple_parses (e : expr) : simple e -> parses e = true.
  Proof. clear. induction e; cbn; try tauto; intros [S1 S2]; rewrite IHe1, IHe2; auto. Qed.
  Lemma size_pos (e : expr) : 0 < size e.
  Proof. clear. destruct e; cbn; lia. Qed.
  Lemma simple_walk : forall fuel (nodes : list expr), list_sum (map (@size H A X O) nodes) <= fuel -> (walk fuel nodes = true <-> Forall simple nodes).
  Proof. clear. induction fuel as [|fuel IH]; intros nodes.
    - destruct nodes as [|n nodes]; [intros _; cbn; split; auto; constructor|]. cbn [map]. rewrite list_sum_cons. assert (S := size_pos n). lia.
    - destruct nodes as [|n nodes]; [intros _; cbn; split; auto; constructor|]. cbn [map]. rewrite list_sum_cons. intros Hs. rewrite Forall_cons_iff.
      destruct n; cbn [walk simple size] in *; rewrite ?IH by (cbn [map]; rewrite ?list_sum_cons; lia); rewrite ?Forall_cons_iff; try tauto; try (split; [discriminate|tauto]). Qed.

  Lemma columnless_eval (d d' : dframe) e : columnless e -> eval d e = eval d' e.
  Proof. clear. induction e; cbn [columnless QrySpec.eval]; try tauto; try reflexivity.
    - intros C. now rewrite IHe.
    - intros [C1 C2]. now rewrite IHe1, IHe2.
    - intros [C1 C2]. now rewrite IHe1, IHe2.
    - intros [C1 C2]. now rewrite IHe1, IHe2.
    - intros [C1 C2]. now rewrite IHe1, IHe2.
    - intros C. now rewrite IHe. Qed.

  Definition cutv (a b : nat) (v : value A) : value A := match v with One x => One x | Many l => Many (slice l a b) end.
  Definition fits (n : nat) (v : value A) : Prop := match v with One _ => True | Many l => length l = n end.

  Lemma column_cut (d : dframe) a b c : wf d -> column_of heqb (iloc_rows d a b) c = (do l <- column_of heqb d c; Ok (slice l a b)).
  Proof. clear. intros [_ W]. unfold column_of, ncols. cbn [iloc_rows dcols dcells]. rewrite transp_slice by exact W.
    generalize (transp (length (dcols d)) (dcells d)). clear W. generalize (dcols d). intros cs.
    induction cs as [|h cs IH]; intros [|v vs]; try reflexivity. cbn [map combine find fst snd]. destruct (heqb h c); [reflexivity|]. apply IH. Qed.
  Lemma column_fits (d : dframe) c l : wf d -> column_of heqb d c = Ok l -> length l = nrows d.
  Proof. clear. intros [W1 W2]. unfold column_of. destruct (find _ _) as [p|] eqn:E; [|discriminate]. intros [= <-]. apply find_some in E as [E _]. destruct p as [h v]. apply in_combine_r in E.
    assert (F := transp_rows W2). rewrite Forall_forall in F. cbn. unfold nrows. rewrite <- W1. now apply F. Qed.

  Lemma lift2_cut f a b n u v : fits n u -> fits n v -> b <= n -> a <= b ->
    lift2 f (cutv a b u) (cutv a b v) = (do w <- lift2 f u v; Ok (cutv a b w)).
  Proof. clear. destruct u as [x|l], v as [y|m]; cbn [fits cutv lift2 rbind]; intros Fu Fv B AB; try reflexivity; try (now rewrite slice_map).
    rewrite !slice_length, Fu, Fv, !Nat.eqb_refl. cbn [rbind cutv]. now rewrite combine_slice, slice_map. Qed.
  Lemma lift2_fits f n u v w : fits n u -> fits n v -> lift2 f u v = Ok w -> fits n w.
  Proof. clear. destruct u as [x|l], v as [y|m]; cbn [fits lift2]; intros Fu Fv; try (intros [= <-]; cbn; now rewrite ?map_length).
    rewrite Fu, Fv, Nat.eqb_refl. intros [= <-]. cbn. rewrite map_length, combine_length. lia. Qed.

  Lemma eval_cut (d : dframe) e : wf d -> per_row env e ->
    (forall v, eval d e = Ok v -> fits (nrows d) v) /\
    (forall a b, a <= b -> b <= nrows d -> eval (iloc_rows d a b) e = (do v <- eval d e; Ok (cutv a b v))).
  Proof. clear. intros W. induction e as [c|c|x|x|o e IH|o e1 IH1 e2 IH2|o e1 IH1 e2 IH2|o e1 IH1 e2 IH2|neg e1 IH1 e2 IH2|g e IH]; cbn [per_row QrySpec.eval]; intros P.
    1,2: split; [intros v; destruct (column_of heqb d c) as [l|] eqn:E; [|discriminate]; intros [= <-]; cbn; now apply (column_fits c W)|];
      intros a b _ _; rewrite column_cut by exact W; now destruct (column_of heqb d c).
    - split; [now intros v [= <-]|reflexivity].
    - destruct (env x) as [[y|l]|]; [|tauto|]; (split; [try discriminate; now intros v [= <-]|reflexivity]).
    - destruct (IH P) as [F C]. split.
      + intros v. destruct (eval d e) as [u|]; [|discriminate]. specialize (F u eq_refl). intros [= <-]. destruct u; cbn in *; [exact I|now rewrite map_length].
      + intros a b AB B. rewrite C by assumption. destruct (eval d e) as [u|]; [|reflexivity]. cbn [rbind]. destruct u; cbn [cutv]; [reflexivity|now rewrite slice_map].
    - destruct P as [P1 P2]; destruct (IH1 P1) as [F1 C1]; destruct (IH2 P2) as [F2 C2]; split;
      [intros w; destruct (eval d e1) as [u|]; [|discriminate]; destruct (eval d e2) as [v|]; [|discriminate]; cbn [rbind]; apply lift2_fits; auto|
       intros a b AB B; rewrite C1, C2 by assumption; destruct (eval d e1) as [u|]; [|reflexivity]; destruct (eval d e2) as [v|]; [|reflexivity]; cbn [rbind]; apply lift2_cut with (n := nrows d); auto].
    - destruct P as [P1 P2]; destruct (IH1 P1) as [F1 C1]; destruct (IH2 P2) as [F2 C2]; split;
      [intros w; destruct (eval d e1) as [u|]; [|discriminate]; destruct (eval d e2) as [v|]; [|discriminate]; cbn [rbind]; apply lift2_fits; auto|
       intros a b AB B; rewrite C1, C2 by assumption; destruct (eval d e1) as [u|]; [|reflexivity]; destruct (eval d e2) as [v|]; [|reflexivity]; cbn [rbind]; apply lift2_cut with (n := nrows d); auto].
    - destruct P as [P1 P2]; destruct (IH1 P1) as [F1 C1]; destruct (IH2 P2) as [F2 C2]; split;
      [intros w; destruct (eval d e1) as [u|]; [|discriminate]; destruct (eval d e2) as [v|]; [|discriminate]; cbn [rbind]; apply lift2_fits; auto|
       intros a b AB B; rewrite C1, C2 by assumption; destruct (eval d e1) as [u|]; [|reflexivity]; destruct (eval d e2) as [v|]; [|reflexivity]; cbn [rbind]; apply lift2_cut with (n := nrows d); auto].
    - destruct P as [P1 P2]. destruct (IH1 P1) as [F1 C1]. split.
      + intros w. destruct (eval d e1) as [u|]; [|discriminate]. destruct (eval d e2) as [v|]; [|discriminate]. cbn [rbind]. specialize (F1 u eq_refl).
        destruct u, v; cbn [member]; try discriminate. intros [= <-]. cbn in *. now rewrite map_length.
      + intros a b AB B. rewrite C1 by assumption. rewrite (columnless_eval (iloc_rows d a b) d e2 P2). destruct (eval d e1) as [u|]; [|reflexivity]. destruct (eval d e2) as [v|]; [|reflexivity].
        cbn [rbind]. destruct u, v; cbn [cutv member rbind]; try reflexivity. now rewrite slice_map.
    - tauto. Qed.

  Lemma filter_fails func (f : pf) d rl cl ri e : holds f d rl cl -> cl <> [] -> In ri (bounds 0 rl) ->
    func (iloc_rows d (fst ri) (snd ri)) = Err e -> exists e', frame_filter leqb heqb min_row min_col nparts true func f = Err e'.
  Proof. intros ((W & Hsr & Hsc & Hgr & _) & _) Hc I E. unfold frame_filter, map_axis_partitions. cbn [andb]. rewrite Hgr. unfold cut_table at 2.
    match goal with |- exists e', rbind (rbind (rmap ?g ?l) _) _ = _ => destruct (@rmap_some_err _ _ g l (map (fun ci => block d ri ci) (bounds 0 cl)) e) as (e' & ->) end.
    - apply in_map_iff. eauto.
    - unfold deploy_axis_func. rewrite (concat_cols_blocks_bounds leqb heqb leqb_ok) by assumption. cbn [rbind]. rewrite Nat.add_0_l, Hsc, block_cols_full by assumption. now rewrite E.
    - cbn. eauto. Qed.

  Notation marks_of l := (rmap (fun a => match truth a with Some b => Ok b | None => Err KeyError end) l).
  Lemma query_ok e (f : pf) d rl cl : shows f d rl cl -> per_row env e ->
    match p_query e d with
    | Ok D => exists f', frame_filter leqb heqb min_row min_col nparts true (p_query e) f = Ok f' /\ look leqb heqb f' = Ok D
    | Err _ => exists e', frame_filter leqb heqb min_row min_col nparts true (p_query e) f = Err e'
    end.
  Proof. intros (Hh & Nr & Nc & _) P. pose proof Hh as ((W & Hsr & Hsc & _) & _).
    destruct (eval_cut e W P) as [F C].
    assert (Ne : exists ri, In ri (bounds 0 rl)). { destruct (bounds 0 rl) as [|ri bs] eqn:E; [now apply bounds_nil_iff in E|]. exists ri. now left. }
    assert (B : forall ri, In ri (bounds 0 rl) -> fst ri <= snd ri /\ snd ri <= nrows d).
    { intros ri I. pose proof (bounds_within 0 rl) as Fw. rewrite Forall_forall in Fw. specialize (Fw ri I). assert (Hle := bounds_le _ _ _ I). lia. }
    unfold QrySpec.p_query at 1. destruct (eval d e) as [v|x] eqn:Ev; cbn [rbind].
    2:{ destruct Ne as (ri & I). destruct (B ri I). apply filter_fails with (d := d) (rl := rl) (cl := cl) (ri := ri) (e := x); auto. unfold QrySpec.p_query. rewrite C by assumption. reflexivity. }
    specialize (F v eq_refl). destruct v as [y|l].
    - destruct Ne as (ri & I). destruct (B ri I). apply filter_fails with (d := d) (rl := rl) (cl := cl) (ri := ri) (e := KeyError); auto. unfold QrySpec.p_query. rewrite C by assumption. reflexivity.
    - cbn in F. rewrite F, Nat.eqb_refl. cbn [negb].
      assert (Q : forall a b, a <= b -> b <= nrows d -> p_query e (iloc_rows d a b) = (do m <- marks_of (slice l a b); Ok (keep_rows m (iloc_rows d a b)))).
      { intros a b AB Bb. unfold QrySpec.p_query. rewrite C by assumption. cbn [rbind cutv]. unfold nrows in *. cbn [iloc_rows dindex]. rewrite !slice_length, F, Nat.eqb_refl. reflexivity. }
      destruct (marks_of l) as [m|x] eqn:Em; cbn [rbind].
      + assert (Lm : length m = nrows d) by (rewrite <- F; exact (rmap_length _ _ Em)).
        destruct (@filter_rows_ok L H A leqb heqb leqb_ok min_row min_col nparts mr mc np (p_query e) f d rl cl m Hh Nr Nc Lm) as (f' & rl' & cl' & E & Hh' & N1 & N2).
        * intros a b AB Bb. rewrite Q by assumption. now rewrite (rmap_slice _ _ _ _ Em).
        * exists f'. split; [exact E|]. now apply (@look_holds L H A leqb heqb leqb_ok heqb_ok f' _ rl' cl').
      + apply rmap_err_in in Em as (y & Iy & Ey). assert (Hs : list_sum rl = length l) by congruence.
        rewrite <- (tiles_bounds rl Hs l eq_refl) in Iy. apply in_concat in Iy as (band & Ib & Iy). apply in_map_iff in Ib as (ri & <- & Ib). destruct (B ri Ib).
        destruct (@rmap_some_err _ _ (fun a => match truth a with Some b => Ok b | None => Err KeyError end) _ y x Iy Ey) as (x' & Ex).
        apply filter_fails with (d := d) (rl := rl) (cl := cl) (ri := ri) (e := x'); auto. rewrite Q by assumption. now rewrite Ex. Qed.
End Qry.
