(** Functions that agree on tables of one column at most, on frames of one column; selections by label (C83). *)
From Verif Require Import Base Table GridSpec ChunkSpec ChunkModel ChunkProofs GridModel FrameSpec GridProofs GridProofs2 GridProofs3 GridProofs4 GridProofs5
  SelSpec SelModel SelProofs SelProofs5 RngProofs KeyProofs ItmModel ItmProofs FilSpec FilModel FilProofs FilProofs2 HntSpec HntModel.

Lemma in_transp {X} : forall (g : list (list X)) w c x, In c (transp w g) -> In x c -> exists r, In r g /\ In x r.
Proof. induction g as [|r g IH]; intros w c x.
  - cbn. intros I. apply repeat_spec in I as ->. easy.
  - rewrite transp_cons. revert w. induction r as [|y r IHr]; intros w.
    + cbn. easy.
    + intros I Ix. destruct (transp w g) as [|c0 cs] eqn:E; [easy|]. cbn in I. destruct I as [<- | I].
      * destruct Ix as [<- | Ix]; [exists (y :: r); split; [now left|now left]|].
        destruct (IH w c0 x) as (r' & I1 & I2); [rewrite E; now left|exact Ix|]. exists r'. split; [now right|exact I2].
      * clear IHr. assert (J : exists c', In c' cs /\ exists z, In z r /\ c = z :: c').
        { clear - I. revert cs I. induction r as [|z r IHr]; intros [|c1 cs] I; try easy. cbn in I. destruct I as [<- | I].
          - exists c1. split; [now left|]. exists z. split; [now left|reflexivity].
          - destruct (IHr cs I) as (c' & A & z' & B & C). exists c'. split; [now right|]. exists z'. split; [now right|exact C]. }
        destruct J as (c' & Ic & z & Iz & ->). destruct Ix as [<- | Ix]; [exists (y :: r); split; [now left|now right]|].
        destruct (IH w c' x) as (r' & I1 & I2); [rewrite E; now right|exact Ix|]. exists r'. split; [now right|exact I2]. Qed.

Section Narrow.
  Context {L H A L2 H2 B : Type}.
  Variables (leqb : L -> L -> bool) (heqb : H -> H -> bool).
  Variables (g g' : df L H A -> res (df L2 H2 B)).
  Hypothesis E : forall t, ncols t <= 1 -> g t = g' t.
  Definition narrow (row : list (df L H A)) : Prop := list_sum (map ncols row) <= 1.
  Lemma narrow_in row t : narrow row -> In t row -> ncols t <= 1.
  Proof. unfold narrow. induction row as [|x row IH]; [easy|]. cbn [map]. rewrite list_sum_cons. intros N [<- | I]; [lia|]. apply IH; auto. lia. Qed.

  Lemma deploy_ext_on axis ns keep parts m lens manual : (forall t, concat_axis leqb heqb axis parts = Ok t -> ncols t <= 1) ->
    deploy_axis_func leqb heqb axis g ns keep parts m lens manual = deploy_axis_func leqb heqb axis g' ns keep parts m lens manual.
  Proof. intros F. unfold deploy_axis_func. destruct (concat_axis leqb heqb axis parts); auto. cbn [rbind]. now rewrite E by auto. Qed.
  Lemma concat_row_narrow parts t : narrow parts -> concat_axis leqb heqb true parts = Ok t -> ncols t <= 1.
  Proof. unfold narrow, concat_axis, concat_cols. destruct parts as [|d ds]; [easy|]. destruct (forallb _ _); [|easy]. intros N [= <-].
    enough (X : forall l : list (df L H A), length (concat (map dcols l)) = list_sum (map ncols l)) by (unfold ncols at 1; etransitivity; [apply Nat.eq_le_incl, (X (d :: ds))|exact N]).
    clear.
    induction l as [|x l IH]; [reflexivity|]. cbn [map concat]. rewrite app_length, list_sum_cons, IH. reflexivity. Qed.
  Lemma concat_col_narrow (parts : list (df L H A)) t : (forall x, In x parts -> ncols x <= 1) -> concat_axis leqb heqb false parts = Ok t -> ncols t <= 1.
  Proof. unfold concat_axis, concatenate. destruct parts as [|d ds]; [easy|]. destruct (forallb _ _); [|easy]. intros F [= <-]. apply (F d). now left. Qed.
  Lemma in_transp_narrow (grid : list (list (df L H A))) w col : Forall narrow grid -> In col (transp w grid) -> forall x, In x col -> ncols x <= 1.
  Proof. intros F I x Ix. destruct (@in_transp _ grid w col x I Ix) as (r & Ir & Jr). rewrite Forall_forall in F. exact (@narrow_in r x (F r Ir) Jr). Qed.

  Lemma map_axis_ext_on nparts m axis grid keep ns lens : Forall narrow grid ->
    map_axis_partitions leqb heqb nparts m axis grid g keep ns lens = map_axis_partitions leqb heqb nparts m axis grid g' keep ns lens.
  Proof. intros F. unfold map_axis_partitions. destruct (keep && _); auto. f_equal. apply RngProofs.rmap_ext. intros parts I. apply deploy_ext_on. intros t.
    destruct axis.
    - apply concat_row_narrow. rewrite Forall_forall in F. auto.
    - apply concat_col_narrow. eapply in_transp_narrow; eauto. Qed.
  Lemma map_partitions_ext_on dynamic cpus nparts mr mc grid : Forall narrow grid ->
    map_partitions leqb heqb dynamic cpus nparts mr mc grid g = map_partitions leqb heqb dynamic cpus nparts mr mc grid g'.
  Proof. intros F. unfold map_partitions. destruct dynamic; cbn [negb].
    - destruct grid as [|r0 rs] eqn:Eg; auto. rewrite <- Eg in *. destruct (_ =? 0); auto. destruct (negb _ && _); [|now apply map_axis_ext_on].
      unfold map_partitions_joined_by_column. destruct (_ <? 1); auto. f_equal. apply RngProofs.rmap_ext. intros i _. f_equal. apply RngProofs.rmap_ext. intros parts I.
      apply deploy_ext_on. intros t. apply concat_col_narrow. eapply in_transp_narrow; [|exact I]. apply Forall_forall. intros r Ir. apply slice_incl in Ir. rewrite Forall_forall in F. auto.
    - unfold base_map_partitions. apply RngProofs.rmap_ext. intros r Ir. apply RngProofs.rmap_ext. intros t It. apply E. rewrite Forall_forall in F. exact (@narrow_in r t (F r Ir) It). Qed.
  Lemma cut_narrow rl cl (d : df L H A) : list_sum cl = ncols d -> ncols d <= 1 -> Forall narrow (cut_table rl cl d).
  Proof. clear E g g'. intros Sc N. unfold cut_table. apply Forall_forall. intros r I. apply in_map_iff in I as (ri & <- & _). unfold narrow. rewrite map_map.
    enough (X : forall a cs, list_sum (map (fun ci => ncols (block d ri ci)) (bounds a cs)) <= list_sum cs) by (specialize (X 0 cl); lia).
    clear. intros a cs. revert a. induction cs as [|c cs IH]; intros a; [cbn; lia|]. cbn [bounds map]. rewrite !list_sum_cons. specialize (IH (a + c)).
    assert (ncols (block d ri (a, a + c)) <= c) by (unfold ncols, block; cbn [dcols fst snd]; unfold slice; rewrite firstn_length; lia). lia. Qed.
End Narrow.

Section Select.
  Context {L H A : Type}.
  Variables (leqb : L -> L -> bool) (heqb : H -> H -> bool).
  Hypothesis leqb_ok : forall x y, leqb x y = true <-> x = y.
  Hypothesis heqb_ok : forall x y, heqb x y = true <-> x = y.
  Lemma distinct_NoDup (l : list H) : FilSpec.distinct heqb l = true -> NoDup l.
  Proof. clear - heqb_ok. induction l as [|h l IH]; [constructor|]. cbn. intros E%andb_prop. destruct E as [E1 E2]. constructor; [|auto].
    intros I. apply negb_true_iff in E1. assert (X : existsb (heqb h) l = true) by (apply existsb_exists; exists h; split; [exact I|now apply heqb_ok]). congruence. Qed.
  Lemma lookup_nth (labels : list H) (row : list A) c p x : NoDup labels -> nth_error labels p = Some c -> nth_error row p = Some x ->
    lookup_by heqb c (combine labels row) = Some x.
  Proof. clear - heqb_ok. revert row p. induction labels as [|h labels IH]; intros [|y row] [|p] N E1 E2; try discriminate; cbn in *.
    - injection E1 as ->. injection E2 as ->. now rewrite (proj2 (heqb_ok c c) eq_refl).
    - inversion N as [|? ? Nh N']; subst. destruct (heqb c h) eqn:Ec; [|eapply IH; eauto]. apply heqb_ok in Ec as ->. exfalso. apply Nh. eapply nth_error_In; eauto. Qed.
End Select.
