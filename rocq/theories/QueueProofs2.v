(** Proofs about the queues of full-axis partitions (C30). *)
From Verif Require Import Base Table ChunkModel ChunkProofs GridModel GridProofs QueueSpec QueueModel QueueProofs.

Section Axis.
  Context {L H A F : Type}.
  Variable leqb : L -> L -> bool.
  Variable heqb : H -> H -> bool.
  Hypothesis leqb_ok : forall x y, leqb x y = true <-> x = y.
  Hypothesis heqb_ok : forall x y, heqb x y = true <-> x = y.
  Notation dframe := (df L H A).
  Variable call : F -> dframe -> res dframe.
  Hypothesis call_wf : forall f d d', wf d -> call f d = Ok d' -> wf d'.
  Variable axis : bool.
  Variable m : nat.
  Hypothesis m_pos : 0 < m.

  Lemma run_queue_wf q : forall d d', wf d -> run_queue call q d = Ok d' -> wf d'.
  Proof.
    induction q as [|f q IH]; intros d d' W E; cbn in E; [now injection E as <-|].
    destruct (call f d) as [e|] eqn:Ef; [|discriminate]. cbn in E. eauto.
  Qed.

  (** The data of an axis partition before its own queue: its blocks joined. *)
  Definition holds_data (a : axpart (L := L) (H := H) (A := A) (F := F)) (d : dframe) : Prop :=
    exists ds, rmap (pval call) (a_blocks a) = Ok ds /\ concat_axis leqb heqb axis ds = Ok d /\ wf d.

  Lemma list_of_blocks_ok bs ds : rmap (pval call) bs = Ok ds ->
    exists bs', list_of_blocks call bs = (bs', Ok ds) /\ rmap (pval call) bs' = Ok ds /\ length bs' = length bs.
  Proof.
    revert ds; induction bs as [|b bs IH]; intros ds E; cbn in *.
    - injection E as <-. exists []. auto.
    - destruct (pval call b) as [v|] eqn:Eb; [|discriminate]. cbn in E.
      destruct (rmap (pval call) bs) as [vs|]; [|discriminate]. cbn in E. injection E as <-.
      destruct (IH vs eq_refl) as (bs' & E1 & E2 & E3).
      destruct (py_drain_val call b) as [D1 D2]. rewrite Eb in *.
      destruct (py_drain call b) as [b' r]. cbn in *. rewrite D1, E1.
      destruct D2 as [D2 D3]; [now exists v|]. injection D3 as D3.
      exists (b' :: bs'). split; [now rewrite D3|]. cbn. rewrite D2, E2. cbn. auto.
  Qed.

  Lemma concat_axis_join bs (d : dframe) : bs <> [] ->
    join_blocks leqb heqb axis bs = Ok d -> concat_axis leqb heqb axis bs = Ok d.
  Proof.
    unfold join_blocks, concat_axis. intros Hne. destruct axis; auto. intros ->. now destruct bs.
  Qed.

  Lemma concat_axis_ne ds (d : dframe) : concat_axis leqb heqb axis ds = Ok d -> ds <> [].
  Proof. intros E ->. unfold concat_axis, concat_cols in E. now destruct axis. Qed.

  Lemma rmap_length {X Y} (f : X -> res Y) l r : rmap f l = Ok r -> length r = length l.
  Proof. revert r; induction l as [|x l IH]; intros r E; cbn in E.
    - now injection E as <-.
    - destruct (f x); [|discriminate]. cbn in E. destruct (rmap f l); [|discriminate]. cbn in E.
      injection E as <-. cbn. now rewrite (IH _ eq_refl). Qed.

  Lemma deploy_ok (func : dframe -> res dframe) ns maintain (ds : list dframe) d d' :
    concat_axis leqb heqb axis ds = Ok d -> func d = Ok d' -> wf d' -> 0 < ns ->
    exists out, deploy_axis_func leqb heqb axis func ns maintain ds m None false = Ok out
      /\ length out = ns /\ concat_axis leqb heqb axis out = Ok d'.
  Proof.
    intros Ed Ef W Hns. unfold deploy_axis_func. rewrite Ed. cbn. rewrite Ef. cbn.
    destruct (Nat.eqb_spec ns 1) as [->|Hn1].
    { destruct (split_formula leqb heqb leqb_ok heqb_ok axis W Hns m_pos) as (l & bs & _ & Eb & Hl & _ & Hj & _).
      exists bs. repeat split; auto. apply concat_axis_join; auto. now destruct bs. }
    destruct (negb (ns =? length ds) || negb maintain) eqn:E1.
    { destruct (split_formula leqb heqb leqb_ok heqb_ok axis W Hns m_pos) as (l & bs & _ & Eb & Hl & _ & Hj & _).
      exists bs. repeat split; auto. apply concat_axis_join; auto. destruct bs; [cbn in Hl; lia|easy]. }
    destruct (Nat.eqb_spec (list_sum (map (axis_size axis) ds)) (axis_size axis d')) as [Es|Es].
    - apply orb_false_iff in E1 as [E1 _]. apply negb_false_iff, Nat.eqb_eq in E1.
      destruct (split_given leqb heqb leqb_ok heqb_ok axis m (map (axis_size axis) ds) W Hns) as (bs & Eb & Hl & _ & Hj & _).
      { now rewrite map_length. } { exact Es. }
      exists bs. repeat split; auto. apply concat_axis_join; auto. destruct bs; [cbn in Hl; lia|easy].
    - destruct (split_formula leqb heqb leqb_ok heqb_ok axis W Hns m_pos) as (l & bs & _ & Eb & Hl & _ & Hj & _).
      exists bs. repeat split; auto. apply concat_axis_join; auto. destruct bs; [cbn in Hl; lia|easy].
  Qed.

  Lemma deploy_err (func : dframe -> res dframe) ns maintain (ds : list dframe) d e :
    concat_axis leqb heqb axis ds = Ok d -> func d = Err e ->
    deploy_axis_func leqb heqb axis func ns maintain ds m None false = Err e.
  Proof. intros Ed Ef. unfold deploy_axis_func. rewrite Ed. cbn. now rewrite Ef. Qed.

  Lemma fresh_vals (out : list dframe) : rmap (pval call) (map (fun d => mkpart d []) out) = Ok out.
  Proof. induction out as [|d out IH]; cbn; auto. now rewrite IH. Qed.

  Lemma apply_drained a d func ns maintain :
    holds_data a d -> a_queue a = [] -> ns <> Some 0 ->
    (forall d', func d = Ok d' -> wf d') ->
    let '(a', r) := axis_apply_drained leqb heqb call m axis a func ns maintain in
    holds_data a' d /\ a_queue a' = [] /\ a_full a' = a_full a /\ length (a_blocks a') = length (a_blocks a) /\
    match func d with
    | Err e => r = Err e
    | Ok d' => exists bs, r = Ok bs /\ holds_data (mkax bs [] (a_full a)) d'
               /\ (ns = Some 1 \/ a_full a = false -> bs = [mkpart d' []])
    end.
  Proof.
    intros (ds & E1 & E2 & W) Hq Hns Hf. unfold axis_apply_drained.
    destruct (list_of_blocks_ok _ E1) as (bs' & E3 & E4 & E5). rewrite E3.
    assert (Hlen : length bs' = length ds) by (rewrite (rmap_length _ _ E1); auto).
    assert (Hne := concat_axis_ne E2).
    set (n := match (if a_full a then ns else Some 1) with Some n => n | None => length bs' end).
    assert (Hn : 0 < n).
    { unfold n. destruct (a_full a); [|lia]. destruct ns as [[|k]|]; [easy|lia|].
      rewrite Hlen. destruct ds; [easy|cbn; lia]. }
    destruct (func d) as [d'|e] eqn:Ef.
    - destruct (deploy_ok func maintain ds E2 Ef (Hf _ eq_refl) Hn) as (out & Eo & Hl & Hc). rewrite Eo.
      split; [exists ds; auto|]. split; [auto|]. split; [auto|]. split; [auto|].
      assert (Hone : n = 1 -> out = [d']).
      { intros En. revert Eo. unfold deploy_axis_func. rewrite E2. cbn. rewrite Ef. cbn.
        rewrite En. cbn. unfold split_result_of_axis_func. cbn. now intros [= <-]. }
      destruct (a_full a) eqn:Efull.
      + eexists; split; [reflexivity|]. split.
        * exists out. cbn [a_blocks]. rewrite fresh_vals. auto.
        * intros [->|]; [|discriminate]. now rewrite Hone.
      + rewrite (Hone eq_refl) in *. eexists; split; [reflexivity|]. split; auto.
        exists [d']. cbn. auto.
    - rewrite (deploy_err func n maintain ds E2 Ef).
      split; [exists ds; auto|]. auto.
  Qed.

  (** Draining keeps the value of the partition and its queue when it raises. *)
  Lemma axis_drain_ok a d : holds_data a d ->
    let '(a', r) := axis_drain leqb heqb call m axis a in
    match run_queue call (a_queue a) d with
    | Ok d' => r = Ok tt /\ a_queue a' = [] /\ holds_data a' d' /\ a_full a' = a_full a
    | Err e => r = Err e /\ a_queue a' = a_queue a /\ holds_data a' d /\ a_full a' = a_full a
    end.
  Proof.
    intros Hd. unfold axis_drain. destruct (a_queue a) as [|f q] eqn:Eq.
    - destruct Hd as (ds & E1 & E2 & W). destruct (list_of_blocks_ok _ E1) as (bs' & E3 & E4 & E5).
      rewrite E3. cbn. repeat split; auto. exists ds; auto.
    - assert (W : wf d) by (destruct Hd as (? & _ & _ & ?); auto).
      set (a0 := mkax (a_blocks a) [] (a_full a)).
      assert (Hd0 : holds_data a0 d) by exact Hd.
      assert (G := apply_drained (run_queue call (f :: q)) true Hd0 eq_refl (ns := None) ltac:(easy)
                     (fun d' => run_queue_wf (f :: q) W (d' := d'))).
      destruct (axis_apply_drained leqb heqb call m axis a0 (run_queue call (f :: q)) None true) as [a' r].
      destruct G as (G1 & G2 & G3 & G4 & G5).
      destruct (run_queue call (f :: q) d) as [d'|e].
      + destruct G5 as (bs & -> & G5 & _). cbn. auto.
      + subst r. cbn. repeat split; auto.
  Qed.

  Lemma axis_to_pandas_ok a d : holds_data a d ->
    let '(a', r) := axis_to_pandas leqb heqb call m axis a in
    r = run_queue call (a_queue a) d /\ a_full a' = a_full a /\
    match run_queue call (a_queue a) d with
    | Ok d' => a_queue a' = [] /\ holds_data a' d'
    | Err e => a_queue a' = a_queue a /\ holds_data a' d
    end.
  Proof.
    intros Hd. unfold axis_to_pandas, axis_apply. assert (G := axis_drain_ok Hd).
    assert (W : wf d) by (destruct Hd as (? & _ & _ & ?); auto).
    assert (K : forall a1 d1, holds_data a1 d1 -> a_queue a1 = [] ->
      let '(a', r) := axis_apply_drained leqb heqb call m axis a1 (fun x => Ok x) (Some 1) false in
      exists b, r = Ok [b] /\ snd (py_get call b) = Ok d1 /\ a_queue a' = [] /\ a_full a' = a_full a1
                /\ holds_data (mkax [b] [] (a_full a1)) d1).
    { intros a1 d1 H1 Hq.
      assert (W1 : wf d1) by (destruct H1 as (? & _ & _ & ?); auto).
      assert (G1 := apply_drained (fun x => Ok x) false H1 Hq (ns := Some 1) ltac:(easy)
                      ltac:(intros d' [= <-]; exact W1)).
      destruct (axis_apply_drained leqb heqb call m axis a1 (fun x => Ok x) (Some 1) false) as [a' r].
      destruct G1 as (H2 & H3 & H4 & _ & bs & -> & H6 & H7). rewrite H7 in * by auto.
      eexists; split; [reflexivity|]. auto. }
    destruct (a_queue a) as [|f q] eqn:Eq.
    - specialize (K a d Hd Eq).
      destruct (axis_apply_drained leqb heqb call m axis a (fun x => Ok x) (Some 1) false) as [a' r].
      destruct K as (b & -> & K1 & K2 & K3 & K4). cbn [run_queue]. rewrite K3, K2. auto.
    - destruct (axis_drain leqb heqb call m axis a) as [a1 r1].
      destruct (run_queue call (f :: q) d) as [d'|e].
      + destruct G as (-> & G2 & G3 & G4). specialize (K a1 d' G3 G2).
        destruct (axis_apply_drained leqb heqb call m axis a1 (fun x => Ok x) (Some 1) false) as [a' r].
        destruct K as (b & -> & K1 & K2 & K3 & K4). rewrite K3, K2, <- G4. auto.
      + destruct G as (-> & G2 & G3 & G4). auto.
  Qed.

  Lemma axis_play_ok ops : forall a d, holds_data a d ->
    axis_play leqb heqb call m axis a ops = axis_eager call (run_queue call (a_queue a) d) ops.
  Proof.
    induction ops as [|[f| |] ops IH]; intros a d Hd; cbn [axis_play axis_eager]; [reflexivity| | |].
    - f_equal. rewrite (IH (axis_add a f) d Hd). unfold axis_add; cbn [a_queue]. now rewrite run_queue_app.
    - assert (G := axis_drain_ok Hd). destruct (axis_drain leqb heqb call m axis a) as [a' r].
      destruct (run_queue call (a_queue a) d) as [d'|e] eqn:E.
      + destruct G as (-> & G2 & G3 & _). cbn. rewrite (IH _ _ G3), G2. reflexivity.
      + destruct G as (-> & G2 & G3 & _). cbn. rewrite (IH _ _ G3), G2, E. reflexivity.
    - assert (G := axis_to_pandas_ok Hd). destruct (axis_to_pandas leqb heqb call m axis a) as [a' r].
      destruct G as (-> & _ & G). destruct (run_queue call (a_queue a) d) as [d'|e] eqn:E.
      + destruct G as (G2 & G3). cbn. rewrite (IH _ _ G3), G2. reflexivity.
      + destruct G as (G2 & G3). cbn. rewrite (IH _ _ G3), G2, E. reflexivity.
  Qed.
End Axis.
