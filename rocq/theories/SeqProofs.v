(** Proofs for C91. *)
From Verif Require Import Base Table ChunkModel ChunkSpec ChunkProofs GridSpec GridModel FrameSpec GridProofs GridProofs2 GridProofs3 GridProofs4 GridProofs5 JoinSpec JoinModel JoinProofs JoinProofs2 JoinProofs3 JoinProofs4 JoinProofs5 JoinProofs6
  SelSpec SelModel SelProofs5 InsModel InsProofs2 EquSpec EquModel EquProofs SeqSpec SeqModel.

Section Proofs.
  Context {L H A : Type}.
  Variable leqb : L -> L -> bool.
  Variable heqb : H -> H -> bool.
  Hypothesis heqb_ok : forall x y, heqb x y = true <-> x = y.
  Notation dframe := (df L H A).
  Notation pf := (@pframe L H A).
  Definition all_show (h : nat -> pf) (ts : nat -> dframe) : Prop := forall k, exists rl cl, shows (h k) (ts k) rl cl.
  Definition named (n : H) (d : dframe) : dframe := mkdf (dindex d) [n] (dcells d).

  Lemma set_name_ok h ts k n : all_show h ts -> ncols (ts k) = 1 ->
    exists h' f, set_name heqb h k n = Ok h' /\ (forall m, h' m = if m =? k then f else h m)
      /\ all_show h' (fun m => if m =? k then named n (ts k) else ts m)
      /\ (dcols (ts k) = [n] /\ f = h k \/ dcols (ts k) <> [n] /\ pcl f = None).
  Proof.
    intros S N. destruct (S k) as (rl & cl & Sk). unfold set_name.
    destruct (@set_columns_ok L H A heqb heqb_ok (h k) (ts k) rl cl [n] Sk (eq_sym N)) as (f & rl' & cl' & E & Sf).
    eexists. exists f. rewrite E. cbn [rbind]. split; [reflexivity|]. split; [reflexivity|]. split.
    - intros m. destruct (m =? k); [exists rl', cl'; exact Sf|apply S].
    - unfold set_columns in E. destruct Sk as (_ & _ & _ & _ & Pc). rewrite Pc in E. cbn [labels rbind] in E.
      destruct (list_eqb heqb (dcols (ts k)) [n]) eqn:X.
      + left. apply (list_eqb_spec heqb heqb_ok) in X. split; [assumption|congruence].
      + right. split; [intros Y; apply (list_eqb_spec heqb heqb_ok) in Y; congruence|].
        destruct (negb _); [discriminate|]. destruct (propagate_index_objs _ _); [|discriminate]. cbn [rbind] in E. injection E as <-. reflexivity. Qed.
End Proofs.
