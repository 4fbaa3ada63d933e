(** When a partitioned frame stands for a table. *)
From Verif Require Import Base Table ChunkSpec GridModel.

Section FrameSpec.
  Context {L H A : Type}.
  Notation dframe := (df L H A).
  Notation pf := (@pframe L H A).

  (** The blocks of [f] are the table [d] cut at row lengths [rl] and column widths [cl]; each
      length cache is unknown or true; the labels have the right length (they may differ from
      those stored in the blocks: labels are propagated lazily). *)
  Definition gridded (f : pf) (d : dframe) (rl cl : list nat) : Prop :=
    wf d /\ list_sum rl = nrows d /\ list_sum cl = ncols d
    /\ pgrid f = cut_table rl cl d
    /\ (forall i, pindex f = Some i -> length i = nrows d)
    /\ (forall c, pcols f = Some c -> length c = ncols d)
    /\ (prl f = None \/ prl f = Some rl)
    /\ (pcl f = None \/ pcl f = Some cl).

  (** ... and moreover the label caches are unknown or the labels of [d]. *)
  Definition holds (f : pf) (d : dframe) (rl cl : list nat) : Prop :=
    gridded f d rl cl
    /\ (pindex f = None \/ pindex f = Some (dindex d))
    /\ (pcols f = None \/ pcols f = Some (dcols d)).

  (** [d] with the row labels replaced ([axis] None or Some false) and/or the headers replaced
      ([axis] None or Some true). *)
  Definition relabel (axis : option bool) (idx : list L) (cols : list H) (d : dframe) : dframe :=
    mkdf (match axis with Some true => dindex d | _ => idx end)
         (match axis with Some false => dcols d | _ => cols end) (dcells d).
End FrameSpec.
