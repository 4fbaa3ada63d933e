(** C57, the specification: the pieces of a table handed to and taken from other libraries. *)
From Verif Require Import Base Table ChunkSpec JoinSpec.

Section PartSpec.
  Context {L H A : Type}.
  Notation dframe := (df L H A).

  (** blocks ([axis=None]), row partitions ([axis=0]), column partitions ([axis=1]) *)
  Inductive parts : Type :=
  | Blocks (g : list (list dframe))
  | Rows (ps : list dframe)
  | Cols (ps : list dframe).

  Definition kind (p : parts) : option bool :=
    match p with Blocks _ => None | Rows _ => Some false | Cols _ => Some true end.

  (** The pieces are the table: row partitions below each other, column partitions side by side, blocks cut
      at common rows and columns.  Every piece has the labels of its rows and columns. *)
  Definition pieces (p : parts) (d : dframe) : Prop :=
    match p with
    | Blocks g => wf d /\ exists rl cl, rl <> [] /\ cl <> [] /\ list_sum rl = nrows d /\ list_sum cl = ncols d
                    /\ g = cut_table rl cl d
    | Rows ps => ps <> [] /\ Forall (fun q => wf q /\ dcols q = dcols d) ps /\ d = stack (dcols d) ps
    | Cols ps => ps <> [] /\ Forall (fun q => wf q /\ dindex q = dindex d) ps /\ d = glue (dindex d) ps
    end.
End PartSpec.
