(** C55: a session of label assignments and reads, as pandas runs it.

    The session holds several tables; each action addresses one by its number.  Assigning labels
    changes that table in place; the other actions leave it alone and may add a new table. *)
From Verif Require Import Base Table GridSpec.

Section LabSpec.
  Context {L A : Type}.
  Variable leqb : L -> L -> bool.
  (** the row label number [i] of a fresh table (0, 1, 2, ...), a row label stored as a cell, and the
      label of the single row (column) of a reduction *)
  Variable of_pos : nat -> L.
  Variable cell_of : L -> A.
  Variable unnamed : L.
  Notation dframe := (df L L A).

  Inductive act : Type :=
  | SetIndex (l : list L)                     (* df.index = l *)
  | SetColumns (l : list L)                   (* df.columns = l *)
  | Copy                                      (* df.copy() *)
  | Transpose                                 (* df.T *)
  | MapCells (f : L -> L -> A -> A)           (* a function of row label, column label and cell *)
  | FoldAxis (axis : bool) (F : dframe -> dframe)  (* cumsum, ...: along the columns (false) or rows (true) *)
  | Reduce (axis : bool) (magg ragg agg : list A -> A)  (* sum, ...: shows one value per column (row) *)
  | ResetIndex (name : L)                     (* df.reset_index(), the index being called [name] *)
  | Read.                                     (* shows the table *)

  (** What the user sees. *)
  Inductive obs : Type := Done | Shown (d : dframe) | Raised (e : err).

  (** The transposed table. *)
  Definition flip (d : dframe) : dframe := mkdf (dcols d) (dindex d) (columns d).

  Definition reset (name : L) (d : dframe) : dframe :=
    mkdf (map of_pos (seq 0 (nrows d))) (name :: dcols d)
         (map2 (fun l row => cell_of l :: row) (dindex d) (dcells d)).

  (** The table afterwards, the tables added, and what is seen. *)
  Definition pandas_act (a : act) (d : dframe) : res (dframe * list dframe * obs) :=
    match a with
    | SetIndex l =>
        if length l =? nrows d then Ok (mkdf l (dcols d) (dcells d), [], Done) else Err ValueError
    | SetColumns l =>
        if length l =? ncols d then Ok (mkdf (dindex d) l (dcells d), [], Done) else Err ValueError
    | Copy => Ok (d, [d], Done)
    | Transpose => Ok (d, [flip d], Done)
    | MapCells f => Ok (d, [cellwise f (fun h => h) d], Done)
    | FoldAxis _ F => Ok (d, [F d], Done)
    | Reduce axis _ _ agg =>
        Ok (d, [], Shown (if axis then reduce_rows unnamed agg d else reduce_columns unnamed agg d))
    | ResetIndex name =>
        if existsb (leqb name) (dcols d) then Err ValueError else Ok (d, [reset name d], Done)
    | Read => Ok (d, [], Shown d)
    end.

  (** A session of any implementation [run_act] of the actions. *)
  Fixpoint replace_nth {T} (k : nat) (x : T) (s : list T) : list T :=
    match k, s with
    | _, [] => []
    | 0, _ :: s => x :: s
    | S k, y :: s => y :: replace_nth k x s
    end.
  Fixpoint session {T} (run_act : act -> T -> res (T * list T * obs)) (s : list T)
      (p : list (nat * act)) : list obs :=
    match p with
    | [] => []
    | (k, a) :: p =>
        match nth_error s k with
        | None => Raised KeyError :: session run_act s p
        | Some x =>
            match run_act a x with
            | Err e => Raised e :: session run_act s p
            | Ok (x', new, o) => o :: session run_act (replace_nth k x' s ++ new) p
            end
        end
    end.

  (** Whether the labels of a table are settled: no label has been assigned since it was last read.
      Given whether they are before the action, whether they are afterwards, for the table and for
      the tables added. *)
  Definition settle (a : act) (b : bool) : bool * list bool :=
    match a with
    | SetIndex _ | SetColumns _ => (false, [])
    | Copy | Transpose | MapCells _ => (b, [b])
    | FoldAxis _ _ => (true, [true])
    | Reduce _ _ _ _ => (b, [])
    | ResetIndex _ => (b, [false])
    | Read => (true, [])
    end.

  (** The actions covered: the mapped function does not look at labels, unless they are settled; the
      folded function keeps the labels and works column by column (row by row); partial aggregates
      combine; the tables reduced are not empty; the index is not called like a column. *)
  Definition act_ok (a : act) (d : dframe) (settled : bool) : Prop :=
    match a with
    | MapCells f => settled = true \/ forall l h l' h' x, f l h x = f l' h' x
    | FoldAxis axis F => (if axis then row_wise F else column_wise F)
        /\ (forall t, dindex (F t) = dindex t) /\ (forall t, dcols (F t) = dcols t)
    | Reduce _ magg ragg agg => tree_law magg ragg agg /\ 0 < nrows d /\ 0 < ncols d
    | ResetIndex name => ~ In name (dcols d)
    | _ => True
    end.
  Fixpoint session_ok (s : list (dframe * bool)) (p : list (nat * act)) : Prop :=
    match p with
    | [] => True
    | (k, a) :: p =>
        match nth_error s k with
        | None => session_ok s p
        | Some (d, b) => act_ok a d b /\
            match pandas_act a d with
            | Err _ => session_ok s p
            | Ok (d', new, _) =>
                session_ok (replace_nth k (d', fst (settle a b)) s ++ combine new (snd (settle a b))) p
            end
        end
    end.
End LabSpec.
