(** How modin keeps several names of the same data in step: modin/pandas/base.py [_add_sibling] 265-280,
    [_update_inplace] 321-334, [copy] 1303-1311; modin/pandas/series.py [_update_inplace] 2704-2719;
    modin/pandas/dataframe.py [__init__] 160-181, [_getitem_column] 2614-2636, [__setitem__] 2733-2868;
    modin/pandas/indexing.py [_helper_for__getitem__] 793-806, [_iLocIndexer.__getitem__] 1116-1127,
    [_LocIndexer.__setitem__] 853-897, [_setitem_positional] 486-530, [_determine_setitem_axis] 532-583;
    modin/numpy/arr.py [__init__] 167-227, [_add_sibling] 257-272, [_update_inplace] 274-287.

    Simplified: a query compiler is the table it stands for (the blocks behind it and the operations on them are
    the subject of C06, C37-C39, C54, C60, C67 and C71); of an exception only its effect on the state is kept;
    sibling lists are not garbage collected (they hold strong references in the code too). *)
From Verif Require Import Base AliSpec.

Section Model.
Variables (L A : Type) (leqb : L -> L -> bool) (nan zero : A) (lab : nat -> L).
Notation table := (table L A).
Notation op := (op L A).

(** An object: the query compiler it refers to, [_siblings], [_parent] and whether [_parent_axis] is 1. *)
Record mobj := MObj { m_kind : kind; m_qc : nat; m_sibs : list nat; m_parent : option (nat * bool) }.
Record mst := MSt { m_qcs : list table; m_objs : list mobj }.

Definition mdead : mobj := MObj Frame 0 [] None.
Definition empty_table : table := Tab [] [] [].
Definition mobject (s : mst) (o : nat) : mobj := nth o (m_objs s) mdead.
Definition known (s : mst) (o : nat) : bool := o <? length (m_objs s).
(** What the user sees through the name [o]. *)
Definition mread (s : mst) (o : nat) : table :=
  if known s o then nth (m_qc (mobject s o)) (m_qcs s) empty_table else empty_table.
Definition mkind (s : mst) (o : nat) : kind := m_kind (mobject s o).

(** A new query compiler with a new object for it; dataframe.py 157-160, series.py 133-136: [_siblings = []]. *)
Definition create (s : mst) (k : kind) (t : table) (par : option (nat * bool)) : mst :=
  MSt (m_qcs s ++ [t]) (m_objs s ++ [MObj k (length (m_qcs s)) [] par]).
(** A call that raises before making anything; the number is used up (see [op]). *)
Definition nothing (s : mst) (k : kind) : mst := create s k empty_table None.

Definition more_sibs (s : mst) (o : nat) (l : list nat) : mst :=
  MSt (m_qcs s) (map (fun p => if fst p =? o then MObj (m_kind (snd p)) (m_qc (snd p)) (m_sibs (snd p) ++ l) (m_parent (snd p))
                               else snd p)
                     (combine (seq 0 (length (m_objs s))) (m_objs s))).
(** base.py [_add_sibling] 276-280:
      sibling._siblings = self._siblings + [self]; self._siblings += [sibling]
      for sib in self._siblings: sib._siblings += [sibling]
    The list that is iterated over grows by one [sibling] whenever it meets [self] itself. *)
Definition add_sibling (s : mst) (self sib : nat) : mst :=
  let old := m_sibs (mobject s self) in
  let s1 := more_sibs s sib (old ++ [self]) in
  let s2 := more_sibs s1 self [sib] in
  fold_left (fun st x => more_sibs st x [sib])
            (old ++ [sib] ++ repeat sib (length (filter (fun x => x =? self) old))) s2.

(** base.py [_update_inplace] 330-333 / arr.py 283-286: a new query compiler for [self] and every sibling. *)
Definition replace_qc (s : mst) (o : nat) (t : table) : mst :=
  let q := length (m_qcs s) in
  let hit := o :: m_sibs (mobject s o) in
  MSt (m_qcs s ++ [t])
      (map (fun p => if existsb (Nat.eqb (fst p)) hit
                     then MObj (m_kind (snd p)) q (m_sibs (snd p)) (m_parent (snd p)) else snd p)
           (combine (seq 0 (length (m_objs s))) (m_objs s))).

(** Bring the values of a Series to other labels; query_compiler.py [insert_item] with how=None and
    [reindex]: equal labels are left alone, repeated ones raise, missing ones give NaN. *)
Definition align (to from : list L) (vals : list A) : option (list A) :=
  if list_eqb leqb from to then Some vals
  else if forallb (fun l => times leqb l from <=? 1) from
       then Some (map (fun l => match where_ leqb l from with Some i => nth i vals nan | None => nan end) to)
       else None.

Definition first_col (t : table) : list A := match t_cols t with c :: _ => c | [] => [] end.
Definition has_cells (t : table) : bool := negb (length (t_rows t) =? 0) && negb (length (t_cols t) =? 0).

Definition row_set (i : nat) (row : list A) (t : table) : table :=
  Tab (t_rows t) (t_names t) (map2 (fun c v => put i v c) (t_cols t) row).
Definition row_added (l : L) (t : table) : table :=
  Tab (t_rows t ++ [l]) (t_names t) (map (fun c => c ++ [zero]) (t_cols t)).

(** series.py [_update_inplace] 2713-2719: after the update the parent gets the Series back,
      parent_axis 1:  parent[self.name] = self       (dataframe.py [__setitem__]: [setitem] or [insert])
      parent_axis 0:  parent.loc[self.name] = self   (indexing.py 853-897: a label that is missing is added with
                      zeros first; one column: [write_items] on [item.reindex([name])]; else a whole row)
    [upd] is the parent's own [_update_inplace].  Left alone: repeated names, frames without cells. *)
Definition give_back (upd : nat -> table -> mst -> mst) (o p : nat) (column : bool) (s : mst) : mst :=
  let t := mread s o in
  let pt := mread s p in
  match t_names t with
  | [] => s
  | name :: _ =>
      if column then
        match times leqb name (t_names pt) <=? 1, length (t_cols pt) =? 0, align (t_rows pt) (t_rows t) (first_col t) with
        | true, false, Some vals => upd p (item_set leqb name vals pt) s
        | _, _, _ => s
        end
      else if has_cells pt then
        let set_row (s : mst) :=
          let pt := mread s p in
          match where_ leqb name (t_rows pt) with
          | Some i =>
              if (length (t_cols pt) =? 1) && negb (length (t_rows pt) =? 1) then
                match align [name] (t_rows t) (first_col t) with
                | Some vals => upd p (row_set i vals pt) s
                | None => s
                end
              else
                match align (t_names pt) (t_rows t) (first_col t) with
                | Some vals => upd p (row_set i vals pt) s
                | None => s
                end
          | None => s
          end in
        match times leqb name (t_rows pt) with
        | 0 => if forallb (fun l => times leqb l (t_rows pt) <=? 1) (t_rows pt)
               then set_row (upd p (row_added name pt) s) else s
        | 1 => set_row s
        | _ => s
        end
      else s
  end.

(** [_update_inplace]; the recursion goes from a Series to its parent, which is an older object. *)
Fixpoint update (fuel o : nat) (t : table) (s : mst) : mst :=
  let s1 := replace_qc s o t in
  match fuel with
  | 0 => s1
  | S fuel =>
      match mkind s o, m_parent (mobject s o) with
      | Ser, Some (p, column) => give_back (update fuel) o p column s1
      | _, _ => s1
      end
  end.
Definition update_inplace (o : nat) (t : table) (s : mst) : mst := update (length (m_objs s)) o t s.

(** The labels of a query compiler are changed where it is: base.py [_set_index] 667-676, dataframe.py
    [_set_columns] 324-333, series.py [_set_name] 199-214. *)
Definition relabel (o : nat) (t : table) (s : mst) : mst :=
  if known s o then MSt (put (m_qc (mobject s o)) t (m_qcs s)) (m_objs s) else s.

(** arr.py 219-220: an array forgets the labels. *)
Definition unlabelled (t : table) : table :=
  Tab (map lab (seq 0 (length (t_rows t)))) (map lab (seq 0 (length (t_cols t)))) (t_cols t).

Definition m_step (s : mst) (x : op) : mst :=
  let next := length (m_objs s) in
  match x with
  | New k t => create s k t None
  | DeepCopy o =>                        (* base.py 1307-1308: query_compiler.copy(); arr.py 171-175, 219-220 *)
      create s (mkind s o) (if is_array (mkind s o) then unlabelled (mread s o) else mread s o) None
  | ShallowCopy o =>                     (* base.py 1309-1311: the same query compiler; arr.py 171-175, 219-220 *)
      if known s o then
        add_sibling (if is_array (mkind s o) then create s Arr (unlabelled (mread s o)) None
                     else MSt (m_qcs s) (m_objs s ++ [MObj (mkind s o) (m_qc (mobject s o)) [] None])) o next
      else nothing s (mkind s o)
  | Construct o =>                       (* dataframe.py 161-162, 180-181: a copy of the query compiler *)
      if is_frame (mkind s o) then
        if known s o then add_sibling (create s Frame (mread s o) None) o next else nothing s Frame
      else nothing s Frame
  | AsArray o =>                         (* arr.py 176-180, 219-220 *)
      if known s o then add_sibling (create s Arr (unlabelled (mread s o)) None) o next
      else nothing s Arr
  | Column o l =>                        (* dataframe.py 2628-2635; a repeated label gives a DataFrame instead *)
      match is_frame (mkind s o), times leqb l (t_names (mread s o)), where_ leqb l (t_names (mread s o)) with
      | true, 1, Some j =>
          match nth_error (t_cols (mread s o)) j with
          | Some c => create s Ser (Tab (t_rows (mread s o)) [l] [c]) (Some (o, true))
          | None => nothing s Ser
          end
      | _, _, _ => nothing s Ser
      end
  | IlocColumn o j =>                    (* indexing.py 1116-1126: _parent_axis = 0 *)
      match is_frame (mkind s o), nth_error (t_cols (mread s o)) j, nth_error (t_names (mread s o)) j with
      | true, Some c, Some l => create s Ser (Tab (t_rows (mread s o)) [l] [c]) (Some (o, false))
      | _, _, _ => nothing s Ser
      end
  | Slice o a b =>                       (* the same lines; self.df is the Series *)
      match is_series (mkind s o), t_cols (mread s o) with
      | true, [c] => create s Ser (Tab (slice (t_rows (mread s o)) a b) (t_names (mread s o)) [slice c a b])
                            (Some (o, false))
      | _, _ => nothing s Ser
      end
  | Write o i j v =>                     (* indexing.py 526-528: write_items, then update in place *)
      if in_table i j (mread s o) then update_inplace o (cell_set i j v (mread s o)) s else s
  | SetItem o l vals =>                  (* dataframe.py 2759-2763 (insert) and 2867-2868 (setitem) *)
      if is_frame (mkind s o) && can_set leqb l vals (mread s o)
      then update_inplace o (item_set leqb l vals (mread s o)) s else s
  | KeepRows o ks =>                     (* base.py drop: _create_or_update_from_compiler(..., inplace) *)
      if is_array (mkind s o) then s else update_inplace o (rows_kept ks (mread s o)) s
  | SetNames o ls =>
      if negb (is_array (mkind s o)) && (length ls =? length (t_names (mread s o)))
      then relabel o (Tab (t_rows (mread s o)) ls (t_cols (mread s o))) s else s
  | SetRows o ls =>
      if negb (is_array (mkind s o)) && (length ls =? length (t_rows (mread s o)))
      then relabel o (Tab ls (t_names (mread s o)) (t_cols (mread s o))) s else s
  end.
Definition m_run (h : list op) : mst := fold_left m_step h (MSt [] []).

End Model.
