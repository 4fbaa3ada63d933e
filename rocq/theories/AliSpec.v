(** What a user of pandas (without copy-on-write, the default of the supported versions) and of NumPy relies on
    when several names stand for the same data.  Nothing here mentions modin's objects.

    A table is labels and columns.  An object is its own labels and, for every column, where its cells are: a
    buffer and the positions in it.  A deep copy has fresh buffers; a shallow copy, [DataFrame(df)], a selected
    column and a slice of a Series share buffers but not labels.  Writing into a cell writes into the buffer;
    assigning a whole column, dropping rows in place and assigning labels concern the object alone. *)
From Verif Require Import Base.

Section Spec.
Variables (L A : Type) (leqb : L -> L -> bool) (nan : A) (lab : nat -> L).

Record table := Tab { t_rows : list L; t_names : list L; t_cols : list (list A) }.

(** A table as a user can make one: every column as long as the rows, one name per column. *)
Definition proper (t : table) : Prop :=
  length (t_names t) = length (t_cols t) /\ Forall (fun c => length c = length (t_rows t)) (t_cols t).

Inductive kind := Frame | Ser | Arr.

(** The calls of a history.  Objects are numbered in the order of their creation; a call that creates an object
    always takes the next number (if it raises, the number stands for an empty table nobody shares). *)
Inductive op :=
| New (k : kind) (t : table)                    (** pd.DataFrame(data), pd.Series(data) *)
| DeepCopy (o : nat)                            (** o.copy(); modin.numpy.array(o) of an array *)
| ShallowCopy (o : nat)                         (** o.copy(deep=False); modin.numpy.array(o, copy=False) of an array *)
| Construct (o : nat)                           (** pd.DataFrame(o) of a DataFrame (of anything else: left out) *)
| AsArray (o : nat)                             (** modin.numpy.array(o, copy=False) *)
| Column (o : nat) (l : L)                      (** o[l] *)
| IlocColumn (o j : nat)                        (** o.iloc[:, j] *)
| Slice (o a b : nat)                           (** o.iloc[a:b] of a Series *)
| Write (o i j : nat) (v : A)                   (** o.iloc[i, j] = v (o.iloc[i] = v for a Series) *)
| SetItem (o : nat) (l : L) (vals : list A)     (** o[l] = vals *)
| KeepRows (o : nat) (ks : list nat)            (** o.drop(..., inplace=True): the rows [ks] remain *)
| SetNames (o : nat) (ls : list L)              (** o.columns = ls, s.name = l *)
| SetRows (o : nat) (ls : list L).              (** o.index = ls *)

Definition is_frame (k : kind) : bool := match k with Frame => true | _ => false end.
Definition is_series (k : kind) : bool := match k with Ser => true | _ => false end.
Definition is_array (k : kind) : bool := match k with Arr => true | _ => false end.

(** What sort of object a call makes, given the sorts of the objects so far. *)
Definition made (ks : nat -> kind) (x : op) : kind :=
  match x with
  | New k _ => k
  | DeepCopy o | ShallowCopy o => ks o
  | AsArray _ => Arr
  | Column _ _ | IlocColumn _ _ | Slice _ _ _ => Ser
  | _ => Frame
  end.

(** The object a new object shares data with; [views]: whether selected columns and slices count. *)
Definition shares (views : bool) (ks : nat -> kind) (x : op) : option nat :=
  match x with
  | ShallowCopy o | AsArray o => Some o
  | Construct o => if is_frame (ks o) then Some o else None
  | Column o _ | IlocColumn o _ | Slice o _ _ => if views then Some o else None
  | _ => None
  end.
Definition creates (x : op) : bool :=
  match x with
  | New _ _ | DeepCopy _ | ShallowCopy _ | Construct _ | AsArray _ | Column _ _ | IlocColumn _ _ | Slice _ _ _ => true
  | _ => false
  end.
(** The object a call is made on, if the call is an in-place one. *)
Definition target (x : op) : option nat :=
  match x with
  | Write o _ _ _ | SetItem o _ _ | KeepRows o _ | SetNames o _ | SetRows o _ => Some o
  | _ => None
  end.

(** Families: [fams views h] gives every object the number of the oldest object it was made from without
    copying. *)
Definition kind_step (ks : list kind) (x : op) : list kind :=
  if creates x then ks ++ [made (fun o => nth o ks Frame) x] else ks.
Definition kinds (h : list op) : list kind := fold_left kind_step h [].
Definition fam_step (views : bool) (p : list kind * list nat) (x : op) : list kind * list nat :=
  (kind_step (fst p) x,
   if creates x then
     snd p ++ [match shares views (fun o => nth o (fst p) Frame) x with
               | Some o => nth o (snd p) (length (snd p))
               | None => length (snd p)
               end]
   else snd p).
Definition fams (views : bool) (h : list op) : list nat := snd (fold_left (fam_step views) h ([], [])).
Definition related (views : bool) (h : list op) (o o' : nat) : Prop :=
  o < length (fams views h) /\ o' < length (fams views h) /\
  nth o (fams views h) 0 = nth o' (fams views h) 0.
Definition alone (h : list op) (o : nat) : Prop := forall o', related true h o o' -> o' = o.

(** ** pandas *)

Record pobj := PObj { p_kind : kind; p_rows : list L; p_names : list L; p_refs : list (nat * list nat) }.
Record pst := PSt { p_buf : list (list A); p_objs : list pobj }.

Definition cells (s : pst) (r : nat * list nat) : list A :=
  map (fun i => nth i (nth (fst r) (p_buf s) []) nan) (snd r).
Definition dead (k : kind) : pobj := PObj k [] [] [].
Definition pobject (s : pst) (o : nat) : pobj := nth o (p_objs s) (dead Frame).
Definition pread (s : pst) (o : nat) : table :=
  Tab (p_rows (pobject s o)) (p_names (pobject s o)) (map (cells s) (p_refs (pobject s o))).

Fixpoint put {X} (i : nat) (x : X) (l : list X) : list X :=
  match l, i with [], _ => [] | _ :: r, 0 => x :: r | y :: r, S i => y :: put i x r end.
Fixpoint where_ (l : L) (ls : list L) : option nat :=
  match ls with [] => None | x :: r => if leqb x l then Some 0 else option_map S (where_ l r) end.
(** How often a label occurs. *)
Definition times (l : L) (ls : list L) : nat := length (filter (fun x => leqb x l) ls).
Definition pick_rows {X} (ks : list nat) (l : list X) : list X :=
  flat_map (fun k => match nth_error l k with Some x => [x] | None => [] end) ks.

Definition fresh (s : pst) (cs : list (list A)) : list (nat * list nat) :=
  combine (seq (length (p_buf s)) (length cs)) (map (fun c => seq 0 (length c)) cs).
Definition p_new (s : pst) (k : kind) (t : table) : pst :=
  PSt (p_buf s ++ t_cols t) (p_objs s ++ [PObj k (t_rows t) (t_names t) (fresh s (t_cols t))]).
Definition p_share (s : pst) (x : pobj) : pst := PSt (p_buf s) (p_objs s ++ [x]).

(** [df[l] = vals] on a table. *)
Definition item_set (l : L) (vals : list A) (t : table) : table :=
  match where_ l (t_names t) with
  | Some j => Tab (t_rows t) (t_names t) (put j vals (t_cols t))
  | None => Tab (t_rows t) (t_names t ++ [l]) (t_cols t ++ [vals])
  end.
Definition can_set (l : L) (vals : list A) (t : table) : bool :=
  (length vals =? length (t_rows t)) && (times l (t_names t) <=? 1).
Definition rows_kept (ks : list nat) (t : table) : table :=
  Tab (pick_rows ks (t_rows t)) (t_names t) (map (pick_rows ks) (t_cols t)).
Definition cell_set (i j : nat) (v : A) (t : table) : table :=
  Tab (t_rows t) (t_names t) (put j (put i v (nth j (t_cols t) [])) (t_cols t)).
Definition in_table (i j : nat) (t : table) : bool := (i <? length (t_rows t)) && (j <? length (t_cols t)).

Definition p_step (s : pst) (x : op) : pst :=
  let obj := pobject s in
  match x with
  | New k t => p_new s k t
  | DeepCopy o => p_new s (p_kind (obj o)) (pread s o)
  | ShallowCopy o => p_share s (obj o)
  | Construct o => if is_frame (p_kind (obj o)) then p_share s (obj o) else p_share s (dead Frame)
  | AsArray o =>
      p_share s (PObj Arr (map lab (seq 0 (length (p_rows (obj o))))) (map lab (seq 0 (length (p_refs (obj o)))))
                           (p_refs (obj o)))
  | Column o l =>
      match is_frame (p_kind (obj o)), times l (p_names (obj o)), where_ l (p_names (obj o)) with
      | true, 1, Some j =>
          match nth_error (p_refs (obj o)) j with
          | Some r => p_share s (PObj Ser (p_rows (obj o)) [l] [r])
          | None => p_share s (dead Ser)
          end
      | _, _, _ => p_share s (dead Ser)
      end
  | IlocColumn o j =>
      match is_frame (p_kind (obj o)), nth_error (p_refs (obj o)) j, nth_error (p_names (obj o)) j with
      | true, Some r, Some l => p_share s (PObj Ser (p_rows (obj o)) [l] [r])
      | _, _, _ => p_share s (dead Ser)
      end
  | Slice o a b =>
      match is_series (p_kind (obj o)), p_refs (obj o) with
      | true, [r] => p_share s (PObj Ser (slice (p_rows (obj o)) a b) (p_names (obj o))
                                   [(fst r, slice (snd r) a b)])
      | _, _ => p_share s (dead Ser)
      end
  | Write o i j v =>
      if in_table i j (pread s o) then
        let r := nth j (p_refs (obj o)) (0, []) in
        PSt (put (fst r) (put (nth i (snd r) 0) v (nth (fst r) (p_buf s) [])) (p_buf s)) (p_objs s)
      else s
  | SetItem o l vals =>
      if is_frame (p_kind (obj o)) && can_set l vals (pread s o) then
        let new := (length (p_buf s), seq 0 (length vals)) in
        let x := match where_ l (p_names (obj o)) with
                 | Some j => PObj Frame (p_rows (obj o)) (p_names (obj o)) (put j new (p_refs (obj o)))
                 | None => PObj Frame (p_rows (obj o)) (p_names (obj o) ++ [l]) (p_refs (obj o) ++ [new])
                 end in
        PSt (p_buf s ++ [vals]) (put o x (p_objs s))
      else s
  | KeepRows o ks =>
      if is_array (p_kind (obj o)) then s
      else let t := rows_kept ks (pread s o) in
           PSt (p_buf s ++ t_cols t)
               (put o (PObj (p_kind (obj o)) (t_rows t) (t_names t) (fresh s (t_cols t))) (p_objs s))
  | SetNames o ls =>
      if negb (is_array (p_kind (obj o))) && (length ls =? length (p_names (obj o))) then
        PSt (p_buf s) (put o (PObj (p_kind (obj o)) (p_rows (obj o)) ls (p_refs (obj o))) (p_objs s))
      else s
  | SetRows o ls =>
      if negb (is_array (p_kind (obj o))) && (length ls =? length (p_rows (obj o))) then
        PSt (p_buf s) (put o (PObj (p_kind (obj o)) ls (p_names (obj o)) (p_refs (obj o))) (p_objs s))
      else s
  end.

Definition p_run (h : list op) : pst := fold_left p_step h (PSt [] []).

(** A history that shares data by shallow copies alone and changes, on an object that shares data, cells only. *)
Definition careful_op (h : list op) (x : op) : Prop :=
  match x with
  | New k t => proper t /\ k <> Arr
  | DeepCopy _ | ShallowCopy _ | Construct _ | Write _ _ _ _ => True
  | SetItem o _ _ | KeepRows o _ | SetNames o _ | SetRows o _ => alone h o
  | AsArray _ | Column _ _ | IlocColumn _ _ | Slice _ _ _ => False
  end.
Inductive careful : list op -> Prop :=
| careful_nil : careful []
| careful_snoc h x : careful h -> careful_op h x -> careful (h ++ [x]).

End Spec.
Arguments dead {L} k.
Arguments New {L A} k t.
Arguments DeepCopy {L A} o.
Arguments ShallowCopy {L A} o.
Arguments Construct {L A} o.
Arguments AsArray {L A} o.
Arguments Column {L A} o l.
Arguments IlocColumn {L A} o j.
Arguments Slice {L A} o a b.
Arguments Write {L A} o i j v.
Arguments SetItem {L A} o l vals.
Arguments KeepRows {L A} o ks.
Arguments SetNames {L A} o ls.
Arguments SetRows {L A} o ls.
