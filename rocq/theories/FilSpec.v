(** What pandas returns for fillna, ffill, bfill, cumulative functions, clip, isin, first_valid_index,
    last_valid_index and mode (C78), on a whole table.  A cell is [None] when it is missing. *)
From Verif Require Import Base Table GridSpec.

(** ** One column or row at a time *)
Section Lines.
  Context {L H A B : Type}.
  (** every column replaced, given its header *)
  Definition by_columns (g : H -> list A -> list B) (d : df L H A) : df L H B :=
    mkdf (dindex d) (dcols d) (transp (nrows d) (map2 g (dcols d) (columns d))).
  (** every row replaced, given its label *)
  Definition by_rows (g : L -> list A -> list B) (d : df L H A) : df L H B :=
    mkdf (dindex d) (dcols d) (map2 g (dindex d) (dcells d)).
  (** along an axis; [axis = false] is 0, along each column *)
  Definition along (axis : bool) (g : list A -> list B) (d : df L H A) : df L H B :=
    if axis then by_rows (fun _ => g) d else by_columns (fun _ => g) d.
End Lines.

Section Fill.
  Context {L H V : Type}.
  Variable heqb : H -> H -> bool.
  Notation cell := (option V).

  (** [v] for a missing cell *)
  Definition filled (v c : cell) : cell := match c with None => v | Some x => Some x end.
  (** [v] for the first [k] missing cells *)
  Fixpoint fill_first (k : nat) (v : cell) (l : list cell) : list cell :=
    match l, k with
    | None :: l, S k => v :: fill_first k v l
    | c :: l, _ => c :: fill_first k v l
    | [], _ => []
    end.
  Definition fill_line (limit : option nat) (v : cell) (l : list cell) : list cell :=
    match limit with None => map (filled v) l | Some k => fill_first k v l end.

  (** the last valid cell is carried over at most [limit] missing ones; [done] counts them *)
  Fixpoint carry (limit : option nat) (last : cell) (done : nat) (l : list cell) : list cell :=
    match l with
    | [] => []
    | Some x :: l => Some x :: carry limit (Some x) 0 l
    | None :: l => (match limit with Some k => if done <? k then last else None | None => last end) :: carry limit last (S done) l
    end.
  Definition forward (limit : option nat) (l : list cell) : list cell := carry limit None 0 l.
  Definition backward (limit : option nat) (l : list cell) : list cell := rev (carry limit None 0 (rev l)).

  (** What to fill with: one value; a dict or Series of values by column label, one after another; neighbours. *)
  Inductive filling := Value (v : V) | ByLabel (items : list (H * cell)) | Forward | Backward.
  Definition fill_column (limit : option nat) (items : list (H * cell)) (h : H) (col : list cell) : list cell :=
    fold_left (fun col kv => if heqb (fst kv) h then fill_line limit (snd kv) col else col) items col.

  (** [df.fillna(value, axis=, limit=)], [df.ffill], [df.bfill] *)
  Definition p_fillna (axis : bool) (limit : option nat) (w : filling) (d : df L H cell) : res (df L H cell) :=
    match w with
    | Value v => Ok (along axis (fill_line limit (Some v)) d)
    | ByLabel items => if axis then Err NotImplementedErr else Ok (by_columns (fill_column limit items) d)
    | Forward => Ok (along axis (forward limit) d)
    | Backward => Ok (along axis (backward limit) d)
    end.
End Fill.

(** ** isin *)
Section Isin.
  Context {L H V : Type}.
  Variables (leqb : L -> L -> bool) (heqb : H -> H -> bool) (veqb : V -> V -> bool).
  Notation cell := (option V).
  Definition same (a b : cell) : bool := match a, b with Some x, Some y => veqb x y | None, None => true | _, _ => false end.
  (** comparison: a missing value equals nothing *)
  Definition equal (a b : cell) : bool := match a, b with Some x, Some y => veqb x y | _, _ => false end.
  Fixpoint lookup_by {K X} (eqb : K -> K -> bool) (k : K) (l : list (K * X)) : option X :=
    match l with [] => None | (k', x) :: l => if eqb k k' then Some x else lookup_by eqb k l end.

  Inductive values_in :=
  | AnyOf (vs : list cell)                        (* a list *)
  | PerColumn (vs : list (H * list cell))         (* a dict of lists *)
  | PerRow (s : list (L * cell))                  (* a Series: compared by row label *)
  | PerCell (d : df L H cell).                    (* a DataFrame: compared by both labels *)
  Definition at_labels (d : df L H cell) (l : L) (h : H) : cell :=
    match lookup_by leqb l (combine (dindex d) (dcells d)) with
    | Some row => match lookup_by heqb h (combine (dcols d) row) with Some c => c | None => None end
    | None => None
    end.
  Definition is_member (w : values_in) (l : L) (h : H) (c : cell) : bool :=
    match w with
    | AnyOf vs => existsb (same c) vs
    | PerColumn vs => match lookup_by heqb h vs with Some vs => existsb (same c) vs | None => false end
    | PerRow s => match lookup_by leqb l s with Some v => equal c v | None => false end
    | PerCell d => equal c (at_labels d l h)
    end.
  Fixpoint distinct {K} (eqb : K -> K -> bool) (l : list K) : bool :=
    match l with [] => true | k :: l => negb (existsb (eqb k) l) && distinct eqb l end.
  Definition p_isin (w : values_in) (d : df L H cell) : res (df L H bool) :=
    match w with
    | PerRow s => if distinct leqb (map fst s) then Ok (cellwise (is_member w) (fun h => h) d) else Err ValueError
    | PerCell v => if distinct leqb (dindex v) && distinct heqb (dcols v) then Ok (cellwise (is_member w) (fun h => h) d) else Err ValueError
    | _ => Ok (cellwise (is_member w) (fun h => h) d)
    end.
End Isin.

(** ** The first and the last row with a valid cell *)
Section Valid.
  Context {L H V : Type}.
  Definition valid (c : option V) : bool := match c with Some _ => true | None => false end.
  Definition first_valid (d : df L H (option V)) : option L :=
    match filter (fun lr => existsb valid (snd lr)) (combine (dindex d) (dcells d)) with
    | [] => None
    | lr :: _ => Some (fst lr)
    end.
  Definition last_valid (d : df L H (option V)) : option L :=
    match rev (filter (fun lr => existsb valid (snd lr)) (combine (dindex d) (dcells d))) with
    | [] => None
    | lr :: _ => Some (fst lr)
    end.
  Definition some_valid (col : list (option V)) : Prop := existsb valid col = true.
End Valid.

(** ** The most frequent values: the modes of each column from the top, then missing values *)
Section Mode.
  Context {L H V : Type}.
  Variable modes : list (option V) -> list (option V).
  Definition padded (n : nat) (l : list (option V)) : list (option V) := firstn n (l ++ repeat None n).
  Definition p_mode (d : df L H (option V)) : df nat H (option V) :=
    let cols := map modes (columns d) in
    let n := list_max (map (@length _) cols) in
    mkdf (seq 0 n) (dcols d) (transp n (map (padded n) cols)).
End Mode.
