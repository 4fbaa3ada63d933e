(** C15-C20: what reading a CSV file means.  A file is a list of bytes; [nl] and [q] tell the newline byte and
    the quote byte.  pandas itself is read as: cut the bytes into records at newlines outside quotes, drop the
    lines named by skiprows, drop records that give no row (blank or comment lines), take the header, take
    nrows. *)
From Verif Require Import Base.

Section Spec.
  Context {B : Type}.
  Variable nl q : B -> bool.

  (** Are we inside quotes after these bytes (starting outside)? *)
  Fixpoint inside (st : bool) (s : list B) : bool :=
    match s with
    | [] => st
    | b :: s => inside (if q b then negb st else st) s
    end.

  (** The records of a byte sequence, each with its newline; [cur] is the record begun so far, reversed. *)
  Fixpoint records_from (cur : list B) (st : bool) (s : list B) : list (list B) :=
    match s with
    | [] => match cur with [] => [] | _ => [rev cur] end
    | b :: s =>
        let st := if q b then negb st else st in
        if nl b && negb st then rev (b :: cur) :: records_from [] false s
        else records_from (b :: cur) st s
    end.
  Definition records (s : list B) : list (list B) := records_from [] false s.

  (** A record begins at position [p] of the file: it is the start of the file, or follows a newline that is
      outside quotes. *)
  Definition at_record_start (file : list B) (p : nat) : Prop :=
    p = 0 \/ exists p' b, p = S p' /\ nth_error file p' = Some b /\ nl b = true /\ inside false (firstn p file) = false.

  (** A record written on one line of the file, and one that ends properly (newline, quotes closed). *)
  Definition one_line (r : list B) : Prop := forall b, In b (removelast r) -> nl b = false.
  Definition complete (r : list B) : Prop :=
    exists r0 b, r = r0 ++ [b] /\ nl b = true /\ inside false r = false.

  (** Chunks follow one another from [a] to [z] without gap or overlap. *)
  Fixpoint consecutive (a z : nat) (chunks : list (nat * nat)) : Prop :=
    match chunks with
    | [] => a = z
    | (s, e) :: rest => s = a /\ s < e /\ consecutive e z rest
    end.

  (** The lines of a list that [skip] does not name (0-based). *)
  Fixpoint drop_lines {X} (skip : nat -> bool) (i : nat) (l : list X) : list X :=
    match l with
    | [] => []
    | x :: l => if skip i then drop_lines skip (S i) l else x :: drop_lines skip (S i) l
    end.

  Definition first_rows {X} (n : option nat) (l : list X) : list X :=
    match n with Some n => firstn n l | None => l end.

  (** [pandas.read_csv]: the data rows (as the records they come from). *)
  Definition pandas_rows (is_row : list B -> bool) (skip : nat -> bool) (header_size : nat)
      (nrows : option nat) (file : list B) : list (list B) :=
    first_rows nrows (skipn header_size (filter is_row (drop_lines skip 0 (records file)))).

  (** The user's [skiprows]: nothing, a number of lines, a list of line numbers, a predicate on line numbers. *)
  Inductive skiprows_arg := SkipNone | SkipInt (k : nat) | SkipList (l : list nat) | SkipFun (f : nat -> bool).
  Definition skips (a : skiprows_arg) (i : nat) : bool :=
    match a with
    | SkipNone => false
    | SkipInt k => i <? k
    | SkipList l => existsb (Nat.eqb i) l
    | SkipFun f => f i
    end.

  (* ---- the pandas tokenizer proper: only a quote that opens a field starts quoting ---- *)
  Inductive tstate := StartField | Unquoted | Quoted | QuoteInQuoted.
  Variable delim : B -> bool.
  Definition tstep (st : tstate) (b : B) : tstate :=
    match st with
    | StartField => if q b then Quoted else if delim b || nl b then StartField else Unquoted
    | Unquoted => if delim b || nl b then StartField else Unquoted
    | Quoted => if q b then QuoteInQuoted else Quoted
    | QuoteInQuoted => if q b then Quoted else if delim b || nl b then StartField else Unquoted
    end.
  Definition tokens (st : tstate) (s : list B) : tstate := fold_left tstep s st.
  (** No quote character in the middle of an unquoted field. *)
  Fixpoint well_quoted (st : tstate) (s : list B) : Prop :=
    match s with
    | [] => True
    | b :: s => (st = Unquoted -> q b = false) /\ well_quoted (tstep st b) s
    end.
End Spec.
