(** [pandas.DataFrame.query]: the rows in which an expression over the columns is true. *)
From Verif Require Import Base Table RemSpec DumSpec.

(** Expressions as both pandas and Python's [ast] see them.  A chain of comparisons or of and/or is written as nested ones.
    [Col]: a column's name; [Quoted]: a name in backticks; [Local]: @name; [In neg]: in, not in; [Agg g e]: a call that makes
    one value of a column, such as e.min(). *)
Inductive expr (H A X O : Type) :=
| Col (c : H) | Quoted (c : H) | Const (a : A) | Local (x : X)
| Unary (o : O) (e : expr H A X O)
| Binary (o : O) (e1 e2 : expr H A X O)
| BoolOp (o : O) (e1 e2 : expr H A X O)
| Compare (o : O) (e1 e2 : expr H A X O)
| Member (neg : bool) (e1 e2 : expr H A X O)
| Agg (g : O) (e : expr H A X O).
Arguments Col {H A X O} c.
Arguments Quoted {H A X O} c.
Arguments Const {H A X O} a.
Arguments Local {H A X O} x.
Arguments Unary {H A X O} o e.
Arguments Binary {H A X O} o e1 e2.
Arguments BoolOp {H A X O} o e1 e2.
Arguments Compare {H A X O} o e1 e2.
Arguments Member {H A X O} neg e1 e2.
Arguments Agg {H A X O} g e.

(** one value, or one for each row (an array, a list, a column) *)
Inductive value (A : Type) := One (a : A) | Many (l : list A).
Arguments One {A} a.
Arguments Many {A} l.

Section Query.
  Context {L H A X O : Type}.
  Variable heqb : H -> H -> bool.
  Variable op1 : O -> A -> A.                 (* what the operators do to single values *)
  Variable op2 : O -> A -> A -> A.
  Variable agg : O -> list A -> A.
  Variable eqv : A -> A -> bool.
  Variables tt ff : A.                        (* True, False *)
  Variable truth : A -> option bool.          (* None: not a boolean *)
  Variable env : X -> option (value A).       (* the variables of the caller *)
  Notation dframe := (df L H A).
  Notation expr := (expr H A X O).

  Definition lift2 (f : A -> A -> A) (u v : value A) : res (value A) :=
    match u, v with
    | One a, One b => Ok (One (f a b))
    | One a, Many l => Ok (Many (map (f a) l))
    | Many l, One b => Ok (Many (map (fun a => f a b) l))
    | Many l, Many m => if length l =? length m then Ok (Many (map (fun p => f (fst p) (snd p)) (combine l m))) else Err ValueError
    end.
  Definition bool_value (b : bool) : A := if b then tt else ff.
  (** [u in v]: for each value of [u] whether it is among the values of [v] *)
  Definition member (neg : bool) (u v : value A) : res (value A) :=
    match u, v with
    | Many l, Many m => Ok (Many (map (fun a => bool_value (xorb neg (existsb (eqv a) m))) l))
    | _, _ => Err TypeError
    end.

  (** a name that is not there: UndefinedVariableError *)
  Fixpoint eval (d : dframe) (e : expr) : res (value A) :=
    match e with
    | Col c | Quoted c => do l <- column_of heqb d c; Ok (Many l)
    | Const a => Ok (One a)
    | Local x => match env x with Some v => Ok v | None => Err KeyError end
    | Unary o e => do u <- eval d e; Ok (match u with One a => One (op1 o a) | Many l => Many (map (op1 o) l) end)
    | Binary o e1 e2 | BoolOp o e1 e2 | Compare o e1 e2 => do u <- eval d e1; do v <- eval d e2; lift2 (op2 o) u v
    | Member neg e1 e2 => do u <- eval d e1; do v <- eval d e2; member neg u v
    | Agg g e => do u <- eval d e; Ok (One (match u with One a => a | Many l => agg g l end))
    end.

  (** the rows in which the value is true; one value for the whole table is a KeyError, values that are not booleans and
      values for another number of rows are errors too *)
  Definition p_query (e : expr) (d : dframe) : res dframe :=
    do v <- eval d e;
    match v with
    | One _ => Err KeyError
    | Many l =>
        if negb (length l =? nrows d) then Err IndexError
        else do m <- rmap (fun a => match truth a with Some b => Ok b | None => Err KeyError end) l;
             Ok (keep_rows m d)
    end.

  (** Names, constants and operators only. *)
  Fixpoint simple (e : expr) : Prop :=
    match e with
    | Col _ | Const _ | Local _ => True
    | Quoted _ | Agg _ _ => False
    | Unary _ e => simple e
    | Binary _ e1 e2 | BoolOp _ e1 e2 | Compare _ e1 e2 | Member _ e1 e2 => simple e1 /\ simple e2
    end.
  (** no column is mentioned *)
  Fixpoint columnless (e : expr) : Prop :=
    match e with
    | Col _ | Quoted _ => False
    | Const _ | Local _ => True
    | Unary _ e | Agg _ e => columnless e
    | Binary _ e1 e2 | BoolOp _ e1 e2 | Compare _ e1 e2 | Member _ e1 e2 => columnless e1 /\ columnless e2
    end.
  (** whether a row is kept depends on that row only: what is searched in mentions no column, and other variables of the
      caller are single values *)
  Fixpoint per_row (e : expr) : Prop :=
    match e with
    | Col _ | Quoted _ | Const _ => True
    | Local x => match env x with Some (Many _) => False | _ => True end
    | Agg _ _ => False
    | Unary _ e => per_row e
    | Binary _ e1 e2 | BoolOp _ e1 e2 | Compare _ e1 e2 => per_row e1 /\ per_row e2
    | Member _ e1 e2 => per_row e1 /\ columnless e2
    end.
End Query.

(** a name in backticks somewhere in an expression *)
Inductive quotes {H A X O : Type} : expr H A X O -> Prop :=
| QHere c : quotes (Quoted c)
| QUnary o e : quotes e -> quotes (Unary o e)
| QBinary1 o e1 e2 : quotes e1 -> quotes (Binary o e1 e2)
| QBinary2 o e1 e2 : quotes e2 -> quotes (Binary o e1 e2)
| QBoolOp1 o e1 e2 : quotes e1 -> quotes (BoolOp o e1 e2)
| QBoolOp2 o e1 e2 : quotes e2 -> quotes (BoolOp o e1 e2)
| QCompare1 o e1 e2 : quotes e1 -> quotes (Compare o e1 e2)
| QCompare2 o e1 e2 : quotes e2 -> quotes (Compare o e1 e2)
| QMember1 neg e1 e2 : quotes e1 -> quotes (Member neg e1 e2)
| QMember2 neg e1 e2 : quotes e2 -> quotes (Member neg e1 e2)
| QAgg g e : quotes e -> quotes (Agg g e).
