(** dataframe.py (API) [query] 1767-1806 and query_compiler.py [rowwise_query] 3585-3641.  The variables of the caller's frame
    (861-897) are given by [env]; the text is given as its syntax tree. *)
From Verif Require Import Base Table GridModel RemSpec RemModel DumSpec QrySpec.

Section Model.
  Context {L H A X O : Type}.
  Variables (leqb : L -> L -> bool) (heqb : H -> H -> bool).
  Variable op1 : O -> A -> A.
  Variable op2 : O -> A -> A -> A.
  Variable agg : O -> list A -> A.
  Variable eqv : A -> A -> bool.
  Variables tt ff : A.
  Variable truth : A -> option bool.
  Variable env : X -> option (value A).
  Variables min_row min_col nparts : nat.
  Notation pf := (@pframe L H A).
  Notation dframe := (df L H A).
  Notation expr := (expr H A X O).

  (** 3612: [ast.parse(expr.replace("@", ""))] is a SyntaxError for backticks *)
  Fixpoint parses (e : expr) : bool :=
    match e with
    | Quoted _ => false
    | Col _ | Const _ | Local _ => true
    | Unary _ e | Agg _ e => parses e
    | Binary _ e1 e2 | BoolOp _ e1 e2 | Compare _ e1 e2 | Member _ e1 e2 => parses e1 && parses e2
    end.

  (** 3615-3633: the loop over the stack of nodes ([nodes.pop()] takes the last one, kept first here); [fuel]: the number of
      nodes *)
  Fixpoint walk (fuel : nat) (nodes : list expr) : bool :=
    match fuel with
    | 0 => true
    | S fuel =>
        match nodes with
        | [] => true
        | node :: nodes =>
            match node with
            | Unary _ e => walk fuel (e :: nodes)
            | Binary _ e1 e2 => walk fuel (e2 :: e1 :: nodes)
            | BoolOp _ e1 e2 => walk fuel (e2 :: e1 :: nodes)
            | Compare _ e1 e2 | Member _ e1 e2 => walk fuel (e2 :: e1 :: nodes)
            | Col _ | Local _ | Const _ => walk fuel nodes
            | Quoted _ | Agg _ _ => false
            end
        end
    end.
  Fixpoint size (e : expr) : nat :=
    match e with
    | Col _ | Quoted _ | Const _ | Local _ => 1
    | Unary _ e | Agg _ e => S (size e)
    | Binary _ e1 e2 | BoolOp _ e1 e2 | Compare _ e1 e2 | Member _ e1 e2 => S (size e1 + size e2)
    end.

  (** 3609-3641; SyntaxError has no name of its own here *)
  Definition rowwise_query (e : expr) (f : pf) : res pf :=
    if negb (parses e) then Err UserError
    else if negb (walk (size e) [e]) then Err NotImplementedErr
    else frame_filter leqb heqb min_row min_col nparts true (p_query heqb op1 op2 agg eqv tt ff truth env e) f.

  (** API dataframe.py 1767-1806: [inplace] aside; the way through [eval] and [loc] (1795-1805) is not modelled *)
  Definition api_query (e : expr) (f : pf) : res pf :=
    match rowwise_query e f with
    | Err NotImplementedErr => Err Unmodelled
    | r => r
    end.
End Model.
