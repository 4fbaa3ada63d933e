(** pandas/dataframe.py [assign] 657-667 (C96). *)
From Verif Require Import Base Table ChunkModel GridModel SelModel JoinModel SetSpec SetModel InsModel ItmModel AsgSpec.

Section Model.
  Context {L H A : Type}.
  Variable leqb : L -> L -> bool.
  Variable heqb : H -> H -> bool.
  Variables min_row min_col nparts : nat.
  Variables known_l known_w : nat -> nat -> bool.
  Variable argsort : list Z -> list nat.
  Variable fill : A.
  Variable outer : list (list L) -> list L * list (list (option nat)).
  Variable first_known : bool.
  Notation set_ c v := (df_assign leqb heqb min_row min_col nparts known_l known_w argsort fill outer first_known (One c) v).

  (** 662-666: the loop over [kwargs] with the frame named [k]; a function is called on it and sees its table *)
  Fixpoint assign_loop (cols : list (H * column_value L H A)) (k : nat) (s : store L H A) : res (store L H A) :=
    match cols with
    | [] => Ok s
    | (c, Values l) :: cols => do s <- set_ c (GList l) k s; assign_loop cols k s
    | (c, Same a) :: cols => do s <- set_ c (GArray (Scalar a)) k s; assign_loop cols k s
    | (c, Callable g) :: cols => do t <- pf_to_pandas leqb heqb (s k); do s <- set_ c (GList (g t)) k s; assign_loop cols k s
    end.
  (** 661, 667: on a copy of the frame [r], which gets the name [k] *)
  Definition assign_columns (cols : list (H * column_value L H A)) (r k : nat) (s : store L H A) : res (store L H A) :=
    assign_loop cols k (assign s k (s r)).
End Model.
