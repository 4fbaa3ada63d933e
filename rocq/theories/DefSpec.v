(** What deferred operations on partitions should compute; independent of the model. *)
From Verif Require Import Base.

(** The arguments of a call: values and nested sequences of arguments (tuples or lists). *)
Inductive forest (A : Type) :=
  | Nil
  | Atom (a : A) (rest : forest A)
  | Nest (tuple : bool) (inner rest : forest A).
Arguments Nil {A}.

Section Forest.
  Context {A B : Type}.
  Fixpoint traverse (f : A -> res B) (l : forest A) : res (forest B) :=
    match l with
    | Nil => Ok Nil
    | Atom a l => do b <- f a; do bs <- traverse f l; Ok (Atom b bs)
    | Nest t i l => do bs <- traverse f i; do bs' <- traverse f l; Ok (Nest t bs bs')
    end.
  Fixpoint atoms (l : forest A) : list A :=
    match l with Nil => [] | Atom a l => a :: atoms l | Nest _ i l => atoms i ++ atoms l end.
  Fixpoint width (l : forest A) : nat :=
    match l with Nil => 0 | Atom _ l => S (width l) | Nest _ _ l => S (width l) end.
  (** No tuple among the nested sequences. *)
  Fixpoint lists_only (l : forest A) : bool :=
    match l with Nil => true | Atom _ l => lists_only l | Nest t i l => negb t && lists_only i && lists_only l end.
End Forest.

Section Spec.
  Context {V : Type}.
  (** What calling a function (they are numbered) on an object with positional and keyword arguments gives. *)
  Variable call : nat -> V -> forest V -> list nat -> forest V -> res V.
  (** [len(obj)] and [len(obj.columns)] *)
  Variables vlen vwid : V -> nat.

  (** An argument: a value, or the data of a partition. *)
  Inductive given := Val (v : V) | Of (i : nat).

  (** What a user does with partitions, which are numbered in the order of their creation.  A lazy call is recorded,
      the other one is executed at once. *)
  Inductive op :=
    | Put (v : V)
    | Call (lazily : bool) (i : nat) (f : nat) (args : forest given) (keys : list nat) (kwargs : forest given)
    | Drain (i : nat)
    | Copy (i : nat)
    | Del (i : nat)
    | Get (i : nat)
    | Shape (i : nat).
  Inductive obs := Value (r : res V) | Lengths (r : res (nat * nat)).

  (** The partitions there are; [None] are those deleted.  Operations on others are ignored. *)
  Definition alive {A} (l : list (option A)) (i : nat) : bool :=
    match nth_error l i with Some (Some _) => true | _ => false end.
  Definition at_ {A} (l : list (option A)) (i : nat) : option A :=
    match nth_error l i with Some o => o | None => None end.
  Definition given_ok (live : nat -> bool) (g : given) : bool := match g with Val _ => true | Of i => live i end.
  Definition valid (live : nat -> bool) (o : op) : bool :=
    match o with
    | Put _ => true
    | Call _ i _ a ks k => live i && forallb (given_ok live) (atoms a) && forallb (given_ok live) (atoms k)
                           && (length ks =? width k)
    | Drain i | Copy i | Del i | Get i | Shape i => live i
    end.

  (** Every call is executed where it stands. *)
  Definition value_of (s : list (option (res V))) (i : nat) : res V :=
    match at_ s i with Some r => r | None => Err InternalBug end.
  Definition given_value (s : list (option (res V))) (g : given) : res V :=
    match g with Val v => Ok v | Of i => value_of s i end.
  Definition direct (f : nat) (d : res V) (a : res (forest V)) (ks : list nat) (k : res (forest V)) : res V :=
    do d <- d; do a <- a; do k <- k; call f d a ks k.
  Fixpoint forget {A} (l : list (option A)) (i : nat) : list (option A) :=
    match l, i with [], _ => [] | _ :: l, 0 => None :: l | x :: l, S i => x :: forget l i end.
  Definition spec_step (s : list (option (res V))) (o : op) : list (option (res V)) * list obs :=
    if valid (alive s) o then
      match o with
      | Put v => (s ++ [Some (Ok v)], [])
      | Call _ i f a ks k =>
          (s ++ [Some (direct f (value_of s i) (traverse (given_value s) a) ks (traverse (given_value s) k))], [])
      | Drain i => (s, [])
      | Copy i => (s ++ [Some (value_of s i)], [])
      | Del i => (forget s i, [])
      | Get i => (s, [Value (value_of s i)])
      | Shape i => (s, [Lengths (do v <- value_of s i; Ok (vlen v, vwid v))])
      end
    else (s, []).
  Fixpoint spec_run (s : list (option (res V))) (h : list op) : list obs :=
    match h with [] => [] | o :: h => let '(s, b) := spec_step s o in b ++ spec_run s h end.

  (** Whether every call of a history succeeds when it is executed where it stands. *)
  Fixpoint all_succeed (s : list (option (res V))) (h : list op) : Prop :=
    match h with
    | [] => True
    | o :: h => (forall r, In (Some r) (fst (spec_step s o)) -> exists v, r = Ok v) /\ all_succeed (fst (spec_step s o)) h
    end.
  Definition no_tuples (o : op) : Prop :=
    match o with Call _ _ _ a _ k => lists_only a = true /\ lists_only k = true | _ => True end.
  (** How many calls of a function a history contains. *)
  Definition asked (f : nat) (h : list op) : nat :=
    length (filter (fun o => match o with Call _ _ g _ _ _ => g =? f | _ => false end) h).

  (** One observation is never wrong with respect to another. *)
  Definition never_wrong (b b' : obs) : Prop :=
    match b, b' with
    | Value r, Value r' => forall v, r = Ok v -> r' = Ok v
    | Lengths r, Lengths r' => forall v, r = Ok v -> r' = Ok v
    | _, _ => False
    end.
End Spec.
