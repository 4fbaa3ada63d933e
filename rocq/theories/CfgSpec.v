(** What a configuration variable should mean, in terms of the history of calls on it.
    Independent of the model. *)
From Verif Require Import Base.

Inductive source := DEFAULT | SET_BY_USER | GOT_FROM_CFG_SOURCE.

(** One configuration variable, as its author describes it.  [V] are Python objects. *)
Record desc (V : Type) := mkdesc {
  verify : V -> bool;             (* the type accepts the value *)
  norm : V -> V;                  (* canonical form *)
  put_ok : V -> bool;             (* extra check in the variable's own [put] *)
  get_ok : V -> bool;             (* extra check in the variable's own [get] *)
  environ : res (option V);       (* decoded environment value, None if not set, Err if malformed *)
  default : res V
}.

(** Calls a user may make. *)
Inductive op (V : Type) :=
  | Get
  | Put (v : V)
  | Subscribe (callback : nat)
  | Once (v : V) (callback : nat).
Arguments Get {V}.
Arguments Subscribe {V} callback.

Section Spec.
  Context {V : Type} (d : desc V).
  Variable veqb : V -> V -> bool.

  Definition acceptable (v : V) : bool := put_ok d v && verify d v.

  (** The value before any [put]. *)
  Definition initial : res V :=
    match environ d with
    | Err e => Err e
    | Ok (Some v) => Ok v
    | Ok None => default d
    end.

  (** The last acceptable value put, in canonical form. *)
  Fixpoint last_put (history : list (op V)) : option V :=
    match history with
    | [] => None
    | o :: rest =>
        match last_put rest with
        | Some v => Some v
        | None => match o with Put v => if acceptable v then Some (norm d v) else None | _ => None end
        end
    end.

  (** The value a read should return after a history. *)
  Definition current (v0 : V) (history : list (op V)) : V :=
    match last_put history with Some v => v | None => v0 end.

  (** A variable is coherent when its own checks accept whatever can be stored in it. *)
  Definition coherent (v0 : V) : Prop :=
    initial = Ok v0 /\ get_ok d v0 = true
    /\ forall v, acceptable v = true -> get_ok d (norm d v) = true.

  (** How often the value really changes during [later], starting from [v]. *)
  Fixpoint changes (v : V) (later : list (op V)) : nat :=
    match later with
    | [] => 0
    | Put w :: rest =>
        if acceptable w
        then (if veqb v (norm d w) then 0 else 1) + changes (norm d w) rest
        else changes v rest
    | _ :: rest => changes v rest
    end.

  (** Whether [target] is the current value now or at some point of [later]. *)
  Fixpoint reached (target v : V) (later : list (op V)) : bool :=
    veqb target v
    || match later with
       | [] => false
       | Put w :: rest => if acceptable w then reached target (norm d w) rest else reached target v rest
       | _ :: rest => reached target v rest
       end.

  (** Where the value in force comes from, given the last accepted [put]. *)
  Definition source_of (o : option V) : source :=
    match o with Some _ => SET_BY_USER | None => match environ d with Ok (Some _) => GOT_FROM_CFG_SOURCE | _ => DEFAULT end end.

  (** How many calls a log of (callback, value at that time) has for callback [c]. *)
  Definition count (c : nat) (l : list (nat * option V)) : nat := length (filter (fun e => fst e =? c) l).

  (** A history that never registers callback [c]. *)
  Definition mentions (c : nat) (o : op V) : bool :=
    match o with Subscribe c' => c' =? c | Once _ c' => c' =? c | _ => false end.
  Definition unused (c : nat) (h : list (op V)) : Prop := forallb (fun o => negb (mentions c o)) h = true.
End Spec.

(** A value the variable takes back unchanged. *)
Definition stable {V} (d : desc V) (o : V) : Prop :=
  verify d o = true /\ put_ok d o = true /\ norm d o = o /\ get_ok d o = true.
