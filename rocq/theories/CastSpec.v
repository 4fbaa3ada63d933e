(** What choosing a backend and casting operands should mean.  Independent of the model. *)
From Coq Require Import ZArith.
From Verif Require Import Base.

Section CostSpec.
  Context {Q B : Type}.
  Variable beqb : B -> B -> bool.
  Variable backend_of : Q -> B.
  Variable stay_cost : Q -> option Z.
  Variable move_to_cost : Q -> B -> option Z.
  Variable move_to_me_cost : B -> Q -> option Z.
  Variable max_cost : B -> Z.

  Definition or_zero (o : option Z) : Z := match o with Some z => z | None => 0%Z end.

  (** What one operand contributes to the cost of computing on [b]. *)
  Definition contribution (b : B) (q : Q) : Z :=
    if beqb b (backend_of q) then or_zero (stay_cost q)
    else match move_to_cost q b with Some z => z | None => or_zero (move_to_me_cost b q) end.
  Definition total_cost (b : B) (qs : list Q) : Z := fold_right (fun q acc => (contribution b q + acc)%Z) 0%Z qs.

  (** The distinct elements of a list in order of first occurrence. *)
  Fixpoint firsts (l : list B) : list B :=
    match l with [] => [] | x :: xs => x :: filter (fun y => negb (beqb x y)) (firsts xs) end.

  (** A cost is a number from 0 to 1000. *)
  Definition valid_cost (o : option Z) : Prop := match o with Some z => (0 <= z <= 1000)%Z | None => True end.

  (** The first element of [l] with the least cost among those satisfying [ok]. *)
  Definition first_cheapest (cost : B -> Z) (ok : B -> Prop) (l : list B) (b : B) : Prop :=
    ok b /\ (exists pre post, l = pre ++ b :: post
                 /\ (forall c, In c pre -> ok c -> (cost b < cost c)%Z)
                 /\ (forall c, In c post -> ok c -> (cost b <= cost c)%Z)).

  (** Backends that take part: those of the operands in order, then the switchable ones when asked for. *)
  Definition costs_ok (cands : list B) (q : Q) : Prop :=
    valid_cost (stay_cost q)
    /\ forall b, In b cands -> b <> backend_of q ->
         valid_cost (match move_to_cost q b with Some c => Some c | None => move_to_me_cost b q end).

  (** What moving a single operand to [b] costs compared with staying ([None]: not comparable). *)
  Definition switch_cost (q : Q) (b : B) : option Z :=
    if beqb b (backend_of q) then None
    else match move_to_cost q b, stay_cost q, move_to_me_cost b q with
         | Some move, Some stay, Some exec => Some (if (1000 <=? stay)%Z then (exec - stay)%Z else (move + exec - stay)%Z)
         | _, _, _ => None
         end.
End CostSpec.

(** Arguments of a call: values, mutable containers (lists, dict values) and immutable ones (tuples). *)
Inductive atom (Q : Type) := AObj (o : nat) | AQC (q : Q) | AOther (n : nat).
Arguments AObj {Q} o. Arguments AQC {Q} q. Arguments AOther {Q} n.
Inductive tree (Q : Type) := Leaf (a : atom Q) | TMut (l : list (tree Q)) | TTup (l : list (tree Q)).
Arguments Leaf {Q} a. Arguments TMut {Q} l. Arguments TTup {Q} l.
Fixpoint leaves {Q} (t : tree Q) : list (atom Q) :=
  match t with Leaf a => [a] | TMut l => flat_map leaves l | TTup l => flat_map leaves l end.
(** no tuple anywhere in [t] *)
Fixpoint tuple_free {Q} (t : tree Q) : bool :=
  match t with Leaf _ => true | TMut l => forallb tuple_free l | TTup _ => false end.
