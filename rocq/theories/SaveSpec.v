(** Specification vocabulary for directories of files and database tables, independent of the model. *)
From Verif Require Import Base Table GridSpec.

(** A file name is a list of character codes; names are ordered like Python strings. *)
Definition name := list nat.
Fixpoint name_cmp (a b : name) : comparison :=
  match a, b with
  | [], [] => Eq
  | [], _ => Lt
  | _, [] => Gt
  | x :: a, y :: b => match Nat.compare x y with Eq => name_cmp a b | c => c end
  end.
Definition name_lt (a b : name) : Prop := name_cmp a b = Lt.

Section Dir.
  Context {K : Type}.
  (** A directory lists its files by name, each name once, in the order of the names. *)
  Definition dir := list (name * K).
  Definition dir_ok (d : dir) : Prop := StronglySorted (fun p q => name_lt (fst p) (fst q)) d.
  Definition file_at (d : dir) (n : name) : option K :=
    match find (fun p => match name_cmp (fst p) n with Eq => true | _ => false end) d with
    | Some p => Some (snd p)
    | None => None
    end.
  (** Create or overwrite one file. *)
  Fixpoint dir_write (n : name) (c : K) (d : dir) : dir :=
    match d with
    | [] => [(n, c)]
    | p :: r => match name_cmp n (fst p) with
                | Lt => (n, c) :: p :: r
                | Eq => (n, c) :: r
                | Gt => p :: dir_write n c r
                end
    end.
End Dir.
Arguments dir : clear implicits.

(** Decimal digits of a number, most significant first. *)
Fixpoint digits_fuel (fuel n : nat) : list nat :=
  match fuel with
  | 0 => []
  | S k => if n <? 10 then [n] else digits_fuel k (n / 10) ++ [n mod 10]
  end.
Definition digits (n : nat) : list nat := digits_fuel (S n) n.
(** Python [str(n)] *)
Definition str_of (n : nat) : name := map (fun d => 48 + d) (digits n).
(** Python [f"{n:04d}"] *)
Definition str4 (n : nat) : name := let s := str_of n in repeat 48 (4 - length s) ++ s.

(** Does a name match a pattern in which 42 is a star that stands for any text? *)
Fixpoint matches (pat : name) (s : name) : bool :=
  match pat with
  | [] => match s with [] => true | _ => false end
  | c :: p =>
      if c =? 42
      then (fix star (s : name) : bool := matches p s || match s with [] => false | _ :: r => star r end) s
      else match s with x :: r => (c =? x) && matches p r | [] => false end
  end.
