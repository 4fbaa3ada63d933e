(** Specification of [left.merge(right, ...)], independent of the model.  Rows of the result are combined rows, in
    the order of the rows of one side. *)
From Verif Require Import Base Table GroupSpec.

Inductive how := HLeft | HInner | HRight.

Section Merge.
  Context {H A : Type}.
  Variable heqb : H -> H -> bool.
  Variable aeqb : A -> A -> bool.               (* the same key cell; missing cells are the same *)
  Variable nan : A.
  Variable suffixed : bool -> H -> H.           (* the suffix of the left (false) and of the right side (true) *)
  (** the key columns: pairs of a left and a right header *)
  Variable keys : list (H * H).

  (** a key column with the same header on both sides appears once *)
  Definition shared (h : H) : bool := existsb (fun p => heqb (fst p) h && heqb (snd p) h) keys.

  (** The headers: those of the left, then those of the right; a header on both sides gets a suffix. *)
  Definition header (left right : list H) : list H :=
    let right := filter (fun h => negb (shared h)) right in
    map (fun h => if inb heqb h right then suffixed false h else h) left
    ++ map (fun h => if inb heqb h left then suffixed true h else h) right.

  Context {L R : Type}.
  Variable ld : df L H A.
  Variable rd : df R H A.
  Definition left_key (l : list A) : list A := key_of heqb (map fst keys) (dcols ld) l.
  Definition right_key (r : list A) : list A := key_of heqb (map snd keys) (dcols rd) r.
  Definition same_key (l r : list A) : bool := list_eqb aeqb (left_key l) (right_key r).
  Definition right_part (r : list A) : list A := keepl (fun h => negb (shared h)) (dcols rd) r.
  Definition both (l r : list A) : list A := l ++ right_part r.
  Definition left_only (l : list A) : list A :=
    l ++ repeat nan (length (filter (fun h => negb (shared h)) (dcols rd))).
  Definition right_only (r : list A) : list A :=
    map (fun h => if shared h then hd nan (keepl (heqb h) (dcols rd) r) else nan) (dcols ld) ++ right_part r.

  (** Every left row with every right row of the same key, in the order of the left rows and then of the right
      rows; how="left": also every left row without a partner; how="right": with the sides exchanged. *)
  Definition merged_rows (h : how) : list (list A) :=
    match h with
    | HInner => flat_map (fun l => map (both l) (filter (same_key l) (dcells rd))) (dcells ld)
    | HLeft => flat_map (fun l => match filter (same_key l) (dcells rd) with
                                  | [] => [left_only l]
                                  | rs => map (both l) rs
                                  end) (dcells ld)
    | HRight => flat_map (fun r => match filter (fun l => same_key l r) (dcells ld) with
                                   | [] => [right_only r]
                                   | ls => map (fun l => both l r) ls
                                   end) (dcells rd)
    end.

  (** ... numbered from 0. *)
  Definition merge (h : how) : df nat H A :=
    mkdf (seq 0 (length (merged_rows h))) (header (dcols ld) (dcols rd)) (merged_rows h).
End Merge.

(** How the caller names the key columns: [on=], [left_on=]/[right_on=], or nothing (the common columns). *)
Inductive keys_arg (H : Type) := On (o : list H) | LeftRight (lo ro : list H) | Common.
Arguments On {H} o.
Arguments LeftRight {H} lo ro.
Arguments Common {H}.
Definition key_pairs {H} (heqb : H -> H -> bool) (left right : list H) (k : keys_arg H) : list (H * H) :=
  match k with
  | On o => map (fun h => (h, h)) o
  | LeftRight lo ro => combine lo ro
  | Common => map (fun h => (h, h)) (filter (fun h => inb heqb h right) left)
  end.
(** A call pandas accepts (without index levels as keys): at least one key, every key a column. *)
Definition keys_ok {H} (left right : list H) (k : keys_arg H) : Prop :=
  match k with
  | On o => o <> [] /\ incl o left /\ incl o right
  | LeftRight lo ro => lo <> [] /\ length lo = length ro /\ incl lo left /\ incl ro right
  | Common => exists h, In h left /\ In h right
  end.

(** validate=: no two rows of a side have the same key. *)
Definition distinct_keys {A} (aeqb : A -> A -> bool) (ks : list (list A)) : Prop :=
  forall i j x y, i < j -> nth_error ks i = Some x -> nth_error ks j = Some y -> list_eqb aeqb x y = false.
