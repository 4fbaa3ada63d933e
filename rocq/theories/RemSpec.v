(** C62, C63, the specification: removing rows and columns ([df.drop], [df.dropna]).  Independent of the model. *)
From Verif Require Import Base Table GridSpec SelSpec LocSpec.

(** The elements of [l] marked true. *)
Fixpoint kept {X} (m : list bool) (l : list X) : list X :=
  match m, l with
  | b :: m, x :: l => if b then x :: kept m l else kept m l
  | _, _ => []
  end.

Section Keep.
  Context {L H A : Type}.
  Definition keep_rows (m : list bool) (d : df L H A) : df L H A := mkdf (kept m (dindex d)) (dcols d) (kept m (dcells d)).
  Definition keep_columns (m : list bool) (d : df L H A) : df L H A := mkdf (dindex d) (kept m (dcols d)) (map (kept m) (dcells d)).
End Keep.

(** What one may pass to [df.drop] for an axis: one label, a tuple (which is one label), a list of labels. *)
Inductive dropped (L : Type) := DOne (l : L) | DTuple (ls : list L) | DMany (ls : list L).
Arguments DOne {L} l.
Arguments DTuple {L} ls.
Arguments DMany {L} ls.

Section Drop.
  Context {L A : Type}.
  Variable eqb : L -> L -> bool.
  Variable tuple : list L -> L.
  Definition inb (l : L) (ls : list L) : bool := existsb (eqb l) ls.
  Definition named (k : option (dropped L)) : list L :=
    match k with None => [] | Some (DOne l) => [l] | Some (DTuple ls) => [tuple ls] | Some (DMany ls) => ls end.
  (** [df.drop(index=ks, columns=hs)]: the table without the rows and columns so labelled. *)
  Definition without (labels ls : list L) : list bool := map (fun l => negb (inb l ls)) labels.
  Definition removed (rows columns : option (dropped L)) (d : df L L A) : df L L A :=
    keep_rows (without (dindex d) (named rows)) (keep_columns (without (dcols d) (named columns)) d).
End Drop.

(** When a row (column) counts as missing: some cell is, every cell is, fewer than [t] cells are present. *)
Inductive rule := AnyMissing | AllMissing | FewerThan (t : nat).
Section Dropna.
  Context {L H A : Type}.
  Variable na : A -> bool.                      (* a missing value *)
  Definition missing (r : rule) (cells : list A) : bool :=
    match r with
    | AnyMissing => existsb na cells
    | AllMissing => forallb na cells
    | FewerThan t => length (filter (fun x => negb (na x)) cells) <? t
    end.
  (** only the cells at these positions are looked at *)
  Definition looked_at {X} (sub : option (list nat)) (l : list X) : list X := match sub with None => l | Some ps => pick l ps end.
  Definition dropna_rows (r : rule) (sub : option (list nat)) (d : df L H A) : df L H A :=
    keep_rows (map (fun row => negb (missing r (looked_at sub row))) (dcells d)) d.
  Definition dropna_columns (r : rule) (sub : option (list nat)) (d : df L H A) : df L H A :=
    keep_columns (map (fun c => negb (missing r (looked_at sub c))) (columns d)) d.
End Dropna.
