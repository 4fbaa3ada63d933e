(** C69, the specification: [df.set_index].  Independent of the model.
    Row labels are lists of level values: a label of an index with one level has one value. *)
From Verif Require Import Base Table RemSpec.

(** A key: a column of the frame, or values (with a name, if they are a named Series or Index). *)
Inductive rowkey (H A : Type) := KColumn (h : H) | KValues (name : option H) (l : list A).
Arguments KColumn {H A} _. Arguments KValues {H A} _ _.

Section Key.
  Context {H A : Type}.
  Variable heqb : H -> H -> bool.
  Notation table := (df (list A) H A).

  (** [vs] are the values, one for each row, that the key gives to the table *)
  Definition gives (d : table) (k : rowkey H A) (vs : list A) : Prop :=
    match k with
    | KColumn h => exists p, nth_error (dcols d) p = Some h /\ Forall2 (fun r v => nth_error r p = Some v) (dcells d) vs
    | KValues _ l => vs = l /\ length l = nrows d
    end.
  Definition key_name (k : rowkey H A) : option H := match k with KColumn h => Some h | KValues n _ => n end.
  Definition key_columns (ks : list (rowkey H A)) : list H := concat (map (fun k => match k with KColumn h => [h] | KValues _ _ => [] end) ks).
  (** the labels of [n] rows, made of the values of each level *)
  Definition tuples (n : nat) (levels : list (list A)) : list (list A) := fold_right (fun vs ts => map2 cons vs ts) (repeat [] n) levels.
  Definition new_labels (append : bool) (levels : list (list A)) (d : table) : list (list A) :=
    map2 (@app A) (if append then dindex d else repeat [] (nrows d)) (tuples (nrows d) levels).
  (** the table with these values as row labels; the columns among the keys are dropped if asked for *)
  Definition indexed (drop append : bool) (ks : list (rowkey H A)) (levels : list (list A)) (d : table) : table :=
    let d' := if drop then keep_columns (map (fun h => negb (existsb (heqb h) (key_columns ks))) (dcols d)) d else d in
    mkdf (new_labels append levels d) (dcols d') (dcells d').
  (** the names of the levels *)
  Definition level_names (append : bool) (old : list (option H)) (ks : list (rowkey H A)) : list (option H) :=
    (if append then old else []) ++ map key_name ks.
End Key.
