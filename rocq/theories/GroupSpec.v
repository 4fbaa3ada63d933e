(** Specification of groupby aggregations, independent of the model: for every key that occurs, the aggregate of
    all rows with that key.  A key is the list of the cells of the grouping columns (index levels). *)
From Verif Require Import Base Table GridSpec.
From Coq Require Import QArith Qcanon.
Open Scope nat_scope.

Section Keys.
  Context {H A : Type}.
  Variable aeqb : A -> A -> bool.                (* the same key cell; missing cells are the same cell *)
  Variable na : A -> bool.                       (* a missing cell *)
  Variable kle : list A -> list A -> bool.       (* the order in which keys are sorted *)
  Notation key := (list A).
  Definition keqb : key -> key -> bool := list_eqb aeqb.

  (** [xs] at the rows whose key is [k]; [ks] holds the key of every row. *)
  Definition pick {X} (k : key) (ks : list key) (xs : list X) : list X :=
    map snd (filter (fun p => keqb (fst p) k) (combine ks xs)).

  (** Every key once, in order of first appearance. *)
  Fixpoint distinct (ks : list key) : list key :=
    match ks with
    | [] => []
    | k :: ks => k :: filter (fun x => negb (keqb k x)) (distinct ks)
    end.

  Fixpoint insert_key (k : key) (l : list key) : list key :=
    match l with
    | [] => [k]
    | x :: l' => if kle k x then k :: l else x :: insert_key k l'
    end.
  Definition sort_keys (l : list key) : list key := fold_right insert_key [] l.

  (** The keys of the result: [dropna] leaves out keys with a missing cell, [sort] sorts them. *)
  Definition keys_of (sort dropna : bool) (ks : list key) : list key :=
    let d := distinct (filter (fun k => negb (dropna && existsb na k)) ks) in
    if sort then sort_keys d else d.

  (** [df.groupby(ks)[cols of d].agg()]: one row per key, one aggregate per column. *)
  Definition groupby {L} (agg : list A -> A) (sort dropna : bool) (ks : list key) (d : df L H A) : df key H A :=
    mkdf (keys_of sort dropna ks) (dcols d)
         (map (fun k => map agg (transp (ncols d) (pick k ks (dcells d)))) (keys_of sort dropna ks)).
End Keys.

Section Columns.
  Context {L H A : Type}.
  Variable heqb : H -> H -> bool.

  Definition inb (h : H) (l : list H) : bool := existsb (heqb h) l.
  (** the entries of [l] (one per header of [cols]) under the headers satisfying [p] *)
  Definition keepl {X Y} (p : X -> bool) (cols : list X) (l : list Y) : list Y :=
    map snd (filter (fun q => p (fst q)) (combine cols l)).
  (** the columns of [d] whose header satisfies [p] *)
  Definition keep_cols (p : H -> bool) (d : df L H A) : df L H A :=
    mkdf (dindex d) (filter p (dcols d)) (map (keepl p (dcols d)) (dcells d)).
  (** the cells of a row under the headers [by], in the order of [by] *)
  Definition key_of (by_ : list H) (cols : list H) (r : list A) : list A :=
    flat_map (fun h => keepl (heqb h) cols r) by_.
  Definition row_keys (by_ : list H) (d : df L H A) : list (list A) := map (key_of by_ (dcols d)) (dcells d).
  (** [d[by]] and [d.drop(columns=by)] *)
  Definition columns_at (by_ : list H) (d : df L H A) : df L H A := mkdf (dindex d) by_ (row_keys by_ d).
  Definition without (by_ : list H) (d : df L H A) : df L H A := keep_cols (fun h => negb (inb h by_)) d.
End Columns.

(** Labels of a groupby result: the key, or the row number after [as_index=False]. *)
Inductive rlabel (A : Type) := Key (k : list A) | Pos (n : nat).
Arguments Key {A} k.
Arguments Pos {A} n.

Section Result.
  Context {H A : Type}.
  (** [as_index=True]: the keys label the rows. *)
  Definition keyed (g : df (list A) H A) : df (rlabel A) H A := mkdf (map Key (dindex g)) (dcols g) (dcells g).
  (** [as_index=False]: the rows are numbered; the keys become the first columns, unless they came from elsewhere
      ([names] empty). *)
  Definition numbered (names : list H) (g : df (list A) H A) : df (rlabel A) H A :=
    mkdf (map Pos (seq 0 (nrows g))) (names ++ dcols g)
         (map2 (fun k r => match names with [] => r | _ => k ++ r end) (dindex g) (dcells g)).
End Result.

(** * Aggregations by name *)
Inductive agg_name := GSum | GCount | GSize | GMin | GMax | GProd | GAny | GAll.
(** [min_count]: missing unless at least that many values are present *)
Definition at_least (min_count : nat) (agg : list (option Z) -> option Z) (l : list (option Z)) : option Z :=
  if length (values l) <? min_count then None else agg l.
Definition p_size (l : list (option Z)) : option Z := Some (Z.of_nat (length l)).
Definition agg_of (name : agg_name) (min_count : nat) : list (option Z) -> option Z :=
  match name with
  | GSum => at_least min_count p_sum
  | GCount => p_count
  | GSize => p_size
  | GMin => at_least min_count p_min
  | GMax => at_least min_count p_max
  | GProd => at_least min_count p_prod
  | GAny => p_any
  | GAll => p_all
  end.

(** * Aggregations of the values of a group; [None] is a missing value and is skipped *)
Section Numbers.
  Definition present {X} (l : list (option X)) : list X :=
    concat (map (fun o => match o with Some x => [x] | None => [] end) l).
  Definition qsum (l : list Qc) : Qc := fold_right Qcplus (Q2Qc 0) l.
  Definition qlen {X} (l : list X) : Qc := Q2Qc (inject_Z (Z.of_nat (length l))).

  Definition mean (l : list (option Qc)) : option Qc :=
    match present l with
    | [] => None
    | xs => Some (Qcdiv (qsum xs) (qlen xs))
    end.

  (** sum over the group of (x - mean)^p *)
  Definition central (p : nat) (xs : list Qc) : Qc :=
    let m := Qcdiv (qsum xs) (qlen xs) in qsum (map (fun x => Qcpower (Qcminus x m) p) xs).
  (** pandas nanops [nanskew]: adjusted skewness; [root] is x^0.5 and [root3] is x^1.5 *)
  Definition skew (root root3 : Qc -> Qc) (l : list (option Qc)) : option Qc :=
    let xs := present l in
    let n := qlen xs in
    if length xs <? 3 then None
    else if Qc_eq_dec (central 2 xs) (Q2Qc 0) then Some (Q2Qc 0)
    else Some (Qcmult (Qcdiv (Qcmult n (root (Qcminus n (Q2Qc 1)))) (Qcminus n (Q2Qc 2)))
                      (Qcdiv (central 3 xs) (root3 (central 2 xs)))).
End Numbers.
