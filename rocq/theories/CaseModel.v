(** dataframe/dataframe.py [case_when] (C85); series.py and query_compiler.py [case_when] only unwrap the arguments.
    The Series is given by its blocks of rows. *)
From Verif Require Import Base Table CaseSpec.

Section Model.
  Context {L A : Type}.
  Variable leqb : L -> L -> bool.
  Variable na : A.
  (** the labels 0, 1, 2, ... *)
  Variable lab : nat -> L.
  (** where [t[a:b]] of a pandas Series labelled [idx] begins and ends: at [a] and [b], unless the labels are floats *)
  Variable bounds : list L -> nat -> nat -> nat * nat.
  Notation series := (@series L).
  Notation arg := (@arg L A).
  Notation case := (@case L A).

  (** base/dataframe/utils.py [is_trivial_index] 158-182 *)
  Definition trivial (idx : list L) : bool := list_eqb leqb idx (map lab (seq 0 (length idx))).

  (** dataframe.py 4922-4937 for a pandas Series; 4943-4967 for a Modin Series, where [_copartition] with how="left"
      (C13) brings it to the labels of [self] unless they are the same, and cuts it where [self] is cut *)
  Definition prepare {X} (fill : X) (idx : list L) (a : arg X) : res (arg X) :=
    match a with
    | Ser t =>
        if trivial idx && trivial (map fst t) then
          let data := firstn (length idx) t in
          let diff := length idx - length data in
          Ok (Ser (if 0 <? diff then combine (map lab (seq 0 (length idx))) (map snd data ++ repeat fill diff) else data))
        else do v <- aligned_to leqb fill idx t; Ok (Ser (combine idx v))
    | Mod t => do v <- aligned_to leqb fill idx t; Ok (Mod (combine idx v))
    | a => Ok a
    end.
  Definition prepare_case (idx : list L) (c : case) : res case :=
    do b <- prepare true idx (fst c); do r <- prepare na idx (snd c); Ok (b, r).

  (** dataframe.py [map_data] 4987-5002 *)
  Definition map_data {X} (off len : nat) (a : arg X) : arg X :=
    match a with
    | Mod t => Ser (slice t off (off + len))
    | Ser t => let ab := bounds (map fst t) off (off + len) in Ser (slice t (fst ab) (snd ab))
    | Items l => Items (slice l off (off + len))
    | a => a
    end.
  (** dataframe.py [remote_fn] 4890-4902: pandas' case_when on one block *)
  Definition remote_fn (b : series A) (cases : list case) : res (list A) := p_case_when leqb na b cases.
  (** dataframe.py 5004-5030 *)
  Fixpoint parts (off : nat) (blocks : list (series A)) (cases : list case) : res (list (list A)) :=
    match blocks with
    | [] => Ok []
    | b :: blocks =>
        do r <- remote_fn b (map (fun c => (map_data off (length b) (fst c), map_data off (length b) (snd c))) cases);
        do rs <- parts (off + length b) blocks cases;
        Ok (r :: rs)
    end.
  Definition mappable {X} (a : arg X) : bool := match a with Fun _ | Val _ => true | _ => false end.
  (** dataframe.py [case_when] 4869-5038: the blocks of the result; its labels are those of [self] *)
  Definition case_when (blocks : list (series A)) (cases : list case) : res (list (list A)) :=
    do cs <- rmap (prepare_case (map fst (concat blocks))) cases;
    if forallb (fun c => mappable (fst c) && mappable (snd c)) cs
    then rmap (fun b => remote_fn b cs) blocks
    else parts 0 blocks cs.
End Model.
