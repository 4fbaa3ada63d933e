(** pandas/base.py [filter] 1862-1898 along the columns (C92). *)
From Verif Require Import Base Table ChunkModel GridModel SelSpec SelModel SetModel InsModel ItmModel.

Section Model.
  Context {L H A : Type}.
  Variable leqb : L -> L -> bool.
  Variable heqb : H -> H -> bool.
  Variables min_row min_col nparts : nat.
  Variables known_l known_w : nat -> nat -> bool.
  Variable argsort : list Z -> list nat.
  Notation pf := (@pframe L H A).

  (** base.py [filter] 1898, [self[self.columns[bool_arr]]]: the headers marked, taken as a list of labels (dataframe.py [_getitem] 3312-3315,
      query_compiler.py [getitem_array] 3097-3103 as in ItmModel) *)
  Definition take_marked (marks : list bool) (f : pf) : res pf :=
    do columns <- labels (pcols f);
    getitem_columns leqb heqb min_row min_col nparts known_l known_w argsort (map fst (filter (fun hm => snd hm) (combine columns marks))) f.
  (** 1883-1895: [like] and [regex], whose test of a header is an arbitrary function here *)
  Definition df_filter (test : H -> bool) (f : pf) : res pf :=
    do columns <- labels (pcols f); take_marked (map test columns) f.
  (** 1881-1882: [labels.isin(items)] *)
  Definition df_filter_items (items : list H) (f : pf) : res pf :=
    do columns <- labels (pcols f); take_marked (map (fun c => existsb (heqb c) items) columns) f.
End Model.
