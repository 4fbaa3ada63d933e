(** pandas/dataframe.py [__setitem__] 2733-2868, core/storage_formats/pandas/query_compiler.py [setitem], [_setitem]
    3129-3243, core/storage_formats/base/query_compiler.py [insert_item] 4982-5024.  Frames without rows, a key that is
    a slice, a mask or an array of booleans, and a list in which some columns exist and some do not, are not modelled. *)
From Verif Require Import Base Table ChunkModel GridModel GridSpec SelSpec SelModel JoinSpec JoinModel SetSpec SetModel InsSpec InsModel.

Inductive item_key (H : Type) := One (c : H) | Many (cs : list H).
Arguments One {H} _. Arguments Many {H} _.

(** what is assigned: an array or a scalar, another list-like without labels, a Series or a DataFrame of the user *)
Inductive given (A : Type) := GArray (x : item A) | GList (l : list A) | GSeries (k : nat) | GFrame (k : nat).
Arguments GArray {A} _. Arguments GList {A} _. Arguments GSeries {A} _. Arguments GFrame {A} _.

Section Itm.
  Context {L H A : Type}.
  Variable leqb : L -> L -> bool.
  Variable heqb : H -> H -> bool.
  Variables min_row min_col nparts : nat.
  Variables known_l known_w : nat -> nat -> bool.
  Variable argsort : list Z -> list nat.
  Variable fill : A.
  Variable outer : list (list L) -> list L * list (list (option nat)).   (* [_join_index_objects], how="outer" *)
  Notation dframe := (df L H A).
  Notation pf := (@pframe L H A).
  Notation take cols f := (take_2d_positional leqb heqb min_row min_col nparts known_l known_w argsort false None (Some (IList cols)) f).
  Notation setitem_column := (setitem_column leqb heqb min_row min_col nparts known_l known_w argsort fill (first_labels leqb)).
  Notation df_setitem := (df_setitem leqb heqb min_row min_col nparts known_l known_w argsort fill (first_labels leqb)).
  Notation insert_item := (insert_item leqb heqb min_row min_col nparts known_l known_w argsort fill (first_labels leqb)).
  Notation df_insert := (df_insert leqb heqb min_row min_col nparts known_l known_w argsort fill).

  (** dataframe.py 2791-2811, the loop over [self.columns]: which columns are taken together, and from where
      (true: the value) *)
  Fixpoint runs (keys cols : list H) (from_value : bool) (to_take : list H) : list (bool * list H) :=
    match cols with
    | [] => match to_take with [] => [] | _ => [(from_value, to_take)] end
    | c :: cols =>
        if xorb (existsb (heqb c) keys) from_value then
          match to_take with [] => [] | _ => [(from_value, to_take)] end ++ runs keys cols (negb from_value) [c]
        else runs keys cols from_value (to_take ++ [c])
    end.

  (** [frame[list_of_columns]]: query_compiler.py [getitem_array] 3097-3103, [getitem_column_array] 3119-3121 *)
  Definition getitem_columns (cs : list H) (f : pf) : res pf :=
    do columns <- labels (pcols f);
    if negb (forallb (fun c => existsb (heqb c) columns) cs) then Err KeyError
    else take (map Z.of_nat (flat_map (fun c => get_indexer_for heqb c columns) cs)) f.

  (** dataframe.py 2782-2813: the pieces side by side, [concat(to_concat, axis=1)] *)
  Definition mix_columns (first_known : bool) (keys : list H) (value f : pf) : res pf :=
    do columns <- labels (pcols f);
    do pieces <- rmap (fun p : bool * list H => getitem_columns (snd p) (if fst p then value else f)) (runs keys columns false []);
    match pieces with
    | [] => Err ValueError
    | p :: ps => concat_frames_cols leqb heqb fill outer nparts min_row first_known p ps
    end.

  (** [__setitem__] on the frame with the name [r].  In 2789 [value.columns = key] is done on a shallow copy, which has
      the query compiler of the user's frame; the Series' query compiler is relabelled in query_compiler.py 3199. *)
  Definition df_assign (first_known : bool) (key : item_key H) (value : given A) (r : nat) (s : store L H A) : res (store L H A) :=
    do index <- labels (pindex (s r));
    do columns <- labels (pcols (s r));
    if length index =? 0 then Err Unmodelled
    else
      match key with
      | One c =>
          if negb (existsb (heqb c) columns) then
            (* 2751-2764 *)
            let at_end x := df_insert first_known (Z.of_nat (length columns)) c x false r s in
            match value with
            | GSeries k => if length columns =? 0 then do v <- set_columns heqb [c] (s k); Ok (assign s r v) else at_end (IObject k)
            | GFrame k => at_end (IObject k)
            | GList l => at_end (IValues l)
            | GArray (Scalar a) => at_end (IScalar a)
            | GArray (Vector m v) => at_end (IValues (map v (seq 0 m)))
            | GArray (Matrix n m v) => if m =? 1 then at_end (IValues (map (fun i => v i 0) (seq 0 n))) else Err ValueError
            end
          else
            (* 2853-2868 *)
            match value with
            | GArray x => do new <- df_setitem first_known c x (s r); Ok (assign s r new)
            | GList l =>
                do new <- setitem_column first_known c (Vector (length l) (fun i => nth i l fill)) (s r); Ok (assign s r new)
            | GFrame k =>
                do t <- pf_to_pandas leqb heqb (s k);
                match dcols t with
                | [] => Err IndexError
                | c0 :: rest =>
                    if existsb (heqb c0) rest then Err Unmodelled
                    else
                      do new <- setitem_column first_known c (Vector (nrows t) (fun i => nth 0 (nth i (dcells t) []) fill)) (s r);
                      Ok (assign s r new)
                end
            | GSeries k =>
                do v <- set_columns heqb [c] (s k);
                let s := assign s k v in
                match get_indexer_for heqb c columns with
                | idx :: _ => do new <- insert_item first_known idx (s k) (s r); Ok (assign s r new)
                | [] => Err InternalBug
                end
            end
      | Many cs =>
          if forallb (fun c => existsb (heqb c) columns) cs then
            match value with
            | GFrame k =>
                (* 2777-2821 *)
                do vcols <- labels (pcols (s k));
                if negb (length cs =? length vcols) then Err ValueError
                else
                  do v <- set_columns heqb cs (s k);
                  let s := assign s k v in
                  do new <- mix_columns first_known cs (s k) (s r); Ok (assign s r new)
            | _ => Err Unmodelled     (* [write_items]: C10 *)
            end
          else if forallb (fun c => negb (existsb (heqb c) columns)) cs then
            match value with
            | GFrame k =>
                (* 2824-2844; [set_axis] relabels a copy *)
                do vcols <- labels (pcols (s k));
                if negb (length cs =? length vcols) then Err ValueError
                else
                  do v <- set_columns heqb cs (s k);
                  do new <- concat_frames_cols leqb heqb fill (first_labels leqb) nparts min_row first_known (s r) [v];
                  Ok (assign s r new)
            | _ => Err Unmodelled
            end
          else Err Unmodelled
      end.
End Itm.
