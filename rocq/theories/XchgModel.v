(** Model of the dataframe interchange protocol: modin as producer (chunks, columns, buffers) and as consumer. *)
From Verif Require Import Base Table ChunkModel GridModel SelSpec SelModel JoinSpec XchgSpec.

(** ** Producer: chunks *)
Section Chunks.
  Context {L H A : Type}.
  Notation pf := (@pframe L H A).
  Variable leqb : L -> L -> bool.
  Variable heqb : H -> H -> bool.
  Variables min_row min_col nparts : nat.
  Variables known_l known_w : nat -> nat -> bool.
  Variable argsort : list Z -> list nat.
  (** the floating-point test "more than 90% of the rows" for every chunk, see [take_2d_positional] *)
  Variable big : nat -> bool.

  (** interchange/dataframe_protocol/dataframe.py [get_chunks] 157-165 and 195-203: one chunk per pair of
      neighbours in [np.cumsum([0] + row_lengths)] *)
  Definition yield_chunks (f : pf) : res (list pf) :=
    let cum := cumsum0 (row_lengths f) in
    rmap (fun i => take_2d_positional leqb heqb min_row min_col nparts known_l known_w argsort (big i)
                     (Some (IRange (Z.of_nat (nth i cum 0)) (Z.of_nat (nth (S i) cum 0)) 1)) None f)
         (seq 0 (length cum - 1)).

  (** [num_chunks] 99-100 and [num_rows] 96-97 *)
  Definition num_chunks (f : pf) : nat := length (pgrid f).
  Definition num_rows (f : pf) : res nat := do i <- labels (pindex f); Ok (length i).

  (** 167-194: the repartitioned frame for another number of chunks.  The checks in the order of the code;
      [n % 0] and [n // 0] raise ZeroDivisionError, [new_lengths[-1]] of an empty list IndexError. *)
  Definition rechunk (n : Z) (f : pf) : res pf :=
    do n_rows <- num_rows f;
    if num_chunks f =? 0 then Err ZeroDivisionError
    else if negb ((n mod Z.of_nat (num_chunks f)) =? 0)%Z then Err RuntimeError
    else if (Z.of_nat n_rows <? n)%Z then Err RuntimeError
    else if (n =? 0)%Z then Err ZeroDivisionError
    else if (n <? 0)%Z then Err IndexError
    else
      let k := Z.to_nat n in
      let chunksize := n_rows / k in
      let new_lengths := repeat chunksize (k - 1) ++ [n_rows mod k + chunksize] in
      do grid <- map_axis_partitions leqb heqb nparts min_row false (pgrid f) (fun d => Ok d) false None
                   (Some new_lengths);
      construct (mkpf grid (pindex f) (pcols f) (Some new_lengths) (Some (column_widths f))).

  (** interchange/dataframe_protocol/dataframe.py [get_chunks] 151-203.  A generator in Python: an error
      surfaces when it is first advanced. *)
  Definition get_chunks (n_chunks : option Z) (f : pf) : res (list pf) :=
    match n_chunks with
    | None => yield_chunks f
    | Some n => if (n =? Z.of_nat (num_chunks f))%Z then yield_chunks f
                else do g <- rechunk n f; yield_chunks g
    end.

  (** interchange/dataframe_protocol/column.py [get_chunks] 254-307.  At 267 the first branch reads
      [self._col._allow_copy]; [self._col] is a PandasDataframe, which has no such attribute. *)
  Definition column_get_chunks (n_chunks : option Z) (f : pf) : res (list pf) :=
    let first :=
      match row_lengths f with
      | [] => Ok []
      | _ => do _ <- yield_chunks f; Err AttributeError
      end in
    match n_chunks with
    | None => first
    | Some n => if (n =? Z.of_nat (num_chunks f))%Z then first
                else do g <- rechunk n f; yield_chunks g
    end.
End Chunks.

(** ** Buffers *)

(** from_dataframe.py [buffer_to_ndarray] 380-431 for whole-byte entries: [contents] are the entries of the
    buffer ([bufsize // (bit_width // 8)] of them), [after] what lies behind it in memory.  The pointer is
    moved by [offset] entries, the number of entries is not reduced and [length] is not looked at. *)
Definition buffer_to_ndarray {X} (contents after : list X) (offset len : nat) : list X :=
  firstn (length contents) (skipn offset (contents ++ after)).

Section Strings.
  (** [str.encode(encoding="utf-8")] and [bytes.decode(encoding="utf-8")] *)
  Variable encode : list Z -> res (list Z).
  Variable decode : list Z -> res (list Z).

  (** column.py [_get_data_buffer] 356-375 *)
  Fixpoint string_data (vs : list value) : res (list Z) :=
    match vs with
    | [] => Ok []
    | VStr s :: vs => do b <- encode s; do rest <- string_data vs; Ok (b ++ rest)
    | _ :: vs => string_data vs
    end.
  (** column.py [_get_validity_buffer] 405-424: [isinstance(obj, str)] *)
  Definition string_validity (vs : list value) : list bool :=
    map (fun v => match v with VStr _ | VStrSub _ => true | _ => false end) vs.
  (** column.py [_get_offsets_buffer] 454-479: the loop; [ptr] is already in the list *)
  Fixpoint offsets_loop (ptr : nat) (vs : list value) : res (list nat) :=
    match vs with
    | [] => Ok []
    | v :: vs =>
        do ptr' <- match v with VStr s => do b <- encode s; Ok (ptr + length b) | _ => Ok ptr end;
        do rest <- offsets_loop ptr' vs; Ok (ptr' :: rest)
    end.
  Definition string_offsets (vs : list value) : res (list nat) :=
    do rest <- offsets_loop 0 vs; Ok (0 :: rest).

  (** from_dataframe.py [_inverse_null_buf] 206-229 (both kinds give the negation of a boolean mask) *)
  Definition inverse_null_buf (buf : list bool) : list bool := map negb buf.

  (** from_dataframe.py [string_column_to_ndarray] 232-311 for a byte mask in which [invalid] is the entry
      that means missing; every buffer with the memory behind it *)
  Definition string_column (data offs : list Z * list Z) (valid : option (list bool * list bool))
      (invalid : bool) (offset size : nat) : res (list value) :=
    let units := buffer_to_ndarray (fst data) (snd data) 0 size in
    let offsets := buffer_to_ndarray (fst offs) (snd offs) offset (size + 1) in
    let null_pos := match valid with
                    | None => None
                    | Some (v, after) =>
                        let v := buffer_to_ndarray v after offset size in
                        Some (if invalid then v else inverse_null_buf v)
                    end in
    rmap (fun i =>
            let missing := match null_pos with
                           | None => Ok false
                           | Some np => match nth_error np i with Some b => Ok b | None => Err IndexError end
                           end in
            do m <- missing;
            if (m : bool) then Ok VMissing
            else match nth_error offsets i, nth_error offsets (S i) with
                 | Some a, Some b => do s <- decode (slice units (Z.to_nat a) (Z.to_nat b)); Ok (VStr s)
                 | _, _ => Err IndexError
                 end) (seq 0 size).
End Strings.

(** from_dataframe.py [bitmask_to_bool_ndarray] 434-485.  The three loops write consecutive entries of an
    array of [mask_length] False; [first] is [bits_in_first_byte]. *)
Definition bits (v from n : nat) : list bool := map (fun j => Nat.testbit v (j + from)) (seq 0 n).
Definition bitmask_to_bool (bitmask : list nat) (mask_length first_byte_offset : nat) : res (list bool) :=
  let bitmask := skipn (first_byte_offset / 8) bitmask in
  let off := first_byte_offset mod 8 in
  match bitmask with
  | [] => Err IndexError
  | b0 :: _ =>
      let first := Nat.min (8 - off) mask_length in
      do full <- rmap (fun i => match nth_error bitmask (i + 1) with
                                | Some v => Ok (bits v 0 8)
                                | None => Err IndexError
                                end) (seq 0 ((mask_length - first) / 8));
      let done := bits b0 off first ++ concat full in
      let left := mask_length - length done in
      Ok (done ++ (if 1 <? length bitmask then bits (last bitmask 0) 0 left else repeat false left))
  end.

(** [buffer_to_ndarray] 420-427 for bit masks: the pointer moves by whole bytes, the number of bytes is not
    reduced. *)
Definition bit_buffer_to_ndarray (contents after : list nat) (offset len : nat) : res (list bool) :=
  bitmask_to_bool (firstn (length contents) (skipn (offset / 8) (contents ++ after))) len (offset mod 8).

(** from_dataframe.py [set_nulls] 488-541 for a validity mask: the entries at [null_pos] become missing
    (NumPy's boolean assignment needs a mask of the same length). *)
Definition set_nulls_mask (data : list value) (null_pos : list bool) : res (list value) :=
  if existsb (fun b => b) null_pos then
    if length data =? length null_pos
    then Ok (map (fun p => if snd p : bool then VMissing else fst p) (combine data null_pos))
    else Err IndexError
  else Ok data.

(** A foreign column of fixed-width entries whose missing entries are described by a bit mask in which 0 means
    missing: [primitive_column_to_ndarray] 145-164. *)
Definition foreign_column (data data_after : list value) (mask mask_after : list nat) (offset size : nat)
  : res (list value) :=
  let d := buffer_to_ndarray data data_after offset size in
  do valid <- bit_buffer_to_ndarray mask mask_after offset size;
  set_nulls_mask d (inverse_null_buf valid).

(** ** Modin's own columns, exported and read back *)
Section RoundTrip.
  Variable encode : list Z -> res (list Z).
  Variable decode : list Z -> res (list Z).

  (** from_dataframe.py [np_types_map] 35-41 *)
  Definition np_type (p : prim) (b : nat) : bool :=
    match p with
    | PInt | PUInt => existsb (Nat.eqb b) [8; 16; 32; 64]
    | PFloat => existsb (Nat.eqb b) [32; 64]
    | PBool => existsb (Nat.eqb b) [1; 8]
    end.

  (** A timestamp is stored as a signed 64-bit integer, NaT as the least one; the consumer reads the buffer as
      unsigned and casts it to datetime64, which reinterprets it. *)
  Definition nat_time : Z := (- 2 ^ 63)%Z.
  Definition store_time (v : value) : res Z :=
    match v with VNum z => Ok z | VMissing => Ok nat_time | _ => Err TypeError end.
  Definition as_unsigned (z : Z) : Z := (z mod 2 ^ 64)%Z.
  Definition as_datetime (u : Z) : value :=
    let z := if (2 ^ 63 <=? u)%Z then (u - 2 ^ 64)%Z else u in
    if (z =? nat_time)%Z then VMissing else VNum z.

  (** column.py [_get_data_buffer] 340-350 and [get_buffers], then from_dataframe.py
      [primitive_column_to_ndarray] 145-164, [datetime_column_to_ndarray] 314-377 and
      [string_column_to_ndarray].  The buffers of modin's own columns start at the first entry ([offset] is 0)
      and have nothing behind them that is read.  [describe_null] 205-225: no mask for numbers and timestamps,
      a byte mask with 0 for missing for strings. *)
  Definition simple_round_trip (k : skind) (vs : list value) : res (list value) :=
    match k with
    | SPrim p b => if np_type p b then Ok (buffer_to_ndarray vs [] 0 (length vs)) else Err NotImplementedErr
    | SDate =>
        do words <- rmap store_time vs;
        Ok (map as_datetime (buffer_to_ndarray (map as_unsigned words) [] 0 (length vs)))
    | SStr =>
        do data <- string_data encode vs;
        do offs <- string_offsets encode vs;
        string_column decode (data, []) (map Z.of_nat offs, []) (Some (string_validity vs, [])) false 0 (length vs)
    end.

  Definition value_eqb (a b : value) : bool :=
    match a, b with
    | VNum x, VNum y => (x =? y)%Z
    | VStr x, VStr y | VStrSub x, VStrSub y => list_eqb Z.eqb x y
    | VMissing, VMissing => true
    | VObj x, VObj y => x =? y
    | _, _ => false
    end.

  (** [series.values.codes]: the position of the value among the categories, -1 if it is missing *)
  Definition code (cats : list value) (v : value) : Z :=
    match position value_eqb v cats with Some p => Z.of_nat p | None => (-1)%Z end.

  (** from_dataframe.py [categorical_column_to_series] 167-203.  [values = cat_values[codes % len(cat_values)]]
      (NumPy's remainder by zero is zero, so without categories the lookup is out of bounds); then
      [set_nulls] with USE_SENTINEL -1 compares the *values* with -1 (518-519). *)
  Definition categorical_column (cat_values : list value) (codes : list Z) : res (list value) :=
    do values <- rmap (fun c => match nth_error cat_values (Z.to_nat (c mod Z.of_nat (length cat_values))) with
                                | Some v => Ok v
                                | None => Err IndexError
                                end) codes;
    Ok (map (fun v => if value_eqb v (VNum (-1)) then VMissing else v) values).

  (** from_dataframe.py [unpack_protocol_column] 110-142 on a column modin exports *)
  Definition column_round_trip (k : kind) (vs : list value) : res (list value) :=
    match k with
    | KSimple k => simple_round_trip k vs
    | KCat cats k =>
        do cat_values <- simple_round_trip k cats;
        categorical_column cat_values (buffer_to_ndarray (map (code cats) vs) [] 0 (length vs))
    end.
End RoundTrip.

(** ** Consumer: whole frames *)
Section Consume.
  Context {L H : Type}.
  Notation pf := (@pframe L H value).
  Variable leqb : L -> L -> bool.
  Variable heqb : H -> H -> bool.
  Variables min_row min_col nparts : nat.
  Variables known_l known_w : nat -> nat -> bool.
  Variable argsort : list Z -> list nat.
  Variable big : nat -> bool.
  Variable encode : list Z -> res (list Z).
  Variable decode : list Z -> res (list Z).
  Variable is_str : H -> bool.          (* [isinstance(name, str)] *)
  Variable kind_of : H -> kind.         (* the dtype of the column of that name *)

  (** dataframe.py (protocol) [get_column_by_name] 114-120; [get_indexer_for] gives -1 for a name that does
      not occur (the names asked for here come from the frame itself) *)
  Definition get_column_by_name (name : H) (f : pf) : res pf :=
    do cols <- labels (pcols f);
    let p := match position heqb name cols with Some p => Z.of_nat p | None => (-1)%Z end in
    take_2d_positional leqb heqb min_row min_col nparts known_l known_w argsort false None (Some (IList [p])) f.

  (** from_dataframe.py [unpack_protocol_column] on [get_column_by_name(name)]: [to_numpy().flatten()] *)
  Definition unpack_column (name : H) (f : pf) : res (list value) :=
    do c <- get_column_by_name name f;
    do d <- pf_to_pandas leqb heqb c;
    column_round_trip encode decode (kind_of name) (concat (dcells d)).

  (** from_dataframe.py [protocol_df_chunk_to_pandas] 80-107: the loop; [seen] are the names already read *)
  Fixpoint read_columns (seen names : list H) (f : pf) : res (list (H * list value)) :=
    match names with
    | [] => Ok []
    | name :: rest =>
        if negb (is_str name) then Err ValueError
        else if existsb (heqb name) seen then Err ValueError
        else do c <- unpack_column name f; do cs <- read_columns (name :: seen) rest f; Ok ((name, c) :: cs)
    end.
  (** [pandas.DataFrame(columns)]: all columns must have the same length *)
  Definition df_of_columns (cols : list (H * list value)) : res (df nat H value) :=
    let n := match cols with [] => 0 | (_, c) :: _ => length c end in
    if forallb (fun c => length (snd c) =? n) cols
    then Ok (mkdf (seq 0 n) (map fst cols) (transp n (map snd cols)))
    else Err ValueError.
  Definition chunk_to_pandas (f : pf) : res (df nat H value) :=
    do names <- labels (pcols f);
    do cols <- read_columns [] names f;
    df_of_columns cols.

  (** from_dataframe.py [from_dataframe_to_pandas] 44-77: [pandas.concat(dfs, ignore_index=True)] (no frames: a
      ValueError; frames with other columns do not occur) and the labels from the metadata *)
  Definition from_dataframe (n_chunks : option Z) (f : pf) : res (df L H value) :=
    do chunks <- get_chunks leqb heqb min_row min_col nparts known_l known_w argsort big n_chunks f;
    do ds <- rmap chunk_to_pandas chunks;
    match ds with
    | [] => Err ValueError
    | d :: _ =>
        if forallb (fun e => list_eqb heqb (dcols e) (dcols d)) ds
        then
          let cells := concat (map dcells ds) in
          do index <- labels (pindex f);
          if (ncols d =? 0) || (length index =? length cells)
          then Ok (mkdf index (dcols d) cells)
          else Err ValueError
        else Err Unmodelled
    end.
End Consume.
