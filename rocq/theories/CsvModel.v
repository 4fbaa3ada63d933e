(** Model of the text file reader: core/io/text/text_file_dispatcher.py and [generic_parse] in
    core/storage_formats/pandas/parsers.py, for encodings read line by line at the newline byte. *)
From Verif Require Import Base Table ChunkModel CsvSpec.

Section Csv.
  Context {B : Type}.
  Variable nl q : B -> bool.       (* the newline byte; [quotechar] *)
  Variable file : list B.

  (** One [next(f)] of a binary file: up to and including the next newline byte. *)
  Fixpoint take_line (s : list B) : list B :=
    match s with
    | [] => []
    | b :: s => if nl b then [b] else b :: take_line s
    end.

  Definition odd_count (s : list B) : bool := Nat.odd (length (filter q s)).

  (** [_read_rows] 351-419, from file position [pos]: (outside_quotes, rows_read, position).
      The loop; [fuel] bounds the number of lines. *)
  Fixpoint rows_loop (fuel : nat) (is_quoting : bool) (nrows : nat) (outside : bool) (rows pos : nat)
    : bool * nat * nat :=
    match fuel with
    | 0 => (outside, rows, pos)
    | S fuel =>
        match take_line (skipn pos file) with
        | [] => (outside, rows, pos)
        | line =>
            let pos := pos + length line in
            let outside := if is_quoting && odd_count line then negb outside else outside in
            if outside then
              if nrows <=? S rows then (outside, S rows, pos)
              else rows_loop fuel is_quoting nrows outside (S rows) pos
            else rows_loop fuel is_quoting nrows outside rows pos
        end
    end.
  Definition read_rows (is_quoting : bool) (nrows : nat) (outside : bool) (pos : nat) : bool * nat * nat :=
    if nrows =? 0 then (true, 0, pos)
    else let '(outside, rows, pos) := rows_loop (S (length file)) is_quoting nrows outside 0 pos in
         (outside, if outside then rows else S rows, pos).

  (** [offset] 150-204.  [f.read] stops at the end of the file, [f.seek] does not. *)
  Definition offset (is_quoting : bool) (offset_size pos : nat) : bool * nat :=
    let '(pos1, outside) :=
      if is_quoting
      then let chunk := slice file pos (pos + offset_size) in (pos + length chunk, negb (odd_count chunk))
      else (pos + offset_size, true) in
    let '(outside, _, pos2) := read_rows is_quoting 1 outside pos1 in (outside, pos2).

  (** [rows_skipper_builder] 477-515 *)
  Definition skip_rows (is_quoting : bool) (n pos : nat) : nat :=
    if n =? 0 then pos else snd (read_rows is_quoting n true pos).

  (** The [while f.tell() < file_size] loops of [partitioned_file] 309-347. *)
  Fixpoint nrows_loop (fuel : nat) (is_quoting : bool) (nrows partition_size counter pos : nat)
    : list (nat * nat) :=
    match fuel with
    | 0 => []
    | S fuel =>
        if (pos <? length file) && (counter <? nrows) then
          let partition_size := if nrows <? counter + partition_size then nrows - counter else partition_size in
          let '(_, read, pos') := read_rows is_quoting partition_size true pos in
          (pos, pos') :: nrows_loop fuel is_quoting nrows partition_size (counter + read) pos'
        else []
    end.
  Fixpoint offset_loop (fuel : nat) (is_quoting : bool) (partition_size pos : nat) : list (nat * nat) :=
    match fuel with
    | 0 => []
    | S fuel =>
        if pos <? length file then
          let '(_, pos') := offset is_quoting partition_size pos in
          (pos, pos') :: offset_loop fuel is_quoting partition_size pos'
        else []
    end.

  (** [partitioned_file] 207-348; the metadata read in between leaves the position where it was.
      [nrows = Some 0] is falsy, like None. *)
  Definition partitioned_file (is_quoting : bool) (num_partitions : nat) (nrows : option nat)
      (skiprows header_size pre_reading : nat) : list (nat * nat) :=
    let '(result, counter, start) :=
      if pre_reading =? 0
      then ([], 0, skip_rows is_quoting header_size (skip_rows is_quoting skiprows 0))
      else let p0 := skip_rows is_quoting header_size 0 in
           let '(_, read, p1) := read_rows is_quoting pre_reading true p0 in
           ([(p0, p1)], read, skip_rows is_quoting skiprows p1) in
    result ++
    match nrows with
    | Some (S _ as n) =>
        nrows_loop (S (length file)) is_quoting n (max 1 (max num_partitions (n / num_partitions))) counter start
    | _ => offset_loop (S (length file)) is_quoting
             (max 1 (max num_partitions (length file / num_partitions))) start
    end.

  (* ---------------- the worker ---------------- *)
  (** [bio.readline()] [n] times from the start of the file *)
  Fixpoint read_lines (n : nat) (s : list B) : list B :=
    match n with
    | 0 => []
    | S n => let l := take_line s in l ++ read_lines n (skipn (length l) s)
    end.

  Variable is_row : list B -> bool.   (* does pandas make a row of this record (not blank, not a comment)? *)

  (** parsers.py [generic_parse] 167-231, non-UTF-16 encodings: the header lines are put before the chunk and
      pandas parses that, skipping them.  [enc]: an [encoding] was given.  [nonquote] under QUOTE_NONE. *)
  Definition qq (is_quoting : bool) (b : B) : bool := is_quoting && q b.
  Definition generic_parse (is_quoting enc : bool) (header_size : nat) (chunk : nat * nat) : list (list B) :=
    let '(s, e) := chunk in
    let data := slice file s e in
    if enc && (header_size =? 0)
    then filter is_row (skipn 1 (records nl (qq is_quoting) (take_line file ++ data)))
    else skipn header_size (filter is_row (records nl (qq is_quoting) (read_lines header_size file ++ data))).

  (* ---------------- skiprows ---------------- *)
  Inductive skip_md := MdNone | MdList (l : list nat) | MdFun (f : nat -> bool).

  (** [np.sort] *)
  Fixpoint insert (x : nat) (l : list nat) : list nat :=
    match l with [] => [x] | y :: l' => if x <=? y then x :: l else y :: insert x l' end.
  Definition np_sort (l : list nat) : list nat := fold_right insert [] l.
  (** [np.all(np.diff(l) == 1)] *)
  Fixpoint uniform (l : list nat) : bool :=
    match l with
    | x :: ((y :: _) as l') => (y =? S x) && uniform l'
    | _ => true
    end.

  (** [_manage_skiprows_parameter] 753-853: (skiprows_md, pre_reading, skiprows_partitioning) *)
  Definition manage_skiprows (skiprows : skiprows_arg) (header_size : nat) : skip_md * nat * nat :=
    match skiprows with
    | SkipInt k => (MdNone, 0, k)
    | SkipNone => (MdNone, 0, 0)
    | SkipList [] => (MdNone, 0, 0)
    | SkipList l =>
        let md := np_sort l in
        let md0 := hd 0 md in
        if uniform md
        then (MdNone, (if header_size <? md0 then md0 - header_size else 0), length md)
        else if header_size <? md0 then (MdList (map (fun x => x - header_size) md), 0, 0)
        else (MdList md, 0, 0)
    | SkipFun f => (MdFun (fun x => f (x + header_size)), 0, 0)
    end.

  (** [check_parameters_support] 651-726, the skiprows part: false means pandas reads the file alone. *)
  Definition skiprows_supported (skiprows : skiprows_arg) (md : skip_md) (header_size : nat) : bool :=
    match md, skiprows with
    | MdList l, _ => header_size <=? hd 0 l
    | _, SkipFun f => negb (existsb f (seq 0 header_size))
    | _, _ => true
    end.

  (** [_uses_inferred_column_names] 1201-1245 without skipfooter; [names]: column names were given *)
  Definition uses_inferred (names usecols : bool) (skiprows : skiprows_arg) : bool :=
    if names then false
    else match skiprows with
         | SkipNone => false
         | SkipInt 0 => false
         | SkipList _ => negb usecols
         | _ => true
         end.

  (** [index_range.delete(skiprows_md)]: an IndexError for a position outside the frame *)
  Definition delete_positions {X} (l : list nat) (rows : list X) : res (list X) :=
    if existsb (fun i => length rows <=? i) l then Err IndexError
    else Ok (drop_lines (fun i => existsb (Nat.eqb i) l) 0 rows).

  (** [_read] 988-1168 and [_get_new_qc] 891-985: the rows of the frame, in order. *)
  Definition read_csv (num_partitions : nat) (is_quoting enc names usecols : bool)
      (skiprows : skiprows_arg) (header_size : nat) (nrows : option nat) : res (list (list B)) :=
    let '(md, pre_reading, skip_part) := manage_skiprows skiprows header_size in
    if negb (skiprows_supported skiprows md header_size)
    then Ok (pandas_rows nl (qq is_quoting) is_row (skips skiprows) header_size nrows file)
                                              (* [single_worker_read]: pandas reads the whole file *)
    else
    let handled := match md with MdNone => false | _ => true end in
    let splits := partitioned_file is_quoting num_partitions (if handled then None else nrows)
                    skip_part header_size pre_reading in
    let worker_header := if uses_inferred names usecols skiprows then 0 else header_size in
    let rows := concat (map (generic_parse is_quoting enc worker_header) splits) in
    match md with
    | MdNone => Ok rows
    | MdList l => do r <- delete_positions l rows;
                  Ok (match nrows with Some (S _ as n) => firstn n r | _ => r end)
    | MdFun f => let r := drop_lines f 0 rows in
                 Ok (match nrows with Some (S _ as n) => firstn n r | _ => r end)
    end.
End Csv.
