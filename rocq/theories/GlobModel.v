(** Model of read_csv_glob: experimental/core/io/text/csv_glob_dispatcher.py and the CSVGlob parser in
    experimental/core/storage_formats/pandas/parsers.py; and of the column widths every text reader computes. *)
From Verif Require Import Base Table ChunkModel CsvSpec CsvModel.

(** text_file_dispatcher.py [_define_metadata] 549-598, for [n] column names *)
Definition define_metadata (n nparts min_block : nat) : res (list nat * nat) :=
  let num_splits := min (if n =? 0 then 1 else n) nparts in
  do c <- compute_chunksize n num_splits min_block;
  if n <? c then Ok ([n], 1)
  else Ok (map (fun i => if c * (i + 1) <? n then c else if n <? c * i then 0 else n - c * i) (seq 0 num_splits),
           num_splits).

Section Glob.
  Context {B : Type}.
  Variable nl q : B -> bool.
  Variable is_row : list B -> bool.
  Variable is_quoting enc : bool.

  (** A chunk: (number of the file, start, end).  The file name only serves to open the file again. *)
  Definition gchunk : Type := nat * (nat * nat).
  Record gstate := GState { g_result : list (list gchunk); g_split : list gchunk; g_size : nat; g_count : nat }.
  Inductive gout := Cont (s : gstate) | Return (r : list (list gchunk)).

  Definition add_last (result : list (list gchunk)) (split : list gchunk) : list (list gchunk) :=
    match split with [] => result | _ => result ++ [split] end.

  (** The [while f.tell() < f_size] loop, 463-509; [start] is [f.tell()] at the head of the loop. *)
  Fixpoint file_loop (fuel : nat) (file : list B) (idx : nat) (nrows : option nat) (psize start : nat)
      (s : gstate) : gout :=
    match fuel with
    | 0 => Cont s
    | S fuel =>
        if start <? length file then
          let s := if psize <=? g_size s then GState (g_result s ++ [g_split s]) [] 0 (g_count s) else s in
          let read_size := psize - g_size s in
          match nrows with
          | Some (S _ as n) =>
              if n <=? g_count s then Return (add_last (g_result s) (g_split s))
              else
                let read_size := if n <? g_count s + read_size then n - g_count s else read_size in
                let '(_, read, pos) := read_rows nl q file is_quoting read_size true start in
                file_loop fuel file idx nrows psize pos
                  (GState (g_result s) (g_split s ++ [(idx, (start, pos))])
                     (g_size s + read + (pos - start)) (g_count s + read))
          | _ =>
              let '(_, pos) := offset nl q file is_quoting read_size start in
              file_loop fuel file idx nrows psize pos
                (GState (g_result s) (g_split s ++ [(idx, (start, pos))])
                   (g_size s + (pos - start)) (g_count s))
          end
        else Cont s
    end.

  (** The loop over the files, 444-462; [skiprows] may become negative. *)
  Fixpoint files_loop (files : list (list B)) (idx : nat) (nrows : option nat) (psize : nat)
      (skiprows : Z) (skip_header : nat) (s : gstate) : list (list gchunk) :=
    match files with
    | [] => add_last (g_result s) (g_split s)
    | file :: files =>
        let skipping := negb (skiprows =? 0)%Z || negb (skip_header =? 0) in
        let amount := (skiprows + Z.of_nat skip_header)%Z in
        let '(_, read, start) :=
          if skipping && (0 <? amount)%Z then read_rows nl q file is_quoting (Z.to_nat amount) true 0
          else (true, 0, 0) in
        let skiprows' := if (skiprows =? 0)%Z then skiprows else (skiprows - Z.of_nat read)%Z in
        if negb (skiprows =? 0)%Z && (0 <? skiprows')%Z
        then files_loop files (S idx) nrows psize skiprows' skip_header s
        else match file_loop (S (length file)) file idx nrows psize start s with
             | Return r => r
             | Cont s => files_loop files (S idx) nrows psize skiprows' skip_header s
             end
    end.

  (** [partitioned_file] 384-515 *)
  Definition glob_partitions (files : list (list B)) (num_partitions : nat) (nrows : option nat)
      (skiprows skip_header : nat) : list (list gchunk) :=
    let total := match nrows with Some (S _ as n) => n | _ => list_sum (map (@length B) files) end in
    files_loop files 0 nrows (max 1 (max num_partitions (total / num_partitions)))
      (Z.of_nat skiprows) skip_header (GState [] [] 0 0).

  (** The worker, parsers.py 44-93: every chunk is parsed alone, without header; with an [encoding] the first
      line of the file goes before it and is skipped.  The frames are concatenated. *)
  Definition glob_parse (files : list (list B)) (chunks : list gchunk) : list (list B) :=
    concat (map (fun c => generic_parse nl q (nth (fst c) files []) is_row is_quoting enc 0 (snd c)) chunks).

  (** [_read]: the rows of the frame, split by split *)
  Definition read_csv_glob (files : list (list B)) (num_partitions : nat) (nrows : option nat)
      (skiprows skip_header : nat) : list (list B) :=
    concat (map (glob_parse files) (glob_partitions files num_partitions nrows skiprows skip_header)).
End Glob.
