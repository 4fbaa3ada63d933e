(** Model of core/io/text/utils.py [CustomNewlineIterator] and of [_read_rows] driving it, for encodings such as
    "utf-8-sig" whose newline is one byte. *)
From Verif Require Import Base CsvSpec CsvModel.

Section Newline.
  Context {B : Type}.
  Variable nl q : B -> bool.
  Variable file : list B.
  Variable buffer_size : nat.      (* io.DEFAULT_BUFFER_SIZE *)

  (** [chunk.split(newline)]: the lines before a newline, without it, and what follows the last newline *)
  Fixpoint split_newline (cur : list B) (s : list B) : list (list B) * list B :=
    match s with
    | [] => ([], rev cur)
    | b :: s => if nl b then let '(ls, r) := split_newline [] s in (rev cur :: ls, r)
                else split_newline (b :: cur) s
    end.

  (** [for line in lines[:-1]] 53-55, each line going through the body of the loop of [_read_rows]
      (text_file_dispatcher.py 404-410): (stopped by break, outside_quotes, rows_read, bytes_read) *)
  Fixpoint feed (is_quoting : bool) (nrows : nat) (lines : list (list B)) (outside : bool) (rows bytes : nat)
    : bool * bool * nat * nat :=
    match lines with
    | [] => (false, outside, rows, bytes)
    | line :: lines =>
        let bytes := bytes + (length line + 1) in
        let outside := if is_quoting && odd_count q line then negb outside else outside in
        if outside then
          if nrows <=? S rows then (true, outside, S rows, bytes)
          else feed is_quoting nrows lines outside (S rows) bytes
        else feed is_quoting nrows lines outside rows bytes
    end.

  (** [__iter__] 36-59, [chunk] starting at file position [base]; the final position is that of [seek] 61-63:
      [tell + bytes_read - chunk_size].  None: the fuel did not suffice. *)
  Fixpoint newline_loop (fuel : nat) (is_quoting : bool) (nrows : nat) (outside : bool) (rows base : nat)
      (chunk : list B) : option (bool * nat * nat) :=
    match fuel with
    | 0 => None
    | S fuel =>
        match chunk with
        | [] => Some (outside, rows, base)
        | _ =>
            let '(lines, last) := split_newline [] chunk in
            let '(stopped, outside, rows, bytes) := feed is_quoting nrows lines outside rows 0 in
            if stopped then Some (outside, rows, base + bytes)
            else newline_loop fuel is_quoting nrows outside rows (base + bytes)
                   (last ++ firstn buffer_size (skipn (base + length chunk) file))
        end
    end.
  Definition read_rows_newline (fuel : nat) (is_quoting : bool) (nrows : nat) (outside : bool) (pos : nat)
    : option (bool * nat * nat) :=
    if nrows =? 0 then Some (true, 0, pos)
    else match newline_loop fuel is_quoting nrows outside 0 pos (firstn buffer_size (skipn pos file)) with
         | None => None
         | Some (outside, rows, pos) => Some (outside, if outside then rows else S rows, pos)
         end.
End Newline.
