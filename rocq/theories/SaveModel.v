(** Writing a frame to a database table, to a parquet directory and to numbered files, and reading numbered files. *)
From Coq Require Import ZArith.
From Verif Require Import Base Table ChunkSpec ChunkModel GridSpec GridModel SelModel WriteSpec WriteModel SaveSpec.

(** ** to_sql: core/io/sql/sql_dispatcher.py [SQLDispatcher.write] 132-186 *)
Inductive if_exists := FailIfExists | ReplaceTable | AppendRows.

Section Sql.
  Context {L H A R : Type}.
  Notation dframe := (df L H A).
  (** The database row of a frame row in a table with the given columns (with or without the row's label:
      [index=]). *)
  Variable record : list H -> list H -> L -> list A -> R.
  (** Does a table with these columns take rows with these headers? *)
  Variable accepts : list H -> list H -> bool.
  (** The constraints of the table: may it hold these rows? *)
  Variable valid : list H -> list R -> bool.

  (** A database: no such table, or the table's columns and rows. *)
  Definition table := option (list H * list R).
  Definition records (cs : list H) (d : dframe) : list R :=
    map (fun p => record cs (dcols d) (fst p) (snd p)) (rows_of d).

  (** pandas [DataFrame.to_sql]: one transaction. *)
  Definition pandas_to_sql (w : if_exists) (d : dframe) (t : table) : res table :=
    do base <- match t, w with
               | None, _ | Some _, ReplaceTable => Ok (dcols d, [])
               | Some _, FailIfExists => Err ValueError
               | Some x, AppendRows => if accepts (fst x) (dcols d) then Ok x else Err UserError
               end;
    let rows := snd base ++ records (fst base) d in
    if valid (fst base) rows then Ok (Some (fst base, rows)) else Err UserError.

  (** One task, 168-179.  A task whose process dies is run again while it has retries left (Ray's default;
      nothing passes [max_retries] here, unlike to_csv). *)
  Inductive sphase := SStart (retries : nat) | SCommitted (retries : nat) | SDone | SFailed.
  Record sstate := mks { stable : table; stasks : list sphase }.

  Inductive sql_step (pieces : list dframe) (i : nat) : sstate -> sstate -> Prop :=
  | q_commit d r t s : nth_error pieces i = Some d -> nth_error (stasks s) i = Some (SStart r) ->
      pandas_to_sql AppendRows d (stable s) = Ok t ->
      sql_step pieces i s (mks t (upd i (SCommitted r) (stasks s)))
  | q_error d r e s : nth_error pieces i = Some d -> nth_error (stasks s) i = Some (SStart r) ->
      pandas_to_sql AppendRows d (stable s) = Err e ->
      sql_step pieces i s (mks (stable s) (upd i SFailed (stasks s)))
  | q_return r s : nth_error (stasks s) i = Some (SCommitted r) ->
      sql_step pieces i s (mks (stable s) (upd i SDone (stasks s))).
  (** the process dies before its transaction is committed *)
  Inductive sql_crash_before (i : nat) : sstate -> sstate -> Prop :=
  | q_crash_retry r s : nth_error (stasks s) i = Some (SStart (S r)) ->
      sql_crash_before i s (mks (stable s) (upd i (SStart r) (stasks s)))
  | q_crash_last s : nth_error (stasks s) i = Some (SStart 0) ->
      sql_crash_before i s (mks (stable s) (upd i SFailed (stasks s))).
  (** ... or after *)
  Inductive sql_crash_after (i : nat) : sstate -> sstate -> Prop :=
  | q_late_retry r s : nth_error (stasks s) i = Some (SCommitted (S r)) ->
      sql_crash_after i s (mks (stable s) (upd i (SStart r) (stasks s)))
  | q_late_last s : nth_error (stasks s) i = Some (SCommitted 0) ->
      sql_crash_after i s (mks (stable s) (upd i SFailed (stasks s))).

  Definition sql_run pieces (s s' : sstate) : Prop := exists i, sql_step pieces i s s'.
  Definition sql_run_early pieces (s s' : sstate) : Prop :=
    exists i, sql_step pieces i s s' \/ sql_crash_before i s s'.
  Definition sql_run_any pieces (s s' : sstate) : Prop :=
    exists i, sql_step pieces i s s' \/ sql_crash_before i s s' \/ sql_crash_after i s s'.

  (** 162: [qc.getitem_row_array([0]).to_pandas()] (query_compiler.py [getitem_row_array]: [take_2d_positional]) *)
  Definition first_row leqb heqb min_row min_col nparts known_l known_w argsort big (f : pframe (L:=L) (H:=H) (A:=A)) : res dframe :=
    do r <- take_2d_positional leqb heqb min_row min_col nparts known_l known_w argsort big (Some (IList [0%Z])) None f;
    pf_to_pandas leqb heqb r.

  (** 162-166, 181-183: an empty frame with the columns of the first row is written first, then the tasks start;
      [take_first] is [first_row]. *)
  Definition sql_start (retries : nat) (w : if_exists) (take_first : res dframe) (pieces : list dframe) (t : table) : res sstate :=
    do first <- take_first;
    do t1 <- pandas_to_sql w (iloc_rows first 0 0) t;
    Ok (mks t1 (repeat (SStart retries) (length pieces))).
  Definition sql_returned (s : sstate) : Prop := Forall (fun p => p = SDone) (stasks s).
  Definition sql_raised (s : sstate) : Prop := Exists (fun p => p = SFailed) (stasks s).
End Sql.
Arguments table : clear implicits.
Arguments sstate : clear implicits.

(** ** to_parquet: core/io/column_stores/parquet_dispatcher.py [ParquetDispatcher.write] 912-962 *)
Section Parquet.
  Context {L H A : Type}.
  Notation dframe := (df L H A).

  (** 945-947: [part-{partition_idx:04d}.{compression}.parquet]; [suffix] is what follows the number.
      "part-" is 112 97 114 116 45. *)
  Definition part_name (suffix : name) (idx : nat) : name := [112; 97; 114; 116; 45] ++ str4 idx ++ suffix.

  (** [PNamed p]: the task runs in process [p], between lines 945 and 948 *)
  Inductive pphase := PStart | PNamed (p : nat) | PDone.
  (** [pvars]: [kwargs["path"]] of every worker process.  Line 945 stores the path in the dictionary of the
      enclosing call, which the tasks of a process may share (Dask: the function is scattered once per worker). *)
  Record pstate := mkps { pdir : dir dframe; pvars : list name; ptasks : list pphase }.

  Definition running (p : nat) (ts : list pphase) : nat :=
    length (filter (fun t => match t with PNamed q => q =? p | _ => false end) ts).

  (** A process runs at most [threads] tasks at a time. *)
  Inductive parquet_step (suffix : name) (pieces : list dframe) (threads : nat) (i : nat) : pstate -> pstate -> Prop :=
  | p_name p s : nth_error (ptasks s) i = Some PStart -> p < length (pvars s) -> running p (ptasks s) < threads ->
      parquet_step suffix pieces threads i s
        (mkps (pdir s) (upd p (part_name suffix i) (pvars s)) (upd i (PNamed p) (ptasks s)))
  | p_write p d n s : nth_error (ptasks s) i = Some (PNamed p) -> nth_error pieces i = Some d ->
      nth_error (pvars s) p = Some n ->
      parquet_step suffix pieces threads i s
        (mkps (dir_write n d (pdir s)) (pvars s) (upd i PDone (ptasks s)))
  (** the process dies, perhaps while it writes its file (whose content is then [junk]), and the task is run again *)
  | p_crash p s : nth_error (ptasks s) i = Some (PNamed p) ->
      parquet_step suffix pieces threads i s (mkps (pdir s) (pvars s) (upd i PStart (ptasks s)))
  | p_crash_writing p junk n s : nth_error (ptasks s) i = Some (PNamed p) -> nth_error (pvars s) p = Some n ->
      parquet_step suffix pieces threads i s (mkps (dir_write n junk (pdir s)) (pvars s) (upd i PStart (ptasks s))).
  Definition parquet_run suffix pieces threads (s s' : pstate) : Prop :=
    exists i, parquet_step suffix pieces threads i s s'.

  (** 927-929, 951-960: the directory may exist already; nothing in it is removed. *)
  Definition parquet_start (nprocs : nat) (d : dir dframe) (pieces : list dframe) : pstate :=
    mkps d (repeat [] nprocs) (repeat PStart (length pieces)).
  Definition parquet_returned (s : pstate) : Prop := Forall (fun p => p = PDone) (ptasks s).
End Parquet.

(** Row labels that are a range are not stored as a column: every file has the range of its own rows in its
    metadata (pandas, PyArrow). *)
Record range := mkrange { rstart : Z; rstop : Z; rstep : Z }.
Definition range_labels (r : range) (n : nat) : list Z := map (fun k => (rstart r + rstep r * Z.of_nat k)%Z) (seq 0 n).
(** pandas: [RangeIndex(start, start + step * n, step)[a:b]] is a range again. *)
Definition range_slice (start step : Z) (a b : nat) : range :=
  mkrange (start + step * Z.of_nat a) (start + step * Z.of_nat b) step.
(** parquet_dispatcher.py [build_index] 546-627, range index and no filters: PyArrow takes the range of the
    dataset's schema, which is the first file's, unless its length differs from the number of rows (607-610). *)
Definition parquet_range_labels (first : range) (total : nat) : list Z :=
  if ((rstop first - rstart first) =? Z.of_nat total * rstep first)%Z
  then range_labels first total
  else map Z.of_nat (seq 0 total).

(** ** to_*_glob, read_*_glob: experimental/core/io/glob/glob_dispatcher.py *)
Section Glob.
  Context {L H A K : Type}.
  Notation dframe := (df L H A).
  Variable leqb : L -> L -> bool.
  Variable heqb : H -> H -> bool.
  (** pandas' writer and reader of one file *)
  Variable dump : dframe -> K.
  Variable load : K -> res dframe.

  (** 145-146: [filepath_or_buffer.replace("*", str(partition_idx))] *)
  Definition glob_name (pat : name) (idx : nat) : name :=
    flat_map (fun c => if c =? 42 then str_of idx else [c]) pat.

  (** 144-155, [write]: every row partition goes to its own file; the path is local to the task, so the tasks do
      not disturb each other and run in any order [order]. *)
  Definition glob_write (pat : name) (pieces : list dframe) (order : list nat) (d : dir K) : dir K :=
    fold_left (fun d i => match nth_error pieces i with
                          | Some p => dir_write (glob_name pat i) (dump p) d
                          | None => d
                          end) order d.

  (** [read] 59-103: the matching files in the order of their names, one row partition each; the labels come from
      the blocks: all row labels, the headers of the first block (partition_manager.py [get_indices] 1220-1267). *)
  Definition glob_read (pat : name) (d : dir K) : res (pframe (L:=L) (H:=H) (A:=A)) :=
    match filter (fun p => matches pat (fst p)) d with
    | [] => Err ValueError
    | fs =>
        do blocks <- rmap (fun p => load (snd p)) fs;
        construct (mkpf (map (fun b => [b]) blocks) (Some (concat (map dindex blocks)))
                        (Some (match blocks with b :: _ => dcols b | [] => [] end)) None None)
    end.
End Glob.
