(** Writing a frame to one CSV file: to_csv on Ray and Unidist. *)
From Coq Require Import String Ascii.
From Verif Require Import Base Table ChunkSpec GridSpec GridModel WriteSpec.

(** ** to_csv *)

(** Python [c in s] for one character *)
Fixpoint has (c : ascii) (s : string) : bool :=
  match s with EmptyString => false | String x r => Ascii.eqb c x || has c r end.

(** Python [s.replace(a, b)] for one character *)
Fixpoint replace_char (a b : ascii) (s : string) : string :=
  match s with
  | EmptyString => EmptyString
  | String x r => String (if Ascii.eqb a x then b else x) (replace_char a b r)
  end.

(** Which of the four ways of opening a mode string names; Python's [open] raises ValueError unless there is
    exactly one. *)
Definition mode_kinds (m : string) : list ascii :=
  filter (fun c => has c m) ["r"; "w"; "a"; "x"]%char.

(** Python's [open(path, mode)] for writing (pandas' [get_handle]): the content of the file once it is open.
    FileExistsError and io.UnsupportedOperation are [RuntimeError] here. *)
Definition open_file {C} (m : string) (file : option (list C)) : res (list C) :=
  match mode_kinds m with
  | ["w"%char] => Ok []
  | ["a"%char] => Ok (match file with Some c => c | None => [] end)
  | ["x"%char] => match file with Some _ => Err RuntimeError | None => Ok [] end
  | ["r"%char] => Err RuntimeError
  | _ => Err ValueError
  end.

Section Csv.
  Context {L H A C : Type}.
  Notation dframe := (df L H A).

  (** [df.to_csv(buffer, header=...)]: pandas' own text of a table. *)
  Variable render : bool -> dframe -> list C.

  (** Where a task of [to_csv] stands: pandas_on_ray/io/io.py 192-246, pandas_on_unidist/io/io.py 184-238. *)
  Inductive phase :=
  | Start
  | Rendered (content : list C)            (* 216-222: the text is in a buffer *)
  | Turn (content : list C)                (* 225: signals.wait(partition_idx) has returned *)
  | Writing (rest : list C)                (* 228-240: the file is open, [rest] not yet written *)
  | Written                                (* 240: the file is closed *)
  | Done                                   (* 243-245 *)
  | Failed.

  Record wstate := mkw { wfile : option (list C); wevents : list bool; wtasks : list phase }.

  (** core/execution/ray/common/engine_wrapper.py [SignalActor.__init__] 253-254 *)
  Definition new_signals (event_count : nat) : list bool := repeat false event_count.

  (** [SignalActor.send] 256-264: an index past the end raises IndexError *)
  Definition send (idx : nat) (events : list bool) : res (list bool) :=
    if idx <? length events then Ok (firstn idx events ++ true :: skipn (S idx) events) else Err IndexError.

  (** [SignalActor.wait] 266-274: returns once the event is set *)
  Definition signalled (idx : nat) (events : list bool) : bool := nth idx events false.

  (** io.py 203-213: the mode of the partition's own write.  Line 207: only a 'w' is replaced. *)
  Definition task_mode (mode : string) (idx : nat) : string :=
    if negb (idx =? 0) then (if has "w" mode then replace_char "w" "a" mode else mode) else mode.
  (** io.py 213: only the first partition has the header *)
  Definition task_header (header : bool) (idx : nat) : bool := if negb (idx =? 0) then false else header.

  Definition upd {X} (i : nat) (x : X) (l : list X) : list X := firstn i l ++ x :: skipn (S i) l.

  (** One step of the task of partition [i], io.py 192-246.  Tasks run at any speed, in any interleaving; the
      text goes to the file one symbol at a time.  An exception of the task leaves it [Failed]. *)
  Inductive task_step (mode : string) (header : bool) (pieces : list dframe) (i : nat) : wstate -> wstate -> Prop :=
  | s_render d w : nth_error pieces i = Some d -> nth_error (wtasks w) i = Some Start ->
      task_step mode header pieces i w
        (mkw (wfile w) (wevents w) (upd i (Rendered (render (task_header header i) d)) (wtasks w)))
  | s_wait c w : nth_error (wtasks w) i = Some (Rendered c) -> signalled i (wevents w) = true ->
      task_step mode header pieces i w (mkw (wfile w) (wevents w) (upd i (Turn c) (wtasks w)))
  | s_open c f w : nth_error (wtasks w) i = Some (Turn c) -> open_file (task_mode mode i) (wfile w) = Ok f ->
      task_step mode header pieces i w (mkw (Some f) (wevents w) (upd i (Writing c) (wtasks w)))
  | s_open_fails c e w : nth_error (wtasks w) i = Some (Turn c) -> open_file (task_mode mode i) (wfile w) = Err e ->
      task_step mode header pieces i w (mkw (wfile w) (wevents w) (upd i Failed (wtasks w)))
  | s_write x c f w : nth_error (wtasks w) i = Some (Writing (x :: c)) -> wfile w = Some f ->
      task_step mode header pieces i w (mkw (Some (f ++ [x])) (wevents w) (upd i (Writing c) (wtasks w)))
  | s_close w : nth_error (wtasks w) i = Some (Writing []) ->
      task_step mode header pieces i w (mkw (wfile w) (wevents w) (upd i Written (wtasks w)))
  | s_send ev w : nth_error (wtasks w) i = Some Written -> send (S i) (wevents w) = Ok ev ->
      task_step mode header pieces i w (mkw (wfile w) ev (upd i Done (wtasks w)))
  | s_send_fails e w : nth_error (wtasks w) i = Some Written -> send (S i) (wevents w) = Err e ->
      task_step mode header pieces i w (mkw (wfile w) (wevents w) (upd i Failed (wtasks w))).

  (** The task's process dies or its pandas call raises, at any point.  [max_retries=0] (io.py 265): the task is
      not run again. *)
  Inductive crash_step (i : nat) : wstate -> wstate -> Prop :=
  | s_crash p w : nth_error (wtasks w) i = Some p -> p <> Done -> p <> Failed ->
      crash_step i w (mkw (wfile w) (wevents w) (upd i Failed (wtasks w))).

  Definition run_step mode header pieces (w w' : wstate) : Prop := exists i, task_step mode header pieces i w w'.
  Definition any_step mode header pieces (w w' : wstate) : Prop :=
    run_step mode header pieces w w' \/ exists i, crash_step i w w'.

  (** The row partitions the tasks get: io.py 250 [_propagate_index_objs(axis=None)], then 251-261
      [map_axis_partitions(axis=1)], whose function gets the blocks of one row put side by side
      (axis_partition.py [deploy_axis_func]). *)
  Variable leqb : L -> L -> bool.
  Variable heqb : H -> H -> bool.
  Definition row_pieces (f : pframe (L:=L) (H:=H) (A:=A)) : res (list dframe) :=
    do grid <- propagate_index_objs None f;
    rmap (concat_axis leqb heqb true) grid.

  (** io.py 188-190, 248, 250-261: one event per row partition and one more, the first is set before the tasks
      start. *)
  Definition csv_start (file : option (list C)) (pieces : list dframe) : res wstate :=
    do events <- send 0 (new_signals (length pieces + 1));
    Ok (mkw file events (repeat Start (length pieces))).

  (** io.py 263-266: the call returns when every task has, and raises when one failed. *)
  Definition csv_returned (w : wstate) : Prop := Forall (fun p => p = Done) (wtasks w).
  Definition csv_raised (w : wstate) : Prop := Exists (fun p => p = Failed) (wtasks w).

  (** pandas' own [df.to_csv(path, mode, header)] of one table, which Modin falls back to (core/io/io.py 734-744) *)
  Definition pandas_to_csv (mode : string) (header : bool) (file : option (list C)) (d : dframe) : res (list C) :=
    do f <- open_file mode file; Ok (f ++ render header d).
End Csv.
Arguments phase : clear implicits.
Arguments wstate : clear implicits.
