(** Model of the partition call queues: the pandas-on-Python, Dask and Unidist block partitions and the
    full-axis partitions.  A function with its arguments is one value [f]; calling it is [call f]; calls
    are pure, so the copies the Python engine takes before calling are the identity. *)
From Verif Require Import Base Table ChunkModel GridModel QueueSpec.

Record part (D F : Type) := mkpart { p_data : D; p_queue : list F }.
Arguments mkpart {D F} p_data p_queue.
Arguments p_data {D F} p. Arguments p_queue {D F} p.

Section Queue.
  Context {V F : Type}.
  Variable call : F -> V -> res V.

  (** The loop over the queue: [call_queue_closure] in pandas_on_python partition.py 94-116,
      [apply_list_of_funcs] in pandas_on_dask partition.py 351-371, [drain] in axis_partition.py 596-612. *)
  Fixpoint run_queue (q : list F) (v : V) : res V :=
    match q with
    | [] => Ok v
    | f :: q' => do w <- call f v; run_queue q' w
    end.

  (* ---------------- pandas on Python ---------------- *)
  Notation py := (part V F).

  (** core/execution/python/implementations/pandas_on_python/partitioning/partition.py [apply] 76-123,
      generalised to the function [k] applied to the drained data: the partition afterwards, and the result.
      When a queued function raises, the queue is emptied (line 113) and the error re-raised. *)
  Definition py_apply {W} (p : py) (k : V -> res W) : py * res W :=
    match run_queue (p_queue p) (p_data p) with
    | Ok v => (mkpart v [], k v)
    | Err e => (mkpart (p_data p) [], Err e)
    end.

  (** [drain_call_queue] 125-129 *)
  Definition py_drain (p : py) : py * res unit :=
    match p_queue p with
    | [] => (p, Ok tt)
    | _ => py_apply p (fun _ => Ok tt)
    end.

  (** [get] 60-74: drain, then a copy of the data *)
  Definition py_get (p : py) : py * res V :=
    let '(p', r) := py_drain p in (p', do _ <- r; Ok (p_data p')).

  (** core/dataframe/pandas/partitioning/partition.py [add_to_apply_calls] 140-172 *)
  Definition add_to_apply_calls {D} (p : part D F) (f : F) : part D F :=
    mkpart (p_data p) (p_queue p ++ [f]).

  Fixpoint set_nth {X} (n : nat) (x : X) (l : list X) : list X :=
    match l, n with
    | [], _ => []
    | _ :: l, 0 => x :: l
    | y :: l, S n => y :: set_nth n x l
    end.

  (** One step of a program, Python engine.  [copy.copy] makes a partition with the same data and the
      same queue list; queues are replaced, never changed in place, so sharing the list is not seen. *)
  Definition py_step (ps : list (option py)) (op : qop V F) : list (option py) * outcome (V := V) :=
    match op with
    | QPut v => (ps ++ [Some (mkpart v [])], Ok None)
    | QAdd p f => match look ps p with
                  | Some x => (ps ++ [Some (add_to_apply_calls x f)], Ok None)
                  | None => (ps ++ [None], Err InternalBug)
                  end
    | QApply p f => match look ps p with
                    | Some x => let '(x', r) := py_apply x (call f) in
                                match r with
                                | Ok v => (set_nth p (Some x') ps ++ [Some (mkpart v [])], Ok None)
                                | Err e => (set_nth p (Some x') ps ++ [None], Err e)
                                end
                    | None => (ps ++ [None], Err InternalBug)
                    end
    | QDrain p => match look ps p with
                  | Some x => let '(x', r) := py_drain x in
                              (set_nth p (Some x') ps, do _ <- r; Ok None)
                  | None => (ps, Err InternalBug)
                  end
    | QGet p => match look ps p with
                | Some x => let '(x', r) := py_get x in
                            (set_nth p (Some x') ps, do v <- r; Ok (Some v))
                | None => (ps, Err InternalBug)
                end
    | QCopy p => match look ps p with
                 | Some x => (ps ++ [Some x], Ok None)
                 | None => (ps ++ [None], Err InternalBug)
                 end
    end.

  (* ---------------- pandas on Dask, pandas on Unidist ---------------- *)
  (** The data is a future: reading one whose task failed raises the task's error, and a task given a
      failed future fails with the same error. *)
  Notation rp := (part (res V) F).

  (** One queued call in the worker.  [retry]: Unidist ([_apply_func] 332-379, [_apply_list_of_funcs]
      383-425) calls the function again on a copy after a ValueError; Dask does not. *)
  Definition worker_call (retry : bool) (f : F) (v : V) : res V :=
    match call f v with
    | Err ValueError => if retry then call f v else Err ValueError
    | r => r
    end.
  Fixpoint worker_queue (retry : bool) (q : list F) (v : V) : res V :=
    match q with
    | [] => Ok v
    | f :: q' => do w <- worker_call retry f v; worker_queue retry q' w
    end.

  (** [apply]: pandas_on_dask partition.py 67-115, pandas_on_unidist partition.py 69-107.  The partition
      itself is not changed; a single call is submitted without the list. *)
  Definition remote_apply (retry : bool) (p : rp) (f : F) : rp :=
    let call_queue := p_queue p ++ [f] in
    if 1 <? length call_queue
    then mkpart (rbind (p_data p) (worker_queue retry call_queue)) []
    else mkpart (rbind (p_data p) (worker_call retry f)) [].

  (** [drain_call_queue]: dask 117-153, unidist 109-150.  Submitting a task never raises. *)
  Definition remote_drain (retry : bool) (p : rp) : rp :=
    match p_queue p with
    | [] => p
    | [f] => mkpart (rbind (p_data p) (worker_call retry f)) []
    | q => mkpart (rbind (p_data p) (worker_queue retry q)) []
    end.

  (** partition.py [get] 77-97 *)
  Definition remote_get (retry : bool) (p : rp) : rp * res V :=
    let p' := remote_drain retry p in (p', p_data p').

  Definition remote_step (retry : bool) (ps : list (option rp)) (op : qop V F)
    : list (option rp) * outcome (V := V) :=
    match op with
    | QPut v => (ps ++ [Some (mkpart (Ok v) [])], Ok None)
    | QAdd p f => match look ps p with
                  | Some x => (ps ++ [Some (add_to_apply_calls x f)], Ok None)
                  | None => (ps ++ [None], Err InternalBug)
                  end
    | QApply p f => match look ps p with
                    | Some x => (ps ++ [Some (remote_apply retry x f)], Ok None)
                    | None => (ps ++ [None], Err InternalBug)
                    end
    | QDrain p => match look ps p with
                  | Some x => (set_nth p (Some (remote_drain retry x)) ps, Ok None)
                  | None => (ps, Err InternalBug)
                  end
    | QGet p => match look ps p with
                | Some x => let '(x', r) := remote_get retry x in
                            (set_nth p (Some x') ps, do v <- r; Ok (Some v))
                | None => (ps, Err InternalBug)
                end
    | QCopy p => match look ps p with
                 | Some x => (ps ++ [Some x], Ok None)
                 | None => (ps ++ [None], Err InternalBug)
                 end
    end.
End Queue.

(* ---------------- full-axis partitions ---------------- *)
Section Axis.
  Context {L H A F : Type}.
  Variable leqb : L -> L -> bool.
  Variable heqb : H -> H -> bool.
  Notation dframe := (df L H A).
  Variable call : F -> dframe -> res dframe.

  (** axis_partition.py [PandasDataframeAxisPartition] 57-88 over pandas-on-Python blocks; [a_full]:
      [full_axis].  The constituents are block partitions (nested axis partitions not modelled). *)
  Record axpart := mkax { a_blocks : list (part dframe F); a_queue : list F; a_full : bool }.

  (** [list_of_blocks] 91-104: drains the blocks one after the other and takes their data *)
  Fixpoint list_of_blocks (bs : list (part dframe F)) : list (part dframe F) * res (list dframe) :=
    match bs with
    | [] => ([], Ok [])
    | b :: rest =>
        let '(b', r) := py_drain call b in
        match r with
        | Err e => (b' :: rest, Err e)
        | Ok _ => let '(rest', r') := list_of_blocks rest in
                  (b' :: rest', do ds <- r'; Ok (p_data b' :: ds))
        end
    end.

  (** [apply] 199-309 once the queue is empty; [num_splits = None]: as many as there are blocks. *)
  Definition axis_apply_drained (min_block : nat) (axis : bool) (a : axpart)
      (func : dframe -> res dframe) (num_splits : option nat) (maintain : bool)
    : axpart * res (list (part dframe F)) :=
    let num_splits := if a_full a then num_splits else Some 1 in
    let '(bs, r) := list_of_blocks (a_blocks a) in
    let a' := mkax bs (a_queue a) (a_full a) in
    match r with
    | Err e => (a', Err e)
    | Ok ds =>
        let ns := match num_splits with Some n => n | None => length bs end in
        match deploy_axis_func leqb heqb axis func ns maintain ds min_block None false with
        | Err e => (a', Err e)
        | Ok out => (a', if a_full a then Ok (map (fun d => mkpart d []) out)
                         else match out with d :: _ => Ok [mkpart d []] | [] => Err IndexError end)
        end
    end.

  (** [drain_call_queue] 152-179: the queue is cleared first and put back when [apply] raises. *)
  Definition axis_drain (min_block : nat) (axis : bool) (a : axpart) : axpart * res unit :=
    match a_queue a with
    | [] => let '(bs, r) := list_of_blocks (a_blocks a) in
            (mkax bs [] (a_full a), do _ <- r; Ok tt)
    | call_queue =>
        let '(a', r) := axis_apply_drained min_block axis (mkax (a_blocks a) [] (a_full a))
                          (run_queue call call_queue) None true in
        match r with
        | Err e => (mkax (a_blocks a') call_queue (a_full a), Err e)
        | Ok drained => (mkax drained [] (a_full a), Ok tt)
        end
    end.

  (** [apply] 199-309 *)
  Definition axis_apply (min_block : nat) (axis : bool) (a : axpart) (func : dframe -> res dframe)
      (num_splits : option nat) (maintain : bool) : axpart * res (list (part dframe F)) :=
    match a_queue a with
    | [] => axis_apply_drained min_block axis a func num_splits maintain
    | _ => let '(a', r) := axis_drain min_block axis a in
           match r with
           | Err e => (a', Err e)
           | Ok _ => axis_apply_drained min_block axis a' func num_splits maintain
           end
    end.

  (** [add_to_apply_calls] 716-744 *)
  Definition axis_add (a : axpart) (f : F) : axpart :=
    mkax (a_blocks a) (a_queue a ++ [f]) (a_full a).

  (** [to_pandas] 636-644 through [force_materialization] 181-197: one block, which then replaces the
      blocks of the partition; its data is the answer. *)
  Definition axis_to_pandas (min_block : nat) (axis : bool) (a : axpart) : axpart * res dframe :=
    let '(a', r) := axis_apply min_block axis a (fun x => Ok x) (Some 1) false in
    match r with
    | Err e => (a', Err e)
    | Ok bs => (mkax bs (a_queue a') (a_full a'),
                match bs with b :: _ => snd (py_get call b) | [] => Err IndexError end)
    end.

  Fixpoint axis_play (min_block : nat) (axis : bool) (a : axpart) (ops : list (aop F))
    : list (outcome (V := dframe)) :=
    match ops with
    | [] => []
    | AAdd f :: rest => Ok None :: axis_play min_block axis (axis_add a f) rest
    | ADrain :: rest => let '(a', r) := axis_drain min_block axis a in
                        (do _ <- r; Ok None) :: axis_play min_block axis a' rest
    | ARead :: rest => let '(a', r) := axis_to_pandas min_block axis a in
                       (do d <- r; Ok (Some d)) :: axis_play min_block axis a' rest
    end.
End Axis.
