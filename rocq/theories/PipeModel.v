(** Model of modin/experimental/batch/pipeline.py.
    Simplifications: a row partition is the list of its rows (that a result cut into column blocks and glued again is
    the same is property C05); tasks run when they are submitted, so an exception of a function is raised by the call
    that drains it; functions do not change their arguments. *)
From Verif Require Import Base PipeSpec.

Section Model.
  Context {R : Type}.
  Notation D := (list R).
  Notation query := (query R).

  (** A call in the queue of a partition (axis_partition.py:716-744): a function with its arguments, or [reducer]
      (pipeline.py:245-249), a closure over the drained [new_dfs] and over the loop variable [node]. *)
  Inductive call := CFun (f : D -> res D) | CReduce (others : list D).
  Record vpart := Part { block : D; queue : list call }.
  Definition add_to_apply_calls (p : vpart) (c : call) : vpart := Part (block p) (queue p ++ [c]).

  (** axis_partition.py:595-612 [drain]; [node] is what the variable of that name holds at this moment. *)
  Fixpoint drain (node : query) (d : D) (cs : list call) : res D :=
    match cs with
    | [] => Ok d
    | CFun f :: cs => do d <- f d; drain node d cs
    | CReduce others :: cs =>
        do d <- (match reduce_fn node with Some g => g (d :: others) | None => Err TypeError end); drain node d cs
    end.
  (** axis_partition.py:152-179 [drain_call_queue] and 181-197 [force_materialization], which drains as well *)
  Definition drained (node : query) (p : vpart) : res vpart := do d <- drain node (block p) (queue p); Ok (Part d []).

  (** pipeline.py:262-266 [mask_partition] *)
  Definition mask_partition (n : nat) (i : nat) (df : D) : D :=
    let new_length := length df / n in
    if i =? n - 1 then skipn (i * new_length) df else slice df (i * new_length) ((i + 1) * new_length).

  (** pipeline.py:225-285: one iteration of the loop of [_complete_nodes] *)
  Definition complete_node (n : nat) (node : query) (partitions : list vpart) : res (list vpart) :=
    if fan_out node then
      if 1 <? length partitions then Err NotImplementedErr else
      match partitions with
      | [] => Err IndexError
      | p0 :: _ =>
          do p0 <- drained node p0;
          do q0 <- drained node (add_to_apply_calls p0 (CFun (fun d => func node d (Some 0))));
          do new_dfs <- rmap (fun i => do p <- drained node (Part (block p0) [CFun (fun d => func node d (Some i))]); Ok (block p))
                             (seq 1 (n - 1));
          Ok [add_to_apply_calls q0 (CReduce new_dfs)]
      end
    else if repartition_after node then
      if 1 <? length partitions then Err NotImplementedErr else
      match partitions with
      | [] => Err IndexError
      | p0 :: _ =>
          do p0 <- drained node (add_to_apply_calls p0 (CFun (fun d => func node d None)));
          Ok (map (fun i => Part (block p0) [CFun (fun d => Ok (mask_partition n i d))]) (seq 0 n))
      end
    else if pass_partition_id node then
      imap (fun i p => Ok (add_to_apply_calls p (CFun (fun d => func node d (Some i))))) 0 partitions
    else Ok (map (fun p => add_to_apply_calls p (CFun (fun d => func node d None))) partitions).
  (** pipeline.py:209-286 *)
  Fixpoint complete_nodes (n : nat) (nodes : list query) (partitions : list vpart) : res (list vpart) :=
    match nodes with [] => Ok partitions | q :: qs => do ps <- complete_node n q partitions; complete_nodes n qs ps end.

  (** pipeline.py:107-123: outputs with their operators, the queries not yet in an output, and
      [is_output_id_specified] *)
  Record pipeline := Pipe { outputs : list (list query * query); query_list : list query; ids_given : bool }.
  Definition new_pipeline : pipeline := Pipe [] [] false.

  (** pipeline.py:142-207 *)
  Definition add_query (s : pipeline) (q : query) : res pipeline :=
    let has_id := match output_id q with Some _ => true | None => false end in
    if negb (is_output q) && has_id then Err ValueError else
    if is_output q && (negb (ids_given s) && has_id && negb (length (outputs s) =? 0)) then Err ValueError else
    if is_output q && (negb has_id && ids_given s) then Err ValueError else
    if is_output q
    then Ok (Pipe (outputs s ++ [(query_list s, q)]) [] (if has_id then true else ids_given s))
    else Ok (Pipe (outputs s) (query_list s ++ [q]) (ids_given s)).
  (** A history of calls; one that raises changes nothing. *)
  Fixpoint add_queries (s : pipeline) (qs : list query) : pipeline :=
    match qs with
    | [] => s
    | q :: qs => add_queries (match add_query s q with Ok s => s | Err _ => s end) qs
    end.

  (** What [compute_batch] returns: a list, or a dictionary by output id. *)
  Inductive results := RList (l : list (list D)) | RDict (d : list (nat * list D)).
  Fixpoint dict_set (d : list (nat * list D)) (k : nat) (v : list D) : list (nat * list D) :=
    match d with [] => [(k, v)] | (k', v') :: d => if k =? k' then (k', v) :: d else (k', v') :: dict_set d k v end.

  (** pipeline.py:333-359: the loop over the outputs; [after] is the rest of the loop *)
  Fixpoint compute_outputs (n : nat) (post : option (D -> option nat -> option nat -> res D)) (pass_pid pass_oid : bool)
      (outs : list (list query * query)) (partitions : list vpart) (acc : list (query * list D))
      : res (list (query * list D)) :=
    match outs with
    | [] => Ok acc
    | (operators, node) :: outs =>
        do partitions <- complete_nodes n (operators ++ [node]) partitions;
        do partitions <- rmap (drained node) partitions;
        let output_partitions :=
          match post with
          | Some g =>
              map (fun ip => add_to_apply_calls (snd ip)
                     (CFun (fun d => g d (if pass_oid then output_id node else None) (if pass_pid then Some (fst ip) else None))))
                  (combine (seq 0 (length partitions)) partitions)
          | None => map (fun p => add_to_apply_calls p (CFun (fun d => Ok d))) partitions
          end in
        do output_partitions <- rmap (drained node) output_partitions;
        compute_outputs n post pass_pid pass_oid outs partitions (acc ++ [(node, map block output_partitions)])
    end.
  (** pipeline.py:288-386; [parts] are the row partitions of the frame *)
  Definition compute_batch (n : nat) post (pass_pid pass_oid : bool) (s : pipeline) (parts : list D) : res results :=
    if length (outputs s) =? 0 then Ok (RList []) else
    if negb (ids_given s) && pass_oid then Err ValueError else
    do outs <- compute_outputs n post pass_pid pass_oid (outputs s) (map (fun d => Part d []) parts) [];
    if ids_given s then
      Ok (RDict (fold_left (fun d qo => match output_id (fst qo) with Some k => dict_set d k (snd qo) | None => d end) outs []))
    else Ok (RList (map snd outs)).
End Model.
