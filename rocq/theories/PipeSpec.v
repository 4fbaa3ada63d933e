(** What a batch pipeline should compute; independent of the model. *)
From Verif Require Import Base.

Section Spec.
  Context {R : Type}.
  (** A partition is the list of its rows. *)
  Notation D := (list R).

  (** A query as given to [add_query].  The function gets the rows and, when asked for, the number of the partition;
      it may raise. *)
  Record query := Query { func : D -> option nat -> res D; is_output : bool; repartition_after : bool; fan_out : bool;
                          pass_partition_id : bool; reduce_fn : option (list D -> res D); output_id : option nat }.

  Fixpoint imap {A B} (f : nat -> A -> res B) (i : nat) (l : list A) : res (list B) :=
    match l with [] => Ok [] | x :: l => do y <- f i x; do ys <- imap f (S i) l; Ok (y :: ys) end.

  (** [n] consecutive pieces, all of the same length but the last. *)
  Definition even (n : nat) (d : D) : list D :=
    cut (repeat (length d / n) (n - 1) ++ [length d - (length d / n) * (n - 1)]) d.

  (** One query on the partitions: fan out (the function is called [n] times on the only partition, and the results
      are reduced), repartition (the result of the only partition is cut into [n] pieces), or partition by partition. *)
  Definition direct1 (n : nat) (q : query) (parts : list D) : res (list D) :=
    if fan_out q then
      match parts, reduce_fn q with
      | [p], Some g => do ds <- rmap (fun i => func q p (Some i)) (seq 0 n); do d <- g ds; Ok [d]
      | _, _ => Err NotImplementedErr
      end
    else if repartition_after q then
      match parts with
      | [p] => do d <- func q p None; Ok (even n d)
      | _ => Err NotImplementedErr
      end
    else imap (fun i p => func q p (if pass_partition_id q then Some i else None)) 0 parts.
  Fixpoint direct (n : nat) (qs : list query) (parts : list D) : res (list D) :=
    match qs with [] => Ok parts | q :: qs => do parts <- direct1 n q parts; direct n qs parts end.

  (** The queries up to and including each output. *)
  Fixpoint output_prefixes (before : list query) (qs : list query) : list (list query * query) :=
    match qs with
    | [] => []
    | q :: qs => let rest := output_prefixes (before ++ [q]) qs in
                 if is_output q then (before ++ [q], q) :: rest else rest
    end.

  (** Which queries are accepted: only outputs have ids, and all of them or none do. *)
  Fixpoint accepted (ids : option bool) (qs : list query) : list query :=
    match qs with
    | [] => []
    | q :: qs =>
        let with_id := match output_id q with Some _ => true | None => false end in
        if is_output q
        then if match ids with None => true | Some b => Bool.eqb b with_id end
             then q :: accepted (Some with_id) qs else accepted ids qs
        else if with_id then accepted ids qs else q :: accepted ids qs
    end.

  (** The postprocessor gets, when asked for, the id of the output and the number of the partition. *)
  Definition finish (post : option (D -> option nat -> option nat -> res D)) (pass_pid pass_oid : bool) (q : query)
      (parts : list D) : res (list D) :=
    match post with
    | None => Ok parts
    | Some g => imap (fun i p => g p (if pass_oid then output_id q else None) (if pass_pid then Some i else None)) 0 parts
    end.
  (** Each output, as the composition of all queries before it. *)
  Definition expected n post pass_pid pass_oid (qs : list query) (parts : list D) : res (list (query * list D)) :=
    rmap (fun pq => do ps <- direct n (fst pq) parts; do o <- finish post pass_pid pass_oid (snd pq) ps; Ok (snd pq, o))
         (output_prefixes [] qs).

  (** Both succeed with the same result, or both raise. *)
  Definition agree {A} (r r' : res A) : Prop :=
    match r, r' with Ok a, Ok b => a = b | Err _, Err _ => True | _, _ => False end.
End Spec.
Arguments query R : clear implicits.
