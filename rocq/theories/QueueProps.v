(** C30: queued operations equal immediate operations. *)
From Verif Require Import Base Table ChunkModel ChunkProofs GridModel GridProofs QueueSpec QueueModel QueueProofs QueueProofs2.

(** Dask and Unidist partitions: in every program (any operations, any drain points, any failures) every
    step has the outcome it has when each operation is applied at once.  [retry = true] is Unidist. *)
Theorem C30_future_engines :
  forall (V F : Type) (call : F -> V -> res V) (retry : bool) (ops : list (qop V F)),
    outcomes (remote_step call retry) [] ops = outcomes (eager_step call true) [] ops.
Proof. exact @remote_eager. Qed.
Print Assumptions C30_future_engines.

(** ... so a read that failed fails the same way ever after. *)
Theorem C30_future_failed_read_repeats :
  forall (V F : Type) (call : F -> V -> res V) (retry : bool) (ops later : list (qop V F)) (p : nat) (e : err),
    outcomes (remote_step call retry) [] (ops ++ [QGet p])
      = outcomes (remote_step call retry) [] ops ++ [Err e] ->
    e <> InternalBug ->
    outcomes (remote_step call retry) [] (ops ++ later ++ [QGet p])
      = outcomes (remote_step call retry) [] (ops ++ later) ++ [Err e].
Proof.
  intros V F call retry ops later p e E He. rewrite !remote_eager in *.
  rewrite outcomes_app in E. apply app_inv_head in E. rewrite outcomes_one in E. injection E as E.
  rewrite app_assoc, (outcomes_app _ _ (ops ++ later)), outcomes_one. do 2 f_equal.
  rewrite final_app. cbn [eager_step] in *.
  destruct (look (final (eager_step call true) [] ops) p) as [r|] eqn:Ep; cbn [snd] in E.
  - now rewrite (eager_keeps_all call true later _ _ Ep).
  - now injection E as <-.
Qed.
Print Assumptions C30_future_failed_read_repeats.

(** Python engine, up to and including the first failure: as long as no step has raised, the next step
    has the outcome of immediate application, also when it is the one that raises. *)
Theorem C30_python_until_failure_partial :
  forall (V F : Type) (call : F -> V -> res V) (ops : list (qop V F)) (op : qop V F),
    Forall is_ok (outcomes (py_step call) [] ops) ->
    outcomes (py_step call) [] (ops ++ [op]) = outcomes (eager_step call false) [] (ops ++ [op]).
Proof. exact @py_first_failure. Qed.
Print Assumptions C30_python_until_failure_partial.

(** Python engine, any program, whatever failed before: a partition whose operations all succeed when
    applied at once reads as that value. *)
Theorem C30_python_successful_data :
  forall (V F : Type) (call : F -> V -> res V) (ops : list (qop V F)) (p : nat) (v : V),
    look (final (eager_step call false) [] ops) p = Some (Ok v) ->
    outcomes (py_step call) [] (ops ++ [QGet p]) = outcomes (py_step call) [] ops ++ [Ok (Some v)].
Proof. exact @py_sound. Qed.
Print Assumptions C30_python_successful_data.

(** Missing from the Python engine: what happens after a failed drain.  The queue is thrown away, so the
    second read of the same partition returns the data without the queued operations, and no error. *)
Theorem C30_failed_drain_refuted :
  exists (V F : Type) (call : F -> V -> res V) (ops : list (qop V F)),
    outcomes (py_step call) [] ops <> outcomes (eager_step call false) [] ops
    /\ exists v f e, ops = [QPut v; QAdd 0 f; QGet 1; QGet 1]
       /\ call f v = Err e
       /\ outcomes (py_step call) [] ops = [Ok None; Ok None; Err e; Ok (Some v)].
Proof.
  exists nat, nat, (fun f v => if v =? 0 then Err UserError else Ok (f + v)), [QPut 0; QAdd 0 5; QGet 1; QGet 1].
  split; [cbn; discriminate|]. exists 0, 5, UserError. repeat split.
Qed.
Print Assumptions C30_failed_drain_refuted.

(** Full-axis partitions over blocks that hold (or have queued) the parts of a table: every program of
    queueing, draining and reading, with failures anywhere, has the outcomes of immediate application;
    a failed drain puts the queue back, so reads after it keep raising. *)
Theorem C30_axis_partition :
  forall (L H A F : Type) (leqb : L -> L -> bool) (heqb : H -> H -> bool),
    (forall x y, leqb x y = true <-> x = y) ->
    (forall x y, heqb x y = true <-> x = y) ->
    forall (call : F -> df L H A -> res (df L H A)),
      (forall f d d', wf d -> call f d = Ok d' -> wf d') ->
      forall (axis full : bool) (min_block : nat) (blocks : list (part (df L H A) F))
             (ds : list (df L H A)) (d : df L H A) (ops : list (aop F)),
        0 < min_block -> wf d ->
        Forall2 (fun b v => run_queue call (p_queue b) (p_data b) = Ok v) blocks ds ->
        (if axis then concat_cols leqb ds else concatenate heqb ds) = Ok d ->
        axis_play leqb heqb call min_block axis (mkax blocks [] full) ops = axis_eager call (Ok d) ops.
Proof.
  intros L H A F leqb heqb Hl Hh call Hwf axis full m blocks ds d ops Hm W Hb Hd.
  rewrite (@axis_play_ok L H A F leqb heqb Hl Hh call Hwf axis m Hm ops (mkax blocks [] full) d); [reflexivity|].
  assert (E : rmap (pval call) blocks = Ok ds).
  { clear -Hb. induction Hb as [|b v bs vs E _ IH]; [reflexivity|]. cbn. unfold pval at 1. rewrite E. cbn.
    now rewrite IH. }
  exists ds. split; [exact E|]. split; [|exact W].
  apply concat_axis_join; [|exact Hd]. intros ->. now destruct axis.
Qed.
Print Assumptions C30_axis_partition.

(* ---- concrete cases ---- *)
Definition ex_call (f : nat) (v : nat) : res nat := if v =? 7 then Err ValueError else Ok (f + 2 * v).
Example ex_C30_python :
  outcomes (py_step ex_call) [] [QPut 1; QAdd 0 1; QAdd 1 10; QCopy 2; QDrain 1; QApply 2 0; QGet 4; QGet 3; QGet 0]
  = [Ok None; Ok None; Ok None; Ok None; Ok None; Ok None; Ok (Some 32); Ok (Some 16); Ok (Some 1)].
Proof. reflexivity. Qed.
Example ex_C30_future :
  outcomes (remote_step ex_call true) [] [QPut 3; QAdd 0 1; QApply 1 0; QDrain 2; QGet 2; QGet 1; QGet 2]
  = [Ok None; Ok None; Ok None; Ok None; Err ValueError; Ok (Some 7); Err ValueError].
Proof. reflexivity. Qed.

Definition ex_d : df nat nat nat := mkdf [0; 1; 2] [5] [[1]; [2]; [3]].
(** [None]: a failing operation; [Some n]: drop the first [n] rows. *)
Definition ex_rows (f : option nat) (d : df nat nat nat) : res (df nat nat nat) :=
  match f with Some n => Ok (iloc_rows d n (nrows d)) | None => Err UserError end.
Example ex_rows_wf : forall f d d', wf d -> ex_rows f d = Ok d' -> wf d'.
Proof. intros [n|] d d' W [= <-]. now apply wf_iloc_rows. Qed.
Example ex_C30_axis :
  axis_play Nat.eqb Nat.eqb ex_rows 1 false
    (mkax [mkpart (iloc_rows ex_d 0 2) []; mkpart (iloc_rows ex_d 0 3) [Some 2]] [] true)
    [AAdd (Some 1); ADrain; AAdd None; ADrain; ARead; ARead]
  = [Ok None; Ok None; Ok None; Err UserError; Err UserError; Err UserError].
Proof. reflexivity. Qed.
Example ex_C30_axis2 :
  axis_play Nat.eqb Nat.eqb ex_rows 1 false
    (mkax [mkpart (iloc_rows ex_d 0 2) []; mkpart (iloc_rows ex_d 0 3) [Some 2]] [] true)
    [AAdd (Some 1); ADrain; AAdd (Some 1); ARead]
  = [Ok None; Ok None; Ok None; Ok (Some (iloc_rows ex_d 2 3))].
Proof. reflexivity. Qed.
