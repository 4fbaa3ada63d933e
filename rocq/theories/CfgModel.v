(** Model of modin/config/pubsub.py: [Parameter] and [context]. *)
From Verif Require Import Base CfgSpec.

(** The class attributes of one parameter: [_value] (None = _UNSET), [_value_source], [_subs], [_once]
    (a list of (value, callback) in insertion order stands for the dict of lists), and the log of
    callback calls with the stored value at that moment.  Callbacks are identified by a number and
    only observe (a callback that itself changes the configuration is not modelled). *)
Record pst (V : Type) := mkpst {
  val : option V; src : option source; subs : list nat; once : list (V * nat);
  calls : list (nat * option V) }.

Section Param.
  Context {V : Type} (d : desc V).
  Variable veqb : V -> V -> bool.
  Notation st := (pst V).

  (** pubsub.py [__init_subclass__] 258-287 *)
  Definition fresh : st := mkpst None None [] [] [].

  Definition set_val (v : V) (s : st) : st := mkpst (Some v) (src s) (subs s) (once s) (calls s).
  Definition set_src (x : source) (s : st) : st := mkpst (val s) (Some x) (subs s) (once s) (calls s).
  Definition call (cs : list nat) (s : st) : st :=
    mkpst (val s) (src s) (subs s) (once s) (calls s ++ map (fun c => (c, val s)) cs).

  (** pubsub.py [Parameter.get] 336-357, with the check a subclass adds after [super().get()]
      (envvars.py [CpuCount.get] 803-815, [NPartitions.get] 871-883, [LogMemoryInterval.get] ...);
      [EnvironmentVariable._get_value_from_config] 43-62 is [environ]. *)
  Definition base_get (s : st) : res V * st :=
    match val s with
    | Some v => (Ok v, s)
    | None =>
        match environ d with
        | Err e => (Err e, s)
        | Ok (Some v) => (Ok v, set_src GOT_FROM_CFG_SOURCE (set_val v s))
        | Ok None => match default d with
                     | Err e => (Err e, s)
                     | Ok v => (Ok v, set_src DEFAULT (set_val v s))
                     end
        end
    end.
  Definition get (s : st) : res V * st :=
    match base_get s with
    | (Ok v, s) => (if get_ok d v then Ok v else Err ValueError, s)
    | r => r
    end.

  (** pubsub.py [_put_nocallback] 412-432: the old value *)
  Definition put_nocallback (v : V) (s : st) : res V * st :=
    if negb (verify d v) then (Err ValueError, s)
    else let v := norm d v in
      match get s with
      | (Ok old, s) => (Ok old, set_val v s)
      | (Err e, s) => (Err e, s)
      end.

  (** pubsub.py [_check_callbacks] 434-449 *)
  Definition check_callbacks (old : V) (s : st) : res unit * st :=
    match get s with
    | (Err e, s) => (Err e, s)
    | (Ok cur, s) =>
        if veqb old cur then (Ok tt, s)
        else
          let s := call (subs s) s in
          let due := map snd (filter (fun e => veqb (fst e) cur) (once s)) in
          let s := mkpst (val s) (src s) (subs s)
                         (filter (fun e => negb (veqb (fst e) cur)) (once s)) (calls s) in
          (Ok tt, call due s)
    end.

  (** pubsub.py [put] 359-371, after the check a subclass makes before [super().put(value)]
      ([LogMemoryInterval.put] 995-1007, [MinRowPartitionSize.put] 1160-1174 ...) *)
  Definition put (v : V) (s : st) : res unit * st :=
    if negb (put_ok d v) then (Err ValueError, s)
    else
      match put_nocallback v s with
      | (Err e, s) => (Err e, s)
      | (Ok old, s) =>
          match check_callbacks old s with
          | (Err e, s) => (Err e, s)
          | (Ok _, s) => (Ok tt, set_src SET_BY_USER s)
          end
      end.

  (** pubsub.py [subscribe] 289-301 *)
  Definition subscribe (c : nat) (s : st) : st :=
    let s := mkpst (val s) (src s) (subs s ++ [c]) (once s) (calls s) in call [c] s.

  (** pubsub.py [once] 390-410 *)
  Definition do_once (v : V) (c : nat) (s : st) : res unit * st :=
    let v := norm d v in
    match get s with
    | (Err e, s) => (Err e, s)
    | (Ok cur, s) =>
        if veqb v cur then (Ok tt, call [c] s)
        else (Ok tt, mkpst (val s) (src s) (subs s) (once s ++ [(v, c)]) (calls s))
    end.

  (** pubsub.py [get_value_source] 314-334 *)
  Definition get_value_source (s : st) : res source * st :=
    match src s with
    | Some x => (Ok x, s)
    | None => match get s with
              | (Err e, s) => (Err e, s)
              | (Ok _, s) => (match src s with Some x => Ok x | None => Err AssertionError end, s)
              end
    end.

  (** One call; an exception is caught by the user and the history goes on. *)
  Definition step (s : st) (o : op V) : st :=
    match o with
    | Get => snd (get s)
    | Put v => snd (put v s)
    | Subscribe c => subscribe c s
    | Once v c => snd (do_once v c s)
    end.
  Definition run (history : list (op V)) (s : st) : st := fold_left step history s.
End Param.
Arguments fresh {V}.

(** pubsub.py [context] 465-507.  Variables are numbered; [body] is the with-block, any function of
    the whole configuration that may raise. *)
Section Context.
  Context {V : Type}.
  Variable descs : nat -> desc V.
  Variable veqb : V -> V -> bool.
  Definition store := nat -> pst V.
  Definition update (sto : store) (n : nat) (s : pst V) : store := fun m => if m =? n then s else sto m.

  (** the loop 499-502: the values on entry, and the changed configuration *)
  Fixpoint enter (config : list (nat * V)) (sto : store) : res (list (nat * V)) * store :=
    match config with
    | [] => (Ok [], sto)
    | (n, v) :: rest =>
        match get (descs n) (sto n) with
        | (Err e, s) => (Err e, update sto n s)
        | (Ok old, s) =>
            let sto := update sto n s in
            match put (descs n) veqb v (sto n) with
            | (Err e, s) => (Err e, update sto n s)
            | (Ok _, s) =>
                match enter rest (update sto n s) with
                | (Ok olds, sto) => (Ok ((n, old) :: olds), sto)
                | r => r
                end
            end
        end
    end.

  (** the loop 506-507 *)
  Fixpoint restore (olds : list (nat * V)) (sto : store) : res unit * store :=
    match olds with
    | [] => (Ok tt, sto)
    | (n, v) :: rest =>
        match put (descs n) veqb v (sto n) with
        | (Err e, s) => (Err e, update sto n s)
        | (Ok _, s) => restore rest (update sto n s)
        end
    end.

  Definition with_context (config : list (nat * V)) (body : store -> res unit * store) (sto : store)
    : res unit * store :=
    match enter config sto with
    | (Err e, sto) => (Err e, sto)
    | (Ok olds, sto) =>
        let '(result, sto) := body sto in
        match restore olds sto with
        | (Err e, sto) => (Err e, sto)
        | (Ok _, sto) => (result, sto)
        end
    end.
End Context.
