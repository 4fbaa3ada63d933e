(** Model of modin/config/envvars.py [Engine], [StorageFormat], [Backend] and of
    modin/__init__.py [set_execution].  Names (already normalised strings) are numbers. *)
From Verif Require Import Base.

(** The environment: MODIN_ENGINE, MODIN_STORAGE_FORMAT, MODIN_BACKEND, and the defaults
    ([Engine._get_default] 211-262 may raise ImportError). *)
Record env := mkenv { env_e : option nat; env_s : option nat; env_b : option nat;
                      def_e : res nat; def_s : nat }.

(** The class attributes: [_value] of the three variables, [_BACKEND_TO_EXECUTION] (its inverse
    [_EXECUTION_TO_BACKEND] is read from the same list; [register_backend] writes both together),
    [choices].  An execution is (storage format, engine). *)
Record est := mkest { e_val : option nat; s_val : option nat; b_val : option nat;
                      table : list (nat * (nat * nat)); choices : list nat }.

Definition exec_eqb (x y : nat * nat) : bool := (fst x =? fst y) && (snd x =? snd y).
Definition b2e (t : list (nat * (nat * nat))) (b : nat) : option (nat * nat) :=
  option_map snd (find (fun r => fst r =? b) t).
Definition e2b (t : list (nat * (nat * nat))) (x : nat * nat) : option nat :=
  option_map fst (find (fun r => exec_eqb (snd r) x) t).

Section Exec.
  Variable en : env.

  (** [EnvironmentVariableDisallowingExecutionAndBackendBothSet._get_value_from_config] 176-186 *)
  Definition from_config (v : option nat) : res (option nat) :=
    match env_b en, env_e en, env_s en with
    | Some _, Some _, _ | Some _, _, Some _ => Err ValueError
    | _, _, _ => Ok v
    end.

  (** [Backend.get_execution_for_backend] 574-610 *)
  Definition get_execution_for_backend (b : nat) (s : est) : res (nat * nat) :=
    if negb (existsb (Nat.eqb b) (choices s)) then Err ValueError
    else match b2e (table s) b with Some x => Ok x | None => Err ValueError end.

  (** [Backend.get_backend_for_execution] 550-572 *)
  Definition get_backend_for_execution (x : nat * nat) (s : est) : res nat :=
    match e2b (table s) x with Some b => Ok b | None => Err ValueError end.

  Definition set_e v s := mkest (Some v) (s_val s) (b_val s) (table s) (choices s).
  Definition set_s v s := mkest (e_val s) (Some v) (b_val s) (table s) (choices s).
  Definition set_b v s := mkest (e_val s) (s_val s) (Some v) (table s) (choices s).

  (** [Engine.get] 292-328 *)
  Definition engine_get (s : est) : res nat * est :=
    match e_val s with
    | Some v => (Ok v, s)
    | None =>
        match (do e <- from_config (env_e en);
               do b <- from_config (env_b en);
               match e, b with
               | Some e, _ => Ok e
               | None, Some b => do x <- get_execution_for_backend b s; Ok (snd x)
               | None, None => def_e en
               end) with
        | Ok v => (Ok v, set_e v s)
        | Err e => (Err e, s)
        end
    end.

  (** [StorageFormat.get] 350-386 *)
  Definition sf_get (s : est) : res nat * est :=
    match s_val s with
    | Some v => (Ok v, s)
    | None =>
        match (do f <- from_config (env_s en);
               do b <- from_config (env_b en);
               match f, b with
               | Some f, _ => Ok f
               | None, Some b => do x <- get_execution_for_backend b s; Ok (fst x)
               | None, None => Ok (def_s en)
               end) with
        | Ok v => (Ok v, set_s v s)
        | Err e => (Err e, s)
        end
    end.

  (** [Backend.get] 612-644 *)
  Definition backend_get (s : est) : res nat * est :=
    match b_val s with
    | Some v => (Ok v, s)
    | None =>
        match from_config (env_b en) with
        | Err e => (Err e, s)
        | Ok (Some b) => (Ok b, set_b b s)
        | Ok None =>
            let '(f, s) := sf_get s in
            match f with
            | Err e => (Err e, s)
            | Ok f =>
                let '(e, s) := engine_get s in
                match e with
                | Err e => (Err e, s)
                | Ok e => match get_backend_for_execution (f, e) s with
                          | Ok b => (Ok b, set_b b s)
                          | Err e => (Err e, s)
                          end
                end
            end
        end
    end.

  (** [_put_nocallback] (pubsub.py 412-432) of each variable: read the old value, then store *)
  Definition put_nocb (get : est -> res nat * est) (set : nat -> est -> est) (v : option nat) (s : est)
    : res unit * est :=
    match v with
    | None => (Ok tt, s)
    | Some v => match get s with (Ok _, s) => (Ok tt, set v s) | (Err e, s) => (Err e, s) end
    end.

  (** modin/__init__.py [set_execution] 37-66.  Callbacks observe only and are left out. *)
  Definition set_execution (e f : option nat) (s : est) : res unit * est :=
    match put_nocb engine_get set_e e s with
    | (Err x, s) => (Err x, s)
    | (Ok _, s) =>
        match put_nocb sf_get set_s f s with
        | (Err x, s) => (Err x, s)
        | (Ok _, s) =>
            match backend_get s with
            | (Err x, s) => (Err x, s)
            | (Ok _, s) =>
                let '(e, s) := engine_get s in
                match e with
                | Err x => (Err x, s)
                | Ok e =>
                    let '(f, s) := sf_get s in
                    match f with
                    | Err x => (Err x, s)
                    | Ok f =>
                        match get_backend_for_execution (f, e) s with
                        | Err x => (Err x, s)
                        | Ok b => put_nocb backend_get set_b (Some b) s
                        end
                    end
                end
            end
        end
    end.

  (** [Backend.put] 424-435, [Engine.put] 274-290, [StorageFormat.put] 334-348 *)
  Definition backend_put (b : nat) (s : est) : res unit * est :=
    match get_execution_for_backend b s with
    | Err x => (Err x, s)
    | Ok (f, e) => set_execution (Some e) (Some f) s
    end.
  Definition engine_put (e : nat) (s : est) : res unit * est :=
    match sf_get s with
    | (Err x, s) => (Err x, s)
    | (Ok f, s) => match get_backend_for_execution (f, e) s with
                   | Err x => (Err x, s)
                   | Ok b => backend_put b s
                   end
    end.
  Definition sf_put (f : nat) (s : est) : res unit * est :=
    match engine_get s with
    | (Err x, s) => (Err x, s)
    | (Ok e, s) => match get_backend_for_execution (f, e) s with
                   | Err x => (Err x, s)
                   | Ok b => backend_put b s
                   end
    end.

  (** [Backend.register_backend] 449-475 (with [Parameter.add_option]) *)
  Definition register (b : nat) (x : nat * nat) (s : est) : res unit * est :=
    let s := mkest (e_val s) (s_val s) (b_val s) (table s)
                   (if existsb (Nat.eqb b) (choices s) then choices s else choices s ++ [b]) in
    if existsb (fun r => fst r =? b) (table s) then (Err ValueError, s)
    else if existsb (fun r => exec_eqb (snd r) x) (table s) then (Err ValueError, s)
    else (Ok tt, mkest (e_val s) (s_val s) (b_val s) (table s ++ [(b, x)]) (choices s)).

  (** [Backend.set_active_backends] 495-518, [Backend.activate] 520-540 *)
  Definition set_active (bs : list nat) (s : est) : res unit * est :=
    if forallb (fun b => existsb (fun r => fst r =? b) (table s)) bs
    then (Ok tt, mkest (e_val s) (s_val s) (b_val s) (table s) bs) else (Err ValueError, s).
  Definition activate (b : nat) (s : est) : res unit * est :=
    if existsb (fun r => fst r =? b) (table s)
    then (Ok tt, mkest (e_val s) (s_val s) (b_val s) (table s) (choices s ++ [b])) else (Err ValueError, s).

  Inductive eop :=
    | EngineGet | SfGet | BackendGet
    | EnginePut (e : nat) | SfPut (f : nat) | BackendPut (b : nat)
    | Register (b : nat) (x : nat * nat) | SetActive (bs : list nat) | Activate (b : nat).
  Definition estep (s : est) (o : eop) : est :=
    match o with
    | EngineGet => snd (engine_get s) | SfGet => snd (sf_get s) | BackendGet => snd (backend_get s)
    | EnginePut e => snd (engine_put e s) | SfPut f => snd (sf_put f s) | BackendPut b => snd (backend_put b s)
    | Register b x => snd (register b x s) | SetActive bs => snd (set_active bs s)
    | Activate b => snd (activate b s)
    end.
  Definition erun (h : list eop) (s : est) : est := fold_left estep h s.
End Exec.

(** envvars.py 647-651: 0..4 = Ray, Dask, Python_Test, Unidist, Pandas; storage formats 0 = Pandas,
    1 = Native; engines 0..4 = Ray, Dask, Python, Unidist, Native. *)
Definition builtin : est :=
  mkest None None None [(0, (0,0)); (1, (0,1)); (2, (0,2)); (3, (0,3)); (4, (1,4))] [0;1;2;3;4].
