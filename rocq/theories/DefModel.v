(** Model of modin/core/execution/ray/common/deferred_execution.py and of its use in
    core/execution/ray/implementations/pandas_on_ray/partitioning/partition.py.
    Simplifications: [num_returns] is 1 and [data] is not a list, as in the only two places that create deferred
    executions (partition.py:124,139); the generators that [_deconstruct] and [construct] drive with an explicit stack
    are plain recursive calls; functions are deterministic and do not change their arguments, so the second call with a
    copy after a [ValueError] (deferred_execution.py:598-600) does what the first one did; lengths given to
    [add_to_apply_calls] are left out; the value of a task is in the object store as soon as it is submitted. *)
From Verif Require Import Base DefSpec.

(** deferred_execution.py:556-570, and the kinds of items in the flat list of arguments of a task *)
Inductive tag := CHAIN | REF | LIST | END.
Inductive token (O : Type) := TTag (t : tag) | TObj (o : O) | TInt (z : Z) | TFun (f : nat) | TKey (k : nat).
Arguments TTag {O}. Arguments TInt {O}. Arguments TFun {O}. Arguments TKey {O}.

Section Model.
  Context {V : Type}.
  Variable call : nat -> V -> forest V -> list nat -> forest V -> res V.
  Variables vlen vwid : V -> nat.

  (** A value, or an object reference: an index of the object store. *)
  Inductive obj := OVal (v : V) | ORef (r : nat).
  Inductive ref := RObj (o : obj) | RNode (n : nat).
  (** The metadata of a task (a [MetaList]): the lengths and widths of its results, or the error of the task. *)
  Notation meta := (res (list nat)).

  (** deferred_execution.py:101-110; [func] is [None] when there is a result (lines 194-195, 461-464) *)
  Record node := Node { data : ref; func : option nat; args : forest ref; keys : list nat; kwargs : forest ref;
                        flat_args : bool; flat_kwargs : bool; subscribers : nat; out_pos : option nat;
                        nmeta : meta; moffset : nat }.
  Definition has_result (nd : node) : bool := match func nd with None => true | Some _ => false end.
  Definition set_subscribers (n : nat) (nd : node) : node :=
    Node (data nd) (func nd) (args nd) (keys nd) (kwargs nd) (flat_args nd) (flat_kwargs nd) n (out_pos nd) (nmeta nd) (moffset nd).
  Definition set_out_pos (p : nat) (nd : node) : node :=
    Node (data nd) (func nd) (args nd) (keys nd) (kwargs nd) (flat_args nd) (flat_kwargs nd) (subscribers nd) (Some p) (nmeta nd) (moffset nd).
  (** deferred_execution.py:446-464 *)
  Definition set_result (r : nat) (m : meta) (off : nat) (nd : node) : node :=
    Node (RObj (ORef r)) None Nil [] Nil true true (subscribers nd) (out_pos nd) m off.

  Fixpoint update {A} (l : list A) (i : nat) (f : A -> A) : list A :=
    match l, i with [], _ => [] | x :: l, 0 => f x :: l | x :: l, S i => x :: update l i f end.
  Definition get_node (h : list node) (n : nat) : res node :=
    match nth_error h n with Some nd => Ok nd | None => Err InternalBug end.

  (** deferred_execution.py:197-212 *)
  Definition subscribe (h : list node) (n : nat) : list node :=
    update h n (fun nd => set_subscribers (S (subscribers nd)) nd).
  Definition unsubscribe (h : list node) (n : nat) : res (list node) :=
    do nd <- get_node h n;
    match subscribers nd with 0 => Err AssertionError | S k => Ok (update h n (set_subscribers k)) end.
  Definition node_of (r : ref) : list nat := match r with RNode n => [n] | RObj _ => [] end.
  (** deferred_execution.py:112-133 [_flat_args]: whether it is flat, and the subscriptions *)
  Fixpoint is_flat (l : forest ref) : bool :=
    match l with
    | Nil => true
    | Atom (RObj _) l => is_flat l
    | _ => false
    end.
  Definition subscribe_all (h : list node) (l : forest ref) : list node :=
    fold_left subscribe (flat_map node_of (atoms l)) h.
  (** deferred_execution.py:89-110; the new node is the last of the heap *)
  Definition new_node (h : list node) (d : ref) (f : nat) (a : forest ref) (ks : list nat) (k : forest ref) : list node :=
    let h := fold_left subscribe (node_of d) h in
    let h := subscribe_all h a in
    let h := subscribe_all h k in
    h ++ [Node d (Some f) a ks k (is_flat a) (is_flat k) 0 None (Err InternalBug) 0].

  (** The state of [_deconstruct]. *)
  Record dstate := DS { heap : list node; output : list (token obj); consumers : list nat }.
  Definition emit (s : dstate) (t : list (token obj)) : dstate := DS (heap s) (output s ++ t) (consumers s).
  Definition set_output (s : dstate) (i : nat) (t : token obj) : dstate :=
    DS (heap s) (update (output s) i (fun _ => t)) (consumers s).
  (** Python's [list.remove] *)
  Fixpoint remove_first (n : nat) (l : list nat) : res (list nat) :=
    match l with
    | [] => Err ValueError
    | x :: l => if x =? n then Ok l else do l <- remove_first n l; Ok (x :: l)
    end.
  Definition unsub (s : dstate) (n : nat) : res dstate := do h <- unsubscribe (heap s) n; Ok (DS h (output s) (consumers s)).
  (** [getattr(de, "out_pos", None)] where it is true *)
  Definition position (nd : node) : option nat := match out_pos nd with Some (S p) => Some (S p) | _ => None end.

  (** deferred_execution.py:307-317 and 399-404: a reference to a node already in the output *)
  Definition emit_ref (s : dstate) (n pos : nat) : res dstate :=
    let s := emit s [TTag REF; TInt (Z.of_nat pos)] in
    let s := set_output s pos (TInt (Z.of_nat pos)) in
    do nd <- get_node (heap s) n;
    if subscribers nd =? 0 then
      let s := set_output s (S pos) (TInt 0) in
      do c <- remove_first n (consumers s); Ok (DS (heap s) (output s) c)
    else Ok s.

  (** deferred_execution.py:366-416 [_deconstruct_list] *)
  Fixpoint deconstruct_list (chain : nat -> dstate -> res dstate) (l : forest ref) (s : dstate) : res dstate :=
    match l with
    | Nil => Ok (emit s [TTag END])
    | Atom (RObj o) l => deconstruct_list chain l (emit s [TObj o])
    | Atom (RNode n) l =>
        do nd <- get_node (heap s) n;
        do s <- match position nd with
                | Some pos =>
                    do s <- unsub s n;
                    if has_result nd
                    then match data nd with RObj o => Ok (emit s [TObj o]) | RNode _ => Err InternalBug end
                    else emit_ref s n pos
                | None =>
                    let s := emit s [TTag CHAIN] in
                    do s <- chain n s; Ok (emit s [TTag END])
                end;
        deconstruct_list chain l s
    | Nest _ i l =>
        do s <- deconstruct_list chain i (emit s [TTag LIST]);
        deconstruct_list chain l s
    end.
  Definition flat_objects (l : forest ref) : list obj :=
    flat_map (fun r => match r with RObj o => [o] | RNode _ => [] end) (atoms l).
  (** deferred_execution.py:337-364: the function, its arguments, and the places for the reference id and for the
      number of results *)
  Definition deconstruct_node (chain : nat -> dstate -> res dstate) (n : nat) (s : dstate) : res dstate :=
    do nd <- get_node (heap s) n;
    match func nd with
    | None => Err AttributeError
    | Some f =>
        let s := emit s [TFun f] in
        do s <- (if flat_args nd
                 then Ok (emit s (TInt (Z.of_nat (width (args nd))) :: map (fun o => TObj o) (flat_objects (args nd))))
                 else deconstruct_list chain (args nd) (emit s [TInt (-1)]));
        do s <- (if flat_kwargs nd
                 then Ok (emit s (TInt (Z.of_nat (width (kwargs nd)))
                                  :: flat_map (fun ko => [TKey (fst ko); TObj (snd ko)])
                                              (combine (keys nd) (flat_objects (kwargs nd)))))
                 else do s <- deconstruct_list chain (kwargs nd) (emit s [TInt (-1)]);
                      Ok (emit s (map (fun k => TKey k) (keys nd))));
        let s := emit s [TInt 0] in
        do nd <- get_node (heap s) n;
        if 0 <? subscribers nd then
          let p := length (output s) - 1 in
          Ok (DS (update (heap s) n (set_out_pos p)) (output s ++ [TInt 1]) (consumers s ++ [n]))
        else Ok (emit s [TInt 0])
    end.
  (** deferred_execution.py:275-364 [_deconstruct_chain]: down to the first node with an object, then back *)
  Fixpoint deconstruct_chain (fuel : nat) (n : nat) (s : dstate) : res dstate :=
    match fuel with
    | 0 => Err InternalBug
    | S fuel =>
        do s <- unsub s n;
        do nd <- get_node (heap s) n;
        match position nd, has_result nd with
        | Some pos, false => emit_ref s n pos
        | _, _ =>
            match data nd with
            | RObj o =>
                let s := emit s [TObj o] in
                if has_result nd then Ok s else deconstruct_node (deconstruct_chain fuel) n s
            | RNode m => do s <- deconstruct_chain fuel m s; deconstruct_node (deconstruct_chain fuel) n s
            end
        end
    end.

  (** ** The worker *)
  Variable store : list (res V).
  Definition resolve (o : obj) : res V :=
    match o with OVal v => Ok v | ORef r => nth r store (Err InternalBug) end.

  (** What the worker has done so far, also when it raises: the results kept by reference id, the metadata, the results
      returned and the functions called. *)
  Record wstate := WS { refs : list (nat * V); wmeta : list nat; yields : list V; calls : list nat }.
  Definition lookup (r : nat) (l : list (nat * V)) : res V :=
    match find (fun kv => fst kv =? r) l with Some kv => Ok (snd kv) | None => Err KeyError end.

  (** Bind for computations that keep the state of the worker. *)
  Definition wbind {A B} (c : wstate * res A) (f : wstate -> A -> wstate * res B) : wstate * res B :=
    match c with (w, Ok a) => f w a | (w, Err e) => (w, Err e) end.

  (** deferred_execution.py:683-688: the first object of a chain; Ray has put the values in place of the object
      references (see [run_chain]) *)
  Definition construct_head (ts : list (token obj)) (w : wstate) : wstate * res (V * list (token obj)) :=
    match ts with
    | TObj o :: ts => (w, do v <- resolve o; Ok (v, ts))
    | TTag REF :: TInt z :: ts => (w, do v <- lookup (Z.to_nat z) (refs w); Ok (v, ts))
    | TTag LIST :: _ => (w, Err Unmodelled)
    | _ => (w, Err InternalBug)
    end.
  (** deferred_execution.py:700-702: the next [n] items *)
  Fixpoint take_objects (n : nat) (ts : list (token obj)) : res (forest V * list (token obj)) :=
    match n, ts with
    | 0, _ => Ok (Nil, ts)
    | S n, TObj o :: ts => do v <- resolve o; do r <- take_objects n ts; Ok (Atom v (fst r), snd r)
    | S n, _ => Err InternalBug
    end.
  (** deferred_execution.py:707 and 711: keyword and value alternate, or the keywords come after the values *)
  Fixpoint take_items (n : nat) (ts : list (token obj)) : res (list nat * forest V * list (token obj)) :=
    match n, ts with
    | 0, _ => Ok ([], Nil, ts)
    | S n, TKey k :: TObj o :: ts =>
        do v <- resolve o; do r <- take_items n ts;
        let '(ks, vs, ts) := r in Ok (k :: ks, Atom v vs, ts)
    | S n, _ => Err InternalBug
    end.
  Fixpoint take_keys (n : nat) (ts : list (token obj)) : res (list nat * list (token obj)) :=
    match n, ts with
    | 0, _ => Ok ([], ts)
    | S n, TKey k :: ts => do r <- take_keys n ts; Ok (k :: fst r, snd r)
    | S n, _ => Err InternalBug
    end.
  (** deferred_execution.py:713-725: the call, the reference id and the number of results *)
  Definition after_call (f : nat) (d : V) (a : forest V) (ks : list nat) (k : forest V) (ts : list (token obj)) (w : wstate)
      : wstate * res (V * list (token obj)) :=
    let w := WS (refs w) (wmeta w) (yields w) (calls w ++ [f]) in
    match call f d a ks k, ts with
    | Err e, _ => (w, Err e)
    | Ok v, TInt r :: TInt n :: ts =>
        let w := if (r =? 0)%Z then w else WS ((Z.to_nat r, v) :: refs w) (wmeta w) (yields w) (calls w) in
        let w := if (n =? 0)%Z then w else WS (refs w) (wmeta w ++ [vlen v; vwid v]) (yields w ++ [v]) (calls w) in
        (w, Ok (v, ts))
    | Ok _, _ => (w, Err InternalBug)
    end.
  (** deferred_execution.py:690-725, the loop of [construct_chain]; it ends with [Some] object at [END], and with [None]
      when nothing is left.  727-767, [construct_list]. *)
  Fixpoint construct_loop (fuel : nat) (x : V) (ts : list (token obj)) (w : wstate) {struct fuel}
      : wstate * res (option V * list (token obj)) :=
    match fuel with
    | 0 => (w, Err InternalBug)
    | S fuel =>
        match ts with
        | [] => (w, Ok (None, []))
        | TTag END :: ts => (w, Ok (Some x, ts))
        | TFun f :: TInt z :: ts =>
            wbind (if (0 <=? z)%Z then (w, take_objects (Z.to_nat z) ts) else construct_list fuel ts w) (fun w at_ =>
            match snd at_ with
            | TInt z :: ts =>
                wbind (if (0 <=? z)%Z then (w, take_items (Z.to_nat z) ts)
                       else wbind (construct_list fuel ts w) (fun w vt =>
                            (w, do kt <- take_keys (width (fst vt)) (snd vt); Ok (fst kt, fst vt, snd kt)))) (fun w kvt =>
                let '(ks, vs, ts) := kvt in
                wbind (after_call f x (fst at_) ks vs ts w) (fun w r =>
                construct_loop fuel (fst r) (snd r) w))
            | _ => (w, Err InternalBug)
            end)
        | _ => (w, Err InternalBug)
        end
    end
  with construct_list (fuel : nat) (ts : list (token obj)) (w : wstate) {struct fuel}
      : wstate * res (forest V * list (token obj)) :=
    match fuel with
    | 0 => (w, Err InternalBug)
    | S fuel =>
        match ts with
        | TTag END :: ts => (w, Ok (Nil, ts))
        | TTag CHAIN :: ts =>
            wbind (construct_head ts w) (fun w r =>
            wbind (construct_loop fuel (fst r) (snd r) w) (fun w r =>
            wbind (construct_list fuel (snd r) w) (fun w rest =>
            (w, Ok (match fst r with Some v => Atom v (fst rest) | None => fst rest end, snd rest)))))
        | TTag LIST :: ts =>
            wbind (construct_list fuel ts w) (fun w inner =>
            wbind (construct_list fuel (snd inner) w) (fun w rest => (w, Ok (Nest false (fst inner) (fst rest), snd rest))))
        | TTag REF :: TInt z :: ts =>
            wbind (w, lookup (Z.to_nat z) (refs w)) (fun w v =>
            wbind (construct_list fuel ts w) (fun w rest => (w, Ok (Atom v (fst rest), snd rest))))
        | TObj o :: ts =>
            wbind (w, resolve o) (fun w v =>
            wbind (construct_list fuel ts w) (fun w rest => (w, Ok (Atom v (fst rest), snd rest))))
        | _ => (w, Err InternalBug)
        end
    end.
  (** deferred_execution.py:609-647 [construct] *)
  Definition construct (ts : list (token obj)) : wstate * res unit :=
    wbind (construct_head ts (WS [] [] [] [])) (fun w r =>
    wbind (construct_loop (S (length ts)) (fst r) (snd r) w) (fun w _ => (w, Ok tt))).

  (** One remote task: Ray replaces the object references by their values, and does not start the task when one of them
      is an error.  The results returned before an exception are kept, the others and the metadata are the error. *)
  Definition resolves (t : token obj) : res unit := match t with TObj o => do _ <- resolve o; Ok tt | _ => Ok tt end.
  Definition run_chain (ts : list (token obj)) (num_results : nat) : list (res V) * meta * list nat :=
    match rmap resolves ts with
    | Err e => (repeat (Err e) num_results, Err e, [])
    | Ok _ =>
        match construct ts with
        | (w, Ok _) => (map (fun v => Ok v) (yields w), Ok (wmeta w), calls w)
        | (w, Err e) => (map (fun v => Ok v) (yields w) ++ repeat (Err e) (num_results - length (yields w)), Err e, calls w)
        end
    end.
End Model.
Arguments obj V : clear implicits.
Arguments ref V : clear implicits.
Arguments node V : clear implicits.
Arguments dstate V : clear implicits.
Arguments wstate V : clear implicits.

Section Exec.
  Context {V : Type}.
  Variable call : nat -> V -> forest V -> list nat -> forest V -> res V.
  Variables vlen vwid : V -> nat.
  Notation meta := (res (list nat)).

  (** The driver: the deferred executions, the object store, and the functions called so far. *)
  Record world := World { nodes : list (node V); objects : list (res V); called : list nat }.

  (** deferred_execution.py:170-184: the results are handed to the consumers in order *)
  Fixpoint set_results (h : list (node V)) (consumers : list nat) (r : nat) (m : meta) (off : nat) : list (node V) :=
    match consumers with
    | [] => h
    | n :: ns => set_results (update h n (set_result r m off)) ns (S r) m (off + 2)
    end.
  (** deferred_execution.py:135-184 [exec] *)
  Definition exec (w : world) (n : nat) : res (world * (ref V * meta * nat)) :=
    do nd <- get_node (nodes w) n;
    match func nd, data nd with
    | None, d => Ok (w, (d, nmeta nd, moffset nd))
    | Some f, d =>
        let r := length (objects w) in
        match d, flat_args nd && flat_kwargs nd with
        | RObj o, true =>
            let ins := do d <- resolve (objects w) o;
                       do a <- rmap (resolve (objects w)) (flat_objects (args nd));
                       do k <- rmap (resolve (objects w)) (flat_objects (kwargs nd)); Ok (d, a, k) in
            let '(res, cs) := match ins with
                              | Ok (d, a, k) => (call f d (fold_right (@Atom V) Nil a) (keys nd) (fold_right (@Atom V) Nil k), [f])
                              | Err e => (Err e, [])
                              end in
            let m := do v <- res; Ok [vlen v; vwid v] in
            Ok (World (update (nodes w) n (set_result r m 0)) (objects w ++ [res]) (called w ++ cs),
                (RObj (ORef r), m, 0))
        | _, _ =>
            let h := update (nodes w) n (fun nd => set_subscribers (S (S (subscribers nd))) nd) in
            do s <- deconstruct_chain (S (length h)) n (DS h [] []);
            let '(results, m, cs) := run_chain call vlen vwid (objects w) (output s) (length (consumers s)) in
            let w := World (set_results (heap s) (consumers s) r m 0) (objects w ++ results) (called w ++ cs) in
            do nd <- get_node (nodes w) n;
            Ok (w, (data nd, nmeta nd, moffset nd))
        end
    end.

  (** partition.py:58-81: the data, and either the lengths given or the metadata of the task with the offset *)
  Inductive pmeta := Known (len wid : option nat) | Meta (m : meta) (off : nat).
  Record part := Part { data_ref : ref V; lens : pmeta }.
  Record state := State { wrld : world; parts : list (option part) }.

  Definition with_nodes (w : world) (h : list (node V)) : world := World h (objects w) (called w).
  (** partition.py:58-81 *)
  Definition new_part (w : world) (d : ref V) (m : pmeta) : world * part :=
    (with_nodes w (fold_left (@subscribe V) (node_of d) (nodes w)), Part d m).
  (** partition.py:144-157 [drain_call_queue] *)
  Definition drain (s : state) (i : nat) (p : part) : res (state * part) :=
    match data_ref p with
    | RObj _ => Ok (s, p)
    | RNode n =>
        do r <- exec (wrld s) n;
        let '(w, (d, m, off)) := r in
        let p := Part d (Meta m off) in
        Ok (State w (update (parts s) i (fun _ => Some p)), p)
    end.
  Definition part_at (s : state) (i : nat) : res part :=
    match at_ (parts s) i with Some p => Ok p | None => Err InternalBug end.
  Definition given_ref (s : state) (g : given) : res (ref V) :=
    match g with Val v => Ok (RObj (OVal v)) | Of i => do p <- part_at s i; Ok (data_ref p) end.

  (** partition.py:251-303: [length()] and [width()] *)
  Definition shape (s : state) (i : nat) (p : part) : res (state * res (nat * nat)) :=
    match lens p with
    | Known (Some l) (Some k) => Ok (s, Ok (l, k))
    | Meta m off =>
        Ok (s, do l <- m; match nth_error l off, nth_error l (S off) with Some a, Some b => Ok (a, b) | _, _ => Err IndexError end)
    | Known _ _ =>
        do r <- drain s i p;
        let '(s, p) := r in
        match lens p with
        | Meta m off =>
            Ok (s, do l <- m; match nth_error l off, nth_error l (S off) with Some a, Some b => Ok (a, b) | _, _ => Err IndexError end)
        | Known _ _ =>
            match data_ref p with
            | RObj o => Ok (s, do v <- resolve (objects (wrld s)) o; Ok (vlen v, vwid v))
            | RNode _ => Err InternalBug
            end
        end
    end.

  (** The methods of a partition: [put] (217-232), [apply] (99-127), [add_to_apply_calls] (129-142),
      [drain_call_queue], [__copy__] (164-177), [__del__] (93-97), the value, [length] and [width]. *)
  Definition step (s : state) (o : @op V) : res (state * list (@obs V)) :=
    if valid (alive (parts s)) o then
      match o with
      | Put v =>
          let w := wrld s in
          let d := RObj (ORef (length (objects w))) in
          Ok (State (World (nodes w) (objects w ++ [Ok v]) (called w)) (parts s ++ [Some (Part d (Known (Some (vlen v)) (Some (vwid v))))]), [])
      | Call lazily i f a ks k =>
          do p <- part_at s i;
          do a <- traverse (given_ref s) a;
          do k <- traverse (given_ref s) k;
          let n := length (nodes (wrld s)) in
          let w := with_nodes (wrld s) (new_node (nodes (wrld s)) (data_ref p) f a ks k) in
          if lazily : bool then
            let '(w, q) := new_part w (RNode n) (Known None None) in Ok (State w (parts s ++ [Some q]), [])
          else
            do r <- exec w n;
            let '(w, (d, m, off)) := r in
            let '(w, q) := new_part w d (Meta m off) in Ok (State w (parts s ++ [Some q]), [])
      | Drain i => do p <- part_at s i; do r <- drain s i p; Ok (fst r, [])
      | Copy i =>
          do p <- part_at s i;
          let '(w, q) := new_part (wrld s) (data_ref p) (lens p) in Ok (State w (parts s ++ [Some q]), [])
      | Del i =>
          do p <- part_at s i;
          do h <- match data_ref p with RNode n => unsubscribe (nodes (wrld s)) n | RObj _ => Ok (nodes (wrld s)) end;
          Ok (State (with_nodes (wrld s) h) (forget (parts s) i), [])
      | Get i =>
          do p <- part_at s i; do r <- drain s i p;
          let '(s, p) := r in
          match data_ref p with
          | RObj o => Ok (s, [Value (resolve (objects (wrld s)) o)])
          | RNode _ => Err InternalBug
          end
      | Shape i => do p <- part_at s i; do r <- shape s i p; Ok (fst r, [Lengths (snd r)])
      end
    else Ok (s, []).
  Fixpoint run (s : state) (h : list (@op V)) : res (state * list (@obs V)) :=
    match h with
    | [] => Ok (s, [])
    | o :: h => do r <- step s o; let '(s, b) := r in do r <- run s h; let '(s, bs) := r in Ok (s, b ++ bs)
    end.
  Definition start : state := State (World [] [] []) [].
End Exec.
