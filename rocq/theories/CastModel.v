(** Model of the backend cost calculator and of argument casting for mixed-backend calls. *)
From Coq Require Import ZArith.
From Verif Require Import Base CastSpec.

Section Calculator.
  Context {Q B : Type}.
  Variable beqb : B -> B -> bool.
  Variable backend_of : Q -> B.                    (* qc.get_backend() *)
  Variable stay_cost : Q -> option Z.              (* qc.stay_cost(...) *)
  Variable move_to_cost : Q -> B -> option Z.      (* qc.move_to_cost(cls of backend, ...) *)
  Variable move_to_me_cost : B -> Q -> option Z.   (* cls of backend.move_to_me_cost(qc, ...) *)
  Variable max_cost : B -> Z.                      (* cls of backend.max_cost() *)

  (** the dict [_backend_data], in insertion order; [max_cost] is looked up *)
  Definition costs := list (B * Z).

  (** core/storage_formats/base/query_compiler_calculator.py [BackendCostCalculator.__init__] 90-139 *)
  Definition init_data (bs : list B) (data : costs) : costs :=
    fold_left (fun data b => if existsb (fun e => beqb (fst e) b) data then data else data ++ [(b, 0%Z)]) bs data.
  Definition new_calculator (switchable : list B) (preop consider_all : bool) (qs : list Q) : costs :=
    let data := init_data (map backend_of qs) [] in
    if preop && consider_all then init_data switchable data else data.

  (** [_add_cost_data] 290-304 with [QCCoercionCost.validate_coersion_cost] (query_compiler.py 142-154) *)
  Definition add_cost (data : costs) (b : B) (c : Z) : res costs :=
    if (c <? 0)%Z || (1000 <? c)%Z then Err ValueError
    else Ok (map (fun e => if beqb (fst e) b then (fst e, (snd e + c)%Z) else e) data).
  Definition add_opt (data : costs) (b : B) (c : option Z) : res costs :=
    match c with Some c => add_cost data b c | None => Ok data end.

  (** [calculate] 141-288, the inner loop over [backend_to] *)
  Fixpoint move_costs (q : Q) (targets : list B) (data : costs) : res costs :=
    match targets with
    | [] => Ok data
    | b :: rest =>
        do data1 <- (if beqb b (backend_of q) then Ok data
                     else match move_to_cost q b with
                          | Some c => add_cost data b c
                          | None => add_opt data b (move_to_me_cost b q)
                          end);
        move_costs q rest data1
    end.
  (** the loop over [qc_from] *)
  Fixpoint all_costs (qs : list Q) (data : costs) : res costs :=
    match qs with
    | [] => Ok data
    | q :: rest =>
        do data1 <- add_opt data (backend_of q) (stay_cost q);
        do data2 <- move_costs q (map fst data1) data1;
        all_costs rest data2
    end.
  (** [get_min_cost_backend] *)
  Fixpoint min_backend (skip : bool) (data : costs) (best : option (B * Z)) : option (B * Z) :=
    match data with
    | [] => best
    | (b, c) :: rest =>
        if skip && (max_cost b <? c)%Z then min_backend skip rest best
        else match best with
             | None => min_backend skip rest (Some (b, c))
             | Some (_, m) => min_backend skip rest (if (c <? m)%Z then Some (b, c) else best)
             end
    end.
  Definition calculate (switchable : list B) (preop consider_all : bool) (qs : list Q) : res B :=
    match qs with
    | [] => Err ValueError
    | [q] => Ok (backend_of q)
    | _ =>
        do data <- all_costs qs (new_calculator switchable preop consider_all qs);
        match min_backend true data None with
        | Some (b, _) => Ok b
        | None => match min_backend false data None with
                  | Some (b, _) => Ok b
                  | None => Err ValueError
                  end
        end
    end.

  (** core/storage_formats/pandas/query_compiler_caster.py [_get_backend_for_auto_switch] 735-867 *)
  Fixpoint auto_switch_loop (q : Q) (targets : list B) (best : B) (least : option Z) : B :=
    match targets with
    | [] => best
    | b :: rest =>
        if beqb b (backend_of q) then auto_switch_loop q rest best least
        else match move_to_cost q b, stay_cost q, move_to_me_cost b q with
             | Some mv, Some st, Some ex =>
                 let delta := if (1000 <=? st)%Z then (ex - st)%Z else (mv + ex - st)%Z in
                 if (delta <? 0)%Z && match least with None => true | Some m => (delta <? m)%Z end
                 then auto_switch_loop q rest b (Some delta)
                 else auto_switch_loop q rest best least
             | _, _, _ => auto_switch_loop q rest best least
             end
    end.
  Definition auto_switch (switchable : list B) (q : Q) : B := auto_switch_loop q switchable (backend_of q) None.
End Calculator.

(** query_compiler_caster.py [visit_nested_args] 441-488.  [fn] may change the state.  Result: the value
    returned, the value that the passed reference holds afterwards (lists and dicts are changed in place),
    and the state.  Simplified: [NamedAgg] (whose fields are never frames) is left out; dict keys play no role; a mutable
    container is not shared between two places of the arguments. *)
Section Visit.
  Context {Q St : Type}.
  Variable fn : atom Q -> St -> atom Q * St.
  Section Elems.
    Variable visit : tree Q -> St -> tree Q * tree Q * St.
    Fixpoint elems (l : list (tree Q)) (s : St) : list (tree Q) * list (tree Q) * St :=
      match l with
      | [] => ([], [], s)
      | t :: rest =>
          let '(stored, held, s1) :=
            match t with
            | Leaf a => let '(a', s1) := fn a s in (Leaf a', Leaf a, s1)
            | _ => let '(_, h, s1) := visit t s in (h, h, s1)      (* the returned value is dropped *)
            end in
          let '(st, hd, s2) := elems rest s1 in
          (stored :: st, held :: hd, s2)
      end.
  End Elems.
  Fixpoint visit (t : tree Q) (s : St) : tree Q * tree Q * St :=
    match t with
    | Leaf a => (t, t, s)
    | TMut l => let '(st, _, s1) := elems visit l s in (TMut st, TMut st, s1)
    | TTup l => let '(st, hd, s1) := elems visit l s in (TTup st, TTup hd, s1)
    end.
End Visit.

(** A query compiler: its identity, backend and table. *)
Record qc (B D : Type) := mkqc { qid : nat; qback : B; qdata : D }.
Arguments mkqc {B D} qid qback qdata. Arguments qid {B D} q. Arguments qback {B D} q. Arguments qdata {B D} q.
(** A DataFrame or Series object: [_query_compiler] and [_pinned]. *)
Record obj (B D : Type) := mkobj { oqc : qc B D; opin : bool }.
Arguments mkobj {B D} oqc opin. Arguments oqc {B D} o. Arguments opin {B D} o.

Section Caster.
  Context {B D : Type}.
  Variable beqb : B -> B -> bool.
  Notation qc := (qc B D).
  Notation obj := (obj B D).
  Notation atom := (atom qc).
  Notation tree := (tree qc).

  (** all objects, by identity, and the next fresh query compiler identity *)
  Record heap := mkheap { objs : list obj; fresh : nat }.
  Definition lookup (h : heap) (o : nat) : option obj := nth_error (objs h) o.
  Definition update (h : heap) (o : nat) (x : obj) : heap :=
    mkheap (map (fun i => if i =? o then x else nth i (objs h) x) (seq 0 (length (objs h)))) (fresh h).
  Definition alloc (h : heap) (x : obj) : nat * heap := (length (objs h), mkheap (objs h ++ [x]) (fresh h)).

  (** pandas/base.py [set_backend] 4492-4593: the table is moved unchanged (C01 is what this relies on) into
      a new query compiler.  In place the pin is removed; otherwise the new object is not pinned. *)
  Definition moved (h : heap) (x : obj) (b : B) : obj * heap :=
    (mkobj (mkqc (fresh h) b (qdata (oqc x))) false, mkheap (objs h) (S (fresh h))).

  (** [wrap_function_in_argument_caster], [register_query_compilers] 1006-1025.  State: query compilers in order, the set of
      backends (as a list), the pin target, and whether a conflict was found (the exception). *)
  Record reg := mkreg { rqcs : list qc; rbacks : list B; rpin : option B; rfail : bool }.
  Definition register (h : heap) (a : atom) (r : reg) : atom * reg :=
    (a, if rfail r then r
        else match a with
        | AObj o =>
            match lookup h o with
            | Some x =>
                let b := qback (oqc x) in
                let backs := if existsb (beqb b) (rbacks r) then rbacks r else b :: rbacks r in
                match rpin r with
                | Some p => if opin x && negb (beqb b p) then mkreg (rqcs r) backs (rpin r) true
                            else mkreg (rqcs r ++ [oqc x]) backs (rpin r) false
                | None => mkreg (rqcs r ++ [oqc x]) backs (if opin x then Some b else None) false
                end
            | None => r
            end
        | AQC q => mkreg (rqcs r ++ [q]) (rbacks r) (rpin r) false
        | AOther _ => r
        end).

  (** [cast_to_qc] 1119-1147 (two or more query compilers) and 643-655 (fewer; always in place, no tracker).
      A tracker is (input object, query compiler after the cast, object passed on). *)
  Definition cast (inplace track : bool) (b : B) (a : atom) (st : heap * list (nat * qc * nat))
    : atom * (heap * list (nat * qc * nat)) :=
    let '(h, trs) := st in
    match a with
    | AObj o =>
        match lookup h o with
        | Some x =>
            if beqb (qback (oqc x)) b then (a, st)
            else
              let '(x', h1) := moved h x b in
              if inplace then
                (a, (update h1 o x', if track then trs ++ [(o, oqc x', o)] else trs))
              else
                let '(o', h2) := alloc h1 x' in
                (AObj o', (h2, if track then trs ++ [(o, oqc x', o')] else trs))
        | None => (a, st)
        end
    | _ => (a, st)
    end.

  Record config := mkconfig { auto_switch_on : bool; cast_in_place : bool; default_backend : B }.
  (** the calculators ([calculate], [auto_switch] when the function is a pre-operation switch point, else
      the operand's own backend), for the called function *)
  Variable choose : list qc -> res B.
  Variable choose_one : qc -> B.
  Variable choose_none : B -> B.      (* no operand: the dummy query compiler of the default backend *)

  Record prepared := mkprepared {
    p_backend : B; p_args : tree; p_kwargs : tree;   (* what the implementation is called with *)
    p_held_args : tree; p_held_kwargs : tree;        (* what the caller's containers hold now *)
    p_heap : heap; p_trackers : list (nat * qc * nat); p_pin : bool }.

  (** [f_with_argument_casting] 964-1160, up to the call.  [args] is a tuple and [kwargs] a dict. *)
  Definition prepare (cfg : config) (args kwargs : list tree) (h : heap) : res prepared :=
    let args := TTup args in
    let kwargs := TMut kwargs in
    let '(_, _, r1) := visit (register h) args (mkreg [] [] None false) in
    let '(_, _, r) := visit (register h) kwargs r1 in
    if rfail r then Err ValueError
    else
      let input_backend := match rqcs r with [] => default_backend cfg | q :: _ => qback q end in
      let pinned := match rpin r with Some _ => true | None => false end in
      if (length (rbacks r) <? 2) && (negb (auto_switch_on cfg) || pinned) then
        Ok (mkprepared (match rpin r with Some p => p | None => input_backend end)
                       args kwargs args kwargs h [] pinned)
      else
        do d <- (if length (rqcs r) <? 2
                 then Ok (match rqcs r with [] => choose_none input_backend | q :: _ => choose_one q end, true, false)
                 else do b <- match rpin r with Some p => Ok p | None => choose (rqcs r) end;
                      Ok (b, cast_in_place cfg, true));
        let '(b, inplace, track) := d in
        let '(args1, held1, st1) := visit (cast inplace track b) args (h, []) in
        let '(kwargs1, held2, st2) := visit (cast inplace track b) kwargs st1 in
        Ok (mkprepared b args1 kwargs1 held1 held2 (fst st2) (snd st2) pinned).

  (** [_copy_into] (pandas/dataframe.py 3427): the query compiler reference is copied *)
  Definition copy_into (h : heap) (src dst : nat) : heap :=
    match lookup h src, lookup h dst with
    | Some x, Some y => update h dst (mkobj (oqc x) (opin y))
    | _, _ => h
    end.
  (** the loop 1166-1173 *)
  Definition copy_back (cfg : config) (trs : list (nat * qc * nat)) (h : heap) : heap :=
    fold_left (fun h tr => let '(o, q, o') := tr in
                 match lookup h o' with
                 | Some x => if cast_in_place cfg || negb (qid (oqc x) =? qid q) then copy_into h o' o else h
                 | None => h
                 end) trs h.
  (** the rest of [f_with_argument_casting] 1162-1183 (and 1065-1071, where there are no trackers), without
      the post-operation switch: the implementation of backend [b] runs on the cast arguments and may change
      any object; its updates are copied back and the result is pinned if an operand was.  The result is an
      object or some other value. *)
  Definition call (cfg : config) (impl : B -> tree -> tree -> heap -> res (option nat) * heap)
      (args kwargs : list tree) (h : heap) : res (option nat) * heap :=
    match prepare cfg args kwargs h with
    | Err e => (Err e, h)
    | Ok p =>
        let '(r, h1) := impl (p_backend p) (p_args p) (p_kwargs p) (p_heap p) in
        match r with
        | Err e => (Err e, h1)
        | Ok o =>
            let h2 := copy_back cfg (p_trackers p) h1 in
            (Ok o, match o with
                   | Some o => match lookup h2 o with
                               | Some x => if p_pin p then update h2 o (mkobj (oqc x) true) else h2
                               | None => h2
                               end
                   | None => h2
                   end)
        end
    end.
End Caster.
