(** C30: what queued operations must do.  Every partition simply holds the outcome of having
    applied its operations at once, in order; nothing is ever queued. *)
From Verif Require Import Base.

(** A program over partitions.  Partitions are named by the number of the creating step: every
    [QPut], [QAdd], [QApply] and [QCopy] names one new partition. *)
Inductive qop (V F : Type) :=
| QPut (v : V)                 (* partition_type.put(v) *)
| QAdd (p : nat) (f : F)       (* p.add_to_apply_calls(f) *)
| QApply (p : nat) (f : F)     (* p.apply(f) *)
| QDrain (p : nat)             (* p.drain_call_queue() *)
| QGet (p : nat)               (* p.get() *)
| QCopy (p : nat).             (* copy.copy(p) *)
Arguments QPut {V F} v. Arguments QAdd {V F} p f. Arguments QApply {V F} p f.
Arguments QDrain {V F} p. Arguments QGet {V F} p. Arguments QCopy {V F} p.

Section Spec.
  Context {V F : Type}.
  Variable call : F -> V -> res V.

  (** What a step gives its caller: an exception, nothing, or data. *)
  Definition outcome := res (option V).

  Definition look {X} (cells : list (option X)) (p : nat) : option X := nth p cells None.

  (** Immediate application.  [late]: the engine hands out futures, so an error shows when the data is
      read; otherwise [apply] and [drain_call_queue] raise it and a raising [apply] creates nothing. *)
  Definition eager_step (late : bool) (cells : list (option (res V))) (op : qop V F)
    : list (option (res V)) * outcome :=
    match op with
    | QPut v => (cells ++ [Some (Ok v)], Ok None)
    | QAdd p f =>
        match look cells p with
        | Some r => (cells ++ [Some (rbind r (call f))], Ok None)
        | None => (cells ++ [None], Err InternalBug)
        end
    | QApply p f =>
        match look cells p with
        | Some r =>
            match rbind r (call f) with
            | Ok v => (cells ++ [Some (Ok v)], Ok None)
            | Err e => if late then (cells ++ [Some (Err e)], Ok None) else (cells ++ [None], Err e)
            end
        | None => (cells ++ [None], Err InternalBug)
        end
    | QDrain p =>
        match look cells p with
        | Some r => (cells, if late then Ok None else rbind r (fun _ => Ok None))
        | None => (cells, Err InternalBug)
        end
    | QGet p =>
        match look cells p with
        | Some r => (cells, rbind r (fun v => Ok (Some v)))
        | None => (cells, Err InternalBug)
        end
    | QCopy p =>
        match look cells p with
        | Some r => (cells ++ [Some r], Ok None)
        | None => (cells ++ [None], Err InternalBug)
        end
    end.

  (** Running a program step by step from nothing, with any step function. *)
  Fixpoint runs {S O : Type} (step : S -> qop V F -> S * O) (s : S) (ops : list (qop V F)) : S * list O :=
    match ops with
    | [] => (s, [])
    | op :: rest => let '(s1, o) := step s op in let '(s2, os) := runs step s1 rest in (s2, o :: os)
    end.
  Definition final {S O} (step : S -> qop V F -> S * O) (s : S) ops : S := fst (runs step s ops).
  Definition outcomes {S O} (step : S -> qop V F -> S * O) (s : S) ops : list O := snd (runs step s ops).

  Definition is_ok {X} (r : res X) : Prop := exists x, r = Ok x.
End Spec.

(** A program on one full-axis partition. *)
Inductive aop (F : Type) := AAdd (f : F) | ADrain | ARead.
Arguments AAdd {F} f. Arguments ADrain {F}. Arguments ARead {F}.

Section AxisSpec.
  Context {V F : Type}.
  Variable call : F -> V -> res V.
  (** Immediate application: [AAdd] moves on to the new partition, [ARead] is to_pandas(). *)
  Fixpoint axis_eager (r : res V) (ops : list (aop F)) : list (outcome (V := V)) :=
    match ops with
    | [] => []
    | AAdd f :: rest => Ok None :: axis_eager (rbind r (call f)) rest
    | ADrain :: rest => rbind r (fun _ => Ok None) :: axis_eager r rest
    | ARead :: rest => rbind r (fun v => Ok (Some v)) :: axis_eager r rest
    end.
End AxisSpec.
