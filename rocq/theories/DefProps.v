(** C31: deferred execution on Ray (modin/core/execution/ray/common/deferred_execution.py). *)
From Verif Require Import Base DefSpec DefModel DefProofs DefProofs2 DefProofs3 DefProofs4 DefProofs5.

Section Props.
  Context {V : Type}.
  Variable call : nat -> V -> forest V -> list nat -> forest V -> res V.
  Variables vlen vwid : V -> nat.
  Notation run := (run call vlen vwid start).
  Notation spec := (spec_run call vlen vwid []).

  (** Whatever partitions are created, called on lazily or at once, drained, copied, deleted and looked at, the driver
      never fails, and every value and every shape that is seen without an error is the one that calling the functions one
      by one gives.  Missing with respect to C31: nested tuples (see [C31_nested_tuple_refuted]), and that no error is seen
      where calling the functions one by one gives none (see the two other refutations). *)
  Theorem C31_values_partial (h : list (@op V)) : Forall no_tuples h ->
    exists s bs, run h = Ok (s, bs) /\ Forall2 never_wrong bs (spec h).
  Proof. intros N. destruct (run_good (start_inv call vlen vwid) N) as (s & bs & _ & _ & _ & _ & E & _ & W & _). eauto. Qed.

  (** When no call of the history fails, everything seen is exactly what calling the functions one by one gives. *)
  Theorem C31_direct_partial (h : list (@op V)) : Forall no_tuples h -> all_succeed call vlen vwid [] h ->
    exists s, run h = Ok (s, spec h).
  Proof. intros N A. destruct (run_good (start_inv call vlen vwid) N) as (s & bs & _ & _ & _ & _ & E & _ & _ & W).
    exists s. rewrite E. rewrite W; [reflexivity|easy|exact A]. Qed.

  (** However often a deferred operation is shared, no function is called more often than the history calls it. *)
  Theorem C31_shared_once (h : list (@op V)) s bs f : Forall no_tuples h -> run h = Ok (s, bs) ->
    count_occ Nat.eq_dec (called (wrld s)) f <= asked f h.
  Proof. intros N E. destruct (run_good (start_inv call vlen vwid) N) as (s' & bs' & e & v & sp & X & E' & S & _).
    rewrite E in E'. injection E' as <- <-. pose proof (w_calls (s_world S) f) as C. unfold occ in C. cbn in C. lia. Qed.
End Props.
Print Assumptions C31_values_partial.
Print Assumptions C31_direct_partial.
Print Assumptions C31_shared_once.

(** ** Examples: function 9 fails, function 7 tells tuples from lists, the others add their arguments and themselves *)
Section Examples.
  Fixpoint total (l : forest nat) : nat := match l with Nil => 0 | Atom a l => a + total l | Nest _ i l => total i + total l end.
  Fixpoint tuples (l : forest nat) : nat := match l with Nil => 0 | Atom _ l => tuples l | Nest t i l => (if t : bool then 1 else 0) + tuples i + tuples l end.
  Definition ecall (f d : nat) (a : forest nat) (ks : list nat) (k : forest nat) : res nat :=
    if f =? 9 then Err UserError else if f =? 7 then Ok (tuples a + tuples k) else Ok (f + d + total a + 2 * total k).
  Notation erun := (run ecall (fun v => v) (fun v => v + 1) start).
  Notation espec := (spec_run ecall (fun v => v) (fun v => v + 1) []).
  Definition of_ (i : nat) : forest (@given nat) -> forest given := Atom (Of i).
  Definition val_ (v : nat) : forest (@given nat) -> forest given := Atom (Val v).
  Definition lazy_ i f a := @Call nat true i f a [] Nil.

  (** A shared operation (1), a chain on top of it (2, 3), one that takes it in a nested list and as a keyword (4), and a
      partition deleted before the last is computed: function 1 is called once. *)
  Definition history : list (@op nat) :=
    [Put 10; lazy_ 0 1 (val_ 5 Nil); lazy_ 1 2 Nil; lazy_ 2 3 (of_ 1 Nil);
     Call true 3 4 (Nest false (of_ 1 (of_ 2 Nil)) (val_ 1 Nil)) [0; 1] (of_ 1 (Nest false (of_ 3 Nil) Nil));
     Del 2; Copy 4; Get 4; Shape 1; Get 1; Shape 5; Get 5; Call false 5 5 (of_ 3 Nil) [] Nil; Get 6; Get 2].
  Example C31_direct_partial_example :
    Forall no_tuples history /\ exists s, erun history = Ok (s, espec history) /\ called (wrld s) = [1; 2; 3; 4; 5]
      /\ espec history = [Value (Ok 182); Lengths (Ok (16, 17)); Value (Ok 16); Lengths (Ok (182, 183)); Value (Ok 182); Value (Ok 224)].
  Proof. split; [repeat constructor|]. eexists. split; [vm_compute; reflexivity|]. split; vm_compute; reflexivity. Qed.
  Example C31_all_succeed_example : all_succeed ecall (fun v => v) (fun v => v + 1) [] history.
  Proof. vm_compute. repeat split; intros r H; repeat (destruct H as [H|H]; [injection H as <- || discriminate; eauto|]); easy. Qed.

  (** Finding: an operation that fails takes an unrelated shared one of the same task with it.  Partition 1 is fine and is
      shared with partition 3, which also needs partition 2, which fails: after computing partition 3, the value of
      partition 1 is the error of partition 2. *)
  Definition poisoned : list (@op nat) := [Put 10; lazy_ 0 1 Nil; lazy_ 0 9 Nil; lazy_ 0 2 (of_ 2 (of_ 1 Nil)); Drain 3; Get 1].
  Theorem C31_failed_sibling_refuted :
    ~ (forall (h : list (@op nat)) s bs, Forall no_tuples h -> erun h = Ok (s, bs) -> bs = espec h).
  Proof. intros H. specialize (H poisoned). destruct (erun poisoned) as [[s bs]|e] eqn:E; [|vm_compute in E; discriminate].
    specialize (H s bs ltac:(repeat constructor) eq_refl). vm_compute in E. injection E as _ <-. vm_compute in H. discriminate. Qed.
  Example C31_failed_sibling : exists s, erun poisoned = Ok (s, [Value (Err UserError)]) /\ espec poisoned = [Value (Ok 11)].
  Proof. eexists. split; vm_compute; reflexivity. Qed.

  (** Finding: even when the value of the shared operation has been computed, its shape is the error. *)
  Definition shapeless : list (@op nat) := [Put 10; lazy_ 0 1 Nil; lazy_ 0 9 Nil; lazy_ 0 2 (of_ 1 (of_ 2 Nil)); Drain 3; Get 1; Shape 1].
  Theorem C31_failed_metadata_refuted :
    ~ (forall (h : list (@op nat)) s bs, Forall no_tuples h -> erun h = Ok (s, bs) ->
         forall i v b, nth_error bs i = Some (Value (Ok v)) -> nth_error bs (S i) = Some b -> nth_error (espec h) (S i) = Some (Lengths (Ok (v, v + 1))) ->
           b = Lengths (Ok (v, v + 1))).
  Proof. intros H. specialize (H shapeless). destruct (erun shapeless) as [[s bs]|e] eqn:E; [|vm_compute in E; discriminate].
    specialize (H s bs ltac:(repeat constructor) eq_refl 0 11 (Lengths (Err UserError))). vm_compute in E. injection E as _ <-.
    specialize (H eq_refl eq_refl eq_refl). discriminate. Qed.

  (** Finding: a tuple nested in the arguments arrives as a list when the operation is sent as part of a tree. *)
  Definition nested : list (@op nat) := [Put 10; lazy_ 0 1 Nil; lazy_ 1 7 (Nest true (val_ 1 Nil) Nil); Get 2].
  Theorem C31_nested_tuple_refuted :
    ~ (forall (h : list (@op nat)) s bs, all_succeed ecall (fun v => v) (fun v => v + 1) [] h -> erun h = Ok (s, bs) -> bs = espec h).
  Proof. intros H. specialize (H nested). destruct (erun nested) as [[s bs]|e] eqn:E; [|vm_compute in E; discriminate].
    assert (A : all_succeed ecall (fun v => v) (fun v => v + 1) [] nested).
    { vm_compute. repeat split; intros r K; repeat (destruct K as [K|K]; [injection K as <- || discriminate; eauto|]); easy. }
    specialize (H s bs A eq_refl). vm_compute in E. injection E as _ <-. vm_compute in H. discriminate. Qed.
End Examples.

Print Assumptions C31_failed_sibling_refuted.
Print Assumptions C31_failed_metadata_refuted.
Print Assumptions C31_nested_tuple_refuted.
