(** C82: [df.query(expression)].
    [shows f d rl cl]: the frame [f] displays the table [d] and its blocks are [d] cut into [rl] rows and [cl] columns.
    [look f]: what a user sees of the frame [f].  [env]: the variables that @name means. *)
From Verif Require Import Base Table ChunkSpec ChunkModel ChunkProofs GridModel GridSpec FrameSpec GridProofs SelProofs5 RemSpec RemModel ResetModel
  DumSpec QrySpec QryModel QryProofs.

Section Props.
  Context {L H A X O : Type}.
  Variables (leqb : L -> L -> bool) (heqb : H -> H -> bool).
  Hypothesis leqb_ok : forall x y, leqb x y = true <-> x = y.
  Hypothesis heqb_ok : forall x y, heqb x y = true <-> x = y.
  Variables (op1 : O -> A -> A) (op2 : O -> A -> A -> A) (agg : O -> list A -> A) (eqv : A -> A -> bool) (tt ff : A).
  Variable truth : A -> option bool.
  Variable env : X -> option (value A).
  Variables min_row min_col nparts : nat.
  Hypothesis (min_row_pos : 0 < min_row) (min_col_pos : 0 < min_col) (nparts_pos : 0 < nparts).
  Notation pf := (@pframe L H A).

  (** For every frame, every way of cutting it into blocks and every expression of names, constants and operators (of any
      depth, whatever the operators do to single values) that searches in no column and uses single values of the caller's
      variables elsewhere: the same rows as pandas, and an error where pandas raises.
      Missing: searching in a column, arrays of the caller, names in backticks (all refuted); calls, which take another way. *)
  Theorem C82_query_partial e (f : pf) d rl cl : shows f d rl cl -> simple e -> per_row env e ->
    let call := api_query leqb heqb op1 op2 agg eqv tt ff truth env min_row min_col nparts e f in
    match p_query heqb op1 op2 agg eqv tt ff truth env e d with
    | Ok D => exists f', call = Ok f' /\ look leqb heqb f' = Ok D
    | Err _ => exists x, call = Err x
    end.
  Proof. intros S Si P. cbv zeta. unfold api_query, rowwise_query. rewrite simple_parses by exact Si.
    assert (Wk : walk (size e) [e] = true). { apply simple_walk; [cbn [map]; rewrite list_sum_cons, list_sum_nil; lia|]. repeat constructor. exact Si. }
    rewrite Wk. cbn [negb].
    assert (Q := @query_ok L H A X O leqb heqb leqb_ok heqb_ok op1 op2 agg eqv tt ff truth env min_row min_col nparts min_row_pos min_col_pos nparts_pos e f d rl cl S P).
    destruct (p_query heqb op1 op2 agg eqv tt ff truth env e d) as [D|x].
    - destruct Q as (f' & -> & E). eauto.
    - destruct Q as (x' & ->). destruct x'; eauto. Qed.

  (** The check sends exactly the expressions with calls elsewhere. *)
  Theorem C82_check (e : expr H A X O) (f : pf) : ~ quotes e ->
    (rowwise_query leqb heqb op1 op2 agg eqv tt ff truth env min_row min_col nparts e f
       = frame_filter leqb heqb min_row min_col nparts true (p_query heqb op1 op2 agg eqv tt ff truth env e) f /\ simple e)
    \/ (rowwise_query leqb heqb op1 op2 agg eqv tt ff truth env min_row min_col nparts e f = Err NotImplementedErr /\ ~ simple e).
  Proof. intros Nq. unfold rowwise_query.
    assert (Pe : parses e = true).
    { clear - Nq. induction e; cbn [parses]; try reflexivity; try (exfalso; apply Nq; exact (QHere _)); try (apply andb_true_intro; split).
      all: match goal with IH : _ -> ?g |- ?g => apply IH; intros Q; apply Nq; constructor; assumption end. }
    rewrite Pe. cbn [negb].
    assert (Wk : walk (size e) [e] = true <-> Forall simple [e]) by (apply simple_walk; cbn [map]; rewrite list_sum_cons, list_sum_nil; lia).
    destruct (walk (size e) [e]); cbn [negb].
    - left. split; [reflexivity|]. apply proj1 in Wk. specialize (Wk eq_refl). now inversion Wk.
    - right. split; [reflexivity|]. intros Si. apply proj2 in Wk. assert (F : Forall simple [e]) by (repeat constructor; exact Si). specialize (Wk F). discriminate. Qed.

  (** What is kept: a row is kept if the expression is true of the table that has only this row. *)
  Theorem C82_row_by_row e (d D : df L H A) : wf d -> per_row env e -> p_query heqb op1 op2 agg eqv tt ff truth env e d = Ok D ->
    exists m, D = keep_rows m d /\ length m = nrows d
      /\ forall i b, nth_error m i = Some b ->
           exists a, eval heqb op1 op2 agg eqv tt ff env (iloc_rows d i (S i)) e = Ok (Many [a]) /\ truth a = Some b.
  Proof. intros W P. destruct (@eval_cut L H A X O heqb op1 op2 agg eqv tt ff env d e W P) as [F C]. unfold p_query.
    destruct (eval heqb op1 op2 agg eqv tt ff env d e) as [[a|l]|x] eqn:Ev; cbn [rbind]; try discriminate. specialize (F _ eq_refl). cbn in F. rewrite F, Nat.eqb_refl. cbn [negb].
    destruct (rmap _ l) as [m|x] eqn:Em; cbn [rbind]; [|discriminate]. intros [= <-]. exists m. split; [reflexivity|].
    assert (Lm := ExplProofs.rmap_length _ _ Em). split; [congruence|]. intros i b Ei.
    assert (Hi : i < length l) by (rewrite <- Lm; apply nth_error_Some; congruence).
    destruct (nth_error l i) as [a|] eqn:Ea; [|apply nth_error_None in Ea; lia]. exists a. split.
    - rewrite C by lia. cbn [rbind cutv]. do 2 f_equal. clear - Ea. unfold slice. replace (S i - i) with 1 by lia. revert i Ea. induction l as [|x l IH]; intros [|i] E; try discriminate; cbn in *; [now injection E as ->|now apply IH].
    - apply ExplProofs.rmap_iff in Em. apply (f_equal (fun k => nth_error k i)) in Em. rewrite !nth_error_map, Ea, Ei in Em. cbn in Em. destruct (truth a); [now injection Em as ->|discriminate]. Qed.
End Props.
Print Assumptions C82_query_partial.
Print Assumptions C82_check.
Print Assumptions C82_row_by_row.

(** Concrete frames: numbers, 0 and 1 are False and True.  Operators: 0 is <, 1 is +, 2 is and *)
Definition qry_d : df nat nat nat := mkdf [5;6;7] [1;2;3] [[1;9;4];[2;0;1];[0;3;2]].
Definition qry_f : @pframe nat nat nat := mkpf (cut_table [2;1] [2;1] qry_d) (Some [5;6;7]) (Some [1;2;3]) (Some [2;1]) (Some [2;1]).
Lemma qry_shows : shows qry_f qry_d [2;1] [2;1].
Proof. unfold shows, holds, gridded. cbn. repeat split; auto; try discriminate; try congruence; repeat constructor; intros ? [= <-]; reflexivity. Qed.
Definition qry_bool (b : bool) : nat := if b then 1 else 0.
Definition qry_op (o a b : nat) : nat := match o with 0 => qry_bool (a <? b) | 1 => a + b | _ => a * b end.
Definition qry_truth (a : nat) : option bool := match a with 0 => Some false | 1 => Some true | _ => None end.
(** @0 is 2, @1 the list 1, 2, @2 the array 5, 5, 5 *)
Definition qry_env (x : nat) : option (value nat) := match x with 0 => Some (One 2) | 1 => Some (Many [1;2]) | 2 => Some (Many [5;5;5]) | _ => None end.
Definition qry_pandas := @p_query nat nat nat nat nat Nat.eqb (fun _ a => 1 - a) qry_op (fun _ l => hd 0 l) Nat.eqb 1 0 qry_truth qry_env.
Definition qry_modin := @api_query nat nat nat nat nat Nat.eqb Nat.eqb (fun _ a => 1 - a) qry_op (fun _ l => hd 0 l) Nat.eqb 1 0 qry_truth qry_env 1 1 2.
Definition qry_seen e f := do g <- qry_modin e f; look Nat.eqb Nat.eqb g.

(** a < b + @0 and a in @1 *)
Definition qry_e : expr nat nat nat nat := BoolOp 2 (Compare 0 (Col 1) (Binary 1 (Col 2) (Local 0))) (Member false (Col 1) (Local 1)).
Example C82_two_conditions : qry_seen qry_e qry_f = Ok (mkdf [5] [1;2;3] [[1;9;4]]).
Proof. vm_compute. reflexivity. Qed.
Example C82_hypotheses : exists f', qry_modin qry_e qry_f = Ok f' /\ look Nat.eqb Nat.eqb f' = Ok (mkdf [5] [1;2;3] [[1;9;4]]).
Proof. apply (@C82_query_partial nat nat nat nat nat Nat.eqb Nat.eqb Nat.eqb_eq Nat.eqb_eq (fun _ a => 1 - a) qry_op (fun _ l => hd 0 l) Nat.eqb 1 0 qry_truth qry_env 1 1 2 Nat.lt_0_1 Nat.lt_0_1 Nat.lt_0_2 qry_e qry_f qry_d [2;1] [2;1] qry_shows); cbn; auto. Qed.
Example C82_unknown : qry_modin (Compare 0 (Col 8) (Const 1)) qry_f = Err KeyError /\ qry_modin (Compare 0 (Const 0) (Const 1)) qry_f = Err KeyError.
Proof. split; vm_compute; reflexivity. Qed.
Example C82_call : qry_modin (Compare 0 (Col 1) (Agg 0 (Col 2))) qry_f = Err Unmodelled.
Proof. vm_compute. reflexivity. Qed.

(** [df.query("a in c")], [df.query("a not in c")]: each row block searches in its own part of the column. *)
Theorem C82_in_column_refuted :
  qry_pandas (Member false (Col 1) (Col 3)) qry_d = Ok (mkdf [5;6] [1;2;3] [[1;9;4];[2;0;1]])
  /\ qry_seen (Member false (Col 1) (Col 3)) qry_f = Ok (mkdf [5] [1;2;3] [[1;9;4]])
  /\ qry_pandas (Member true (Col 1) (Col 3)) qry_d = Ok (mkdf [7] [1;2;3] [[0;3;2]])
  /\ qry_seen (Member true (Col 1) (Col 3)) qry_f = Ok (mkdf [6;7] [1;2;3] [[2;0;1];[0;3;2]]).
Proof. repeat split; vm_compute; reflexivity. Qed.
Print Assumptions C82_in_column_refuted.

(** [df.query("b < @array")] with one value for each row: each row block is compared with the whole array. *)
Theorem C82_array_refuted :
  qry_pandas (Compare 0 (Col 2) (Local 2)) qry_d = Ok (mkdf [6;7] [1;2;3] [[2;0;1];[0;3;2]])
  /\ qry_modin (Compare 0 (Col 2) (Local 2)) qry_f = Err ValueError.
Proof. split; vm_compute; reflexivity. Qed.
Print Assumptions C82_array_refuted.

(** [df.query("`b` < 4")]: a SyntaxError, although pandas takes names in backticks. *)
Theorem C82_quoted_refuted :
  qry_pandas (Compare 0 (Quoted 2) (Const 4)) qry_d = Ok (mkdf [6;7] [1;2;3] [[2;0;1];[0;3;2]])
  /\ qry_modin (Compare 0 (Quoted 2) (Const 4)) qry_f = Err UserError.
Proof. split; vm_compute; reflexivity. Qed.
Print Assumptions C82_quoted_refuted.
