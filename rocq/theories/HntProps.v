(** C83: membership tests do not depend on how the object was made.
    [p_calls] / [m_calls]: the objects pandas / Modin has after a history of calls; object [o] is the one made by
    call number [o]. *)
From Coq Require Import ZArith.
From Verif Require Import Base Table GridSpec ChunkSpec ChunkModel ChunkProofs GridModel FrameSpec GridProofs GridProofs3 GridProofs5
  SelSpec SelModel SelProofs5 SelProofs6 SelProofs7 RemModel FilSpec FilModel FilProofs FilProps HntSpec HntModel HntProofs HntProofs2.

Section Props.
  Context {L H V : Type}.
  Variables (leqb : L -> L -> bool) (heqb : H -> H -> bool).
  Hypothesis leqb_ok : forall x y, leqb x y = true <-> x = y.
  Hypothesis heqb_ok : forall x y, heqb x y = true <-> x = y.
  Variable veqb : V -> V -> bool.
  Variable as_cell : H -> option V.
  Variables (dynamic : bool) (cpus nparts min_row min_col : nat).
  Hypothesis (np : 0 < nparts) (mr : 0 < min_row) (mc : 0 < min_col).
  Variables known_l known_w : nat -> nat -> bool.
  Variable argsort : list Z -> list nat.
  Hypothesis argsort_ok : forall l, sorts l (argsort l).
  Notation dframe := (df L H (option V)).
  Variable distribute : dframe -> @pframe L H (option V).
  Hypothesis distribute_ok : forall d, wf d -> 0 < nrows d -> 0 < ncols d -> exists rl cl, shows (distribute d) d rl cl.
  Notation m_calls := (m_calls leqb heqb dynamic cpus nparts min_row min_col known_l known_w argsort distribute).
  Notation m_isin := (m_isin leqb heqb veqb as_cell dynamic cpus nparts min_row min_col).

  (** what [o.isin(w)] must be: pandas' answer, or an error where pandas raises *)
  Definition answers (s : @state L H V) (o : nat) (w : values_in) (p : kind * dframe) : Prop :=
    match o_isin leqb heqb veqb as_cell w p with
    | Ok D => returns leqb heqb (m_isin s o w) D
    | Err _ => exists e, m_isin s o w = Err e
    end.

  Lemma answers_intro b s ps o p w : inv b s ps -> nth_error ps o = Some p ->
    (forall (q : @qc L H V), (fst p = KSeries -> hint q = true) -> (hint q = true -> ncols (snd p) = 1) -> (b = true -> fst p = KFrame -> hint q = false) ->
       fst p = KSeries \/ hint q = false \/ exists vs, w = AnyOf vs) ->
    answers s o w p.
  Proof. intros I N Hc. assert (Eo : object_at ps o = Ok p) by (unfold object_at; now rewrite N).
    destruct (@object_ok L H V b s ps o p I Eo) as (i & q & rl & cl & Eq & Nq & S & Hn & H1 & H2 & H3).
    assert (X := @isin_ok L H V leqb heqb leqb_ok heqb_ok veqb as_cell dynamic cpus nparts min_row min_col np mr mc q w (fst p) (snd p) rl cl S H1 H2 (Hc q H1 H2 H3)).
    unfold answers, HntModel.m_isin. rewrite Eq. cbn [rbind snd]. destruct p as [k d]. cbn [fst snd] in X. destruct (o_isin leqb heqb veqb as_cell w (k, d)); auto. now apply returns_intro. Qed.

  (** After any history of selections, squeezes, conversions, copies and element-wise operations: isin of every
      Series, of every frame of no or several columns, and of every object with a list, is pandas'. *)
  Theorem C83_isin_partial l ps : p_calls heqb [] l = Ok ps ->
    exists s, m_calls (mkst [] []) l = Ok s /\ forall o p w, nth_error ps o = Some p ->
      fst p = KSeries \/ ncols (snd p) <> 1 \/ (exists vs, w = AnyOf vs) -> answers s o w p.
  Proof. intros E. destruct (@calls_ok L H V leqb heqb leqb_ok heqb_ok dynamic cpus nparts min_row min_col np mr mc known_l known_w argsort argsort_ok distribute distribute_ok false l (mkst [] []) [] ps) as (s & Es & I);
      [constructor|exact E|easy|].
    exists s. split; [exact Es|]. intros o p w N Hc. apply (@answers_intro _ s ps o p w I N). intros q H1 H2 _. destruct Hc as [? | [? | ?]]; auto.
    right. left. destruct (hint q); auto. tauto. Qed.

  (** Frames of one column too, when none was made by selecting one column, squeezing, [to_frame] or an operator
      with a scalar. *)
  Theorem C83_isin_plain l ps : p_calls heqb [] l = Ok ps -> forallb (@plain L H V) l = true ->
    exists s, m_calls (mkst [] []) l = Ok s /\ forall o p w, nth_error ps o = Some p -> answers s o w p.
  Proof. intros E Pl. destruct (@calls_ok L H V leqb heqb leqb_ok heqb_ok dynamic cpus nparts min_row min_col np mr mc known_l known_w argsort argsort_ok distribute distribute_ok true l (mkst [] []) [] ps) as (s & Es & I);
      [constructor|exact E|auto|].
    exists s. split; [exact Es|]. intros o p w N. apply (@answers_intro _ s ps o p w I N). intros q H1 H2 H3. destruct (fst p) eqn:Ek; auto. Qed.
End Props.
Print Assumptions C83_isin_partial.
Print Assumptions C83_isin_plain.

Section HntConcrete.
  Open Scope Z_scope.
  (** two row blocks, one block of columns *)
  Definition hnt_cut (d : df nat nat (option Z)) : @pframe nat nat (option Z) :=
    let rl := [Nat.div2 (nrows d); nrows d - Nat.div2 (nrows d)]%nat in let cl := [ncols d] in
    mkpf (cut_table rl cl d) (Some (dindex d)) (Some (dcols d)) (Some rl) (Some cl).
  Lemma hnt_cut_ok d : wf d -> (0 < nrows d)%nat -> (0 < ncols d)%nat -> exists rl cl, shows (hnt_cut d) d rl cl.
  Proof. intros W Hn Hc. exists [Nat.div2 (nrows d); nrows d - Nat.div2 (nrows d)]%nat, [ncols d]. 
    assert (Y : (Nat.div2 (nrows d) <= nrows d)%nat) by apply Nat.div2_decr, Nat.le_succ_diag_r.
    split; [|repeat split; easy]. apply holds_intro; auto; rewrite ?list_sum_cons, list_sum_nil; lia. Qed.
  (** integer column labels, so that a label is a value *)
  Definition hnt_label (h : nat) : option Z := Some (Z.of_nat h).
  Definition hnt_d : df nat nat (option Z) := mkdf [5;6;7]%nat [1;2]%nat [[Some 11;Some 12];[Some 1;None];[Some 31;Some 32]].
  Definition hnt_1 : df nat nat (option Z) := mkdf [5;6;7]%nat [1]%nat [[Some 11];[Some 1];[Some 31]].
  Definition hnt_double (c : option Z) := option_map (Z.mul 2) c.
  Definition hnt_run l := m_calls Nat.eqb Nat.eqb true 4 2 1 1 (fun _ _ => true) (fun _ _ => true) zargsort hnt_cut (mkst [] []) l.
  Definition hnt_show (x : res (@pframe nat nat bool)) := do f <- x; pf_to_pandas Nat.eqb Nat.eqb f.
  (** the answer Modin and the answer pandas give for object [o] of a history *)
  Definition hnt_modin l o w := hnt_show (do s <- hnt_run l; m_isin Nat.eqb Nat.eqb Z.eqb hnt_label true 4 2 1 1 s o w).
  Definition hnt_pandas l o w := do ps <- p_calls Nat.eqb [] l; do p <- object_at ps o; o_isin Nat.eqb Nat.eqb Z.eqb hnt_label w p.
  Definition hnt_dict : @values_in nat nat Z := PerColumn [(1%nat, [Some 11; Some 62])].
  Definition hnt_series : @values_in nat nat Z := PerRow [(5%nat, Some 31); (7%nat, Some 31)].
  Definition hnt_col (a b c : bool) : res (df nat nat bool) := Ok (mkdf [5;6;7]%nat [1]%nat [[a];[b];[c]]).

  Definition hnt_history : list (@call nat nat Z) :=
    [Make KFrame hnt_d; GetColumn 0 1%nat; Each 0 hnt_double; Select 0 [2;1]%nat; Squeeze 3; WithScalar 1 hnt_double; Copy 4].
  Example C83_case : hnt_modin hnt_history 6 hnt_dict = Ok (mkdf [5;6;7]%nat [2;1]%nat [[false;true];[false;false];[false;false]])
    /\ hnt_modin hnt_history 6 hnt_dict = hnt_pandas hnt_history 6 hnt_dict
    /\ hnt_modin hnt_history 5 hnt_series = hnt_col false false false
    /\ hnt_modin hnt_history 1 hnt_series = hnt_col false false true.
  Proof. split; [vm_compute; reflexivity|]. split; [vm_compute; reflexivity|]. split; vm_compute; reflexivity. Qed.
  Example C83_hypotheses : exists ps, p_calls Nat.eqb [] hnt_history = Ok ps /\ length ps = 7%nat
    /\ forallb (@plain nat nat Z) [Make KFrame hnt_1; Copy 0; Make KFrame hnt_d; Select 2 [2;1]%nat; GetColumn 3 1%nat] = true.
  Proof. eexists. split; [vm_compute; reflexivity|]. split; reflexivity. Qed.
  Example C83_used : exists s, hnt_run hnt_history = Ok s
    /\ answers Nat.eqb Nat.eqb Z.eqb hnt_label true 4 2 1 1 s 1 hnt_series (KSeries, hnt_1).
  Proof. destruct (@C83_isin_partial nat nat Z Nat.eqb Nat.eqb Nat.eqb_eq Nat.eqb_eq Z.eqb hnt_label true 4 2 1 1 ltac:(lia) ltac:(lia) ltac:(lia) (fun _ _ => true) (fun _ _ => true) zargsort zargsort_ok hnt_cut hnt_cut_ok hnt_history)
      with (ps := match p_calls Nat.eqb [] hnt_history with Ok ps => ps | Err _ => [] end) as (s & E & A); [vm_compute; reflexivity|].
    exists s. split; [exact E|]. apply A; [vm_compute; reflexivity|]. now left. Qed.

  (** [df[["a"]].isin({"a": [...]})] asks whether the values are keys of the dict *)
  Theorem C83_selected_refuted :
    hnt_pandas [Make KFrame hnt_d; Select 0 [1]%nat] 1 hnt_dict = hnt_col true false false
    /\ hnt_modin [Make KFrame hnt_d; Select 0 [1]%nat] 1 hnt_dict = hnt_col false true false.
  Proof. split; vm_compute; reflexivity. Qed.
  (** [df[["a"]].isin(series)] does not look at the row labels, and takes a Series with repeated ones *)
  Theorem C83_series_refuted :
    hnt_pandas [Make KFrame hnt_d; Select 0 [1]%nat] 1 (PerRow [(5%nat, Some 31)]) = hnt_col false false false
    /\ hnt_modin [Make KFrame hnt_d; Select 0 [1]%nat] 1 (PerRow [(5%nat, Some 31)]) = hnt_col false false true
    /\ hnt_pandas [Make KFrame hnt_d; Select 0 [1]%nat] 1 (PerRow [(5%nat, Some 31);(5%nat, Some 1)]) = Err ValueError
    /\ hnt_modin [Make KFrame hnt_d; Select 0 [1]%nat] 1 (PerRow [(5%nat, Some 31);(5%nat, Some 1)]) = hnt_col false true true.
  Proof. split; [vm_compute; reflexivity|]. split; [vm_compute; reflexivity|]. split; vm_compute; reflexivity. Qed.
  (** [df.isin] changes its answer after [df.squeeze(axis=1)], whose result need not be used *)
  Theorem C83_squeeze_refuted :
    hnt_pandas [Make KFrame hnt_1] 0 hnt_dict = hnt_col true false false
    /\ hnt_modin [Make KFrame hnt_1] 0 hnt_dict = hnt_col true false false
    /\ hnt_pandas [Make KFrame hnt_1; Squeeze 0] 0 hnt_dict = hnt_col true false false
    /\ hnt_modin [Make KFrame hnt_1; Squeeze 0] 0 hnt_dict = hnt_col false true false.
  Proof. split; [vm_compute; reflexivity|]. split; [vm_compute; reflexivity|]. split; vm_compute; reflexivity. Qed.
  (** [s.to_frame().isin(dict)] *)
  Theorem C83_to_frame_refuted :
    hnt_pandas [Make KSeries hnt_1; ToFrame 0] 1 hnt_dict = hnt_col true false false
    /\ hnt_modin [Make KSeries hnt_1; ToFrame 0] 1 hnt_dict = hnt_col false true false.
  Proof. split; vm_compute; reflexivity. Qed.
  (** [(df * 2).isin(dict)] *)
  Theorem C83_scalar_refuted :
    hnt_pandas [Make KFrame hnt_1; WithScalar 0 hnt_double] 1 hnt_dict = hnt_col false false true
    /\ hnt_modin [Make KFrame hnt_1; WithScalar 0 hnt_double] 1 hnt_dict = hnt_col false false false.
  Proof. split; vm_compute; reflexivity. Qed.
  (** two columns of the same label, selected with [df[["a"]]]: the answer depends on the blocks *)
  Definition hnt_twice : df nat nat (option Z) := mkdf [5;6]%nat [1;1]%nat [[Some 11;Some 11];[Some 1;Some 62]].
  Definition hnt_blocks (cl : list nat) : @qc nat nat Z := mkqc (mkpf (cut_table [2]%nat cl hnt_twice) (Some [5;6]%nat) (Some [1;1]%nat) (Some [2]%nat) (Some cl)) true.
  Definition hnt_from : @pframe nat nat (option Z) := let d := mkdf [5;6]%nat [1;2;1]%nat [[Some 11;None;Some 11];[Some 1;None;Some 62]] in
    mkpf (cut_table [2]%nat [2;1]%nat d) (Some [5;6]%nat) (Some [1;2;1]%nat) (Some [2]%nat) (Some [2;1]%nat).
  Definition hnt_ask q := hnt_show (q_isin Nat.eqb Nat.eqb Z.eqb hnt_label false 4 2 1 1 q hnt_dict).
  Theorem C83_repeated_refuted :
    getitem_array Nat.eqb Nat.eqb 1 1 2 (fun _ _ => true) (fun _ _ => true) zargsort [1]%nat hnt_from = Ok (hnt_blocks [1;1]%nat)
    /\ p_isin Nat.eqb Nat.eqb Z.eqb hnt_dict hnt_twice = Ok (mkdf [5;6]%nat [1;1]%nat [[true;true];[false;true]])
    /\ hnt_ask (hnt_blocks [2]%nat) = Ok (mkdf [5;6]%nat [1;1]%nat [[true;true];[false;true]])
    /\ hnt_ask (hnt_blocks [1;1]%nat) = Ok (mkdf [5;6]%nat [1;1]%nat [[false;false];[true;false]]).
  Proof. split; [vm_compute; reflexivity|]. split; [vm_compute; reflexivity|]. split; vm_compute; reflexivity. Qed.
  Print Assumptions C83_selected_refuted.
  Print Assumptions C83_series_refuted.
  Print Assumptions C83_squeeze_refuted.
  Print Assumptions C83_to_frame_refuted.
  Print Assumptions C83_scalar_refuted.
  Print Assumptions C83_repeated_refuted.
End HntConcrete.
