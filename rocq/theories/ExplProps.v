(** C80: exploding lists into rows, [df.explode(columns, ignore_index=)] and [series.explode(ignore_index=)].
    [shows f d rl cl]: the frame [f] displays the table [d] and its blocks are [d] cut into [rl] rows and [cl] columns.
    [look f]: what a user sees of the frame [f].  A Series is a frame with one column. *)
From Coq Require Import ZArith.
From Verif Require Import Base Table ChunkSpec ChunkModel ChunkProofs GridModel GridSpec FrameSpec GridProofs SelProofs5 ResetModel
  ExplSpec ExplModel ExplProofs ExplProofs2.

Section Props.
  Context {L H A : Type}.
  Variables (leqb : L -> L -> bool) (heqb : H -> H -> bool).
  Hypothesis leqb_ok : forall x y, leqb x y = true <-> x = y.
  Hypothesis heqb_ok : forall x y, heqb x y = true <-> x = y.
  Variables (elements : A -> list A) (num : nat -> L) (cell : L -> A) (hindex hlevel : H).
  Variables nparts min_row min_col : nat.
  Hypothesis (nparts_pos : 0 < nparts) (min_row_pos : 0 < min_row) (min_col_pos : 0 < min_col).
  Notation pf := (@pframe L H A).

  (** For every frame, every way of cutting it into blocks, every choice of columns and every notion of the elements of a cell,
      df.explode is pandas' and raises where pandas raises. *)
  Theorem C80_explode columns ignore_index (f : pf) d rl cl : shows f d rl cl ->
    let call := api_explode leqb heqb elements num cell hindex hlevel nparts min_row min_col columns ignore_index f in
    match p_explode heqb elements num columns ignore_index d with
    | Ok D => exists f', call = Ok f' /\ look leqb heqb f' = Ok D
    | Err _ => exists e, call = Err e
    end.
  Proof. intros S. exact (@api_explode_ok L H A leqb heqb leqb_ok heqb_ok elements num nparts min_row min_col nparts_pos min_row_pos min_col_pos cell hindex hlevel columns ignore_index f d rl cl S). Qed.

  (** A Series, that is a frame with the one column [label]: never raises; each value is replaced by its elements, and its
      label is repeated for each of them. *)
  Theorem C80_series_explode label ignore_index (f : pf) d vs rl cl : shows f d rl cl -> dcols d = [label] -> dcells d = map (fun v => [v]) vs ->
    exists f' index, api_series_explode leqb heqb elements num cell hindex hlevel nparts min_row min_col label ignore_index f = Ok f'
      /\ look leqb heqb f' = Ok (mkdf index [label] (map (fun v => [v]) (concat (map elements vs))))
      /\ index = (let repeated := concat (map (fun p => repeat (fst p) (length (elements (snd p)))) (combine (dindex d) vs)) in
                  if ignore_index then map num (seq 0 (length repeated)) else repeated).
  Proof. intros S Ec Ev. assert (X := C80_explode [label] ignore_index S). cbv zeta in X. unfold api_series_explode.
    assert (R : heqb label label = true) by now apply heqb_ok.
    assert (E : p_explode heqb elements num [label] ignore_index d
      = Ok (mkdf (let repeated := concat (map (fun p => repeat (fst p) (length (elements (snd p)))) (combine (dindex d) vs)) in
                  if ignore_index then map num (seq 0 (length repeated)) else repeated) [label] (map (fun v => [v]) (concat (map elements vs))))).
    { unfold p_explode. rewrite Ec. unfold allowed. cbn [twice existsb orb forallb]. rewrite R. cbn [orb andb rbind map].
      assert (P : rmap (explode_row elements [true]) (dcells d) = Ok (map (fun v => map (fun x => [x]) (elements v)) vs)).
      { apply rmap_iff. rewrite Ev, !map_map. apply map_ext. intros v. unfold explode_row. cbn [combine filter fst map snd all_same length hd forallb]. f_equal.
        apply nth_error_ext. intros k. rewrite !nth_error_map. destruct (Nat.lt_ge_cases k (length (elements v))) as [Lt|Ge].
        - destruct (nth_error (elements v) k) as [x|] eqn:En; [|apply nth_error_None in En; lia].
          rewrite (nth_error_nth' (seq 0 (length (elements v))) 0) by (rewrite seq_length; lia). rewrite seq_nth by assumption. cbn [option_map Nat.add]. now rewrite (nth_error_nth _ _ v En).
        - assert (nth_error (elements v) k = None) as -> by now apply nth_error_None. assert (nth_error (seq 0 (length (elements v))) k = None) as -> by (apply nth_error_None; now rewrite seq_length). reflexivity. }
      cbn [map existsb]. rewrite ?R. cbn [orb]. rewrite P. cbn [rbind].
      assert (Ix : concat (map (fun p : L * list (list A) => repeat (fst p) (length (snd p))) (combine (dindex d) (map (fun v => map (fun x => [x]) (elements v)) vs)))
                   = concat (map (fun p => repeat (fst p) (length (elements (snd p)))) (combine (dindex d) vs))).
      { f_equal. generalize (dindex d). clear. induction vs as [|v vs IH]; intros [|i ix]; try reflexivity. cbn [map combine fst snd]. now rewrite map_length, IH. }
      rewrite Ix. cbv zeta. f_equal. f_equal. now rewrite concat_map, map_map. }
    rewrite E in X. destruct X as (f' & E1 & E2). exists f'. eexists. split; [exact E1|]. split; [exact E2|reflexivity]. Qed.
End Props.
Print Assumptions C80_explode.
Print Assumptions C80_series_explode.

(** Concrete frames *)
Inductive expl_cell := At (n : nat) | Ls (l : list nat) | Missing.
Definition expl_elements (c : expl_cell) : list expl_cell :=
  match c with Ls [] => [Missing] | Ls l => map At l | _ => [c] end.
Definition expl_d : df nat nat expl_cell :=
  mkdf [5;6;7] [1;2;3] [[At 1;Ls [10;11];Ls [20;21]];[At 2;Ls [];Missing];[At 3;At 12;Ls [22]]].
Definition expl_f : @pframe nat nat expl_cell := mkpf (cut_table [2;1] [2;1] expl_d) (Some [5;6;7]) (Some [1;2;3]) (Some [2;1]) (Some [2;1]).
Lemma expl_shows : shows expl_f expl_d [2;1] [2;1].
Proof. unfold shows, holds, gridded. cbn. repeat split; auto; try discriminate; try congruence; repeat constructor; intros ? [= <-]; reflexivity. Qed.
Definition expl_call columns ignore_index :=
  do f <- api_explode Nat.eqb Nat.eqb expl_elements (fun n => n) At 0 9 2 1 1 columns ignore_index expl_f; look Nat.eqb Nat.eqb f.
Example C80_two_columns : expl_call [2;3] false
  = Ok (mkdf [5;5;6;7] [1;2;3] [[At 1;At 10;At 20];[At 1;At 11;At 21];[At 2;Missing;Missing];[At 3;At 12;At 22]]).
Proof. vm_compute. reflexivity. Qed.
Example C80_numbered : expl_call [2] true
  = Ok (mkdf [0;1;2;3] [1;2;3] [[At 1;At 10;Ls [20;21]];[At 1;At 11;Ls [20;21]];[At 2;Missing;Missing];[At 3;At 12;Ls [22]]]).
Proof. vm_compute. reflexivity. Qed.
Example C80_unknown : expl_call [4] false = Err KeyError /\ expl_call [] false = Err ValueError /\ expl_call [2;2] false = Err ValueError.
Proof. repeat split; vm_compute; reflexivity. Qed.
(** the lists of the last row block differ in length *)
Example C80_mismatch :
  p_explode Nat.eqb expl_elements (fun n => n) [1;2] false (mkdf [5;6] [1;2] [[At 1;At 2];[Ls [1;2];Ls [3]]]) = Err ValueError
  /\ api_explode Nat.eqb Nat.eqb expl_elements (fun n => n) At 0 9 2 1 1 [1;2] false
       (mkpf (cut_table [1;1] [2] (mkdf [5;6] [1;2] [[At 1;At 2];[Ls [1;2];Ls [3]]])) (Some [5;6]) (Some [1;2]) None None) = Err ValueError.
Proof. split; vm_compute; reflexivity. Qed.
Example C80_hypotheses : exists f', api_explode Nat.eqb Nat.eqb expl_elements (fun n => n) At 0 9 2 1 1 [2;3] true expl_f = Ok f'
  /\ look Nat.eqb Nat.eqb f' = Ok (mkdf [0;1;2;3] [1;2;3] [[At 1;At 10;At 20];[At 1;At 11;At 21];[At 2;Missing;Missing];[At 3;At 12;At 22]]).
Proof. exact (@C80_explode nat nat expl_cell Nat.eqb Nat.eqb Nat.eqb_eq Nat.eqb_eq expl_elements (fun n => n) At 0 9 2 1 1 Nat.lt_0_2 Nat.lt_0_1 Nat.lt_0_1 [2;3] true expl_f expl_d _ _ expl_shows). Qed.
