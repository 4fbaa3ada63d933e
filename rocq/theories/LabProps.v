(** C55: sessions that assign labels. *)
From Verif Require Import Base Table ChunkModel ChunkSpec GridSpec GridModel FrameSpec
  GridProofs3 GridProofs5 LabSpec LabModel LabProofs.

(** A freshly read or built frame standing for the table [d]: labels known, nothing deferred. *)
Definition starts {L A} (x : @lframe L A) (d : df L L A) : Prop :=
  exists rl cl, holds (lf x) d rl cl /\ rl <> [] /\ cl <> []
    /\ pindex (lf x) = Some (dindex d) /\ pcols (lf x) = Some (dcols d)
    /\ defi x = false /\ defc x = false.

(** Whatever labels are assigned to whichever tables, in whatever order with copies, transposes,
    element-wise functions, cumulative functions, reductions and index resets, every table shown and
    every error raised is the one pandas shows or raises.  Missing: element-wise functions that look at
    labels that are not settled, and an index called like a column (both refuted below). *)
Theorem C55_session_partial :
  forall (L A : Type) (leqb : L -> L -> bool) (of_pos : nat -> L) (cell_of : L -> A) (unnamed : L)
         (dynamic : bool) (cpus nparts min_row min_col : nat),
    (forall x y, leqb x y = true <-> x = y) -> 0 < nparts -> 0 < min_row -> 0 < min_col ->
    forall (frames : list (@lframe L A)) (tables : list (df L L A)) (p : list (nat * @act L A)),
      Forall2 starts frames tables ->
      session_ok leqb of_pos cell_of unnamed (map (fun d => (d, true)) tables) p ->
      session (modin_act leqb of_pos cell_of unnamed dynamic cpus nparts min_row min_col) frames p
      = session (pandas_act leqb of_pos cell_of unnamed) tables p.
Proof.
  intros L A leqb of_pos cell_of unnamed dynamic cpus nparts mr mc Hl Hp Hr Hc frames tables p F Hok.
  rewrite (@session_sees L A leqb Hl of_pos cell_of unnamed dynamic cpus nparts mr mc Hp Hr Hc p frames (map (fun d => (d, true)) tables)); auto.
  - f_equal. rewrite map_map. apply map_id.
  - clear Hok. induction F as [|x d fs ds (rl & cl & [G _] & N1 & N2 & Pi & Pc & F1 & F2) F IH]; cbn; constructor; auto.
    split; [|auto]. exists d, rl, cl. cbn [fst]. auto 12.
Qed.
Print Assumptions C55_session_partial.

Section Examples.
  Let d : df nat nat nat := mkdf [0;1;2] [10;11] [[1;2];[3;4];[5;6]].
  Let x : @lframe nat nat := mklf (mkpf (cut_table [2;1] [1;1] d) (Some (dindex d)) (Some (dcols d)) None None) false false.
  Notation modin := (session (modin_act Nat.eqb (fun i => i) (fun l => l) 99 true 4 4 1 1)).
  Notation pandas := (session (pandas_act Nat.eqb (fun i => i) (fun l => l) 99)).
  Notation sumf := (fun l : list nat => fold_right Nat.add 0 l).
  (** round({12: 1}), say: a function of the column label and the cell *)
  Let by_column (_ h c : nat) := if h =? 12 then 100 + c else c.

  Example ex_starts : starts x d.
  Proof. exists [2;1], [1;1]. repeat split; auto; try easy; repeat constructor; intros ? E; cbn in E; injection E as <-; reflexivity. Qed.

  (** Labels assigned on both axes, one assignment of the wrong length, a transpose, a reduction of
      the transposed copy, an index reset on stale column labels; every read is right. *)
  Let story : list (nat * @act nat nat) :=
    [(0, SetIndex [7;8;9]); (0, SetColumns [12;13;14]); (0, SetColumns [12;13]); (0, LabSpec.Transpose);
     (1, SetIndex [5;6]); (1, Reduce false sumf sumf sumf); (0, ResetIndex 10); (2, Read); (0, Read);
     (0, MapCells by_column); (3, Read); (1, MapCells (fun _ _ c => 2 * c)); (4, Read)].
  Example ex_story_ok : session_ok Nat.eqb (fun i => i) (fun l => l) 99 [(d, true)] story.
  Proof.
    assert (T : tree_law sumf sumf sumf).
    { intros ps _. induction ps as [|q ps IH]; [reflexivity|]. cbn [map concat fold_right]. rewrite IH.
      clear. induction q as [|a q IHq]; cbn; [reflexivity|]. rewrite <- IHq. now rewrite Nat.add_assoc. }
    unfold story. cbn. repeat split; auto; try lia; try (intros [?|[?|[]]]; lia).
  Qed.
  Example ex_story : modin [x] story = pandas [d] story
    /\ nth 5 (pandas [d] story) Done = Shown (mkdf [99] [7;8;9] [[3;7;11]])
    /\ nth 7 (pandas [d] story) Done = Shown (mkdf [0;1;2] [10;12;13] [[7;1;2];[8;3;4];[9;5;6]])
    /\ nth 10 (pandas [d] story) Done = Shown (mkdf [7;8;9] [12;13] [[101;2];[103;4];[105;6]]).
  Proof. vm_compute. auto. Qed.

  (** [df.columns = [12, 13]; df.round({12: 1})]: an element-wise function that looks at the labels
      sees the labels the columns had before. *)
  Theorem C55_rename_then_map_refuted :
    modin [x] [(0, SetColumns [12;13]); (0, MapCells by_column); (1, Read)]
    = [Done; Done; Shown (mkdf [0;1;2] [12;13] [[1;2];[3;4];[5;6]])]
    /\ pandas [d] [(0, SetColumns [12;13]); (0, MapCells by_column); (1, Read)]
       = [Done; Done; Shown (mkdf [0;1;2] [12;13] [[101;2];[103;4];[105;6]])].
  Proof. vm_compute. auto. Qed.

  (** ... and the same program gives the right table when the frame is read in between. *)
  Example ex_rename_read_map :
    modin [x] [(0, SetColumns [12;13]); (0, Read); (0, MapCells by_column); (1, Read)]
    = pandas [d] [(0, SetColumns [12;13]); (0, Read); (0, MapCells by_column); (1, Read)].
  Proof. vm_compute. reflexivity. Qed.

  (** [reset_index] when the index has the name of a column: pandas refuses, modin makes two columns of
      that name. *)
  Theorem C55_reset_index_name_refuted :
    modin [x] [(0, ResetIndex 10); (1, Read)]
    = [Done; Shown (mkdf [0;1;2] [10;10;11] [[0;1;2];[1;3;4];[2;5;6]])]
    /\ pandas [d] [(0, ResetIndex 10); (1, Read)] = [Raised ValueError; Raised KeyError].
  Proof. vm_compute. auto. Qed.
End Examples.
Print Assumptions C55_rename_then_map_refuted.
Print Assumptions C55_reset_index_name_refuted.
