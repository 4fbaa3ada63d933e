(** C57: partitions handed to other libraries and taken back. *)
From Verif Require Import Base Table ChunkSpec GridModel FrameSpec JoinSpec LabSpec LabModel LabProofs PartSpec PartModel PartProofs ChunkModel.

(** A frame that stands for the table [d] at any point of a session: its blocks hold the cells, its labels are
    those of [d], and an axis not marked as deferred has them in the blocks too.  (This is the state the
    sessions of C55 keep.) *)
Definition stands {L A} (x : @lframe L A) (d : df L L A) : Prop := sees x d.

Section C57.
  Context {L A : Type}.
  Variable leqb : L -> L -> bool.
  Hypothesis leqb_ok : forall x y, leqb x y = true <-> x = y.
  Notation dframe := (df L L A).

  (** [unwrap_partitions]: for every frame in any state of its labels, the pieces are the table with its
      current labels; the frame still stands for the table. *)
  Theorem C57_unwrap_partial (axis : option bool) (x : @lframe L A) (d : dframe) : stands x d ->
    exists x' p, unwrap leqb axis x = Ok (x', p) /\ kind p = axis /\ pieces p d /\ stands x' d.
  Proof. intros S. destruct (unwrap_ok leqb leqb_ok axis S) as (x' & p & E & K & P & S' & _). exists x', p. auto. Qed.

  (** [from_partitions]: a frame made of the pieces of a table, empty pieces included, reads as that table,
      with the labels given, if any, in place of its own. *)
  Theorem C57_from (p : @parts L L A) (d : dframe) (index columns : option (list L)) : pieces p d ->
    (forall i, index = Some i -> length i = nrows d) -> (forall c, columns = Some c -> length c = ncols d) ->
    exists x x', from_partitions p index columns None None = Ok x
      /\ let e := mkdf (match index with Some i => i | None => dindex d end)
                       (match columns with Some c => c | None => dcols d end) (dcells d) in
         stands x e /\ read leqb x = Ok (x', e).
  Proof. intros P Hi Hc. destruct (@from_ok L A _ d index columns None None P Hi Hc) as (x & E & S); auto.
    destruct (sees_reads leqb leqb_ok S) as (x' & R). exists x, x'. cbn zeta. auto. Qed.

  (** Unwrapped and put together again, a table is unchanged. *)
  Theorem C57_round_trip_partial (axis : option bool) (x : @lframe L A) (d : dframe) : stands x d ->
    exists x' p y y', unwrap leqb axis x = Ok (x', p) /\ from_partitions p None None None None = Ok y /\ read leqb y = Ok (y', d).
  Proof. intros S. destruct (C57_unwrap_partial axis S) as (x' & p & E & _ & P & _).
    destruct (@C57_from p d None None P) as (y & y' & E' & _ & R); [discriminate|discriminate|]. cbn in R.
    exists x', p, y, y'. repeat split; auto. rewrite R. now destruct d. Qed.

  (** [Booster.predict]: if predicting a table predicts its rows one by one, the distributed prediction has,
      under the row labels of the data, the prediction of every row, in order. *)
  Theorem C57_predict_partial (values : dframe -> list (list A)) (value : list A -> list A) (columns : list L) (x : @lframe L A) (d : dframe) :
    stands x d ->
    (forall t : dframe, dcols t = dcols d -> wf t -> values t = map value (dcells t)) ->
    (forall r, In r (dcells d) -> length (value r) = length columns) ->
    exists y y', predict leqb values columns x = Ok y /\ read leqb y = Ok (y', mkdf (dindex d) columns (map value (dcells d))).
  Proof. intros S Hv Hw. destruct (@predict_ok L A leqb leqb_ok values value columns x d S Hv Hw) as (y & E & Sy).
    destruct (sees_reads leqb leqb_ok Sy) as (y' & R). exists y, y'. auto. Qed.
End C57.

Print Assumptions C57_unwrap_partial.
Print Assumptions C57_from.
Print Assumptions C57_round_trip_partial.
Print Assumptions C57_predict_partial.

Section Examples.
  (** a table of four blocks whose labels have just been replaced on both axes *)
  Let old : df nat nat nat := mkdf [0;1;2] [10;11] [[1;2];[3;4];[5;6]].
  Let d : df nat nat nat := mkdf [7;8;9] [12;13] [[1;2];[3;4];[5;6]].
  Let x : @lframe nat nat := mklf (mkpf (cut_table [2;0;1] [1;1] old) (Some [7;8;9]) (Some [12;13]) None (Some [1;1])) true true.
  Example ex_stands : stands x d.
  Proof. exists old, [2;0;1], [1;1]. repeat split; auto; try easy; repeat constructor; intros ? E; cbn in E; injection E as <-; reflexivity. Qed.
  Example ex_rows : exists x', unwrap Nat.eqb (Some false) x
    = Ok (x', Rows [mkdf [7;8] [12;13] [[1;2];[3;4]]; mkdf [] [12;13] []; mkdf [9] [12;13] [[5;6]]]).
  Proof. eexists. vm_compute. reflexivity. Qed.
  Example ex_pieces : pieces (Rows [mkdf [7;8] [12;13] [[1;2];[3;4]]; mkdf [] [12;13] []; mkdf [9] [12;13] [[5;6]]]) d.
  Proof. repeat split; try easy; repeat constructor. Qed.
  Example ex_cols : pieces (Cols [mkdf [7;8;9] [12] [[1];[3];[5]]; mkdf [7;8;9] [13] [[2];[4];[6]]]) d.
  Proof. repeat split; try easy; repeat constructor. Qed.
  Example ex_from : exists y y',
    from_partitions (Rows [mkdf [7;8] [12;13] [[1;2];[3;4]]; mkdf [] [12;13] []; mkdf [9] [12;13] [[5;6]]]) (Some [1;2;3]) None None None = Ok y
    /\ read Nat.eqb y = Ok (y', mkdf [1;2;3] [12;13] [[1;2];[3;4];[5;6]]).
  Proof. do 2 eexists. split; vm_compute; reflexivity. Qed.
  Example ex_predict : exists y y', predict Nat.eqb (fun t : df nat nat nat => map (fun r => [list_sum r]) (dcells t)) [0] x = Ok y
    /\ read Nat.eqb y = Ok (y', mkdf [7;8;9] [0] [[3];[7];[11]]).
  Proof. do 2 eexists. split; vm_compute; reflexivity. Qed.

  (** Refuted for frames without blocks: a DataFrame built without rows has an empty grid; its blocks cannot be
      unwrapped (IndexError), and its row partitions, an empty list, cannot be put together again. *)
  Theorem C57_empty_refuted : exists g rl cl, from_pandas 4 1 1 (mkdf [] [12;13] [] : df nat nat nat) = Ok (mkframe g [] [12;13] rl cl)
    /\ exists f, construct (mkpf g (Some []) (Some [12;13]) (Some rl) (Some cl)) = Ok f
    /\ unwrap Nat.eqb None (mklf f false false) = Err IndexError
    /\ (exists x' p, unwrap Nat.eqb (Some false) (mklf f false false) = Ok (x', p) /\ from_partitions p None None None None = Err IndexError).
  Proof. do 3 eexists. split; [vm_compute; reflexivity|]. eexists. split; [vm_compute; reflexivity|]. split; [vm_compute; reflexivity|].
    do 2 eexists. split; vm_compute; reflexivity. Qed.
End Examples.

Print Assumptions C57_empty_refuted.
