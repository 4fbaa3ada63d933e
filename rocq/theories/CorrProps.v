(** C58: pairwise statistics of the columns (corr, cov) of a distributed table. *)
From Verif Require Import Base Table ChunkSpec GridModel FrameSpec JoinSpec LabSpec LabModel LabProofs PartSpec PartProofs PartProps GroupSpec
  CorrSpec CorrModel CorrProofs2 CorrProofs3 CorrProofs5 CorrProofs6.
From Coq Require Import QArith Qcanon Sorting.Sorted.
Open Scope nat_scope.

Section C58.
  Context {L : Type}.
  Variable leqb leb : L -> L -> bool.
  Hypothesis leqb_ok : forall x y, leqb x y = true <-> x = y.
  Hypothesis antisym : forall x y, leb x y = true -> leb y x = true -> x = y.
  Variable root : Qc -> Qc.
  Hypothesis root_0 : root (Q2Qc 0) = Q2Qc 0.
  Notation num := (option Qc).
  Notation dframe := (df L L num).

  (** [corr]: for every cut of the table into blocks and any state of its labels, the result is the table of the
      pairwise correlations, provided that no cell is missing or the column labels are in sorted order.  The
      frame's own partitions are unchanged when the engine hands out copies ([shared = false]) or nothing is
      missing.  Missing for the full claim: see the refutations below. *)
  Theorem C58_corr_partial (shared : bool) (min_periods : nat) (x : @lframe L num) (d : dframe) :
    stands x d -> NoDup (dcols d) -> dcols d <> [] ->
    whole (dcells d) = true \/ StronglySorted (fun a b => leb a b = true) (dcols d) ->
    exists after, corr leqb leb root shared min_periods x = Ok (correlations root min_periods d, after)
      /\ (shared = false \/ whole (dcells d) = true -> pieces (Rows after) d).
  Proof. intros S N Hc H. exact (@corr_ok L leqb leb leqb_ok antisym root root_0 shared x d min_periods S N Hc H). Qed.

  (** Whatever the order of the labels, partitions that all have a missing cell give the right answer too. *)
  Theorem C58_parts_partial (shared : bool) (min_periods : nat) (d : dframe) (ps : list dframe) :
    pieces (Rows ps) d -> wf d -> NoDup (dcols d) -> dcols d <> [] ->
    (forall p, In p ps -> whole (dcells p) = false) ->
    kernel_reduce leqb leb root min_periods (concat_outer leqb (map (fun p => fst (kernel_map shared p)) ps))
      = Ok (correlations root min_periods d).
  Proof. intros (Hne & Hps & Hd) W N Hc Hw. apply (reduce_ok leqb leqb_ok antisym root root_0 shared Hne Hps Hd W N Hc). right. left.
    apply forallb_forall. intros p Hp. rewrite Forall_forall in Hps. destruct (Hps p Hp) as [Wp _].
    destruct (nanp p) eqn:E; auto. exfalso. specialize (Hw p Hp). rewrite (nanp_whole Wp E) in Hw. discriminate. Qed.

  (** [cov]: the table of the pairwise covariances, for every cut and any state of the labels. *)
  Theorem C58_cov_partial (of_pos : nat -> L) (min_periods : option nat) (ddof : Z) (x : @lframe L num) (d : dframe) :
    stands x d -> 1 <= nrows d -> (forall n, min_periods = Some n -> n <= nrows d) ->
    ddof = 1%Z \/ (whole (dcells d) = true /\ (ddof < Z.of_nat (nrows d))%Z) ->
    cov leqb of_pos min_periods ddof x = Ok (covariances min_periods ddof d).
  Proof. intros S H1 Hm Hd. now apply cov_ok. Qed.
End C58.

Print Assumptions C58_corr_partial.
Print Assumptions C58_parts_partial.
Print Assumptions C58_cov_partial.

Section Examples.
  Let n (z : Z) : option Qc := Some (qz z).
  (** a square root that is exact on squares of fractions *)
  Let rt (q : Qc) : Qc := Q2Qc (Z.sqrt (Qnum q) # Pos.sqrt (Qden q)).
  Let show (d : df nat nat (option Qc)) := (dindex d, dcols d, map (map (option_map this)) (dcells d)).
  Let shown (r : res (df nat nat (option Qc))) := match r with Ok d => Ok (show d) | Err e => Err e end.
  Let result (r : res (df nat nat (option Qc) * list (df nat nat (option Qc)))) := match r with Ok (d, _) => Ok (show d) | Err e => Err e end.
  Let left (r : res (df nat nat (option Qc) * list (df nat nat (option Qc)))) := match r with Ok (_, ps) => map show ps | Err _ => [] end.
  Let frame (d : df nat nat (option Qc)) rl cl : @lframe nat (option Qc) :=
    mklf (mkpf (cut_table rl cl d) (Some (dindex d)) (Some (dcols d)) (Some rl) (Some cl)) false false.
  Let q (a : Z) (b : positive) : option Q := Some (a # b).

  (** two numeric columns with a missing cell in the first of two row partitions *)
  Let d := mkdf [0;1;2;3;4] [0;1] [[None; n 1]; [n 0; n 1]; [n 0; n 0]; [n 1; n 0]; [n 1; n 1]].
  Example ex_stands58 : stands (frame d [3;2] [1;1]) d.
  Proof. exists d, [3;2], [1;1]. repeat split; auto; try easy; repeat constructor; intros ? E; cbn in E; injection E as <-; reflexivity. Qed.
  Example ex_sorted58 : NoDup (dcols d) /\ dcols d <> [] /\ StronglySorted (fun a b => Nat.leb a b = true) (dcols d).
  Proof. repeat split; try easy; repeat constructor; cbn; intuition lia. Qed.
  Example ex_corr58 : result (corr Nat.eqb Nat.leb rt false 5 (frame d [3;2] [1;1]))
    = Ok ([0;1], [0;1], [[None; None]; [None; q 6 5]])
    /\ result (corr Nat.eqb Nat.leb rt true 1 (frame d [3;2] [1;1])) = Ok (show (correlations rt 1 d))
    /\ nth 0 (map (option_map this) (nth 0 (dcells (correlations rt 1 d)) [])) None = q 1 1.
  Proof. vm_compute. repeat split. Qed.
  Example ex_cov58 : shown (cov Nat.eqb (fun i => i) (Some 5) 1 (frame d [3;2] [1;1]))
    = Ok ([0;1], [0;1], [[None; None]; [None; q 3 10]])
    /\ shown (cov Nat.eqb (fun i => i) None 1 (frame d [3;2] [1;1])) = Ok ([0;1], [0;1], [[q 1 3; q 0 1]; [q 0 1; q 3 10]]).
  Proof. vm_compute. repeat split. Qed.

  (** Refuted for columns out of order: with a missing cell in one row partition and none in another, the sums of
      the two are added under each other's columns.  Here the correlation of a column with itself, 1, comes out
      as missing; with one row partition the answer is right. *)
  Let u := mkdf [0;1;2;3;4] [1;0] [[None; n 1]; [n 0; n 1]; [n 0; n 0]; [n 1; n 0]; [n 1; n 0]].
  Example C58_unsorted_refuted : stands (frame u [3;2] [1;1]) u
    /\ option_map this (nth 0 (nth 0 (dcells (correlations rt 1 u)) []) None) = q 1 1
    /\ (exists r after, corr Nat.eqb Nat.leb rt false 1 (frame u [3;2] [1;1]) = Ok (r, after) /\ nth 0 (nth 0 (dcells r) []) None = None)
    /\ result (corr Nat.eqb Nat.leb rt false 1 (frame u [5] [1;1])) = Ok (show (correlations rt 1 u)).
  Proof. split; [|split; [vm_compute; reflexivity|split]].
    - exists u, [3;2], [1;1]. repeat split; auto; try easy; repeat constructor; intros ? E; cbn in E; injection E as <-; reflexivity.
    - destruct (corr Nat.eqb Nat.leb rt false 1 (frame u [3;2] [1;1])) as [[r after]|e] eqn:E.
      + exists r, after. split; auto.
        assert (X : match corr Nat.eqb Nat.leb rt false 1 (frame u [3;2] [1;1]) with Ok (r, _) => match nth 0 (nth 0 (dcells r) []) None with None => true | Some _ => false end | Err _ => false end = true)
          by (vm_compute; reflexivity).
        rewrite E in X. destruct (nth 0 (nth 0 (dcells r) []) None); auto; discriminate.
      + exfalso. assert (X : match corr Nat.eqb Nat.leb rt false 1 (frame u [3;2] [1;1]) with Ok _ => true | Err _ => false end = true) by (vm_compute; reflexivity).
        rewrite E in X. discriminate.
    - vm_compute. reflexivity. Qed.

  (** Refuted when the engine hands the partition itself to the kernel: [corr] writes zeros over the missing
      cells of the caller's table. *)
  Example C58_overwrites_refuted : left (corr Nat.eqb Nat.leb rt true 1 (frame d [3;2] [1;1]))
    = [([0;1;2], [0;1], [[q 0 1; q 1 1]; [q 0 1; q 1 1]; [q 0 1; q 0 1]]); ([3;4], [0;1], [[q 1 1; q 0 1]; [q 1 1; q 1 1]])].
  Proof. vm_compute. reflexivity. Qed.

  (** Refuted for [min_periods] above the number of rows: the result of [cov] loses the column names. *)
  Let e := mkdf [0;1] [7;8] [[n 1; n 2]; [n 3; n 4]].
  Example C58_cov_labels_refuted : shown (cov Nat.eqb (fun i => i) (Some 3) 1 (frame e [1;1] [1;1])) = Ok ([0;1], [0;1], [[None; None]; [None; None]])
    /\ show (covariances (Some 3) 1 e) = ([7;8], [7;8], [[None; None]; [None; None]]).
  Proof. vm_compute. split; reflexivity. Qed.

  (** Refuted for [ddof] other than 1 with missing cells: pandas ignores it there. *)
  Example C58_cov_ddof_refuted : shown (cov Nat.eqb (fun i => i) None 0 (frame d [3;2] [1;1])) = Ok ([0;1], [0;1], [[q 1 4; q 0 1]; [q 0 1; q 6 25]])
    /\ show (covariances None 0 d) = ([0;1], [0;1], [[q 1 3; q 0 1]; [q 0 1; q 3 10]]).
  Proof. vm_compute. split; reflexivity. Qed.

  (** Refuted for [ddof] above the number of rows: the divisor is negative, so a variance comes out negative;
      numpy's divisor is then zero. *)
  Example C58_cov_negative_refuted : shown (cov Nat.eqb (fun i => i) None 3 (frame e [1;1] [1;1])) = Ok ([7;8], [7;8], [[q (-2) 1; q (-2) 1]; [q (-2) 1; q (-2) 1]])
    /\ show (covariances None 3 e) = ([7;8], [7;8], [[None; None]; [None; None]]).
  Proof. vm_compute. split; reflexivity. Qed.
End Examples.
