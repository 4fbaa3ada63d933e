(** C74: binary operations on modin.numpy arrays.

    NbinSpec.v: [np_binary op v w] is NumPy's element-by-element operation with broadcasting.  [stands x v] (C73): the modin array [x] reads as [v].
    An operation leaves three things: the two operand objects and the result. *)
From Verif Require Import Base Table ChunkModel ChunkSpec GridModel GridSpec FrameSpec GridProofs GridProofs2 GridProofs3 GridProofs5 SelSpec SelModel
  SelProofs SelProofs4 SelProofs5 JoinSpec JoinModel JoinProofs2 JoinProps ArrSpec ArrModel ArrProofs NbinSpec NbinModel NbinProofs NbinProofs2 NbinProofs3.

Section C74.
  Context {A B D : Type}.
  Variables min_row min_col nparts cpus : nat.
  Variable dynamic : bool.
  Hypothesis mr : 0 < min_row.
  Hypothesis mc : 0 < min_col.
  Hypothesis np : 0 < nparts.
  Variable fill : A.
  Variable join : list (list nat) -> list nat * list (list (option nat)).
  Hypothesis join_good : forall a b, NoDup a -> NoDup b -> join_ok [a; b] (fst (join [a; b])) (snd (join [a; b])).
  Variable common : D -> D -> D.
  Variable cast : D -> A -> A.
  Notation np_op := (np_op (B:=B) min_row min_col nparts fill join common cast).
  Notation np_op_scalar := (np_op_scalar (B:=B) min_row min_col nparts cpus dynamic cast).

  (** C74, whatever the partitioning of the two arrays: for equal shapes, a matrix and a vector, a vector and a matrix (if the operation has a mirror
      image) and a matrix and a column, the result is NumPy's result on the operands cast to the common dtype ([casts = false]: comparisons, which do
      not cast).  The operand objects are left cast.  Missing (refuted): the other shapes NumPy broadcasts, //, ** and % of a vector and a matrix, and
      operands that keep their dtype. *)
  Theorem C74_binary_partial :
    forall (casts : bool) (k : mirror) (op : A -> A -> B) dtype (x y : @typed A D) v w,
      stands (tarr x) v -> stands (tarr y) w -> works k op v w ->
      (0 < width_of v \/ ndim v = 1) -> (0 < width_of w \/ ndim w = 1) -> (ndim v <> ndim w -> 0 < width_of v) ->
      (shape v = shape w -> full_rows (tarr x)) ->
      let out := out_dtype common dtype x y in
      exists x' y' z r, np_op casts k op dtype x y = Ok (x', y', z)
        /\ stands z r /\ np_binary op (casted cast casts out v) (casted cast casts out w) = Some r
        /\ stands (tarr x') (casted cast casts out v) /\ tdt x' = dtype_after casts out (tdt x)
        /\ stands (tarr y') (casted cast casts out w) /\ tdt y' = dtype_after casts out (tdt y).
  Proof. exact (np_op_ok mr mc np fill join_good common cast). Qed.

  (** Operands of one dtype (whose values that dtype can hold) are not changed by the operation, and the result is NumPy's. *)
  Theorem C74_operands_kept :
    forall (casts : bool) (k : mirror) (op : A -> A -> B) (x y : @typed A D) v w,
      stands (tarr x) v -> stands (tarr y) w -> works k op v w ->
      (0 < width_of v \/ ndim v = 1) -> (0 < width_of w \/ ndim w = 1) -> (ndim v <> ndim w -> 0 < width_of v) ->
      (shape v = shape w -> full_rows (tarr x)) ->
      tdt x = tdt y -> common (tdt x) (tdt x) = tdt x -> nd_map (cast (tdt x)) v = v -> nd_map (cast (tdt x)) w = w ->
      exists x' y' z r, np_op casts k op None x y = Ok (x', y', z)
        /\ stands z r /\ np_binary op v w = Some r
        /\ stands (tarr x') v /\ tdt x' = tdt x /\ stands (tarr y') w /\ tdt y' = tdt y.
  Proof.
    intros casts k op x y v w Sx Sy Wk Pv Pw Pm Fr Et Ec Cv Cw.
    destruct (@C74_binary_partial casts k op None x y v w Sx Sy Wk Pv Pw Pm Fr) as (x' & y' & z & r & E & Sz & N & Sx' & Tx & Sy' & Ty).
    assert (Eo : out_dtype common None x y = tdt x) by (cbn; now rewrite <- Et). rewrite Eo in *.
    assert (Kv : casted cast casts (tdt x) v = v) by (destruct casts; auto). assert (Kw : casted cast casts (tdt x) w = w) by (destruct casts; auto).
    rewrite Kv, Kw in *. exists x', y', z, r. repeat split; auto; try apply Sz; try apply Sx'; try apply Sy'.
    - rewrite Tx. now destruct casts.
    - rewrite Ty, Et. now destruct casts.
  Qed.

  (** An array and a scalar. *)
  Theorem C74_scalar :
    forall (casts : bool) (op : A -> A -> B) dtype (x : @typed A D) s v, stands (tarr x) v -> (0 < width_of v \/ ndim v = 1) ->
      let out := match dtype with Some d => d | None => tdt x end in
      exists x' z, np_op_scalar casts op dtype x s = Ok (x', z) /\ stands z (nd_map (fun a => op a s) (casted cast casts out v))
        /\ stands (tarr x') (casted cast casts out v) /\ tdt x' = dtype_after casts out (tdt x).
  Proof. exact (scalar_ok cpus dynamic mr mc np cast). Qed.
End C74.
Print Assumptions C74_binary_partial.
Print Assumptions C74_operands_kept.
Print Assumptions C74_scalar.

(** ** Non-vacuity: concrete arrays, NaN as [None], two dtypes (true: float64, which cannot hold 2^53 + 1) *)
Definition nbin_of (v : nd (option Z)) (rl cl : list nat) (float : bool) : @typed (option Z) bool :=
  mkty (mka (mkpf (cut_table rl cl (table_of v)) (Some (dindex (table_of v))) (Some (dcols (table_of v))) (Some rl) (Some cl)) (ndim v)) float.
Definition nbin_cast (float : bool) (a : option Z) : option Z :=
  match a with Some z => Some (if float && (2 ^ 53 <? z)%Z then 2 * (z / 2) else z)%Z | None => None end.
Definition nbin_op (op : Z -> Z -> Z) (a b : option Z) : option Z := match a, b with Some x, Some y => Some (op x y) | _, _ => None end.
Definition nbin_run (k : mirror) (op : Z -> Z -> Z) (x y : @typed (option Z) bool) :=
  np_op 2 2 3 None outer orb nbin_cast true k (nbin_op op) None x y.
Definition nbin_read (r : res (@typed (option Z) bool * @typed (option Z) bool * @arr (option Z))) : res (nd (option Z) * nd (option Z) * nd (option Z)) :=
  do t <- r; let '(x, y, z) := t in do a <- to_numpy (tarr x); do b <- to_numpy (tarr y); do c <- to_numpy z; Ok (a, b, c).
Definition nbin_m : nd (option Z) := Mat 3 (map (map Some) [[1;2;3];[4;5;6];[7;8;9];[10;11;12]]%Z).
Definition nbin_v : nd (option Z) := Vec (map Some [10;20;30]%Z).
Definition nbin_c : nd (option Z) := Mat 1 (map (map Some) [[1];[2];[3];[4]]%Z).
Definition nbin_r : nd (option Z) := Mat 3 (map (map Some) [[100;200;300]]%Z).
Definition nbin_big : nd (option Z) := Vec [Some (2 ^ 53 + 1)%Z].

Lemma nbin_stands v rl cl t : wf (table_of v) -> rl <> [] -> cl <> [] -> list_sum rl = nrows (table_of v) -> list_sum cl = ncols (table_of v) -> stands (tarr (nbin_of v rl cl t)) v.
Proof. intros W N1 N2 S1 S2. split; [reflexivity|]. exists rl, cl. unfold shows. split; [apply holds_intro; auto|auto]. Qed.
Ltac nbin_ok := apply nbin_stands; [split; [reflexivity|repeat constructor]|discriminate|discriminate|reflexivity|reflexivity].

Example C74_hyps : stands (tarr (nbin_of nbin_m [2;2] [2;1] false)) nbin_m /\ stands (tarr (nbin_of nbin_v [2;1] [1] false)) nbin_v
  /\ works Mirrored (nbin_op Z.sub) nbin_v nbin_m /\ full_rows (tarr (nbin_of nbin_m [2;2] [2;1] false))
  /\ (forall a b, NoDup a -> NoDup b -> join_ok [a; b] (fst (outer [a; b])) (snd (outer [a; b]))).
Proof. split; [nbin_ok|]. split; [nbin_ok|]. split; [apply w_swap; [reflexivity|now left]|]. split; [repeat constructor|].
  intros a b Na Nb. apply (C13_unique_labels_join (eqb:=Nat.eqb)); [exact Nat.eqb_eq|auto]. Qed.
Example C74_mat_minus_vec : nbin_read (nbin_run Mirrored Z.sub (nbin_of nbin_m [2;2] [2;1] false) (nbin_of nbin_v [2;1] [1] false))
  = Ok (nbin_m, nbin_v, Mat 3 (map (map Some) [[-9;-18;-27];[-6;-15;-24];[-3;-12;-21];[0;-9;-18]]%Z)).
Proof. vm_compute. reflexivity. Qed.
Example C74_vec_minus_mat : nbin_read (nbin_run Mirrored Z.sub (nbin_of nbin_v [2;1] [1] false) (nbin_of nbin_m [2;2] [2;1] false))
  = Ok (nbin_v, nbin_m, Mat 3 (map (map Some) [[9;18;27];[6;15;24];[3;12;21];[0;9;18]]%Z)).
Proof. vm_compute. reflexivity. Qed.
Example C74_mat_minus_column : nbin_read (nbin_run Mirrored Z.sub (nbin_of nbin_m [2;2] [2;1] false) (nbin_of nbin_c [3;1] [1] false))
  = Ok (nbin_m, nbin_c, Mat 3 (map (map Some) [[0;1;2];[2;3;4];[4;5;6];[6;7;8]]%Z)).
Proof. vm_compute. reflexivity. Qed.
Example C74_same : nbin_read (nbin_run Plain Z.add (nbin_of nbin_m [2;2] [2;1] false) (nbin_of nbin_m [3;1] [3] false))
  = Ok (nbin_m, nbin_m, Mat 3 (map (map Some) [[2;4;6];[8;10;12];[14;16;18];[20;22;24]]%Z)).
Proof. vm_compute. reflexivity. Qed.

(** ** Where modin departs from NumPy *)

(** [a + row] with a row of shape (1, 3): NumPy adds the row to every row; modin joins the row labels, so every row but the first is NaN. *)
Theorem C74_one_row_refuted : let x := nbin_of nbin_m [2;2] [2;1] false in let y := nbin_of nbin_r [1] [3] false in
  stands (tarr x) nbin_m /\ stands (tarr y) nbin_r
  /\ np_binary (nbin_op Z.add) nbin_m nbin_r = Some (Mat 3 (map (map Some) [[101;202;303];[104;205;306];[107;208;309];[110;211;312]]%Z))
  /\ nbin_read (nbin_run Plain Z.add x y) = Ok (nbin_m, nbin_r, Mat 3 ([Some 101; Some 202; Some 303]%Z :: repeat [None; None; None] 3)).
Proof. split; [nbin_ok|]. split; [nbin_ok|]. split; vm_compute; reflexivity. Qed.

(** [column + a]: NumPy broadcasts, modin raises AssertionError, although [a + column] works. *)
Theorem C74_column_first_refuted : let x := nbin_of nbin_c [3;1] [1] false in let y := nbin_of nbin_m [2;2] [2;1] false in
  stands (tarr x) nbin_c /\ stands (tarr y) nbin_m
  /\ np_binary (nbin_op Z.add) nbin_c nbin_m = np_binary (nbin_op Z.add) nbin_m nbin_c
  /\ np_binary (nbin_op Z.add) nbin_c nbin_m <> None
  /\ nbin_read (nbin_run Plain Z.add x y) = Err AssertionError.
Proof. split; [nbin_ok|]. split; [nbin_ok|]. split; [vm_compute; reflexivity|]. split; [discriminate|vm_compute; reflexivity]. Qed.

(** [column + row]: a 4x3 array in NumPy, ValueError in modin. *)
Theorem C74_outer_refuted : let x := nbin_of nbin_c [3;1] [1] false in let y := nbin_of nbin_r [1] [3] false in
  stands (tarr x) nbin_c /\ stands (tarr y) nbin_r /\ np_binary (nbin_op Z.add) nbin_c nbin_r <> None /\ nbin_read (nbin_run Plain Z.add x y) = Err ValueError.
Proof. split; [nbin_ok|]. split; [nbin_ok|]. split; [discriminate|vm_compute; reflexivity]. Qed.

(** [column + vector]: a 4x3 array in NumPy, ValueError in modin. *)
Theorem C74_column_vector_refuted : let x := nbin_of nbin_c [3;1] [1] false in let y := nbin_of nbin_v [2;1] [1] false in
  stands (tarr x) nbin_c /\ stands (tarr y) nbin_v /\ np_binary (nbin_op Z.add) nbin_c nbin_v <> None /\ nbin_read (nbin_run Plain Z.add x y) = Err ValueError.
Proof. split; [nbin_ok|]. split; [nbin_ok|]. split; [discriminate|vm_compute; reflexivity]. Qed.

(** [v + one] with a vector of one element: NumPy broadcasts, modin raises IndexError. *)
Theorem C74_one_element_refuted : let x := nbin_of nbin_v [2;1] [1] false in let y := nbin_of (Vec [Some 5%Z]) [1] [1] false in
  stands (tarr x) nbin_v /\ stands (tarr y) (Vec [Some 5%Z]) /\ np_binary (nbin_op Z.add) nbin_v (Vec [Some 5%Z]) = Some (Vec (map Some [15;25;35]%Z))
  /\ nbin_read (nbin_run Plain Z.add x y) = Err IndexError.
Proof. split; [nbin_ok|]. split; [nbin_ok|]. split; vm_compute; reflexivity. Qed.

(** [v // a] of a vector and a matrix: refused. *)
Theorem C74_floor_divide_refuted : let x := nbin_of nbin_v [2;1] [1] false in let y := nbin_of nbin_m [2;2] [2;1] false in
  stands (tarr x) nbin_v /\ stands (tarr y) nbin_m /\ np_binary (nbin_op Z.div) nbin_v nbin_m <> None /\ nbin_read (nbin_run Refused Z.div x y) = Err NotImplementedErr.
Proof. split; [nbin_ok|]. split; [nbin_ok|]. split; [discriminate|vm_compute; reflexivity]. Qed.

(** [x + y] with integers in [x] and floats in [y] turns [x] itself into floats: 2^53 + 1 in [x] becomes 2^53. *)
Theorem C74_operand_changed_refuted : let x := nbin_of nbin_big [1] [1] false in let y := nbin_of (Vec [Some 0%Z]) [1] [1] true in
  stands (tarr x) nbin_big /\ nd_map (nbin_cast false) nbin_big = nbin_big
  /\ exists x' y' z, nbin_run Plain Z.add x y = Ok (x', y', z) /\ tdt x = false /\ tdt x' = true
     /\ to_numpy (tarr x) = Ok (Vec [Some (2 ^ 53 + 1)%Z]) /\ to_numpy (tarr x') = Ok (Vec [Some (2 ^ 53)%Z]).
Proof. split; [nbin_ok|]. split; [vm_compute; reflexivity|]. eexists _, _, _. split; [vm_compute; reflexivity|]. repeat split; vm_compute; reflexivity. Qed.
Print Assumptions C74_one_row_refuted.
Print Assumptions C74_column_first_refuted.
Print Assumptions C74_outer_refuted.
Print Assumptions C74_column_vector_refuted.
Print Assumptions C74_one_element_refuted.
Print Assumptions C74_floor_divide_refuted.
Print Assumptions C74_operand_changed_refuted.
