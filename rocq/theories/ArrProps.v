(** C73: [a[key]] and [np.split] of modin.numpy arrays.

    ArrSpec.v: [np_get] and [np_split] are NumPy's indexing and splitting on values.  [stands x v] (ArrProofs.v): the modin
    array [x] has the dimensions of [v] and a frame that shows its cells; [C73_reads] says what a user sees of it. *)
From Verif Require Import Base Table ChunkModel ChunkSpec GridModel GridSpec FrameSpec GridProofs GridProofs2 GridProofs3 GridProofs5 SelSpec SelModel
  SelProofs SelProofs4 SelProofs5 SelProofs6 SelProofs7 InsProps ArrSpec ArrModel ArrProofs ArrProofs2.

Section C73.
  Context {A : Type}.
  Variables min_row min_col nparts : nat.
  Hypothesis mr : 0 < min_row.
  Hypothesis mc : 0 < min_col.
  Hypothesis np : 0 < nparts.
  Variables known_l known_w : nat -> nat -> bool.
  Variable argsort : list Z -> list nat.
  Hypothesis argsort_ok : forall zs, sorts zs (argsort zs).
  Variable big : bool.
  Notation getitem := (getitem (A:=A) min_row min_col nparts known_l known_w argsort big).
  Notation split := (split (A:=A) min_row min_col nparts known_l known_w argsort big).
  Notation split_even := (split_even (A:=A) min_row min_col nparts known_l known_w argsort big).

  (** What [stands] means to a user: the array converts to [v] and reports its shape. *)
  Theorem C73_reads : forall (x : @arr A) (v : nd A), stands x v -> to_numpy x = Ok v /\ get_shape x = Ok (shape v).
  Proof. exact (@stands_reads A). Qed.

  (** C73, indexing, whatever the partitioning: the scalar or array NumPy gives, of the same number of dimensions.  Missing
      (refuted here or in C07): two lists at once, repeated positions, empty selections (without columns: refuted), masks of
      the wrong length, more indices than dimensions. *)
  Theorem C73_getitem_partial :
    forall (x : @arr A) (v : nd A) rk ck ps qs r, stands x v ->
      let ck' := match ck with Some k => k | None => LSlice None None None end in
      positions (nrows (table_of v)) rk = Some ps -> positions (ncols (table_of v)) ck' = Some qs ->
      supported (nrows (table_of v)) rk -> supported (ncols (table_of v)) ck' ->
      NoDup ps -> NoDup qs -> ps <> [] -> qs <> [] -> listy rk && listy ck' = false ->
      np_get v rk ck = Some r -> exists g, getitem x rk ck = Ok g /\ got_is g r.
  Proof. exact (@getitem_ok A min_row min_col nparts mr mc np known_l known_w argsort argsort_ok big). Qed.

  (** C73, [np.split(a, [i1, ..., ik], axis)] at ordered positions, negative ones counted from the end: the parts NumPy gives.
      Missing (refuted): positions that are not ordered, or more than the length away. *)
  Theorem C73_split_partial :
    forall axis (x : @arr A) (v : nd A) idx, stands x v -> (axis = true -> ndim v = 2) -> ~ In 0 (shape v) ->
      Forall (fun z => - Z.of_nat (axis_len axis v) <= z <= Z.of_nat (axis_len axis v))%Z idx ->
      StronglySorted le (map (bound (axis_len axis v)) idx) ->
      exists cs, split axis x idx = Ok cs /\ Forall2 chunk_is cs (np_split axis v idx).
  Proof. exact (@split_ok A min_row min_col nparts mr mc np known_l known_w argsort argsort_ok big). Qed.

  (** C73, [np.split(a, k, axis)]: [k] equal parts; a length that is not a multiple of [k] is a ValueError. *)
  Theorem C73_split_even :
    forall axis (x : @arr A) (v : nd A) k, stands x v -> (axis = true -> ndim v = 2) -> ~ In 0 (shape v) ->
      0 < k -> axis_len axis v mod k = 0 ->
      exists cs, split_even axis x k = Ok cs /\ Forall2 chunk_is cs (np_split_even axis v k).
  Proof. exact (@split_even_ok A min_row min_col nparts mr mc np known_l known_w argsort argsort_ok big). Qed.

  Theorem C73_split_uneven :
    forall axis (x : @arr A) (v : nd A) k, stands x v -> (axis = true -> ndim v = 2) ->
      0 < k -> axis_len axis v mod k <> 0 -> split_even axis x k = Err ValueError.
  Proof.
    intros axis x v k Hx Ha Hk Hm. unfold ArrModel.split_even. destruct (stands_reads Hx) as (_ & ->). cbn [rbind].
    assert (En : andim x = ndim v) by (destruct Hx; auto). rewrite En. replace (axis && (ndim v =? 1)) with false by (destruct axis; [rewrite Ha by auto|]; reflexivity).
    rewrite axis_size_is by auto. destruct (k =? 0) eqn:E0; [lia|]. destruct (axis_len axis v mod k =? 0) eqn:E1; [apply Nat.eqb_eq in E1; lia|]. reflexivity.
  Qed.

  (** the parts of a vector are the vector, nothing lost or doubled *)
  Theorem C73_split_whole :
    forall (l : list A) idx, Forall (fun z => - Z.of_nat (length l) <= z <= Z.of_nat (length l))%Z idx ->
      StronglySorted le (map (bound (length l)) idx) ->
      flat_map (fun v => match v with Vec l => l | Mat _ _ => [] end) (np_split false (Vec l) idx) = l.
  Proof.
    intros l idx F Ss. unfold np_split. rewrite pieces_whole by (auto; try lia; constructor; auto; apply Forall_forall; intros; lia). apply skipn_O.
  Qed.
End C73.
Print Assumptions C73_reads.
Print Assumptions C73_getitem_partial.
Print Assumptions C73_split_partial.
Print Assumptions C73_split_even.
Print Assumptions C73_split_uneven.
Print Assumptions C73_split_whole.

(** ** Concrete arrays *)
Definition arr_of (v : nd nat) rl cl : @arr nat := mka (ins_frame (table_of v) rl cl) (ndim v).
Definition arr_get := getitem (A:=nat) 1 1 2 (fun _ _ => true) (fun _ _ => true) zargsort false.
Definition arr_split := split (A:=nat) 1 1 2 (fun _ _ => true) (fun _ _ => true) zargsort false.
Definition arr_m : nd nat := Mat 3 [[1;2;3];[4;5;6];[7;8;9];[10;11;12]].
Definition arr_v : nd nat := Vec [1;2;3;4;5].
Definition arr_read (g : res (@got nat)) : res (value nat) :=
  do g <- g; match g with GScalar a => Ok (Scalar a) | GArr x => do v <- to_numpy x; Ok (Array v) end.
Definition arr_reads (cs : res (list (@chunk nat))) : res (list (list nat + nd nat)) :=
  do cs <- cs; rmap (fun c => match c with CEmpty s => Ok (inl s) | CArr x => do v <- to_numpy x; Ok (inr v) end) cs.

Lemma arr_m_stands : stands (arr_of arr_m [2;2] [2;1]) arr_m.
Proof.
  split; [reflexivity|]. exists [2;2], [2;1]. split; [|repeat split; discriminate]. apply holds_intro; try reflexivity; auto.
  split; [reflexivity|]. repeat constructor.
Qed.
Lemma arr_v_stands : stands (arr_of arr_v [2;3] [1]) arr_v.
Proof.
  split; [reflexivity|]. exists [2;3], [1]. split; [|repeat split; discriminate]. apply holds_intro; try reflexivity; auto.
  split; [reflexivity|]. repeat constructor.
Qed.

Example C73_row : arr_read (arr_get (arr_of arr_m [2;2] [2;1]) (LInt (-2)) None) = Ok (Array (Vec [7;8;9])).
Proof. vm_compute. reflexivity. Qed.
Example C73_column : arr_read (arr_get (arr_of arr_m [2;2] [2;1]) (LSlice None None (Some (-1)%Z)) (Some (LInt 2))) = Ok (Array (Vec [12;9;6;3])).
Proof. vm_compute. reflexivity. Qed.
Example C73_mask : arr_read (arr_get (arr_of arr_m [2;2] [2;1]) (LMask [true;false;true;true]) (Some (LSlice (Some 1%Z) None None))) = Ok (Array (Mat 2 [[2;3];[8;9];[11;12]])).
Proof. vm_compute. reflexivity. Qed.
Example C73_hyps : stands (arr_of arr_m [2;2] [2;1]) arr_m /\ positions (nrows (table_of arr_m)) (LList [3;0]%Z) = Some [3;0]
  /\ positions (ncols (table_of arr_m)) (LSlice None None None) = Some [0;1;2] /\ NoDup [3;0]
  /\ np_get arr_m (LList [3;0]%Z) None = Some (Array (Mat 3 [[10;11;12];[1;2;3]])).
Proof. split; [exact arr_m_stands|]. split; [reflexivity|]. split; [reflexivity|]. split; [|reflexivity]. repeat constructor; cbn; intuition discriminate. Qed.
Example C73_split_example : arr_reads (arr_split false (arr_of arr_v [2;3] [1]) [0;2;2;-1]%Z) = Ok [inl [0]; inr (Vec [1;2]); inl [0]; inr (Vec [3;4]); inr (Vec [5])].
Proof. vm_compute. reflexivity. Qed.

(** ** Where modin departs from NumPy *)

(** [a[[0,1],[1,0]]]: NumPy reads the lists together and gives a vector; modin gives the cross product. *)
Theorem C73_two_lists_refuted : let x := arr_of arr_m [2;2] [2;1] in
  stands x arr_m /\ np_get arr_m (LList [0;1]%Z) (Some (LList [1;0]%Z)) = Some (Array (Vec [2;4]))
  /\ arr_read (arr_get x (LList [0;1]%Z) (Some (LList [1;0]%Z))) = Ok (Array (Mat 2 [[2;1];[5;4]])).
Proof. split; [exact arr_m_stands|]. split; vm_compute; reflexivity. Qed.

(** [v[2, 0]] of a vector: NumPy raises, modin answers. *)
Theorem C73_too_many_indices_refuted : let x := arr_of arr_v [2;3] [1] in
  stands x arr_v /\ np_get arr_v (LInt 2) (Some (LInt 0)) = None /\ arr_read (arr_get x (LInt 2) (Some (LInt 0))) = Ok (Scalar 3).
Proof. split; [exact arr_v_stands|]. split; vm_compute; reflexivity. Qed.

(** A mask that is too short: NumPy raises, modin takes the rest as False. *)
Theorem C73_short_mask_refuted : let x := arr_of arr_m [2;2] [2;1] in
  stands x arr_m /\ np_get arr_m (LMask [false;true]) None = None /\ arr_read (arr_get x (LMask [false;true]) None) = Ok (Array (Mat 3 [[4;5;6]])).
Proof. split; [exact arr_m_stands|]. split; vm_compute; reflexivity. Qed.

(** [a[:, 1:1]]: an empty array in NumPy, an error in modin. *)
Theorem C73_no_columns_refuted : let x := arr_of arr_m [2;2] [2;1] in
  stands x arr_m /\ np_get arr_m (LSlice None None None) (Some (LSlice (Some 1%Z) (Some 1%Z) None)) = Some (Array (Mat 0 [[];[];[];[]]))
  /\ arr_read (arr_get x (LSlice None None None) (Some (LSlice (Some 1%Z) (Some 1%Z) None))) = Err ValueError.
Proof. split; [exact arr_m_stands|]. split; vm_compute; reflexivity. Qed.

(** [np.split(v, [-7])] of five elements: NumPy gives nothing and everything; modin repeats elements. *)
Theorem C73_split_far_back_refuted : let x := arr_of arr_v [2;3] [1] in
  stands x arr_v /\ np_split false arr_v [-7]%Z = [Vec []; Vec [1;2;3;4;5]]
  /\ arr_reads (arr_split false x [-7]%Z) = Ok [inr (Vec []); inr (Vec [1;2;3;4;4;5;5])].
Proof. split; [exact arr_v_stands|]. split; vm_compute; reflexivity. Qed.

(** [np.split(v, [2, 0])]: the last part starts at 0 in NumPy, at 2 in modin. *)
Theorem C73_split_zero_refuted : let x := arr_of arr_v [2;3] [1] in
  stands x arr_v /\ np_split false arr_v [2;0]%Z = [Vec [1;2]; Vec []; Vec [1;2;3;4;5]]
  /\ arr_reads (arr_split false x [2;0]%Z) = Ok [inr (Vec [1;2]); inl [0]; inr (Vec [3;4;5])].
Proof. split; [exact arr_v_stands|]. split; vm_compute; reflexivity. Qed.

(** [np.split(a, [3, 5], axis=1)] of three columns: an empty part in NumPy, an error in modin. *)
Theorem C73_split_beyond_refuted : let x := arr_of arr_m [2;2] [2;1] in
  stands x arr_m /\ length (np_split true arr_m [3;5]%Z) = 3 /\ arr_reads (arr_split true x [3;5]%Z) = Err ValueError.
Proof. split; [exact arr_m_stands|]. split; vm_compute; reflexivity. Qed.
Print Assumptions C73_two_lists_refuted.
Print Assumptions C73_too_many_indices_refuted.
Print Assumptions C73_short_mask_refuted.
Print Assumptions C73_no_columns_refuted.
Print Assumptions C73_split_far_back_refuted.
Print Assumptions C73_split_zero_refuted.
Print Assumptions C73_split_beyond_refuted.
