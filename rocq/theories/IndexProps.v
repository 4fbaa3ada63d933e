(** C14: cached axis labels are never confused. *)
From Verif Require Import Base IndexModel IndexSpec IndexProofs IndexProofs2.

Definition decides {X} (eqb : X -> X -> bool) : Prop := forall x y, eqb x y = true <-> x = y.

(** After any history of building, deriving, sharing, pickling, relabelling, filtering, reading, comparing,
    propagating labels and repartitioning: reading a frame's labels gives the labels it has. *)
Theorem C14_labels_read : forall X (xeqb : X -> X -> bool) ops f,
  decides xeqb ->
  let s := fst (play xeqb (init, []) ops) in
  let labels := snd (play xeqb (init, []) ops) in
  length labels = length (frames s) /\
  (f < length labels -> exists s', get_index s f = Ok (nth f labels [], s')).
Proof.
  intros X xeqb ops f Hx s labels. pose proof (play_wok xeqb Hx ops winv_init) as W. fold s labels in W.
  split; [apply W|]. intros Hf. destruct W as [Wl W]. rewrite Wl in Hf.
  destruct (nth_error (frames s) f) as [x|] eqn:E; [|apply nth_error_None in E; lia].
  destruct (get_index_wok f (conj Wl W) E) as (lab & s' & c & A1 & A2 & _). exists s'. rewrite A2.
  now rewrite (nth_error_nth _ _ _ A1).
Qed.
Print Assumptions C14_labels_read.

(** The label caches of two frames compare equal, whether by ids or by value, exactly when the labels are equal. *)
Theorem C14_labels_equal : forall X (xeqb : X -> X -> bool) ops f g x y,
  decides xeqb ->
  let s := fst (play xeqb (init, []) ops) in
  let labels := snd (play xeqb (init, []) ops) in
  nth_error (frames s) f = Some x -> nth_error (frames s) g = Some y ->
  exists b s', ix_equals xeqb s (fcache x) (fcache y) = Ok (b, s') /\ (b = true <-> nth f labels [] = nth g labels []).
Proof.
  intros X xeqb ops f g x y Hx s labels Hf Hg. pose proof (play_wok xeqb Hx ops winv_init) as W. fold s labels in W.
  destruct (winv_nth f W Hf) as (lf & _ & _ & E1 & Ef & _). destruct (winv_nth g W Hg) as (lg & _ & _ & E2 & Eg & _).
  destruct (ix_equals_wok xeqb Hx f g W Hf Hg Ef Eg) as (s' & A1 & _). eexists _, s'. split; [exact A1|].
  rewrite E1, E2. now apply list_eqb_spec.
Qed.
Print Assumptions C14_labels_equal.

(** Two frames are treated as aligned only if their labels are equal. *)
Theorem C14_aligned_only_if_equal : forall X (xeqb : X -> X -> bool) ops f g,
  decides xeqb ->
  let s := fst (play xeqb (init, []) ops) in
  let labels := snd (play xeqb (init, []) ops) in
  f < length labels -> g < length labels ->
  exists b s', axes_identical_cached xeqb s f g = Ok (b, s') /\ (b = true -> nth f labels [] = nth g labels []).
Proof.
  intros X xeqb ops f g Hx s labels Hf Hg. pose proof (play_wok xeqb Hx ops winv_init) as W. fold s labels in W.
  pose proof W as [Wl _]. rewrite Wl in Hf, Hg.
  destruct (nth_error (frames s) f) as [x|] eqn:Ex; [|apply nth_error_None in Ex; lia].
  destruct (nth_error (frames s) g) as [y|] eqn:Ey; [|apply nth_error_None in Ey; lia].
  destruct (winv_nth f W Ex) as (lf & _ & _ & E1 & Ef & _). destruct (winv_nth g W Ey) as (lg & _ & _ & E2 & Eg & _).
  destruct (axes_identical_wok xeqb Hx f g W Ex Ey Ef Eg) as (b & s' & A1 & _). eexists _, s'. split; [exact A1|].
  intros Hb. apply andb_true_iff in Hb as [_ Hb]. rewrite E1, E2. now apply (list_eqb_spec xeqb Hx).
Qed.
Print Assumptions C14_aligned_only_if_equal.

(** Two frames are treated as aligned exactly when their labels are equal and their blocks have equal lengths.
    Partial: in histories without df._repartition() along both axes; with it the lengths part fails, see
    [C14_repartition_refuted]. *)
Theorem C14_aligned_iff_partial : forall X (xeqb : X -> X -> bool) ops f g x y,
  decides xeqb -> forallb (fun o => negb (repartitions_both o)) ops = true ->
  let s := fst (play xeqb (init, []) ops) in
  let labels := snd (play xeqb (init, []) ops) in
  nth_error (frames s) f = Some x -> nth_error (frames s) g = Some y ->
  exists b s', axes_identical_cached xeqb s f g = Ok (b, s')
    /\ (b = true <-> nth f labels [] = nth g labels [] /\ flens x = flens y).
Proof.
  intros X xeqb ops f g x y Hx Hn s labels Ex Ey. pose proof (play_ok xeqb Hx ops Hn inv_init) as W. fold s labels in W.
  destruct (winv_nth f (inv_winv W) Ex) as (lf & _ & _ & E1 & Ef & _). destruct (winv_nth g (inv_winv W) Ey) as (lg & _ & _ & E2 & Eg & _).
  destruct (axes_identical_ok xeqb Hx f g W Ex Ey Ef Eg) as (s' & A1 & _). eexists _, s'. split; [exact A1|].
  rewrite andb_true_iff, E1, E2, (list_eqb_spec xeqb Hx), (list_eqb_spec Nat.eqb Nat.eqb_eq). tauto.
Qed.
Print Assumptions C14_aligned_iff_partial.

(** The cached block lengths are the true ones in those histories. *)
Theorem C14_lengths_true_partial : forall X (xeqb : X -> X -> bool) ops f x,
  decides xeqb -> forallb (fun o => negb (repartitions_both o)) ops = true ->
  let s := fst (play xeqb (init, []) ops) in
  nth_error (frames s) f = Some x -> exists s', get_lengths s f = Ok (flens x, s').
Proof.
  intros X xeqb ops f x Hx Hn s Ex. pose proof (play_ok xeqb Hx ops Hn inv_init) as W. fold s in W.
  destruct (get_lengths_ok f W Ex) as (s' & A & _). eauto.
Qed.
Print Assumptions C14_lengths_true_partial.

(** df2 = df._repartition(): the result carries the lengths id of [df] although its blocks have other lengths;
    [df + df2] then pairs blocks of different lengths without re-partitioning. *)
Theorem C14_repartition_refuted : exists (ops : list (@op nat)) f g x y s',
  let s := fst (play Nat.eqb (init, []) ops) in
  nth_error (frames s) f = Some x /\ nth_error (frames s) g = Some y
  /\ axes_identical_cached Nat.eqb s f g = Ok (true, s') /\ flens x <> flens y.
Proof.
  exists [New [10; 11; 12] [3] true true; Repartition 0 [2; 1]], 0, 2. eexists _, _, _. cbv zeta.
  split; [vm_compute; reflexivity|]. split; [vm_compute; reflexivity|]. split; [vm_compute; reflexivity|]. discriminate.
Qed.
Print Assumptions C14_repartition_refuted.

(** The same ids also make the stale lengths of [df] the cached lengths of the result once its labels are read. *)
Theorem C14_stale_lengths_refuted : exists (ops : list (@op nat)) f x s' n,
  let s := fst (play Nat.eqb (init, []) ops) in
  nth_error (frames s) f = Some x /\ get_lengths s f = Ok (n, s') /\ n <> flens x.
Proof.
  exists [New [10; 11; 12] [3] false false; Read 0; Repartition 0 [2; 1]; Read 2], 2. eexists _, _, _. cbv zeta.
  split; [vm_compute; reflexivity|]. split; [vm_compute; reflexivity|]. discriminate.
Qed.
Print Assumptions C14_stale_lengths_refuted.

(** A history with most kinds of steps: lazy labels, derived and shared frames, relabelling, filtering. *)
Section Examples.
  Let h : list (@op nat) :=
    [New [1; 2; 3] [2; 0; 1] false true; Derive 0 true []; Share 1; SetLabels false 0 [7; 8; 9]; Filter 1 false true false;
     Derive 1 false [1; 2]; Reload 2; Compare 1 2; Propagate 0; Derive 0 true []; SetLabels true 3 [7; 8; 9]].
  Example ex_history : snd (play Nat.eqb (init, []) h) = [[7; 8; 9]; [1; 2; 3]; [1; 2; 3]; [7; 8; 9]; [1; 2; 3]; [7; 8; 9]]
    /\ map (@flens nat) (frames (fst (play Nat.eqb (init, []) h))) = [[2; 0; 1]; [2; 1]; [2; 0; 1]; [1; 2]; [2; 0; 1]; [2; 0; 1]]
    /\ forallb (fun o => negb (repartitions_both o)) h = true.
  Proof. repeat split; vm_compute; reflexivity. Qed.
  (** all four answers occur: same ids, different lengths, equal labels without shared ids, different labels *)
  Example ex_answers : map (fun p => match axes_identical_cached Nat.eqb (fst (play Nat.eqb (init, []) h)) (fst p) (snd p) with Ok (b, _) => Some b | Err _ => None end)
    [(0, 5); (1, 2); (2, 4); (0, 3); (3, 1)] = [Some true; Some false; Some true; Some false; Some false].
  Proof. vm_compute. reflexivity. Qed.
End Examples.
