(** C56: distributed XGBoost training gives every labelled row to exactly one worker. *)
From Coq Require Import Permutation.
From Verif Require Import Base WriteModel XgbSpec XgbModel XgbProofs.

Section C56.
  Context {IP R S N : Type}.
  Variable ipeqb : IP -> IP -> bool.

  (** For every cluster, every placement of the partitions on its nodes, every number of workers asked for
      (at least one per node), every training set and list of evaluation sets with at least as many
      partitions as the cluster has nodes and features cut like the labels: the workers have, together, the
      labelled rows of the training set, each once; and likewise the evaluation sets, under their names and
      in the order given, if the training set is at most the last of them.
      Missing for the full property: more nodes than partitions, features cut unlike the labels, and the
      training set elsewhere in the list (refuted below). *)
  Theorem C56_train_partial (nodes : list IP) (requested : nat) (train : @dataset IP R S) (evals : list (N * option dataset)) :
    nodes <> [] -> length nodes <= requested ->
    Forall (fun m : dataset => length nodes <= length (fst m) /\ cut_alike m)
      (train :: map (fun e => match snd e with Some m => m | None => train end) evals) ->
    (forall a name b, evals = a ++ (name, None) :: b -> b = []) ->
    exists t got after, train_data ipeqb nodes requested train evals = Ok (t, got, after)
      /\ t <> [] /\ dealt train t /\ evaluated train evals got.
  Proof.
    intros Hn Hr HF Hlast. destruct (train_ok ipeqb evals Hn Hr HF) as (t & es & last & E & Ht & Dt & De & Dl).
    exists t, (es ++ last), (others evals). split; [exact E|]. split; [destruct t; [cbn in Ht; lia|congruence]|]. split; [exact Dt|].
    assert (G : forall l : list (N * option (@dataset IP R S)), (forall a name b, l = a ++ (name, None) :: b -> b = []) ->
              (others l = l /\ fold_left (fun f (e : N * option (@dmatrix IP R S)) => match snd e with None => Some (fst e) | Some _ => f end) l None = None)
              \/ exists nm, l = others l ++ [(nm, None)] /\ fold_left (fun f (e : N * option (@dmatrix IP R S)) => match snd e with None => Some (fst e) | Some _ => f end) l None = Some nm).
    { clear. induction l as [|[nm [m|]] l IH]; intros H.
      - left. now split.
      - destruct IH as [[A B]|(n' & A & B)].
        + intros a name b E. apply (H ((nm, Some m) :: a) name b). cbn. now rewrite E.
        + left. split; [|exact B]. change ((nm, Some m) :: others l = (nm, Some m) :: l). now rewrite A.
        + right. exists n'. split; [|exact B]. change ((nm, Some m) :: l = (nm, Some m) :: others l ++ [(n', None)]). now rewrite <- A.
      - specialize (H [] nm l eq_refl). subst l. right. now exists nm. }
    destruct (G evals Hlast) as [[A B]|(nm & A & B)].
    - rewrite B in Dl. subst last. rewrite app_nil_r. unfold evaluated in *. now rewrite <- A at 1.
    - rewrite B in Dl. subst last. unfold evaluated in *. rewrite A. apply Forall2_app; [exact De|]. constructor; [|constructor]. cbn [fst snd]. auto.
  Qed.

  (** The partitions are spread evenly, whatever the nodes they are on: every worker has [n / k] partitions
      or one more, and every partition goes to one worker. *)
  Theorem C56_even {P} (workers : list IP) (parts : list (IP * P)) :
    workers <> [] -> length workers <= length parts ->
    exists out, assign_row_partitions ipeqb workers parts = Ok out
      /\ length out = length workers
      /\ Forall (fun o => length parts / length workers <= length (fst o) <= length parts / length workers + 1) out
      /\ Permutation (concat (map fst out)) (map snd parts).
  Proof.
    intros Hw Hl. assert (0 < length workers) by (destruct workers; [congruence|cbn; lia]).
    destruct (assign_ok ipeqb workers parts H Hl) as (out & E & L & F & Pm). exists out. split; [exact E|]. split; [exact L|]. split.
    - eapply Forall_impl; [|exact F]. intros o (A & B & C). destruct (_ =? 0) in C; lia.
    - apply (Permutation_map fst) in Pm.
      assert (E1 : forall a (b : list nat), length a = length b -> map fst (combine a b) = a :> list P).
      { clear. induction a as [|x a IH]; intros [|y b] H; try discriminate; [reflexivity|]. cbn. f_equal. apply IH. now injection H. }
      rewrite E1 in Pm by (now rewrite map_length, seq_length). rewrite concat_map, map_map in Pm.
      erewrite map_ext_in with (g := fst) in Pm; [exact Pm|]. intros o Ho. rewrite Forall_forall in F. apply E1. now apply F.
  Qed.
End C56.

Print Assumptions C56_train_partial.
Print Assumptions C56_even.

(** Two nodes 0 and 1; all five partitions on node 1; three workers asked for: two per node would be four,
    [3 // 2 = 1] each are made. *)
Definition xtrain : list (nat * list nat) * list (list nat) :=
  ([(1, [10; 11]); (1, [12]); (1, [13; 14]); (1, [15]); (1, [16; 17])], [[0; 1]; [2]; [3; 4]; [5]; [6; 7]]).
Definition xval : list (nat * list nat) * list (list nat) := ([(0, [20]); (1, [21; 22])], [[7]; [8; 9]]).
Example C56_example_hyps :
  Forall (fun m : list (nat * list nat) * list (list nat) => 2 <= length (fst m) /\ cut_alike m) [xtrain; xval; xtrain].
Proof. repeat constructor. Qed.
Example C56_example :
  train_data Nat.eqb [0; 1] 3 xtrain [(100, Some xval); (101, None)]
  = Ok ([([15; 16; 17], [5; 6; 7]); ([10; 11; 12; 13; 14], [0; 1; 2; 3; 4])],
        [(100, [([20], [7]); ([21; 22], [8; 9])]); (101, [([15; 16; 17], [5; 6; 7]); ([10; 11; 12; 13; 14], [0; 1; 2; 3; 4])])],
        [(100, Some xval)]).
Proof. vm_compute. reflexivity. Qed.

(** Refuted: a cluster with more nodes than the data has partitions.  One worker is made on every node, one
    of them gets no partition, and unpacking nothing raises ValueError. *)
Theorem C56_more_nodes_refuted :
  train_data (N := nat) Nat.eqb [0; 1; 2] 3 (([(0, [10]); (1, [11])], [[0]; [1]]) : list (nat * list nat) * list (list nat)) [] = Err ValueError.
Proof. vm_compute. reflexivity. Qed.

(** Refuted: features and labels with the same rows and the same number of partitions, cut at different rows.
    The workers pair rows with labels of other rows, and nothing is raised. *)
Definition xcut : list (nat * list nat) * list (list nat) :=
  ([(0, [10; 11]); (1, [12]); (0, [13]); (1, [14; 15])], [[0]; [1; 2]; [3; 4]; [5]]).
Theorem C56_cut_unalike_refuted :
  exists t, train_data (N := nat) Nat.eqb [0; 1] 2 xcut [] = Ok (t, [], [])
    /\ In (11, 3) (concat (map (fun a => combine (fst a) (snd a)) t)) /\ In (11, 1) (labelled xcut) /\ ~ dealt xcut t.
Proof.
  eexists. split; [vm_compute; reflexivity|]. split; [vm_compute; tauto|]. split; [vm_compute; tauto|].
  intros [P _]. apply (Permutation_in (11, 3)) in P; [|vm_compute; tauto]. vm_compute in P.
  repeat (destruct P as [P|P]; [discriminate|]). destruct P.
Qed.

(** Refuted: the training set given as an evaluation set, before the others: it is evaluated after them
    (the last evaluation set is the one XGBoost's early stopping watches), and the caller's list has lost it. *)
Theorem C56_order_refuted :
  exists t got after, train_data Nat.eqb [0; 1] 2 xtrain [(101, None); (100, Some xval)] = Ok (t, got, after)
    /\ map fst got = [100; 101] /\ after = [(100, Some xval)].
Proof. do 3 eexists. split; [vm_compute; reflexivity|]. now split. Qed.

(** Refuted: the training set given under two names: the first name is not evaluated. *)
Theorem C56_two_names_refuted :
  exists t got after, train_data Nat.eqb [0; 1] 2 xtrain [(101, None); (102, None)] = Ok (t, got, after) /\ map fst got = [102].
Proof. do 3 eexists. split; [vm_compute; reflexivity|]. reflexivity. Qed.

Print Assumptions C56_more_nodes_refuted.
Print Assumptions C56_cut_unalike_refuted.
Print Assumptions C56_order_refuted.
Print Assumptions C56_two_names_refuted.
