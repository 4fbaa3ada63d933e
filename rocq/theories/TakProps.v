(** C95: [df.take]. *)
From Verif Require Import Base Table ChunkModel ChunkSpec GridModel GridSpec FrameSpec GridProofs GridProofs2 GridProofs3 SelSpec SelModel SelProofs SelProofs5 SelProofs7 SelProps
  TruProofs TakSpec TakModel.

Definition place (n : nat) (z : Z) : Z := (if z <? 0 then z + Z.of_nat n else z)%Z.
Lemma wrap_inside n zs : forallb (fun z => (- Z.of_nat n <=? z) && (z <? Z.of_nat n))%Z zs = true ->
  wrap_all n zs = Some (map (fun z => Z.to_nat (place n z)) zs).
Proof. induction zs as [|z zs IH]; [reflexivity|]. cbn [forallb wrap_all map]. intros E. apply andb_prop in E as [E1 E2]. rewrite (IH E2).
  unfold wrap, place. destruct (z <? 0)%Z eqn:Y.
  - assert ((0 <=? z) && (z <? Z.of_nat n) = false)%Z as -> by lia. assert ((- Z.of_nat n <=? z) && true = true)%Z as -> by lia. reflexivity.
  - assert ((0 <=? z) && (z <? Z.of_nat n) = true)%Z as -> by lia. reflexivity. Qed.
Lemma nodup_inside n zs : forallb (fun z => (- Z.of_nat n <=? z) && (z <? Z.of_nat n))%Z zs = true ->
  NoDup (map (place n) zs) -> NoDup (map (fun z => Z.to_nat (place n z)) zs).
Proof. induction zs as [|z zs IH]; [constructor|]. cbn [forallb map]. intros E N. apply andb_prop in E as [E1 E2]. inversion_clear N as [|? ? N1 N2].
  constructor; [|now apply IH]. intros I. apply N1. apply in_map_iff in I as (y & Ey & Iy). apply in_map_iff. exists y. split; [|exact Iy].
  rewrite forallb_forall in E2. specialize (E2 y Iy). unfold place in *. destruct (y <? 0)%Z eqn:Y1, (z <? 0)%Z eqn:Y2; lia. Qed.
Lemma all_positions n : positions n all_ = Some (seq 0 n).
Proof. pose proof (@positions_slice n 0 n (Nat.le_0_l _) (le_n _)) as P. unfold all_. cbn [positions] in *. rewrite slice_clip in P by lia.
  rewrite Nat.sub_0_r in P. exact P. Qed.

(** C95 (partial): [df.take(list)] along the rows, and [df.take(list or tuple, axis=1)] along the columns, give what was asked for, in the order asked for, for every
    division into blocks, negative positions included.  Missing: positions asked for twice (F1), tuples along the rows and booleans (both refuted). *)
Theorem C95_take_partial :
  forall (L H A : Type) (leqb : L -> L -> bool) (heqb : H -> H -> bool),
    (forall x y, leqb x y = true <-> x = y) -> (forall x y, heqb x y = true <-> x = y) ->
  forall (min_row min_col nparts : nat), 0 < min_row -> 0 < min_col -> 0 < nparts ->
  forall (known_l known_w : nat -> nat -> bool) (argsort : list Z -> list nat), (forall l, sorts l (argsort l)) ->
  forall (big columns : bool) (i : indices) (f : pframe) (d D : df L H A) rl cl, shows f d rl cl ->
    match i with Positions _ => True | Tuple _ => columns = true | Bools _ => False end ->
    distinct (if columns then ncols d else nrows d) i ->
    p_take columns i d = Some D ->
    exists f', take leqb heqb min_row min_col nparts known_l known_w argsort big columns i f = Ok f' /\ pf_to_pandas leqb heqb f' = Ok D.
Proof.
  intros L H A leqb heqb Hl Hh mr mc np H1 H2 H3 kl kw ag Hag big columns i f d D rl cl Sh Hi Di P.
  assert (W : wf d) by apply Sh. destruct W as [W1 W2]. rewrite Forall_forall in W2.
  assert (Li : locate_by i = LList (as_ints i)) by (destruct i; [reflexivity|reflexivity|destruct Hi]).
  unfold p_take, distinct in *. destruct columns.
  - destruct (forallb _ (as_ints i)) eqn:E; [|discriminate P]. injection P as <-. unfold take. rewrite Li.
    destruct (@C07_iloc_partial L H A leqb heqb Hl Hh mr mc np H1 H2 H3 kl kw ag Hag big f d rl cl all_ (LList (as_ints i)) (seq 0 (nrows d))
      (map (fun z => Z.to_nat (place (ncols d) z)) (as_ints i))) as (f' & E1 & E2); auto.
    + apply all_positions.
    + apply wrap_inside. exact E.
    + cbn. intros x y [= <- <-]. lia.
    + exact I.
    + apply seq_NoDup.
    + apply nodup_inside; [exact E|exact Di].
    + exists f'. split; [exact E1|]. rewrite E2. unfold take2d. f_equal. f_equal; [now apply pick_all|]. now rewrite (@pick_all _ (dcells d)) by (unfold nrows; lia).
  - destruct (forallb _ (as_ints i)) eqn:E; [|discriminate P]. injection P as <-.
    assert (take leqb heqb mr mc np kl kw ag big false i f = iloc2 leqb heqb mr mc np kl kw ag big (LList (as_ints i)) all_ f) as ->.
    { destruct i; [reflexivity|discriminate Hi|destruct Hi]. }
    destruct (@C07_iloc_partial L H A leqb heqb Hl Hh mr mc np H1 H2 H3 kl kw ag Hag big f d rl cl (LList (as_ints i)) all_
      (map (fun z => Z.to_nat (place (nrows d) z)) (as_ints i)) (seq 0 (ncols d))) as (f' & E1 & E2); auto.
    + apply wrap_inside. exact E.
    + apply all_positions.
    + exact I.
    + cbn. intros x y [= <- <-]. lia.
    + apply nodup_inside; [exact E|exact Di].
    + apply seq_NoDup.
    + exists f'. split; [exact E1|]. rewrite E2. unfold take2d. f_equal. f_equal; [now apply pick_all|].
      set (c := pick (dcells d) _). rewrite <- (map_id c) at 2. apply map_ext_in. intros r Hr. apply pick_all. apply W2.
      unfold c, pick in Hr. apply in_concat in Hr as (l & Il & Ir). apply in_map_iff in Il as (p & <- & _).
      destruct (nth_error (dcells d) p) eqn:Z0; [|destruct Ir]. destruct Ir as [<-|[]]. exact (nth_error_In _ _ Z0).
Qed.
Print Assumptions C95_take_partial.

(** C95 (partial): IndexError if a position is outside, provided that some position is negative.  Missing: a position past the end among positions that
    are all non-negative (an example is below). *)
Theorem C95_outside_partial :
  forall (L H A : Type) (leqb : L -> L -> bool) (heqb : H -> H -> bool) (min_row min_col nparts : nat)
    (known_l known_w : nat -> nat -> bool) (argsort : list Z -> list nat) (big columns : bool) (i : indices) (f : pframe) (d : df L H A) rl cl, shows f d rl cl ->
    match i with Positions _ => True | Tuple _ => columns = true | Bools _ => False end ->
    p_take columns i d = None -> Exists (fun z => z < 0)%Z (as_ints i) ->
    take leqb heqb min_row min_col nparts known_l known_w argsort big columns i f = Err IndexError.
Proof.
  intros L H A leqb heqb mr mc np kl kw ag big columns i f d rl cl Sh Hi P X.
  assert (Li : locate_by i = LList (as_ints i)) by (destruct i; [reflexivity|reflexivity|destruct Hi]).
  assert (Ex : existsb (fun z => z <? 0)%Z (as_ints i) = true).
  { apply existsb_exists. apply Exists_exists in X as (z & I & Hz). exists z. split; [exact I|lia]. }
  assert (Lk : forall n, forallb (fun z => (- Z.of_nat n <=? z) && (z <? Z.of_nat n))%Z (as_ints i) = false -> compute_lookup n (LList (as_ints i)) = Err IndexError).
  { intros n E. cbn [compute_lookup]. rewrite Ex. replace (wrap_all n (as_ints i)) with (@None (list nat)); [reflexivity|]. symmetry. revert E. clear.
    induction (as_ints i) as [|z zs IH]; [discriminate|]. cbn [forallb wrap_all]. intros E. apply andb_false_iff in E as [E|E].
    - assert (wrap n z = None) as ->; [|reflexivity]. unfold wrap.
      assert ((0 <=? z) && (z <? Z.of_nat n) = false)%Z as -> by lia. assert ((- Z.of_nat n <=? z) && (z <? 0) = false)%Z as -> by lia. reflexivity.
    - rewrite (IH E). now destruct (wrap n z). }
  assert (Pi : pindex f = Some (dindex d)) by apply Sh. assert (Pc : pcols f = Some (dcols d)) by apply Sh.
  unfold p_take in P. destruct columns.
  - destruct (forallb _ (as_ints i)) eqn:E; [discriminate P|]. unfold take, iloc2, iloc_getitem. rewrite Li, Pi, Pc. cbn [labels rbind]. change (compute_lookup _ all_) with (@Ok (option indexer) None).
    cbn [rbind]. fold (ncols d). now rewrite (Lk _ E).
  - destruct (forallb _ (as_ints i)) eqn:E; [discriminate P|].
    assert (take leqb heqb mr mc np kl kw ag big false i f = iloc2 leqb heqb mr mc np kl kw ag big (LList (as_ints i)) all_ f) as ->.
    { destruct i; [reflexivity|discriminate Hi|destruct Hi]. }
    unfold iloc2, iloc_getitem. rewrite Pi, Pc. cbn [labels rbind]. fold (nrows d). now rewrite (Lk _ E).
Qed.
Print Assumptions C95_outside_partial.

Definition tak_d : df nat nat nat := mkdf [5;6;7] [1;2;3] [[10;20;30];[11;21;31];[12;22;32]].
Definition tak_frame : @pframe nat nat nat := mkpf (cut_table [2;1] [2;1] tak_d) (Some (dindex tak_d)) (Some (dcols tak_d)) (Some [2;1]) (Some [2;1]).
Lemma tak_shows : shows tak_frame tak_d [2;1] [2;1].
Proof. split; [apply holds_intro; cbn; auto; split; [reflexivity|repeat constructor]|]. repeat split; discriminate. Qed.
Definition tak_run columns i :=
  do f <- take Nat.eqb Nat.eqb 1 1 2 (fun _ _ => true) (fun _ _ => true) zargsort true columns i tak_frame; pf_to_pandas Nat.eqb Nat.eqb f.
(** the hypotheses are met *)
Example C95_case : exists f', take Nat.eqb Nat.eqb 1 1 2 (fun _ _ => true) (fun _ _ => true) zargsort true false (Positions [-1; 0]%Z) tak_frame = Ok f'
  /\ pf_to_pandas Nat.eqb Nat.eqb f' = Ok (mkdf [7;5] [1;2;3] [[12;22;32];[10;20;30]]).
Proof.
  apply (@C95_take_partial nat nat nat Nat.eqb Nat.eqb Nat.eqb_eq Nat.eqb_eq 1 1 2 Nat.lt_0_1 Nat.lt_0_1 Nat.lt_0_2 (fun _ _ => true) (fun _ _ => true) zargsort zargsort_ok
    true false (Positions [-1; 0]%Z) tak_frame tak_d _ [2;1] [2;1] tak_shows I); [|reflexivity].
  repeat constructor; cbn; intuition discriminate. Qed.
Example C95_columns : tak_run true (Tuple [2; 0; -2]%Z) = Ok (mkdf [5;6;7] [3;1;2] [[30;10;20];[31;11;21];[32;12;22]]).
Proof. vm_compute. reflexivity. Qed.
Example C95_outside : tak_run false (Positions [7]%Z) = Err IndexError /\ tak_run false (Positions [0; -7]%Z) = Err IndexError
  /\ p_take false (Positions [7]%Z) tak_d = None /\ p_take false (Positions [0; -7]%Z) tak_d = None.
Proof. repeat split; vm_compute; reflexivity. Qed.
(** C95 refuted: [df.take((2, 0))] is the cell in row 2 and column 0, and [df.take((2, 0, 1))] an error; pandas gives the rows *)
Theorem C95_tuple_refuted :
  tak_run false (Tuple [2;0]%Z) = Ok (mkdf [7] [1] [[12]])
  /\ p_take false (Tuple [2;0]%Z) tak_d = Some (mkdf [7;5] [1;2;3] [[12;22;32];[10;20;30]])
  /\ tak_run false (Tuple [2;0;1]%Z) = Err IndexError
  /\ p_take false (Tuple [2;0;1]%Z) tak_d = Some (mkdf [7;5;6] [1;2;3] [[12;22;32];[10;20;30];[11;21;31]]).
Proof. repeat split; vm_compute; reflexivity. Qed.
(** C95 refuted: booleans are a mask to Modin and the positions 0 and 1 to pandas *)
Theorem C95_booleans_refuted :
  tak_run false (Bools [true;false;true]) = Ok (mkdf [5;7] [1;2;3] [[10;20;30];[12;22;32]])
  /\ p_take false (Bools [true;false;true]) tak_d = Some (mkdf [6;5;6] [1;2;3] [[11;21;31];[10;20;30];[11;21;31]]).
Proof. split; vm_compute; reflexivity. Qed.
Print Assumptions C95_tuple_refuted.
Print Assumptions C95_booleans_refuted.
