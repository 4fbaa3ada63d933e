(** C91: [s.equals(t)] for two Series. *)
From Verif Require Import Base Table ChunkModel ChunkSpec GridModel GridSpec FrameSpec GridProofs GridProofs2 GridProofs3 JoinSpec JoinModel JoinProofs3
  SelSpec SelModel SelProofs5 InsModel EquSpec EquModel EquProofs SeqSpec SeqModel SeqProofs.

(** C91 (partial): [s.equals(t)] answers whether the two Series have the same row labels and elements, whatever their names, and afterwards every
    Series is what it was, name included, for all divisions into blocks and also if [s] and [t] are the same object.
    Missing: Series with empty row blocks, Series that already have the name used inside, dtypes. *)
Theorem C91_series_equals_partial :
  forall (L H A : Type) (leqb : L -> L -> bool) (heqb : H -> H -> bool) (aeqb : A -> A -> bool),
    (forall x y, leqb x y = true <-> x = y) -> (forall x y, heqb x y = true <-> x = y) -> (forall x y, aeqb x y = true <-> x = y) ->
  forall (fill : A) (nparts min_row min_col : nat), 0 < nparts -> 0 < min_row -> 0 < min_col ->
  forall (temp : H) (heap : nat -> pframe) (tables : nat -> df L H A) (i j : nat),
    (forall k, exists rl cl, shows (heap k) (tables k) rl cl /\ (k = i \/ k = j -> Forall (fun n => 0 < n) rl)) ->
    ncols (tables i) = 1 -> ncols (tables j) = 1 -> dcols (tables i) <> [temp] -> dcols (tables j) <> [temp] ->
    exists b heap', s_equals leqb heqb aeqb fill nparts min_row min_col temp heap i j = Ok (Ok b, heap')
      /\ (b = true <-> same_series (tables i) (tables j))
      /\ forall k, exists rl cl, shows (heap' k) (tables k) rl cl.
Proof.
  intros L H A leqb heqb aeqb Hl Hh Ha fill np mr mc P1 P2 P3 temp h ts i j S0 Ni Nj Ti Tj.
  assert (S : all_show h ts) by (intros k; destruct (S0 k) as (rl & cl & X & _); eauto). clear S0.
  destruct (S i) as (ri & ci & Si). destruct (S j) as (rj & cj & Sj).
  unfold s_equals, get_name. pose proof Si as (Hi & Ri & Ci & _). pose proof Sj as (Hj & Rj & Cj & _).
  rewrite (row_labels_holds Hi Ci), (row_labels_holds Hj Cj), (col_labels_holds Hi (or_introl Ri)), (col_labels_holds Hj (or_introl Rj)).
  destruct (list_eqb leqb (dindex (ts i)) (dindex (ts j))) eqn:E1; cbn [negb].
  2:{ exists false, h. split; [reflexivity|]. split; [|exact S]. split; [discriminate|]. intros (X & _). apply (list_eqb_spec leqb Hl) in X. congruence. }
  apply (list_eqb_spec leqb Hl) in E1.
  destruct (dcols (ts i)) as [|ni [|]] eqn:Di; try (unfold ncols in Ni; rewrite Di in Ni; discriminate).
  destruct (dcols (ts j)) as [|nj [|]] eqn:Dj; try (unfold ncols in Nj; rewrite Dj in Nj; discriminate).
  cbn [rbind].
  destruct (@set_name_ok L H A heqb Hh h ts i temp S Ni) as (h1 & f1 & X1 & Y1 & S1 & Q1). rewrite X1. cbn [rbind].
  set (t1 := fun m => if m =? i then named temp (ts i) else ts m) in *.
  assert (N1 : ncols (t1 j) = 1) by (unfold t1; destruct (j =? i); auto).
  destruct (@set_name_ok L H A heqb Hh h1 t1 j temp S1 N1) as (h2 & f2 & X2 & Y2 & S2 & Q2). rewrite X2. cbn [rbind].
  set (t2 := fun m => if m =? j then named temp (t1 j) else t1 m) in *.
  assert (T2 : forall k, t2 k = if (k =? i) || (k =? j) then named temp (ts k) else ts k).
  { intros k. unfold t2, t1. destruct (Nat.eqb_spec k j) as [-> |]; destruct (Nat.eqb_spec j i) as [-> |]; rewrite ?Nat.eqb_refl, ?orb_true_r, ?orb_false_r; auto.
    destruct (Nat.eqb_spec k i) as [-> |]; auto. destruct (Nat.eqb_spec k i) as [-> |]; auto. }
  assert (W1 : pcl f1 = None) by (destruct Q1 as [[Q _]|[_ Q]]; congruence).
  assert (W2 : pcl f2 = None).
  { destruct Q2 as [[Q ->]|[_ Q]]; [|assumption]. unfold t1 in Q. rewrite Y1. destruct (j =? i); [exact W1|congruence]. }
  assert (Wi : pcl (h2 i) = None) by (rewrite Y2, Y1; destruct (i =? j); [exact W2|now rewrite Nat.eqb_refl]).
  assert (Wj : pcl (h2 j) = None) by (rewrite Y2; now rewrite Nat.eqb_refl).
  assert (Ei : t2 i = named temp (ts i)) by (rewrite T2, Nat.eqb_refl; reflexivity).
  assert (Ej : t2 j = named temp (ts j)) by (rewrite T2, Nat.eqb_refl, orb_true_r; reflexivity).
  destruct (S2 i) as (ra & ca & Sa). destruct (S2 j) as (rb & cb & Sb). rewrite Ei in Sa. rewrite Ej in Sb.
  pose proof Sa as (Ga & Ra & Ca & _ & Pa). pose proof Sb as (Gb & Rb & Cb & _ & Pb).
  destruct (@qc_equals_ok L H A leqb heqb aeqb Hl Hh Ha fill np mr mc (labelled (h2 i)) (labelled (h2 j)) (named temp (ts i)) (named temp (ts j)) ra ca rb cb)
    as (rl' & cl' & E & L1 & L2); auto.
  { now apply labelled_holds. }
  { now apply labelled_holds. }
  { right. right. unfold labelled. cbn [pcl]. rewrite Wi, Wj, Pa, Pb. auto. }
  rewrite E. cbn [rbind].
  assert (N2 : ncols (t2 i) = 1) by (rewrite Ei; reflexivity).
  destruct (@set_name_ok L H A heqb Hh h2 t2 i ni S2 N2) as (h3 & f3 & X3 & Y3 & S3 & _). rewrite X3. cbn [rbind].
  set (t3 := fun m => if m =? i then named ni (t2 i) else t2 m) in *.
  assert (N3 : ncols (t3 j) = 1) by (unfold t3; destruct (j =? i); [reflexivity|rewrite Ej; reflexivity]).
  destruct (@set_name_ok L H A heqb Hh h3 t3 j nj S3 N3) as (h4 & f4 & X4 & Y4 & S4 & _). rewrite X4. cbn [rbind].
  eexists. eexists. split; [reflexivity|]. split.
  - rewrite (@answers_true L H A leqb heqb aeqb Hl Hh Ha rl' cl' (named temp (ts i)) (named temp (ts j))); auto; [|apply Ga|apply Gb].
    unfold same_series, named. split; [intros [= -> ->]; auto|intros [-> ->]; reflexivity].
  - intros k. destruct (S4 k) as (rl & cl & Sk). exists rl, cl.
    match type of Sk with shows _ ?t _ _ => assert (Ek : t = ts k); [|rewrite <- Ek; exact Sk] end.
    assert (Bk : forall m n, dcols (ts m) = [n] -> named n (ts m) = ts m) by (intros m n X; unfold named; rewrite <- X; now destruct (ts m)).
    unfold t3. destruct (Nat.eqb_spec k j) as [-> |Kj].
    + destruct (Nat.eqb_spec j i) as [Ji|Ji].
      * rewrite Ei. rewrite <- Ji. apply (Bk j nj Dj).
      * rewrite Ej. apply (Bk j nj Dj).
    + destruct (Nat.eqb_spec k i) as [-> |Ki].
      * rewrite Ei. apply (Bk i ni Di).
      * rewrite T2. apply Nat.eqb_neq in Kj, Ki. now rewrite Kj, Ki.
Qed.
Print Assumptions C91_series_equals_partial.

Definition seq_frame (rl : list nat) (d : df nat nat nat) : @pframe nat nat nat :=
  mkpf (cut_table rl [1] d) (Some (dindex d)) (Some (dcols d)) (Some rl) (Some [1]).
Definition seq_tables (k : nat) : df nat nat nat := mkdf [5;6;7] [k] [[10];[11];[if k =? 2 then 13 else 12]].
Definition seq_heap (k : nat) := seq_frame (if k =? 1 then [2;1] else [1;2]) (seq_tables k).
Definition seq_run i j := s_equals Nat.eqb Nat.eqb Nat.eqb 0 3 1 1 99 seq_heap i j.
(** the hypotheses are met: Series 0 and 1 are equal but for the name, 2 has another element *)
Example C91_case : forall i j, i < 3 -> j < 3 -> exists b heap', seq_run i j = Ok (Ok b, heap')
  /\ (b = true <-> same_series (seq_tables i) (seq_tables j)) /\ forall k, exists rl cl, shows (heap' k) (seq_tables k) rl cl.
Proof.
  intros i j Hi Hj. apply (@C91_series_equals_partial nat nat nat Nat.eqb Nat.eqb Nat.eqb Nat.eqb_eq Nat.eqb_eq Nat.eqb_eq 0 3 1 1); try lia; auto.
  - intros k. unfold seq_heap. exists (if k =? 1 then [2;1] else [1;2]), [1]. split; [|intros _; destruct (k =? 1); repeat constructor; lia].
    split; [apply holds_intro; cbn; auto; [split; [reflexivity|repeat constructor]|now destruct (k =? 1)]|]. repeat split; try discriminate; now destruct (k =? 1).
  - cbn. intros [= ->]. lia.
  - cbn. intros [= ->]. lia. Qed.
Definition seq_answer i j := match seq_run i j with Ok (r, h) => Some (r, map (fun k => col_labels (h k)) [0;1;2]) | Err _ => None end.
Example C91_answers : seq_answer 0 1 = Some (Ok true, [[0];[1];[2]]) /\ seq_answer 1 2 = Some (Ok false, [[0];[1];[2]]) /\ seq_answer 1 1 = Some (Ok true, [[0];[1];[2]]).
Proof. repeat split; vm_compute; reflexivity. Qed.
