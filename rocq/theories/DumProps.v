(** C81: [get_dummies(df, prefix=, columns=, dummy_na=, drop_first=)].
    [shows f d rl cl]: the frame [f] displays the table [d] and its blocks are [d] cut into [rl] rows and [cl] columns.
    [look f]: what a user sees of the frame [f]. *)
From Coq Require Import ZArith.
From Verif Require Import Base Table ChunkSpec ChunkModel ChunkProofs GridModel GridSpec FrameSpec GridProofs SelSpec SelModel SelProofs5 SelProofs7 JoinSpec JoinModel ResetModel
  DumSpec DumModel DumProofs DumProofs2.

Section Props.
  Context {L H A P : Type}.
  Variables (leqb : L -> L -> bool) (heqb : H -> H -> bool).
  Hypothesis leqb_ok : forall x y, leqb x y = true <-> x = y.
  Hypothesis heqb_ok : forall x y, heqb x y = true <-> x = y.
  Variables (own : H -> P) (label : P -> A -> H) (levels : list A -> list A) (same : A -> A -> bool).
  Variables (missing one zero fill : A).
  Variables (dummy_na drop_first : bool).
  Variable order : list H -> list H.
  Hypothesis order_ok : forall l, Permutation (order l) l.
  Variable left : list (list L) -> list L * list (list (option nat)).
  Variables min_row min_col nparts : nat.
  Hypothesis (min_row_pos : 0 < min_row) (min_col_pos : 0 < min_col) (nparts_pos : 0 < nparts).
  Variables known_l known_w : nat -> nat -> bool.
  Variable argsort : list Z -> list nat.
  Hypothesis argsort_ok : forall l, sorts l (argsort l).
  Notation pf := (@pframe L H A).

  (** For every frame with rows and different column labels, every way of cutting it into blocks, and every choice of columns
      in any order, get_dummies is pandas': the other columns, then for each encoded column its dummies.
      Missing: a list or dictionary of prefixes, all columns named in another order, labels that are not there, and
      columns=None with columns that are neither numeric nor object, string or category (all refuted). *)
  Theorem C81_get_dummies_partial numeric categorical first_known columns (pre : prefix H P) (f : pf) d rl cl :
    shows f d rl cl -> 0 < nrows d -> NoDup (dcols d) ->
    (forall cs, columns = Some cs -> NoDup cs /\ incl cs (dcols d) /\ (length cs = ncols d -> cs = dcols d)) ->
    (columns = None -> forall c, In c (dcols d) -> numeric c = negb (categorical c)) ->
    pre = PNone \/ (exists p, pre = PText p) ->
    exists f' D,
      api_get_dummies leqb heqb own label levels same missing one zero fill dummy_na drop_first order left min_row min_col nparts known_l known_w argsort
        false numeric first_known columns pre f = Ok f'
      /\ get_dummies heqb own label levels same missing one zero dummy_na drop_first (encoded categorical columns d) pre d = Ok D
      /\ look leqb heqb f' = Ok D.
  Proof. intros Sh Hn N HS HN Pl. unfold api_get_dummies.
    exact (@qc_get_dummies_ok L H A P leqb heqb leqb_ok heqb_ok own label levels same missing one zero fill dummy_na drop_first order order_ok left min_row min_col nparts min_row_pos min_col_pos nparts_pos known_l known_w argsort argsort_ok f d rl cl numeric categorical columns pre first_known Sh Hn N HS HN Pl). Qed.
End Props.
Print Assumptions C81_get_dummies_partial.

(** Concrete frames: column 1 is numeric, 2 and 3 hold text *)
Definition dum_d : df nat nat nat := mkdf [5;6;7] [1;2;3] [[0;7;3];[1;8;3];[0;7;4]].
Definition dum_f : @pframe nat nat nat := mkpf (cut_table [2;1] [2;1] dum_d) (Some [5;6;7]) (Some [1;2;3]) (Some [2;1]) (Some [2;1]).
Lemma dum_shows : shows dum_f dum_d [2;1] [2;1].
Proof. unfold shows, holds, gridded. cbn. repeat split; auto; try discriminate; try congruence; repeat constructor; intros ? [= <-]; reflexivity. Qed.
Definition dum_label (p v : nat) : nat := 10 * p + v.
Definition dum_levels (l : list nat) : list nat := nodup Nat.eq_dec l.
Definition dum_left : list (list nat) -> list nat * list (list (option nat)) := fun _ => ([], []).
Definition dum_text (h : nat) : bool := negb (h =? 1).
Definition dum_pandas text columns pre (d : df nat nat nat) :=
  get_dummies Nat.eqb (fun h => h) dum_label dum_levels Nat.eqb 99 1 0 false false (encoded text columns d) pre d.
Definition dum_modin columns pre (f : @pframe nat nat nat) :=
  api_get_dummies Nat.eqb Nat.eqb (fun h => h) dum_label dum_levels Nat.eqb 99 1 0 98 false false (fun l : list nat => l) dum_left 1 1 2
    (fun _ _ => true) (fun _ _ => true) zargsort false (fun h => h =? 1) true columns pre f.
Definition dum_seen columns pre f := do g <- dum_modin columns pre f; look Nat.eqb Nat.eqb g.

Example C81_text_columns : dum_seen None PNone dum_f
  = Ok (mkdf [5;6;7] [1;28;27;33;34] [[0;0;1;1;0];[1;1;0;1;0];[0;0;1;0;1]]).
Proof. vm_compute. reflexivity. Qed.
Example C81_listed : dum_seen (Some [3;1]) (PText 5) dum_f = dum_pandas dum_text (Some [3;1]) (PText 5) dum_d
  /\ dum_seen (Some [3;1]) (PText 5) dum_f = Ok (mkdf [5;6;7] [2;53;54;51;50] [[7;1;0;0;1];[8;1;0;1;0];[7;0;1;0;1]]).
Proof. split; vm_compute; reflexivity. Qed.
Lemma C81_nodup : NoDup (dcols dum_d).
Proof. cbn. repeat constructor; cbn; intuition discriminate. Qed.
Example C81_hypotheses : exists f' D, dum_modin (Some [3;1]) (PText 5) dum_f = Ok f'
  /\ dum_pandas dum_text (Some [3;1]) (PText 5) dum_d = Ok D /\ look Nat.eqb Nat.eqb f' = Ok D.
Proof. apply (@C81_get_dummies_partial nat nat nat nat Nat.eqb Nat.eqb Nat.eqb_eq Nat.eqb_eq) with (rl := [2;1]) (cl := [2;1]); auto; try exact zargsort_ok; try exact dum_shows; try exact C81_nodup; try (cbn; lia).
  - intros cs [= <-]. split; [repeat constructor; cbn; intuition discriminate|]. split; [intros x [<-|[<-|[]]]; cbn; auto|discriminate].
  - discriminate.
  - right. now exists 5. Qed.

(** One prefix per column, in a list or a dictionary: each column block gets them all and raises when it has fewer columns. *)
Theorem C81_prefixes_refuted : exists D, dum_pandas dum_text (Some [1;3]) (PList [7;8]) dum_d = Ok D
  /\ dum_modin (Some [1;3]) (PList [7;8]) dum_f = Err ValueError
  /\ dum_pandas dum_text (Some [1;3]) (PDict [(1,7);(3,8)]) dum_d = Ok D
  /\ dum_modin (Some [1;3]) (PDict [(1,7);(3,8)]) dum_f = Err ValueError.
Proof. eexists. repeat split; vm_compute; reflexivity. Qed.
Print Assumptions C81_prefixes_refuted.

(** All columns named in another order: the dummies come in the order of the frame. *)
Theorem C81_order_refuted : exists D E, dum_pandas dum_text (Some [3;2;1]) PNone dum_d = Ok D /\ dum_seen (Some [3;2;1]) PNone dum_f = Ok E /\ D <> E.
Proof. eexists; eexists. split; [vm_compute; reflexivity|]. split; [vm_compute; reflexivity|]. discriminate. Qed.
Print Assumptions C81_order_refuted.

(** ... and in a frame with one block a list of prefixes is matched with the wrong columns. *)
Theorem C81_prefix_order_refuted : exists D, let g := mkpf [[dum_d]] (Some [5;6;7]) (Some [1;2;3]) None None in
  dum_pandas dum_text (Some [3;2;1]) (PList [7;8;9]) dum_d = Ok D /\ In 73 (dcols D)
  /\ exists E, dum_seen (Some [3;2;1]) (PList [7;8;9]) g = Ok E /\ In 93 (dcols E) /\ ~ In 73 (dcols E).
Proof. eexists. cbv zeta. split; [vm_compute; reflexivity|]. split; [vm_compute; auto 10|]. eexists. split; [vm_compute; reflexivity|]. split; [vm_compute; auto 10|].
  vm_compute. intuition discriminate. Qed.
Print Assumptions C81_prefix_order_refuted.

(** A label that is not there is no KeyError: it is ignored if as many labels as columns are named; otherwise the last column
    is there twice. *)
Theorem C81_unknown_refuted :
  dum_pandas dum_text (Some [2;3;9]) PNone dum_d = Err KeyError
  /\ (exists E, dum_seen (Some [2;3;9]) PNone dum_f = Ok E /\ In 1 (dcols E))
  /\ dum_pandas dum_text (Some [9]) PNone dum_d = Err KeyError
  /\ dum_seen (Some [9]) PNone dum_f = Ok (mkdf [5;6;7] [1;2;3;3] [[0;7;3;3];[1;8;3;3];[0;7;4;4]]).
Proof. split; [vm_compute; reflexivity|]. split; [|split; vm_compute; reflexivity]. eexists. split; [vm_compute; reflexivity|]. vm_compute. auto. Qed.
Print Assumptions C81_unknown_refuted.

(** columns=None: column 2 holds dates, which pandas leaves alone; Modin encodes every column that is not numeric. *)
Theorem C81_dates_refuted : exists D E, dum_pandas (fun h => h =? 3) None PNone dum_d = Ok D /\ In 2 (dcols D)
  /\ dum_seen None PNone dum_f = Ok E /\ ~ In 2 (dcols E).
Proof. eexists; eexists. split; [vm_compute; reflexivity|]. split; [vm_compute; auto|]. split; [vm_compute; reflexivity|]. vm_compute. intuition discriminate. Qed.
Print Assumptions C81_dates_refuted.
