(** C26: merge computed from the row partitions of one side. *)
From Verif Require Import Base Table ChunkModel ChunkSpec ChunkProofs GridModel GridSpec FrameSpec
  GridProofs GridProofs2 GridProofs3 GridProofs5 JoinModel GroupSpec ShufSpec ShufModel ShufProofs5 ShufProofs6 ShufProofs7 ShufProps
  MergeSpec MergeModel MergeProofs MergeProofs2 MergeProofs3 MergeProofs4.
From Coq Require Import Permutation Sorted.

Lemma list_eqb_refl_of {A} (aeqb : A -> A -> bool) : (forall x, aeqb x x = true) -> forall l, list_eqb aeqb l l = true.
Proof. intros R. induction l as [|x l IH]; [reflexivity|]. cbn. now rewrite R. Qed.
Lemma list_eqb_sym_of {A} (aeqb : A -> A -> bool) : (forall x y, aeqb x y = aeqb y x) -> forall l m, list_eqb aeqb l m = list_eqb aeqb m l.
Proof. intros S. induction l as [|x l IH]; intros [|y m]; try reflexivity. cbn. now rewrite S, IH. Qed.

Lemma unique_keys_ok {A} (aeqb : A -> A -> bool) (ks : list (list A)) :
  (forall x, aeqb x x = true) -> (forall x y, aeqb x y = aeqb y x) ->
  (unique_keys aeqb ks = true <-> distinct_keys aeqb ks).
Proof.
  intros R S. pose proof (list_eqb_refl_of aeqb R) as R'. pose proof (list_eqb_sym_of aeqb S) as S'.
  unfold unique_keys. rewrite forallb_forall.
  assert (Two : forall i j x y, i < j -> nth_error ks i = Some x -> nth_error ks j = Some y -> list_eqb aeqb x y = true ->
    2 <= length (filter (list_eqb aeqb x) ks)).
  { clear - R'. revert R'. induction ks as [|k ks IH]; intros R' [|i] [|j] x y Lt Hi Hj E; try lia; cbn in Hi, Hj; try discriminate.
    - injection Hi as ->. cbn [filter]. rewrite R'. cbn [length]. apply nth_error_In in Hj.
      assert (I : In y (filter (list_eqb aeqb x) ks)) by (apply filter_In; auto). destruct (filter _ ks); [easy|]. cbn. lia.
    - specialize (IH R' i j x y ltac:(lia) Hi Hj E). cbn [filter]. destruct (list_eqb aeqb x k); cbn [length]; lia. }
  split.
  - intros U i j x y Lt Hi Hj. destruct (list_eqb aeqb x y) eqn:E; [|reflexivity].
    specialize (Two i j x y Lt Hi Hj E). apply nth_error_In in Hi. apply U in Hi. apply Nat.leb_le in Hi. lia.
  - intros D x Hx. apply Nat.leb_le.
    destruct (in_split _ _ Hx) as (l1 & l2 & E). 
    assert (F : forall l, length (filter (list_eqb aeqb x) l) = 0 \/ exists i z, nth_error l i = Some z /\ list_eqb aeqb x z = true).
    { intros l. destruct (filter (list_eqb aeqb x) l) as [|z f] eqn:Ef; [now left|right].
      assert (I : In z (filter (list_eqb aeqb x) l)) by (rewrite Ef; now left). apply filter_In in I as [I1 I2].
      apply In_nth_error in I1 as (i & I1). eauto. }
    assert (Ex : nth_error ks (length l1) = Some x) by (rewrite E, nth_error_app2, Nat.sub_diag by lia; reflexivity).
    assert (F1 : length (filter (list_eqb aeqb x) l1) = 0).
    { destruct (F l1) as [F1|(i & z & Hi & Ez)]; [exact F1|exfalso].
      assert (Li : i < length l1) by (apply nth_error_Some; congruence).
      assert (Hi' : nth_error ks i = Some z) by (rewrite E, nth_error_app1; assumption).
      rewrite S' in Ez. now rewrite (D _ _ _ _ Li Hi' Ex) in Ez. }
    assert (F2 : length (filter (list_eqb aeqb x) l2) = 0).
    { destruct (F l2) as [F2|(i & z & Hi & Ez)]; [exact F2|exfalso].
      assert (Hi' : nth_error ks (length l1 + 1 + i) = Some z).
      { rewrite E, nth_error_app2 by lia. replace (length l1 + 1 + i - length l1) with (Datatypes.S i) by lia. exact Hi. }
      now rewrite (D (length l1) (length l1 + 1 + i) _ _ ltac:(lia) Ex Hi') in Ez. }
    rewrite E, filter_app, app_length. cbn [filter]. rewrite R'. cbn [length]. lia.
Qed.

Section Props.
  Context {L H A : Type}.
  Variable leqb : L -> L -> bool.
  Variable heqb : H -> H -> bool.
  Variable aeqb : A -> A -> bool.               (* the same key cell: any relation *)
  Variable nan : A.
  Variable suffixed : bool -> H -> H.
  Hypothesis leqb_ok : forall x y, leqb x y = true <-> x = y.
  Hypothesis heqb_ok : forall x y, heqb x y = true <-> x = y.
  Notation dframe := (df L H A).
  Notation pf := (@pframe L H A).

  (** [NPartitions], [MinRowPartitionSize], [MinColumnPartitionSize] *)
  Variables nparts min_row min_col : nat.
  Hypotheses (nparts_pos : 0 < nparts) (min_row_pos : 0 < min_row) (min_col_pos : 0 < min_col).

  (** The two frames, in any partitioning with at least one row of blocks. *)
  Variables (left right : pf) (ld rd : dframe) (rll cll rlr clr : list nat).
  Hypotheses (left_holds : holds left ld rll cll) (right_holds : holds right rd rlr clr).
  Hypotheses (left_blocks : rll <> []) (right_blocks : rlr <> []).

  (** A call pandas accepts; a header used as a key on both sides is paired with itself. *)
  Variable h : how.
  Variable k : keys_arg H.
  Hypothesis keys : keys_ok (dcols ld) (dcols rd) k.
  Hypothesis keys_paired :
    match k with LeftRight lo ro => forall c, In c lo -> In c ro -> In (c, c) (combine lo ro) | _ => True end.

  Notation whole := (merge heqb aeqb nan suffixed (key_pairs heqb (dcols ld) (dcols rd) k) ld rd h).

  (** C26, sort=False: how left, inner and right, with on=, left_on=/right_on= or neither.  The result is the merge
      of the whole frames: the same columns, the same rows in the same order, numbered from 0. *)
  Theorem C26_merge_partial (sort_rows : list H -> @pframe nat H A -> res (@pframe nat H A)) :
    exists x rl cl,
      row_axis_merge leqb heqb aeqb nan suffixed nparts min_row min_col sort_rows h k false left right = Ok x
      /\ holds x whole rl cl /\ rl <> [] /\ cl <> []
      /\ (0 < nrows whole -> pf_to_pandas Nat.eqb heqb x = Ok whole).
  Proof.
    destruct (@row_axis_merge_ok L H A leqb heqb aeqb nan suffixed leqb_ok heqb_ok nparts min_row min_col nparts_pos min_row_pos min_col_pos
                h k left right ld rd rll cll rlr clr sort_rows left_holds right_holds left_blocks right_blocks keys keys_paired)
      as (x & rl & cl & E & Hh & R & C).
    exists x, rl, cl. split; [exact E|]. split; [exact Hh|]. split; [exact R|]. split; [exact C|]. intros P.
    eapply pf_to_pandas_holds; [exact Nat.eqb_eq|exact heqb_ok|exact Hh|]. intros [Z|Z]; exfalso; [lia|].
    destruct Hh as [(_ & _ & Sc & _) _]. unfold ncols, merge in Z. cbn [dcols] in Z. rewrite header_length in Z.
    destruct (keys_columns heqb aeqb nan suffixed heqb_ok (dcols ld) (dcols rd) k keys). unfold ncols in Z. lia.
  Qed.

  (** C50, validate= of the side that is not partitioned ("many_to_one" for how left and inner, "one_to_many" for
      how right): the call fails exactly when two rows of that side have the same key. *)
  Definition checked_keys : list (list A) :=
    let pairs := key_pairs heqb (dcols ld) (dcols rd) k in
    if is_right h then map (left_key heqb pairs ld) (dcells ld) else map (right_key heqb pairs rd) (dcells rd).
  Theorem C50_validate_partial (sort_rows : list H -> @pframe nat H A -> res (@pframe nat H A)) :
    (forall x, aeqb x x = true) -> (forall x y, aeqb x y = aeqb y x) ->
    let run := row_axis_merge_of leqb heqb suffixed (pandas_merge_validated heqb aeqb nan suffixed (is_right h) (negb (is_right h)) h k)
                 nparts min_row min_col sort_rows h k false left right in
    (distinct_keys aeqb checked_keys -> exists x rl cl, run = Ok x /\ holds x whole rl cl /\ rl <> [] /\ cl <> [])
    /\ (~ distinct_keys aeqb checked_keys -> run = Err ValueError).
  Proof.
    intros Ar As run.
    assert (Q : forall t, wf t -> dcols t = dcols (if is_right h then rd else ld) ->
      (if is_right h then pandas_merge_validated heqb aeqb nan suffixed (is_right h) (negb (is_right h)) h k ld t
       else pandas_merge_validated heqb aeqb nan suffixed (is_right h) (negb (is_right h)) h k t rd)
      = if unique_keys aeqb checked_keys then (if is_right h then pandas_merge heqb aeqb nan suffixed h k ld t else pandas_merge heqb aeqb nan suffixed h k t rd)
        else Err ValueError).
    { intros t Wt Et. unfold pandas_merge_validated, checked_keys.
      destruct (is_right h); cbn [andb negb]; rewrite pandas_merge_ok by (auto; rewrite Et; exact keys); cbn [rbind]; rewrite Et;
        match goal with |- context [unique_keys aeqb ?x] => destruct (unique_keys aeqb x) end; reflexivity. }
    assert (U : unique_keys aeqb checked_keys = true <-> distinct_keys aeqb checked_keys) by now apply unique_keys_ok.
    split.
    - intros D. apply U in D. rewrite D in Q.
      destruct (@row_axis_merge_parts_of L H A leqb heqb aeqb nan suffixed leqb_ok heqb_ok nparts min_row min_col nparts_pos min_row_pos min_col_pos
                  (pandas_merge_validated heqb aeqb nan suffixed (is_right h) (negb (is_right h)) h k)
                  h k left right ld rd rll cll rlr clr sort_rows false) as (m & rl & cl & idx & Hm & Ei & R & C & Ni & _ & E); auto.
      unfold run. rewrite E. cbn [rbind]. eapply renumbered; eauto.
    - intros D. eapply row_axis_merge_fails; eauto. intros t Wt Et. rewrite (Q t Wt Et).
      destruct (unique_keys aeqb checked_keys); [|reflexivity]. exfalso. apply D. now apply U.
  Qed.

  (** C26, sort=True with on= or left_on=/right_on=: the rows of the merge, sorted by the key columns of the
      result (the left ones, then the right ones), numbered from 0.  [sort_rows] is the model of sort_values (C21):
      [value] reads the first sort column of a row, [rest] the further ones; [sort_values] is pandas' sort of one
      frame, any algorithm.  NPartitions must be at least 2 (C21_one_partition_refuted). *)
  Theorem C26_sorted_partial {K} (kle : K -> K -> bool) (quantiles : nat -> nat -> list (option K)) (numeric : nat -> bool)
      (over : bool) (value : list A -> option K) (rest : list ((list A -> option K) * bool))
      (sort_values : df nat H A -> df nat H A) sort_rows by_ :
    total_preorder kle ->
    (forall i n, StronglySorted (fun x y => npltb kle x y = true) (quantiles i n)) ->
    (forall n, 2 <= n -> quantiles 0 n <> []) -> 2 <= nparts ->
    match k with On o => by_ = o | LeftRight lo ro => by_ = lo ++ ro | Common => False end ->
    (forall m, sort_rows by_ m
       = sort_by Nat.eqb heqb kle (missing_at value) (value_at value) numeric quantiles nparts min_row min_col over true false sort_values m) ->
    (forall b, wf b -> dcols b = dcols whole ->
       wf (sort_values b) /\ dcols (sort_values b) = dcols whole
       /\ sorts (lex_le kle false ((of_cells value, true) :: map (fun c => (of_cells (fst c), snd c)) rest))
                (rows_of b) (rows_of (sort_values b))) ->
    exists x rl cl D,
      row_axis_merge leqb heqb aeqb nan suffixed nparts min_row min_col sort_rows h k true left right = Ok x
      /\ holds x D rl cl /\ rl <> [] /\ cl <> []
      /\ dindex D = seq 0 (nrows whole) /\ dcols D = dcols whole
      /\ Permutation (dcells whole) (dcells D)
      /\ StronglySorted (fun r s => lex_le kle false ((value, true) :: rest) r s = true) (dcells D).
  Proof.
    intros Kt Qs Qn Pn Hby Es C.
    destruct (@merge_sorted L H A K leqb heqb aeqb nan suffixed leqb_ok heqb_ok kle Kt quantiles Qs Qn numeric nparts min_row min_col
                Pn min_row_pos min_col_pos over value rest sort_values h k left right ld rd rll cll rlr clr sort_rows by_
                left_holds right_holds left_blocks right_blocks keys keys_paired Hby Es C)
      as (x & rl & cl & D & E & Hh & R & Cn & Di & Dc & [P S]).
    exists x, rl, cl, D. repeat (split; [assumption|]). split; [|repeat (split; [assumption|]); assumption].
    rewrite Di. unfold merge, nrows. cbn [dindex]. now rewrite seq_length.
  Qed.
End Props.
Print Assumptions C26_merge_partial.
Print Assumptions C50_validate_partial.
Print Assumptions C26_sorted_partial.

(** C26, how="right" with a right side without blocks: pandas merges the gathered frames. *)
Theorem C26_empty_right_partial {L H A} (leqb : L -> L -> bool) (heqb : H -> H -> bool) (aeqb : A -> A -> bool) (nan : A)
    (suffixed : bool -> H -> H) nparts min_row min_col sort_rows sort k (left right : @pframe L H A) (ld rd : df L H A) rll cll clr :
  (forall x y, leqb x y = true <-> x = y) -> (forall x y, heqb x y = true <-> x = y) ->
  0 < nparts -> 0 < min_row -> 0 < min_col ->
  holds left ld rll cll -> holds right rd [] clr ->
  pindex left <> None -> pcols left <> None -> pindex right <> None -> pcols right <> None ->
  keys_ok (dcols ld) (dcols rd) k ->
  exists x, row_axis_merge leqb heqb aeqb nan suffixed nparts min_row min_col sort_rows HRight k sort left right = Ok x
    /\ pf_to_pandas Nat.eqb heqb x
       = Ok (merge heqb aeqb nan suffixed (key_pairs heqb (dcols ld) (dcols rd) k) ld rd HRight).
Proof.
  intros Le He Pn Pr Pm Hl Hr N1 N2 N3 N4 K. unfold row_axis_merge, row_axis_merge_of. destruct Hr as [Gr Hr'] eqn:EH. clear EH.
  assert (Hr2 : holds right rd [] clr) by (split; assumption).
  replace (gsize (pgrid right) =? 0) with true by (destruct Gr as (_ & _ & _ & -> & _); reflexivity). cbn [andb].
  unfold merge_default. rewrite (@pf_to_pandas_holds L H A leqb heqb Le He left ld rll cll Hl) by auto. cbn [rbind].
  rewrite (@pf_to_pandas_holds L H A leqb heqb Le He right rd [] clr Hr2) by auto. cbn [rbind].
  rewrite (pandas_merge_ok heqb aeqb nan suffixed He) by assumption. cbn [rbind].
  set (M := merge heqb aeqb nan suffixed _ ld rd HRight).
  assert (Er : dcells rd = []).
  { destruct Gr as ([W _] & S & _). apply length_zero_iff_nil. rewrite W. change (list_sum []) with 0 in S. unfold nrows in S. auto. }
  assert (WM : wf M) by (unfold M, merge, merged_rows; rewrite Er; split; [reflexivity|constructor]).
  destruct (@round_trip nat H A Nat.eqb heqb Nat.eqb_eq He M nparts min_row min_col WM Pn Pr Pm) as (f & E1 & E2).
  rewrite E1. cbn [rbind]. eexists. split; [reflexivity|]. unfold pf_to_pandas. cbn [pgrid pindex pcols].
  unfold to_pandas in E2. destruct (create_pandas_df_from_partitions Nat.eqb heqb (fgrid f)) as [d'|]; [|discriminate]. cbn [rbind] in *.
  destruct (df_empty d'); [exact E2|]. destruct (list_eqb Nat.eqb (dindex d') (findex f)); [|discriminate]. cbn [negb rbind dcols dindex dcells] in *.
  destruct (list_eqb heqb (dcols d') (fcols f)); [exact E2|discriminate].
Qed.
Print Assumptions C26_empty_right_partial.

Section Examples.
  (** headers: below 100 plain, +100 with the suffix _x, +200 with _y; cells: None is missing *)
  Let sfx (right : bool) (h : nat) : nat := if right then h + 200 else h + 100.
  Let aeqb (x y : option nat) : bool := match x, y with Some a, Some b => a =? b | None, None => true | _, _ => false end.
  Let nosort : list nat -> @pframe nat nat (option nat) -> res (@pframe nat nat (option nat)) := fun _ m => Ok m.
  Let run h k sort l r := row_axis_merge Nat.eqb Nat.eqb aeqb None sfx 2 1 1 nosort h k sort l r.
  Let frame (rl cl : list nat) (d : df nat nat (option nat)) := mkpf (cut_table rl cl d) (Some (dindex d)) (Some (dcols d)) (Some rl) (Some cl).

  Let ld := mkdf [5;6;7;8] [1;2;3] [[Some 1;Some 10;Some 7];[Some 2;Some 20;Some 7];[None;Some 30;Some 7];[Some 1;Some 40;Some 9]].
  Let rd := mkdf [0;1;2;3] [3;1;4] [[Some 5;Some 1;Some 50];[Some 6;Some 3;Some 60];[Some 7;None;Some 70];[Some 8;Some 1;Some 80]].
  Let lf := frame [1;0;3] [2;1] ld.
  Let rf := frame [2;2] [1;2] rd.

  Example ex_merge_hypotheses : holds lf ld [1;0;3] [2;1] /\ holds rf rd [2;2] [1;2]
    /\ keys_ok (dcols ld) (dcols rd) (On [1]) /\ keys_ok (dcols ld) (dcols rd) (LeftRight [2;1] [4;1])
    /\ keys_ok (dcols ld) (dcols rd) Common.
  Proof.
    split; [apply holds_intro; cbn; auto; split; [reflexivity|repeat constructor]|].
    split; [apply holds_intro; cbn; auto; split; [reflexivity|repeat constructor]|].
    split; [|split]; cbn; [| |exists 1; tauto]; repeat split; try discriminate; intros x; cbn; intuition subst; tauto.
  Qed.

  Example ex_merge_left : exists x, run HLeft (On [1]) false lf rf = Ok x
    /\ pf_to_pandas Nat.eqb Nat.eqb x
       = Ok (mkdf [0;1;2;3;4;5] [1;2;103;203;4]
           [[Some 1;Some 10;Some 7;Some 5;Some 50];[Some 1;Some 10;Some 7;Some 8;Some 80];[Some 2;Some 20;Some 7;None;None];
            [None;Some 30;Some 7;Some 7;Some 70];[Some 1;Some 40;Some 9;Some 5;Some 50];[Some 1;Some 40;Some 9;Some 8;Some 80]]).
  Proof. vm_compute. eexists. split; reflexivity. Qed.

  Example ex_merge_right : exists x, run HRight (LeftRight [1;3] [1;3]) false lf rf = Ok x
    /\ pf_to_pandas Nat.eqb Nat.eqb x
       = Ok (mkdf [0;1;2;3] [1;2;3;4]
           [[Some 1;None;Some 5;Some 50];[Some 3;None;Some 6;Some 60];[None;Some 30;Some 7;Some 70];[Some 1;None;Some 8;Some 80]]).
  Proof. vm_compute. eexists. split; reflexivity. Qed.

  Let empty : df nat nat (option nat) := mkdf [] [1;2] [].
  (** A left frame without rows: how="left" and how="inner" fail where pandas returns no rows. *)
  Theorem C26_empty_left_refuted :
    holds (frame [] [2] empty) empty [] [2] /\ keys_ok (dcols empty) (dcols rd) (On [1])
    /\ run HInner (On [1]) false (frame [] [2] empty) rf = Err IndexError
    /\ run HLeft (On [1]) false (frame [] [2] empty) rf = Err IndexError.
  Proof.
    split; [apply holds_intro; cbn; auto; split; [reflexivity|constructor]|].
    split; [cbn; repeat split; try discriminate; intros x; cbn; intuition subst; tauto|]. split; reflexivity.
  Qed.

  Let sl := mkdf [0;1] [1;2] [[Some 1;Some 2];[Some 3;Some 4]].
  Let sr := mkdf [0;1] [1;2] [[Some 2;Some 1];[Some 4;Some 3]].
  (** The same two headers as keys on both sides, crosswise: the frame announces two columns and holds four. *)
  Theorem C26_swapped_keys_refuted :
    holds (frame [1;1] [2] sl) sl [1;1] [2] /\ holds (frame [2] [2] sr) sr [2] [2]
    /\ keys_ok (dcols sl) (dcols sr) (LeftRight [1;2] [2;1])
    /\ dcols (merge Nat.eqb aeqb None sfx (key_pairs Nat.eqb [1;2] [1;2] (LeftRight [1;2] [2;1])) sl sr HInner) = [101;102;201;202]
    /\ exists x, run HInner (LeftRight [1;2] [2;1]) false (frame [1;1] [2] sl) (frame [2] [2] sr) = Ok x
         /\ pcols x = Some [1;2] /\ pf_to_pandas Nat.eqb Nat.eqb x = Err InternalBug.
  Proof.
    split; [apply holds_intro; cbn; auto; split; [reflexivity|repeat constructor]|].
    split; [apply holds_intro; cbn; auto; split; [reflexivity|repeat constructor]|].
    split; [cbn; repeat split; try discriminate; intros x; cbn; intuition subst; tauto|]. split; [reflexivity|].
    vm_compute. eexists. repeat split.
  Qed.

  (** sort=True without key names (the common columns): whatever the sort does, the result is not sorted. *)
  Theorem C26_common_keys_sort_refuted sort_rows :
    let l := mkdf [0;1] [1;2] [[Some 5;Some 0];[Some 3;Some 0]] in
    let r := mkdf [0;1] [1;4] [[Some 3;Some 1];[Some 5;Some 1]] in
    keys_ok (dcols l) (dcols r) Common
    /\ exists x, row_axis_merge Nat.eqb Nat.eqb aeqb None sfx 2 1 1 sort_rows HInner Common true (frame [2] [2] l) (frame [1;1] [2] r) = Ok x
         /\ pf_to_pandas Nat.eqb Nat.eqb x = Ok (mkdf [0;1] [1;2;4] [[Some 5;Some 0;Some 1];[Some 3;Some 0;Some 1]]).
  Proof. split; [exists 1; cbn; tauto|]. vm_compute. eexists. split; reflexivity. Qed.

  (** the sort of C21 on the first cells of the rows: by cell 0, then by cell 1 *)
  Let at_ (j : nat) (r : list (option nat)) : option nat := match nth_error r j with Some v => v | None => None end.
  Let by_first : list nat -> @pframe nat nat (option nat) -> res (@pframe nat nat (option nat)) := fun _ =>
    sort_by Nat.eqb Nat.eqb Nat.leb (missing_at (at_ 0)) (value_at (at_ 0)) (fun _ => true) (q [2]) 2 1 1 false true false
      (sorted_table (lex_le Nat.leb false [(of_cells (at_ 0), true); (of_cells (at_ 1), true)])).

  Example ex_merge_sorted_hypotheses :
    total_preorder Nat.leb /\ (forall i n, StronglySorted (fun x y => npltb Nat.leb x y = true) (q [2] i n))
    /\ (forall n, 2 <= n -> q [2] 0 n <> [])
    /\ forall b, wf b -> wf (sorted_table (lex_le Nat.leb false [(of_cells (at_ 0), true); (of_cells (at_ 1), true)]) b)
       /\ sorts (lex_le Nat.leb false [(of_cells (at_ 0), true); (of_cells (at_ 1), true)]) (rows_of b)
             (rows_of (sorted_table (lex_le Nat.leb false [(of_cells (at_ 0), true); (of_cells (at_ 1), true)]) b)).
  Proof.
    split; [exact leb_total|]. split; [intros; cbn; repeat constructor|]. split; [discriminate|]. intros b W.
    destruct (@sorted_table_ok (lex_le Nat.leb false [(of_cells (at_ 0), true); (of_cells (at_ 1), true)]) (dcols b)) with (b := b) as (W' & _ & S & _); auto.
    apply lex_le_total. exact leb_total.
  Qed.

  Example ex_merge_sorted : exists x,
    row_axis_merge Nat.eqb Nat.eqb aeqb None sfx 2 1 1 by_first HLeft (On [1]) true lf rf = Ok x
    /\ pf_to_pandas Nat.eqb Nat.eqb x
       = Ok (mkdf [0;1;2;3;4;5] [1;2;103;203;4]
           [[Some 1;Some 10;Some 7;Some 5;Some 50];[Some 1;Some 10;Some 7;Some 8;Some 80];[Some 1;Some 40;Some 9;Some 5;Some 50];
            [Some 1;Some 40;Some 9;Some 8;Some 80];[Some 2;Some 20;Some 7;None;None];[None;Some 30;Some 7;Some 7;Some 70]]).
  Proof. vm_compute. eexists. split; reflexivity. Qed.

  (** how="right", sort=True, keys with different headers: rows without a left partner come last, whatever their key. *)
  Theorem C26_right_sort_refuted :
    let l := mkdf [0] [1] [[Some 9]] in
    let r := mkdf [0;1;2] [4] [[Some 2];[Some 9];[Some 1]] in
    keys_ok (dcols l) (dcols r) (LeftRight [1] [4])
    /\ exists x, row_axis_merge Nat.eqb Nat.eqb aeqb None sfx 2 1 1 by_first HRight (LeftRight [1] [4]) true (frame [1] [1] l) (frame [1;2] [1] r) = Ok x
         /\ pf_to_pandas Nat.eqb Nat.eqb x = Ok (mkdf [0;1;2] [1;4] [[Some 9;Some 9];[None;Some 1];[None;Some 2]]).
  Proof. split; [cbn; repeat split; try discriminate; intros x; cbn; tauto|]. vm_compute. eexists. split; reflexivity. Qed.

  (** validate="one_to_one": two left rows with the same key go unnoticed when they lie in different row partitions. *)
  Theorem C50_left_keys_refuted :
    let l := mkdf [0;1] [1;2] [[Some 1;Some 0];[Some 1;Some 7]] in
    let r := mkdf [0] [1;4] [[Some 1;Some 5]] in
    let run f := row_axis_merge_of Nat.eqb Nat.eqb sfx (pandas_merge_validated Nat.eqb aeqb None sfx true true HInner (On [1]))
                   2 1 1 nosort HInner (On [1]) false f (frame [1] [2] r) in
    ~ distinct_keys aeqb (map (left_key Nat.eqb [(1, 1)] l) (dcells l))
    /\ run (frame [2] [2] l) = Err ValueError
    /\ exists x, run (frame [1;1] [2] l) = Ok x
        /\ pf_to_pandas Nat.eqb Nat.eqb x = Ok (mkdf [0;1] [1;2;4] [[Some 1;Some 0;Some 5];[Some 1;Some 7;Some 5]]).
  Proof.
    split; [|split; [reflexivity|vm_compute; eexists; split; reflexivity]].
    intros D. specialize (D 0 1 [Some 1] [Some 1] ltac:(lia) eq_refl eq_refl). discriminate.
  Qed.

  Example ex_validate : distinct_keys aeqb [[Some 1];[None];[Some 2]]
    /\ (forall x, aeqb x x = true) /\ (forall x y, aeqb x y = aeqb y x).
  Proof.
    split; [|split].
    - apply unique_keys_ok; [intros [x|]; cbn; auto using Nat.eqb_refl|intros [x|] [y|]; cbn; auto using Nat.eqb_sym|reflexivity].
    - intros [x|]; cbn; auto using Nat.eqb_refl.
    - intros [x|] [y|]; cbn; auto using Nat.eqb_sym.
  Qed.

  (** indicator=True: the frame does not announce the column pandas adds, and cannot be gathered. *)
  Theorem C26_indicator_refuted :
    exists x, row_axis_merge_of Nat.eqb Nat.eqb sfx (pandas_merge_indicated Nat.eqb aeqb None sfx 99 (fun _ => Some 1) HInner (On [1]))
                2 1 1 nosort HInner (On [1]) false lf rf = Ok x
      /\ pcols x = Some [1;2;103;203;4] /\ pf_to_pandas Nat.eqb Nat.eqb x = Err InternalBug.
  Proof. vm_compute. eexists. repeat split. Qed.
End Examples.
Print Assumptions C26_empty_left_refuted.
Print Assumptions C26_swapped_keys_refuted.
Print Assumptions C26_common_keys_sort_refuted.
Print Assumptions C26_right_sort_refuted.
Print Assumptions C50_left_keys_refuted.
Print Assumptions C26_indicator_refuted.
