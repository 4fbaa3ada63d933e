(** C66: [duplicated] and [drop_duplicates].

    DupSpec.v: [repeated same k rows] marks the rows that [keep=k] calls duplicates; [drop_duplicates] is what pandas
    returns.  [holds f d rl cl] (FrameSpec.v): the partitioned frame [f] stands for the table [d], its blocks cut at row
    lengths [rl] and column widths [cl].  [look] (ResetModel.v): the table a user gets from a frame.  [same] is pandas'
    equality of cells; [text] the digest Modin takes of a row of a frame more than one block wide.  [faithful d]
    (DupSpec.v): in the table [d] digests are equal just where rows are.  [sorted], [argsort] stand for sorting by
    pandas and numpy. *)
From Coq Require Import Permutation.
From Verif Require Import Base Table ChunkModel ChunkSpec GridModel GridSpec FrameSpec GridProofs GridProofs3 SelSpec SelModel SelProofs SelProofs4 SelProofs5 SelProofs6 SelProofs7
  JoinSpec JoinModel JoinProofs3 RemSpec RemProofs RemProofs3 MaskModel MaskProofs MaskProps ResetSpec ResetModel ResetProofs DupSpec DupModel DupProofs.

Section C66.
  Context {L H A T : Type}.
  Variable leqb : L -> L -> bool.
  Variable heqb : H -> H -> bool.
  Hypothesis leqb_ok : forall x y, leqb x y = true <-> x = y.
  Hypothesis heqb_ok : forall x y, heqb x y = true <-> x = y.
  Variable same : A -> A -> bool.
  Variable text : list A -> T.
  Variable teqb : T -> T -> bool.
  Variable truth : A -> option bool.
  Variable ofbool : bool -> A.
  Variable invert : A -> A.
  Hypothesis truth_inverted : forall b, truth (invert (ofbool b)) = Some (negb b).
  Variable fill : A.
  Variable sorted : list L -> list nat.
  Hypothesis sorted_ok : forall ls, Permutation (sorted ls) (seq 0 (length ls)).
  Hypothesis sorted_stable : forall ls, pick ls (sorted ls) = ls -> sorted ls = seq 0 (length ls).
  Variable num : nat -> L.
  Variable cell : L -> A.
  Variables (ulabel : L) (uheader : H).
  Variables cpus min_row min_col nparts : nat.
  Hypothesis min_row_pos : 0 < min_row.
  Hypothesis min_col_pos : 0 < min_col.
  Hypothesis nparts_pos : 0 < nparts.
  Variable dynamic : bool.
  Variables known_l known_w : nat -> nat -> bool.
  Variable argsort : list Z -> list nat.
  Hypothesis argsort_ok : forall l, sorts l (argsort l).
  Notation qc_duplicated := (qc_duplicated leqb heqb same text teqb ofbool ulabel uheader min_row min_col nparts).
  Notation df_drop_duplicates := (df_drop_duplicates leqb heqb same text teqb truth ofbool invert fill sorted num cell ulabel uheader cpus min_row min_col nparts dynamic known_l known_w argsort).
  Notation drop_duplicates := (drop_duplicates heqb same num).

  (** C66, [duplicated] (partial): the marks of pandas, under the labels of the frame, whatever the blocks, if the frame
      is one block wide or digests tell rows apart as pandas does.
      Missing: rows that pandas and the digest compare differently (refuted); frames without rows. *)
  Theorem C66_duplicated_partial :
    forall (k : keeping) (f : @pframe L H A) (d : df L H A) rl cl,
      holds f d rl cl -> rl <> [] -> cl <> [] -> 0 < nrows d ->
      length cl = 1 \/ faithful same text teqb d ->
      exists f', qc_duplicated k f = Ok f' /\ look leqb heqb f' = Ok (duplicated same uheader ofbool k d).
  Proof.
    intros k f d rl cl Hh Hr Hc Hn Hf.
    destruct (@duplicated_ok L H A T leqb heqb leqb_ok heqb_ok same text teqb ofbool ulabel uheader min_row min_col nparts min_row_pos min_col_pos nparts_pos k f d rl cl) as (x & rl' & cl' & E & Hx & N1 & N2); auto.
    exists x. split; [exact E|]. now apply (look_holds leqb heqb leqb_ok heqb_ok Hx). Qed.

  (** C66, [drop_duplicates] (partial): the rows pandas keeps, in their order, renumbered if asked for.
      Missing: as above; keep="last" with ignore_index on one column (refuted); a subset on columns with repeated labels
      or a frame whose labels are not known; an empty subset; range partitioning. *)
  Theorem C66_drop_duplicates_partial :
    forall (subset : option (list H)) (k : keeping) (ignore : bool) (f : @pframe L H A) (d : df L H A) rl cl,
      holds f d rl cl -> rl <> [] -> Forall (fun w => 0 < w) cl -> cl <> [] -> 0 < nrows d ->
      (subset = None /\ length cl = 1) \/ faithful same text teqb (looked_at heqb subset d) ->
      (forall hs, subset = Some hs -> hs <> [] /\ (forall h, In h hs -> In h (dcols d)) /\ NoDup (dcols d)
                                      /\ pindex f = Some (dindex d) /\ pcols f = Some (dcols d)) ->
      ~ (subset = None /\ ignore = true /\ ncols d = 1 /\ k = KLast) ->
      exists f', df_drop_duplicates subset k ignore f = Ok f' /\ look leqb heqb f' = Ok (drop_duplicates subset k ignore d).
  Proof.
    intros subset k ignore f d rl cl Hh Hr Hpos Hc Hn Hf Hs Hl. assert (W : wf d) by apply Hh. unfold DupModel.df_drop_duplicates. rewrite (col_labels_holds Hh (or_introl Hr)).
    assert (C : match subset with Some hs => negb (forallb (fun h => existsb (heqb h) (dcols d)) hs) | None => false end = false).
    { destruct subset as [hs|]; [|reflexivity]. destruct (Hs hs eq_refl) as (_ & I & _). apply negb_false_iff. apply forallb_forall. intros h Ih. apply existsb_exists. exists h. split; [now apply I|now apply heqb_ok]. }
    rewrite C. clear C. unfold qc_unique. rewrite (col_labels_holds Hh (or_introl Hr)). change (length (dcols d)) with (ncols d).
    destruct (match subset with None => true | Some _ => false end && ignore && (ncols d =? 1) && is_first_or_last k) eqn:Q.
    - apply andb_true_iff in Q as [Q Q4]. apply andb_true_iff in Q as [Q Q3]. apply andb_true_iff in Q as [Q1 Q2]. destruct subset; [discriminate|]. destruct ignore; [|discriminate]. apply Nat.eqb_eq in Q3.
      assert (k = KFirst) by (destruct k; [reflexivity|exfalso; now apply Hl|discriminate]). subst k.
      assert (cl = [1]).
      { assert (Sc : list_sum cl = ncols d) by apply Hh. rewrite Q3 in Sc. destruct cl as [|w [|v cl]]; [easy| |].
        - unfold list_sum in Sc. cbn in Sc. f_equal. lia.
        - inversion Hpos as [|? ? P1 P2]; subst. inversion P2; subst. change (list_sum (w :: v :: cl)) with (w + (v + list_sum cl)) in Sc. lia. }
      subst cl.
      assert (WK : wf (unique_kernel same num d)).
      { split; cbn [unique_kernel dindex dcells]; [unfold nrows; cbn; now rewrite map_length, seq_length|]. unfold unique_kernel, ncols. cbn [dcols]. destruct W as [_ W2]. apply Forall_forall. intros r I.
        rewrite kept_pick in I by now rewrite map_length, repeated_length. apply (Forall_pick (marked (map negb (repeated (same_row same) KFirst (dcells d))))) in W2. rewrite Forall_forall in W2. now apply W2. }
      destruct (@apply_full_axis_one L H A L H A leqb heqb heqb_ok (unique_kernel same num) nparts min_row min_col None (dcols d) false f d rl 1) as (x & rl' & cl' & E1 & G1 & N1 & N2 & P1 & P2); auto; try discriminate; [apply Hh|].
      exists x. split; [exact E1|].
      rewrite (@look_holds L H A leqb heqb leqb_ok heqb_ok x (unique_kernel same num d) rl' cl'); auto.
      + f_equal. unfold unique_kernel, DupSpec.drop_duplicates. cbn [looked_at keep_rows dcols dcells]. f_equal. f_equal. f_equal. unfold nrows. cbn [keep_rows dindex].
        destruct W as [W1 _]. set (m := map negb _). assert (Lm : length m = length (dcells d)) by (unfold m; now rewrite map_length, repeated_length).
        unfold nrows in W1. rewrite !kept_pick by congruence. rewrite !pick_length; [reflexivity| |]; rewrite <- ?W1, <- Lm; apply marked_bound.
      + split; [exact G1|]. rewrite P1, P2. auto.
    - clear Q.
      assert (M : exists mask dup re ce rd cd, match subset with None => Ok f | Some hs => take_2d_positional leqb heqb min_row min_col nparts known_l known_w argsort false None (Some (IList (map Z.of_nat (in_subset heqb f hs)))) f end = Ok mask
                /\ holds mask (looked_at heqb subset d) re ce /\ re <> [] /\ ce <> [] /\ qc_duplicated k mask = Ok dup
                /\ holds dup (duplicated same uheader ofbool k (looked_at heqb subset d)) rd cd /\ rd <> [] /\ cd <> []).
      { assert (X : exists mask re ce, match subset with None => Ok f | Some hs => take_2d_positional leqb heqb min_row min_col nparts known_l known_w argsort false None (Some (IList (map Z.of_nat (in_subset heqb f hs)))) f end = Ok mask
                /\ holds mask (looked_at heqb subset d) re ce /\ re <> [] /\ ce <> [] /\ (length ce = 1 \/ faithful same text teqb (looked_at heqb subset d))).
        { destruct subset as [hs|].
          - destruct (Hs hs eq_refl) as (Ne & I & Nd & Pi & Pc). unfold in_subset. rewrite (col_labels_holds Hh (or_introl Hr)), true_marked.
            set (m := map (fun h => existsb (heqb h) hs) (dcols d)). assert (Lm : length m = ncols d) by (unfold m; now rewrite map_length).
            assert (Sh : shows f d rl cl) by now repeat (split; auto).
            assert (Fm : Forall (fun p => p < ncols d) (marked m)) by (rewrite <- Lm; apply marked_bound).
            destruct (@take_2d_ok L H A leqb heqb leqb_ok heqb_ok min_row min_col nparts min_row_pos min_col_pos nparts_pos known_l known_w argsort argsort_ok false f d rl cl None
              (Some (IList (map Z.of_nat (marked m)))) (seq 0 (nrows d)) (marked m)) as (mask & E & _ & Z); auto.
            { reflexivity. }
            { cbn. auto. }
            { right. split; [apply seq_NoDup|apply marked_nodup]. }
            destruct Z as (re & ce & Z).
            { destruct (nrows d); [lia|discriminate]. }
            { destruct hs as [|h hs]; [easy|]. intros X0. destruct (In_nth_error _ _ (I h (or_introl eq_refl))) as (p & Ep).
              assert (In p (marked m)); [|rewrite X0 in *; easy]. apply in_marked. split; [lia|]. rewrite Nat.sub_0_r. unfold m. rewrite nth_error_map, Ep. cbn. now rewrite (proj2 (heqb_ok h h) eq_refl). }
            exists mask, re, ce. split; [exact E|]. destruct Z as (Z1 & Z2 & Z3 & _). cbn [looked_at]. fold m. rewrite (@keep_columns_take2d L H A m d W Lm). repeat (split; auto).
            right. destruct Hf as [[? _]|Hf]; [discriminate|]. cbn [looked_at] in Hf. fold m in Hf. now rewrite (@keep_columns_take2d L H A m d W Lm) in Hf.
          - exists f, rl, cl. cbn [looked_at] in *. repeat (split; auto). destruct Hf as [[_ Hf]|Hf]; auto. }
        destruct X as (mask & re & ce & E & Hm & N1 & N2 & Hf').
        assert (Hnm : nrows (looked_at heqb subset d) = nrows d) by (destruct subset; reflexivity).
        destruct (@duplicated_ok L H A T leqb heqb leqb_ok heqb_ok same text teqb ofbool ulabel uheader min_row min_col nparts min_row_pos min_col_pos nparts_pos k mask (looked_at heqb subset d) re ce) as (x & rd & cd & E2 & Hx & N3 & N4); auto; [lia|].
        exists mask, x, re, ce, rd, cd. repeat (split; auto). }
      destruct M as (mask & dup & re & ce & rd & cd & E1 & Hm & N1 & N2 & E2 & Hd & N3 & N4). rewrite E1. cbn [rbind]. rewrite E2. cbn [rbind].
      destruct (@keep_not_repeated L H A leqb heqb leqb_ok heqb_ok same truth ofbool invert truth_inverted fill sorted sorted_ok sorted_stable uheader cpus min_row min_col nparts min_row_pos min_col_pos nparts_pos dynamic
        k f d (looked_at heqb subset d) rl cl rd cd dup) as (inv & r & r3 & c3 & E3 & E4 & H3 & N5 & N6); auto; [apply Hm|destruct subset; reflexivity|].
      rewrite E3. cbn [rbind]. rewrite E4. cbn [rbind]. unfold DupSpec.drop_duplicates. destruct ignore.
      + destruct (@reset_ok L H A leqb heqb leqb_ok heqb_ok num cell uheader uheader min_col nparts min_col_pos nparts_pos true None r _ _ r3 c3 H3 N5 N6 eq_refl (or_introl eq_refl)) as (f' & E5 & E6).
        exists f'. split; [exact E5|exact E6].
      + exists r. split; [reflexivity|]. now apply (look_holds leqb heqb leqb_ok heqb_ok H3).
  Qed.

  (** An unknown label in [subset] raises KeyError. *)
  Theorem C66_unknown_label :
    forall (hs : list H) (k : keeping) (ignore : bool) (f : @pframe L H A) (d : df L H A) rl cl h,
      holds f d rl cl -> rl <> [] -> In h hs -> ~ In h (dcols d) -> df_drop_duplicates (Some hs) k ignore f = Err KeyError.
  Proof.
    intros hs k ignore f d rl cl h Hh Hr I N. unfold DupModel.df_drop_duplicates. rewrite (col_labels_holds Hh (or_introl Hr)).
    destruct (forallb (fun h => existsb (heqb h) (dcols d)) hs) eqn:E; [|reflexivity]. exfalso. rewrite forallb_forall in E. specialize (E h I).
    apply existsb_exists in E as (x & Ix & Q). apply heqb_ok in Q. now subst x. Qed.
End C66.

Print Assumptions C66_duplicated_partial.
Print Assumptions C66_drop_duplicates_partial.
Print Assumptions C66_unknown_label.

(** * Concrete cases *)
(** whole numbers, floats with a whole value, the float -0.0, truth values *)
Inductive val := Int (z : Z) | Float (z : Z) | NegZero | Bool (b : bool).
Definition val_eqb (x y : val) : bool :=
  match x, y with
  | Int a, Int b | Float a, Float b => Z.eqb a b
  | NegZero, NegZero => true
  | Bool a, Bool b => Bool.eqb a b
  | _, _ => false
  end.
(** pandas: the two zeros are the same *)
Definition val_same (x y : val) : bool :=
  match x, y with Float 0%Z, NegZero | NegZero, Float 0%Z => true | _, _ => val_eqb x y end.
(** The nearest float, ties to even, of a whole number from -2^53 to 2^54. *)
Definition nearest (z : Z) : Z :=
  if (z <=? 2 ^ 53)%Z then z else (4 * (z / 4) + match z mod 4 with 0 | 1 => 0 | 2 => 2 | _ => 4 end)%Z.
(** What [str(tuple(row))] depends on: [df.apply(axis=1)] makes floats of whole numbers beside floats. *)
Definition val_text (r : list val) : list val :=
  if existsb (fun x => match x with Float _ | NegZero => true | _ => false end) r
  then map (fun x => match x with Int z => Float (nearest z) | x => x end) r
  else r.
Definition val_truth (x : val) : option bool := match x with Bool b => Some b | _ => None end.
Definition val_not (x : val) : val := match x with Bool b => Bool (negb b) | x => x end.

Section Concrete.
  Definition vd (cells : list (list val)) : df nat nat val := mkdf (seq 5 (length cells)) (seq 100 (length (hd [] cells))) cells.
  Definition vf rl cl cells : @pframe nat nat val :=
    mkpf (cut_table rl cl (vd cells)) (Some (dindex (vd cells))) (Some (dcols (vd cells))) (Some rl) (Some cl).
  Definition vdup k rl cl cells :=
    do f <- @qc_duplicated nat nat val (list val) Nat.eqb Nat.eqb val_same val_text (list_eqb val_eqb) Bool 0 0 1 1 2 k (vf rl cl cells);
    look Nat.eqb Nat.eqb f.
  Definition vdrop subset k ignore rl cl cells :=
    do f <- @df_drop_duplicates nat nat val (list val) Nat.eqb Nat.eqb val_same val_text (list_eqb val_eqb) val_truth Bool val_not (Int 0) msorted id
              (fun l => Int (Z.of_nat l)) 0 0 2 1 1 2 true (fun _ _ => true) (fun _ _ => true) zargsort subset k ignore (vf rl cl cells);
    look Nat.eqb Nat.eqb f.
  Definition vspec subset k ignore cells := @drop_duplicates nat nat val Nat.eqb val_same id subset k ignore (vd cells).
  Definition marks cells bs : df nat nat val := mkdf (dindex (vd cells)) [0] (map (fun b => [Bool b]) bs).

  Definition four := [[Int 1;Int 2];[Int 1;Int 3];[Int 1;Int 2];[Int 4;Int 2]].
  Example C66_case : forall cl, In cl [[2];[1;1]] ->
    vdup KFirst [1;2;1] cl four = Ok (marks four [false;false;true;false])
    /\ vdup KLast [1;2;1] cl four = Ok (marks four [true;false;false;false])
    /\ vdup KNone [1;2;1] cl four = Ok (marks four [true;false;true;false])
    /\ vdrop None KNone false [1;2;1] cl four = Ok (mkdf [6;8] [100;101] [[Int 1;Int 3];[Int 4;Int 2]])
    /\ vdrop None KLast true [1;2;1] cl four = Ok (mkdf [0;1;2] [100;101] [[Int 1;Int 3];[Int 1;Int 2];[Int 4;Int 2]])
    /\ vdrop (Some [101]) KFirst true [1;2;1] cl four = Ok (mkdf [0;1] [100;101] [[Int 1;Int 2];[Int 1;Int 3]]).
  Proof. intros cl [<-|[<-|[]]]; repeat split; vm_compute; reflexivity. Qed.
  Example C66_unique_case : vdrop None KFirst true [1;2] [1] [[Int 3];[Int 1];[Int 3]] = Ok (mkdf [0;1] [100] [[Int 3];[Int 1]]).
  Proof. vm_compute. reflexivity. Qed.
  Lemma four_faithful s : In s [None; Some [101]] -> faithful val_same val_text (list_eqb val_eqb) (looked_at Nat.eqb s (vd four)).
  Proof. intros [<-|[<-|[]]] r t I J; cbn in I, J; repeat (destruct I as [<-|I]; [|try easy]); repeat (destruct J as [<-|J]; [|try easy]); reflexivity. Qed.
  Lemma four_holds cl : In cl [[2];[1;1]] -> holds (vf [1;2;1] cl four) (vd four) [1;2;1] cl.
  Proof. intros I. unfold holds, gridded, vf. cbn [pgrid pindex pcols prl pcl]. repeat split; auto.
    - repeat constructor.
    - destruct I as [<-|[<-|[]]]; reflexivity.
    - now intros ? [= <-].
    - now intros ? [= <-]. Qed.
  Example C66_hypotheses : forall cl s, In cl [[2];[1;1]] -> In s [None; Some [101]] ->
    vdrop s KLast true [1;2;1] cl four = Ok (vspec s KLast true four).
  Proof. intros cl s I J. unfold vdrop.
    destruct (@C66_drop_duplicates_partial nat nat val (list val) Nat.eqb Nat.eqb PeanoNat.Nat.eqb_eq PeanoNat.Nat.eqb_eq val_same val_text (list_eqb val_eqb) val_truth Bool val_not (fun b => eq_refl) (Int 0)
      msorted msorted_ok msorted_stable id (fun l => Int (Z.of_nat l)) 0 0 2 1 1 2 Nat.lt_0_1 Nat.lt_0_1 Nat.lt_0_2 true (fun _ _ => true) (fun _ _ => true) zargsort zargsort_ok
      s KLast true (vf [1;2;1] cl four) (vd four) [1;2;1] cl) as (f' & E1 & E2).
    - now apply four_holds.
    - discriminate.
    - destruct I as [<-|[<-|[]]]; repeat constructor.
    - destruct I as [<-|[<-|[]]]; discriminate.
    - cbn. lia.
    - right. now apply four_faithful.
    - intros hs ->. destruct J as [J|[J|[]]]; [discriminate|]. injection J as <-. repeat split; try discriminate.
      + intros h [<-|[]]. right. now left.
      + repeat constructor; cbn; intuition discriminate.
    - intros (_ & _ & X & _). discriminate.
    - rewrite E1. exact E2. Qed.

  (** 0.0 and -0.0.  pandas finds that row 6 repeats row 5, and so does Modin if the frame is one block wide; if it is
      two blocks wide, it does not. *)
  Definition zeros := [[Float 0;Float 7];[NegZero;Float 7]].
  Theorem C66_zeros_refuted :
    @duplicated nat nat val val_same 0 Bool KFirst (vd zeros) = marks zeros [false;true]
    /\ vdup KFirst [2] [2] zeros = Ok (marks zeros [false;true])
    /\ vdup KFirst [2] [1;1] zeros = Ok (marks zeros [false;false]).
  Proof. repeat split; vm_compute; reflexivity. Qed.

  (** 2^53 and 2^53+1 beside a column of floats: two different rows.  Modin, if the frame is two blocks wide, drops the
      second one. *)
  Definition big := [[Int (2 ^ 53);Float 7];[Int (2 ^ 53 + 1);Float 7]].
  Theorem C66_rows_lost_refuted :
    vspec None KFirst false big = vd big
    /\ vdrop None KFirst false [2] [2] big = Ok (vd big)
    /\ vdrop None KFirst false [2] [1;1] big = Ok (mkdf [5] [100;101] [[Int (2 ^ 53);Float 7]]).
  Proof. repeat split; vm_compute; reflexivity. Qed.

  (** [keep="last", ignore_index=True] on one column: Modin keeps the first ones. *)
  Theorem C66_last_refuted :
    vspec None KLast true [[Int 3];[Int 1];[Int 3]] = mkdf [0;1] [100] [[Int 1];[Int 3]]
    /\ vdrop None KLast true [3] [1] [[Int 3];[Int 1];[Int 3]] = Ok (mkdf [0;1] [100] [[Int 3];[Int 1]]).
  Proof. repeat split; vm_compute; reflexivity. Qed.
End Concrete.
Print Assumptions C66_zeros_refuted.
Print Assumptions C66_rows_lost_refuted.
Print Assumptions C66_last_refuted.
