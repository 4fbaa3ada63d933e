(** C72: [df.melt(id_vars, value_vars, var_name, value_name, ignore_index)].

    MelSpec.v: [melted name num ids vals var value d D] says that [D] is the long form of [d], with one row for each row of
    [d] and each value column; the columns are given by their positions.  [shows f d rl cl] (SelProofs5.v): the frame [f]
    stands for the table [d], its blocks cut at [rl], [cl]. *)
From Coq Require Import Permutation.
From Verif Require Import Base Table ChunkModel ChunkSpec GridModel GridSpec FrameSpec GridProofs GridProofs2 GridProofs3 GridProofs5 SelSpec SelModel
  SelProofs SelProofs4 SelProofs5 SelProofs6 SelProofs7 LocSpec LocModel InsProps KeyProofs MelSpec MelModel MelProofs MelProofs2 MelProofs3.

Section C72.
  Context {L H A : Type}.
  Variable leqb : L -> L -> bool.
  Variable heqb : H -> H -> bool.
  Hypothesis leqb_ok : forall x y, leqb x y = true <-> x = y.
  Hypothesis heqb_ok : forall x y, heqb x y = true <-> x = y.
  Variables min_row min_col nparts : nat.
  Hypothesis mr : 0 < min_row.
  Hypothesis mc : 0 < min_col.
  Hypothesis np : 0 < nparts.
  Variables known_l known_w : nat -> nat -> bool.
  Variable argsort : list Z -> list nat.
  Hypothesis argsort_ok : forall zs, sorts zs (argsort zs).
  Variable fill : A.
  Variable name : H -> A.
  Variable num : nat -> L.
  Notation melt := (df_melt leqb heqb min_row min_col nparts known_l known_w argsort fill name num).
  Notation seen f := (pf_to_pandas leqb heqb f).

  (** C72, with [value_vars]: whatever the partitioning, the long form.  Missing (all refuted): a row of blocks without
      rows, if there are identifiers; value columns that do not exist, come twice or are identifiers; a name for the values
      that is a column; [ignore_index=False].  Repeated column labels are not modelled. *)
  Theorem C72_values_partial :
    forall (f : @pframe L H A) (d : df L H A) rl cl ids idp vals valp var value,
      shows f d rl cl -> NoDup (dcols d) -> NoDup ids -> NoDup vals -> (forall h, In h ids -> ~ In h vals) -> vals <> [] ->
      Forall2 (fun h p => nth_error (dcols d) p = Some h) ids idp -> Forall2 (fun h p => nth_error (dcols d) p = Some h) vals valp ->
      ~ In value (dcols d) -> ids = [] \/ Forall (fun n => 0 < n) rl ->
      exists f' D, melt ids (Some vals) var value true f = Ok f' /\ seen f' = Ok D /\ melted name num idp valp var value d D.
  Proof.
    intros f d rl cl ids idp vals valp var value Sh ND Ni Nv Dj Hv Fi Fv Nval Hp. unfold df_melt. cbn [rbind].
    destruct (@qc_melt_ok L H A leqb heqb leqb_ok heqb_ok min_row min_col nparts mr mc np known_l known_w argsort argsort_ok fill name num
      f d rl cl ids idp vals valp var value Sh ND Ni Nv Dj Hv Fi Fv Nval Hp) as (f' & D & rl' & cl' & E & Sh' & M).
    exists f', D. split; [exact E|]. split; [|exact M]. destruct Sh' as (Hh & _ & _ & P1 & P2).
    apply (@pf_to_pandas_holds L H A leqb heqb leqb_ok heqb_ok f' D rl' cl' Hh). intros _. rewrite P1, P2. now split.
  Qed.

  (** C72, without [value_vars]: all the columns that are not identifiers. *)
  Theorem C72_rest_partial :
    forall (f : @pframe L H A) (d : df L H A) rl cl ids idp var value,
      shows f d rl cl -> NoDup (dcols d) -> NoDup ids -> Forall2 (fun h p => nth_error (dcols d) p = Some h) ids idp -> length ids < ncols d ->
      ~ In value (dcols d) -> ids = [] \/ Forall (fun n => 0 < n) rl ->
      exists f' D, melt ids None var value true f = Ok f' /\ seen f' = Ok D
        /\ melted name num idp (filter (fun p => negb (existsb (Nat.eqb p) idp)) (seq 0 (ncols d))) var value d D.
  Proof.
    intros f d rl cl ids idp var value Sh ND Ni Fi Hl Nval Hp.
    set (valp := filter (fun p => negb (existsb (Nat.eqb p) idp)) (seq 0 (ncols d))).
    set (vals := filter (fun h => negb (has heqb h ids)) (dcols d)).
    assert (Pc : pcols f = Some (dcols d)) by apply Sh.
    assert (Hin : forall h p, nth_error (dcols d) p = Some h -> In h ids <-> In p idp).
    { intros h p E. split; intros I.
      - destruct (In_nth_error _ _ I) as [k Hk]. destruct (forall2_nth_l Fi k Hk) as (q & Eq & E1). apply nth_error_In in Eq.
        replace p with q; [exact Eq|]. apply (proj1 (NoDup_nth_error (dcols d)) ND); [apply nth_error_Some; congruence|congruence].
      - clear - Fi I E. induction Fi as [|h' p' ids idp E' F IH]; [easy|]. destruct I as [-> | I]; [left; congruence|right; auto]. }
    assert (Fv : Forall2 (fun h p => nth_error (dcols d) p = Some h) vals valp).
    { unfold vals, valp, ncols.
      assert (G : forall a l, (forall k h, nth_error l k = Some h -> nth_error (dcols d) (a + k) = Some h) ->
        Forall2 (fun h p => nth_error (dcols d) p = Some h) (filter (fun h => negb (has heqb h ids)) l) (filter (fun p => negb (existsb (Nat.eqb p) idp)) (seq a (length l)))).
      { intros a l. revert a. induction l as [|h l IH]; intros a Hk; [constructor|]. cbn [length seq filter].
        assert (E : nth_error (dcols d) a = Some h). { specialize (Hk 0 h eq_refl). now rewrite Nat.add_0_r in Hk. }
        assert (Eb : has heqb h ids = existsb (Nat.eqb a) idp).
        { apply eq_true_iff_eq. rewrite (has_in heqb heqb_ok), (Hin h a E), existsb_exists. split; [intros I; exists a; split; [exact I|apply Nat.eqb_refl]|intros (x & I & Ex)]. apply Nat.eqb_eq in Ex. now subst. }
        rewrite Eb. specialize (IH (S a)). destruct (existsb (Nat.eqb a) idp); cbn [negb]; [|constructor; [exact E|]]; apply IH; intros k h' E'; replace (S a + k) with (a + S k) by lia; apply Hk; exact E'. }
      apply (G 0). auto. }
    assert (Nv : vals <> []).
    { intros E. assert (incl (dcols d) ids).
      { intros h I. destruct (has heqb h ids) eqn:Eh; [now apply (has_in heqb heqb_ok)|]. assert (In h vals) by (unfold vals; apply filter_In; rewrite Eh; auto). rewrite E in H0. easy. }
      pose proof (NoDup_incl_length ND H0). unfold ncols in Hl. lia. }
    destruct (@C72_values_partial f d rl cl ids idp vals valp var value Sh ND Ni) as (f' & D & E1 & E2 & E3); auto.
    - now apply NoDup_filter.
    - intros h I1 I2. unfold vals in I2. apply filter_In in I2 as [_ I2]. apply negb_true_iff in I2. apply (has_not heqb heqb_ok) in I2. auto.
    - exists f', D. split; [|auto]. rewrite <- E1. unfold df_melt. rewrite Pc. cbn [labels rbind].
      rewrite (proj2 (forallb_forall _ _)); [reflexivity|]. intros h I. apply (has_in heqb heqb_ok). destruct (In_nth_error _ _ I) as [k Hk]. destruct (forall2_nth_l Fi k Hk) as (q & _ & E). eapply nth_error_In; eauto.
  Qed.

  (** C72: without [value_vars], an identifier that is not a column is a KeyError. *)
  Theorem C72_unknown_id :
    forall (f : @pframe L H A) (d : df L H A) rl cl ids h var value i,
      shows f d rl cl -> In h ids -> ~ In h (dcols d) -> melt ids None var value i f = Err KeyError.
  Proof.
    intros f d rl cl ids h var value i Sh I N. unfold df_melt. assert (Pc : pcols f = Some (dcols d)) by apply Sh. rewrite Pc. cbn [labels rbind].
    destruct (forallb (fun h => has heqb h (dcols d)) ids) eqn:E; [|reflexivity]. rewrite forallb_forall in E. specialize (E h I). apply (has_in heqb heqb_ok) in E. contradiction.
  Qed.
End C72.

Print Assumptions C72_values_partial.
Print Assumptions C72_rest_partial.
Print Assumptions C72_unknown_id.

(** * Refuted *)
Definition mel_d : df nat nat nat := mkdf [0;1;2] [10;11;12] [[1;2;3];[4;5;6];[7;8;9]].
Definition mel_run ids vals value i f := @df_melt nat nat nat Nat.eqb Nat.eqb 1 1 2 (fun _ _ => true) (fun _ _ => true) zargsort 99 (fun h => 100 + h) (fun n => n) ids vals 50 value i f.
Definition mel_seen (r : res (@pframe nat nat nat)) : res (df nat nat nat) := do f <- r; pf_to_pandas Nat.eqb Nat.eqb f.

(** a value column that does not exist: the last column is taken (pandas: KeyError) *)
Theorem C72_absent_column_refuted :
  mel_seen (mel_run [10] (Some [13]) 51 true (ins_frame mel_d [2;1] [2;1])) = Ok (mkdf [0;1;2] [10;50;51] [[1;112;3];[4;112;6];[7;112;9]]).
Proof. vm_compute. reflexivity. Qed.

(** a value column given twice: an error (pandas takes it once) *)
Theorem C72_column_twice_refuted : mel_seen (mel_run [10] (Some [11;11]) 51 true (ins_frame mel_d [2;1] [2;1])) = Err InternalBug.
Proof. vm_compute. reflexivity. Qed.

(** an identifier among the value columns: an error (pandas leaves it out of the values) *)
Theorem C72_id_as_value_refuted : mel_seen (mel_run [10] (Some [10;11]) 51 true (ins_frame mel_d [2;1] [2;1])) = Err InternalBug.
Proof. vm_compute. reflexivity. Qed.

(** a row of blocks without rows: the frame of the identifiers drops it, and the blocks are paired wrongly.  All the values
    are lost; without the identifiers they are there. *)
Definition mel_gap : @pframe nat nat nat := mkpf (cut_table [0;3] [2;1] mel_d) (Some [0;1;2]) (Some [10;11;12]) (Some [0;3]) (Some [2;1]).
Theorem C72_empty_block_refuted :
  shows mel_gap mel_d [0;3] [2;1]
  /\ mel_seen (mel_run [10] (Some [12]) 51 true mel_gap) = Ok (mkdf [0;1;2] [10;50;51] [[1;112;99];[4;112;99];[7;112;99]])
  /\ mel_seen (mel_run [] (Some [12]) 51 true mel_gap) = Ok (mkdf [0;1;2] [50;51] [[112;3];[112;6];[112;9]]).
Proof.
  split; [|split; vm_compute; reflexivity].
  repeat split; cbn; auto; try discriminate; try (intros ? [= <-]; reflexivity).
Qed.

(** a name for the values that is a column: an error or not, depending on the partitioning (pandas: ValueError) *)
Theorem C72_value_name_refuted :
  mel_seen (mel_run [] (Some [10]) 12 true (ins_frame mel_d [3] [3])) = Err ValueError
  /\ mel_seen (mel_run [] (Some [10]) 12 true (ins_frame mel_d [3] [2;1])) = Ok (mkdf [0;1;2] [50;12] [[110;1];[110;4];[110;7]]).
Proof. split; vm_compute; reflexivity. Qed.

(** [ignore_index=False] has no effect: the rows are numbered (pandas repeats the labels) *)
Theorem C72_keep_index_refuted :
  forall (L H A : Type) leqb heqb mr mc np kl kw argsort fill name num ids vals var value f,
    @df_melt L H A leqb heqb mr mc np kl kw argsort fill name num ids vals var value false f
    = @df_melt L H A leqb heqb mr mc np kl kw argsort fill name num ids vals var value true f.
Proof. reflexivity. Qed.
Theorem C72_no_columns_refuted :
  mel_seen (mel_run [10] (Some []) 51 true (ins_frame mel_d [3] [3])) = Ok (mkdf [0;1;2;3;4;5] [10;50;51] [[1;111;2];[4;111;5];[7;111;8];[1;112;3];[4;112;6];[7;112;9]]).
Proof. vm_compute. reflexivity. Qed.

Print Assumptions C72_absent_column_refuted.
Print Assumptions C72_column_twice_refuted.
Print Assumptions C72_id_as_value_refuted.
Print Assumptions C72_empty_block_refuted.
Print Assumptions C72_value_name_refuted.
Print Assumptions C72_keep_index_refuted.
Print Assumptions C72_no_columns_refuted.

(** * Cases *)
Example mel_ex_ids : mel_seen (mel_run [11] (Some [12;10]) 51 true (ins_frame mel_d [2;1] [2;1]))
  = Ok (mkdf [0;1;2;3;4;5] [11;50;51] [[2;110;1];[5;110;4];[8;110;7];[2;112;3];[5;112;6];[8;112;9]]).
Proof. vm_compute. reflexivity. Qed.
Example mel_ex_all : mel_seen (mel_run [] None 51 true (ins_frame mel_d [2;1] [2;1]))
  = Ok (mkdf [0;1;2;3;4;5;6;7;8] [50;51] [[110;1];[110;4];[111;2];[111;5];[110;7];[111;8];[112;3];[112;6];[112;9]]).
Proof. vm_compute. reflexivity. Qed.
Example mel_ex_hyps : shows (ins_frame mel_d [2;1] [2;1]) mel_d [2;1] [2;1] /\ NoDup (dcols mel_d) /\ Forall2 (fun h p => nth_error (dcols mel_d) p = Some h) [11] [1]
  /\ Forall2 (fun h p => nth_error (dcols mel_d) p = Some h) [12;10] [2;0] /\ ~ In 51 (dcols mel_d) /\ Forall (fun n => 0 < n) [2;1].
Proof.
  repeat split; cbn; auto; try discriminate; try (intros ? [= <-]; reflexivity); try (repeat constructor; cbn; intuition discriminate).
Qed.
