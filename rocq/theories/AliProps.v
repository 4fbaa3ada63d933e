(** C76: several names for the same data.  A copy is independent, a shallow copy and a selected column share the
    data: what the objects show after any history of copies, selections and in-place calls. *)
From Verif Require Import Base AliSpec AliModel AliProofs AliProofs2 AliProofs3 AliProofs4 AliProofs5.

Section C76.
Variables (L A : Type) (leqb : L -> L -> bool) (nan zero : A) (lab : nat -> L).
Notation op := (op L A).
Notation modin h := (m_run leqb nan zero lab h).
Notation pandas h := (p_run leqb nan lab h).

(** Every history of new objects, deep and shallow copies, [DataFrame(df)] and cell writes, in which columns are
    assigned, rows dropped and labels set only on objects that share nothing: every object shows what it shows in
    pandas. *)
Theorem C76_careful_partial (h : list op) : careful h ->
  forall o, mread (modin h) o = pread nan (pandas h) o.
Proof. intros C o. symmetry. exact (s_read (careful_sim leqb nan zero lab C) o). Qed.

(** Whatever the history: a call changes no object that was not made from its target, or its target from it,
    without copying. *)
Theorem C76_isolated (h : list op) x o y : target x = Some o -> y < length (fams true h) ->
  ~ related true h o y -> mread (modin (h ++ [x])) y = mread (modin h) y.
Proof. intros T Hy N. pose proof (run_inv leqb nan zero lab h) as I. rewrite run_snoc.
  rewrite <- (i_tf I) in Hy.
  assert (Ne : o < size (modin h) -> nth y (fams true h) 0 <> nth o (fams true h) 0).
  { intros Ho E. apply N. unfold related. rewrite <- (i_tf I). auto. }
  assert (U : forall t, mread (update_inplace leqb nan zero o t (modin h)) y = mread (modin h) y).
  { intros t. destruct (Nat.lt_ge_cases o (size (modin h))) as [Ho|Ho].
    - apply (touched_read (update_inv leqb nan zero o t I)); [apply I | auto].
    - apply (touched_read (update_unknown_touched leqb nan zero (fun _ => False) t _ Ho (i_pointed I))); [apply I | easy]. }
  assert (R : forall t, mread (relabel o t (modin h)) y = mread (modin h) y).
  { intros t. destruct (Nat.lt_ge_cases o (size (modin h))) as [Ho|Ho].
    - eapply relabel_read; eauto.
    - unfold relabel, known. destruct (Nat.ltb_spec o (length (m_objs (modin h)))); [unfold size in Ho; lia | reflexivity]. }
  destruct x; cbn [target] in T; try discriminate; injection T as ->; cbn [m_step].
  - destruct (in_table _ _ _); auto.
  - destruct (_ && _); auto.
  - destruct (is_array _); auto.
  - destruct (_ && _); auto.
  - destruct (_ && _); auto. Qed.

(** A call that makes an object changes none. *)
Theorem C76_creation_harmless (h : list op) x y : creates x = true -> y < length (fams true h) ->
  mread (modin (h ++ [x])) y = mread (modin h) y.
Proof. intros T Hy. pose proof (run_inv leqb nan zero lab h) as I. rewrite run_snoc. rewrite <- (i_tf I) in Hy.
  set (s := modin h) in *.
  assert (C : forall k t par, mread (create s k t par) y = mread s y).
  { intros k t par. change (create s k t par) with (appended s [t] (MObj k (length (m_qcs s)) [] par)).
    rewrite mread_app by apply I. destruct (Nat.eqb_spec y (size s)); [lia | reflexivity]. }
  assert (K : forall o k qs q, o < size s -> mread (add_sibling (appended s qs (MObj k q [] None)) o (size s)) y = mread s y).
  { intros o k qs q Ho.
    destruct (@add_ok L A (appended s qs (MObj k q [] None)) o (size s)) as [B _].
    { rewrite app_size. lia. } { rewrite app_size. lia. } { lia. } { unfold sibs. now rewrite app_new. }
    { intros z Hz. unfold sibs in Hz. rewrite app_old in Hz by lia. rewrite app_size.
      destruct (i_sibs I z Ho Hz). lia. }
    rewrite (mread_but _ B), mread_app by apply I. destruct (Nat.eqb_spec y (size s)); [lia | reflexivity]. }
  destruct x; cbn [creates] in T; try discriminate; cbn [m_step].
  - apply C.
  - apply C.
  - destruct (known s o) eqn:E; [|apply C]. apply Nat.ltb_lt in E. destruct (is_array (mkind s o)); [now apply (K o _ [_])|].
    rewrite <- (app_nil_r (m_qcs s)) at 1. now apply (K o _ []).
  - destruct (is_frame _); [|apply C]. destruct (known s o) eqn:E; [|apply C]. apply Nat.ltb_lt in E. now apply (K o _ [_]).
  - destruct (known s o) eqn:E; [|apply C]. apply Nat.ltb_lt in E. now apply (K o _ [_]).
  - destruct (is_frame _); [|apply C]. destruct (times _ _ _) as [|[|]]; try apply C. destruct (where_ _ _ _); [|apply C].
    destruct (nth_error _ _); apply C.
  - destruct (is_frame _); [|apply C]. destruct (nth_error _ _); [|apply C]. destruct (nth_error _ _); apply C.
  - destruct (is_series _); [|apply C]. destruct (t_cols _) as [|? [|]]; apply C. Qed.

(** Whatever the history: a cell written through one of several shallow copies is seen through all of them. *)
Theorem C76_copies_see (h : list op) o i j v y : related false h o y ->
  in_table i j (mread (modin h) o) = true ->
  mread (modin (h ++ [Write o i j v])) y = cell_set i j v (mread (modin h) o).
Proof. intros (Ho & Hy & E) It. pose proof (run_inv leqb nan zero lab h) as I. rewrite <- (i_sf I) in Ho, Hy.
  rewrite run_snoc. cbn [m_step]. rewrite It. eapply update_seen; eauto. Qed.

Hypothesis leqb_ok : forall x y, leqb x y = true <-> x = y.

(** [s = df[l]] and then any number of [s.iloc[i] = v], with nothing in between: [s] and the column of [df] show
    the writes, and no object but [df] and its shallow copies changes.  [n] is the number of [s]. *)
Theorem C76_write_through_partial (h : list op) o l j ws :
  let df := mread (modin h) o in
  let n := length (kinds h) in
  let h' := h ++ Column o l :: map (fun w => Write n (fst w) 0 (snd w)) ws in
  let c := fold_left (fun c w => put (fst w) (snd w) c) ws (nth j (t_cols df) []) in
  o < n -> nth o (kinds h) Frame = Frame -> proper df ->
  times leqb l (t_names df) = 1 -> where_ leqb l (t_names df) = Some j ->
  mread (modin h') n = Tab (t_rows df) [l] [c] /\
  mread (modin h') o = Tab (t_rows df) (t_names df) (put j c (t_cols df)) /\
  forall y, y < n -> ~ related false h o y -> mread (modin h') y = mread (modin h) y.
Proof. intros df n h' c Ho Kf P T W.
  destruct (@view_history L A leqb nan zero lab leqb_ok h o l j Ho Kf P T W ws) as (_ & _ & _ & _ & R1 & R2 & R3).
  split; [exact R1|]. split; [exact R2 | exact R3]. Qed.

End C76.
Print Assumptions C76_careful_partial.
Print Assumptions C76_isolated.
Print Assumptions C76_creation_harmless.
Print Assumptions C76_copies_see.
Print Assumptions C76_write_through_partial.

(** ** Instances and counterexamples: numbers as labels, optional numbers as cells *)

Definition ali_modin (h : list (op nat (option nat))) := m_run Nat.eqb None (Some 0) (fun i => i) h.
Definition ali_pandas (h : list (op nat (option nat))) := p_run Nat.eqb None (fun i => i) h.
Definition ali_df : op nat (option nat) :=
  New Frame (Tab [10; 20] [1; 2] [[Some 1; Some 2]; [Some 3; Some 4]]).
Definition ali_s : op nat (option nat) := New Ser (Tab [10; 20; 30] [1] [[Some 1; Some 2; Some 3]]).
Definition ali_shows (h : list (op nat (option nat))) (o : nat) (m p : table nat (option nat)) : Prop :=
  mread (ali_modin h) o = m /\ pread None (ali_pandas h) o = p.

Definition ali_careful : list (op nat (option nat)) :=
  [ali_df; ShallowCopy 0; Construct 1; DeepCopy 0; Write 2 0 1 (Some 7); SetItem 3 5 [Some 8; Some 9];
   SetNames 3 [6; 7; 8]; Write 0 1 0 None; KeepRows 3 [1]].
Ltac ali_alone := let y := fresh in let H := fresh in
  intros y H; destruct H as (_ & H & E); cbn in H, E;
  do 4 (destruct y as [|y]; [cbn in E; try reflexivity; try discriminate|]); cbn in H; lia.
Example ali_careful_ok : careful ali_careful.
Proof. change ali_careful with ((((((((([] ++ [ali_df]) ++ [ShallowCopy 0]) ++ [Construct 1]) ++ [DeepCopy 0]) ++ [Write 2 0 1 (Some 7)])
    ++ [SetItem 3 5 [Some 8; Some 9]]) ++ [SetNames 3 [6; 7; 8]]) ++ [Write 0 1 0 None]) ++ [KeepRows 3 [1]]).
  repeat apply careful_snoc; try constructor; cbn; auto; try ali_alone; try discriminate.
  split; [reflexivity | repeat constructor]. Qed.
Example ali_careful_reads :
  mread (ali_modin ali_careful) 1 = Tab [10; 20] [1; 2] [[Some 1; None]; [Some 7; Some 4]] /\
  mread (ali_modin ali_careful) 3 = Tab [20] [6; 7; 8] [[Some 2]; [Some 4]; [Some 9]].
Proof. split; reflexivity. Qed.

(** A Series that shares nothing with the frame beside it, and a column that does. *)
Example ali_isolated : ~ related true [ali_df; ali_s; Column 0 2] 1 2 /\ related true [ali_df; ali_s; Column 0 2] 0 2.
Proof. unfold related. cbn. split; [intros (_ & _ & E); discriminate E | lia]. Qed.

Example ali_write_through :
  let h := [ali_df; ShallowCopy 0] in
  0 < length (kinds h) /\ nth 0 (kinds h) Frame = Frame /\ proper (mread (ali_modin h) 0) /\
  times Nat.eqb 2 (t_names (mread (ali_modin h) 0)) = 1 /\ where_ Nat.eqb 2 (t_names (mread (ali_modin h) 0)) = Some 1.
Proof. cbn. repeat split; auto. repeat constructor. Qed.

(** [b = a.copy(deep=False); b["c"] = ...]: [a] gets the column too. *)
Theorem C76_new_column_refuted : ali_shows [ali_df; ShallowCopy 0; SetItem 1 3 [Some 5; Some 6]] 0
  (Tab [10; 20] [1; 2; 3] [[Some 1; Some 2]; [Some 3; Some 4]; [Some 5; Some 6]])
  (Tab [10; 20] [1; 2] [[Some 1; Some 2]; [Some 3; Some 4]]).
Proof. split; reflexivity. Qed.
(** [b = a.copy(deep=False); b["x"] = ...] overwrites [a["x"]]. *)
Theorem C76_column_overwritten_refuted : ali_shows [ali_df; ShallowCopy 0; SetItem 1 1 [Some 5; Some 6]] 0
  (Tab [10; 20] [1; 2] [[Some 5; Some 6]; [Some 3; Some 4]])
  (Tab [10; 20] [1; 2] [[Some 1; Some 2]; [Some 3; Some 4]]).
Proof. split; reflexivity. Qed.
(** [b = a.copy(deep=False); b.columns = ...] renames the columns of [a]. *)
Theorem C76_shallow_labels_refuted : ali_shows [ali_df; ShallowCopy 0; SetNames 1 [7; 8]] 0
  (Tab [10; 20] [7; 8] [[Some 1; Some 2]; [Some 3; Some 4]])
  (Tab [10; 20] [1; 2] [[Some 1; Some 2]; [Some 3; Some 4]]).
Proof. split; reflexivity. Qed.
(** [b = pd.DataFrame(a); b.drop(..., inplace=True)] drops the rows of [a]. *)
Theorem C76_constructor_drop_refuted : ali_shows [ali_df; Construct 0; KeepRows 1 [0]] 0
  (Tab [10] [1; 2] [[Some 1]; [Some 3]])
  (Tab [10; 20] [1; 2] [[Some 1; Some 2]; [Some 3; Some 4]]).
Proof. split; reflexivity. Qed.
(** [b = pd.DataFrame(a); b.columns = ...; a.iloc[0, 0] = 9]: [b] loses its own labels. *)
Theorem C76_constructor_labels_refuted : ali_shows [ali_df; Construct 0; SetNames 1 [7; 8]; Write 0 0 0 (Some 9)] 1
  (Tab [10; 20] [1; 2] [[Some 9; Some 2]; [Some 3; Some 4]])
  (Tab [10; 20] [7; 8] [[Some 9; Some 2]; [Some 3; Some 4]]).
Proof. split; reflexivity. Qed.
(** [s = df["a"]; t = df["a"]; s.iloc[0] = 9; t.iloc[1] = 8]: the first write is lost. *)
Theorem C76_lost_write_refuted :
  ali_shows [ali_df; Column 0 1; Column 0 1; Write 1 0 0 (Some 9); Write 2 1 0 (Some 8)] 0
  (Tab [10; 20] [1; 2] [[Some 1; Some 8]; [Some 3; Some 4]])
  (Tab [10; 20] [1; 2] [[Some 9; Some 8]; [Some 3; Some 4]]).
Proof. split; reflexivity. Qed.
(** [s = df["a"]; df.iloc[0, 0] = 9; s.iloc[1] = 8]: what was written to [df] is undone. *)
Theorem C76_write_undone_refuted :
  ali_shows [ali_df; Column 0 1; Write 0 0 0 (Some 9); Write 1 1 0 (Some 8)] 0
  (Tab [10; 20] [1; 2] [[Some 1; Some 8]; [Some 3; Some 4]])
  (Tab [10; 20] [1; 2] [[Some 9; Some 8]; [Some 3; Some 4]]).
Proof. split; reflexivity. Qed.
(** [s = df["a"]; df.iloc[0, 0] = 9]: [s] does not see it. *)
Theorem C76_column_stale_refuted : ali_shows [ali_df; Column 0 1; Write 0 0 0 (Some 9)] 1
  (Tab [10; 20] [1] [[Some 1; Some 2]]) (Tab [10; 20] [1] [[Some 9; Some 2]]).
Proof. split; reflexivity. Qed.
(** [s = df["a"]; s.reset_index(drop=True, inplace=True); s.iloc[0] = 9]: the whole column of [df] is missing. *)
Theorem C76_relabelled_column_refuted : ali_shows [ali_df; Column 0 1; SetRows 1 [0; 1]; Write 1 0 0 (Some 9)] 0
  (Tab [10; 20] [1; 2] [[None; None]; [Some 3; Some 4]])
  (Tab [10; 20] [1; 2] [[Some 9; Some 2]; [Some 3; Some 4]]).
Proof. split; reflexivity. Qed.
(** [s = df["a"]; s.name = "b"; s.iloc[0] = 9]: [df] gets a column "b". *)
Theorem C76_renamed_column_refuted : ali_shows [ali_df; Column 0 1; SetNames 1 [5]; Write 1 0 0 (Some 9)] 0
  (Tab [10; 20] [1; 2; 5] [[Some 1; Some 2]; [Some 3; Some 4]; [Some 9; Some 2]])
  (Tab [10; 20] [1; 2] [[Some 9; Some 2]; [Some 3; Some 4]]).
Proof. split; reflexivity. Qed.
(** [s = df.iloc[:, 0]; s.iloc[0] = 9]: [df] gets a row named after the column, and the column is unchanged. *)
Theorem C76_iloc_column_refuted : ali_shows [ali_df; IlocColumn 0 0; Write 1 0 0 (Some 9)] 0
  (Tab [10; 20; 1] [1; 2] [[Some 1; Some 2; None]; [Some 3; Some 4; None]])
  (Tab [10; 20] [1; 2] [[Some 9; Some 2]; [Some 3; Some 4]]).
Proof. split; reflexivity. Qed.
(** [t = s.iloc[1:]; t.iloc[0] = 9]: [s] gets an entry named after itself, and the written one is unchanged. *)
Theorem C76_slice_refuted : ali_shows [ali_s; Slice 0 1 3; Write 1 0 0 (Some 9)] 0
  (Tab [10; 20; 30; 1] [1] [[Some 1; Some 2; Some 3; None]])
  (Tab [10; 20; 30] [1] [[Some 1; Some 9; Some 3]]).
Proof. split; reflexivity. Qed.
(** [a = modin.numpy.array(df, copy=False); a[0, 0] = 9]: [df] loses its labels. *)
Theorem C76_array_labels_refuted : ali_shows [ali_df; AsArray 0; Write 1 0 0 (Some 9)] 0
  (Tab [0; 1] [0; 1] [[Some 9; Some 2]; [Some 3; Some 4]])
  (Tab [10; 20] [1; 2] [[Some 9; Some 2]; [Some 3; Some 4]]).
Proof. split; reflexivity. Qed.
(** [s = df["a"]; t = s.copy(deep=False); t.iloc[0] = 9]: [df] does not see it although [s] does. *)
Theorem C76_copied_column_refuted : ali_shows [ali_df; Column 0 1; ShallowCopy 1; Write 2 0 0 (Some 9)] 0
  (Tab [10; 20] [1; 2] [[Some 1; Some 2]; [Some 3; Some 4]])
  (Tab [10; 20] [1; 2] [[Some 9; Some 2]; [Some 3; Some 4]]).
Proof. split; reflexivity. Qed.
Print Assumptions C76_new_column_refuted.
Print Assumptions C76_column_overwritten_refuted.
Print Assumptions C76_shallow_labels_refuted.
Print Assumptions C76_constructor_drop_refuted.
Print Assumptions C76_constructor_labels_refuted.
Print Assumptions C76_lost_write_refuted.
Print Assumptions C76_write_undone_refuted.
Print Assumptions C76_column_stale_refuted.
Print Assumptions C76_relabelled_column_refuted.
Print Assumptions C76_renamed_column_refuted.
Print Assumptions C76_iloc_column_refuted.
Print Assumptions C76_slice_refuted.
Print Assumptions C76_array_labels_refuted.
Print Assumptions C76_copied_column_refuted.
