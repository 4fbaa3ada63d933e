(** C32: the dtypes that are tracked lazily are the dtypes of the columns. *)
From Verif Require Import Base DtypeSpec DtypeModel DtypeFrames DtypeHist DtypeProofs DtypeProofs2 DtypeProofs3 DtypeProofs4
  DtypeProofs5 DtypeProofs6 DtypeProofs7 DtypeProofs8.

Section Props.
  Context {H T : Type}.
  Variable hdec : forall a b : H, {a = b} + {a <> b}.
  Variable tdec : forall a b : T, {a = b} + {a <> b}.
  Variable common : list T -> T.
  Variable tfloat : T.
  Notation run := (run hdec tdec common tfloat).
  Notation step := (step hdec tdec common tfloat).
  Notation follows := (follows hdec tdec common tfloat).

  (** The columns the model takes for the truth are the ones pandas would give: every operation that succeeds turns
      the dtypes of all frames into what the specification says. *)
  Theorem C32_columns_follow_pandas st o st' b :
    exec hdec tdec common tfloat st o = Ok (st', b) -> map truth st' = truths hdec common tfloat (map truth st) o.
  Proof. apply exec_truths. Qed.

  (** After any history of making, selecting, renaming, gluing and assigning, of computing column names and of
      materialising, whatever a frame claims about a column is true, and whenever [dtypes] is asked for, it is the
      list of dtypes of the columns in their order.  Here the column names of every frame made from outside are
      known, and nothing is announced for "all remaining columns". *)
  Theorem C32_known_names_partial os o :
    follows (fun st o => admissible st o /\ named o) [] (os ++ [o]) ->
    right (fst (run [] os)) (snd (step (fst (run [] os)) o)) /\ true_claims (fst (step (fst (run [] os)) o)).
  Proof. intros FO. apply follows_app in FO as [FO [A NM]].
    assert (X : forall os st, Forall (@fgood H T hdec) st -> Forall (@pf H T) st -> follows (fun st o => admissible st o /\ named o) st os ->
              Forall (@fgood H T hdec) (fst (run st os)) /\ Forall (@pf H T) (fst (run st os))).
    { clear. induction os as [|o os IH]; intros st G P FO; cbn; [now split|]. destruct FO as [[A NM] FO].
      assert (C : careful hdec st o).
      { destruct o; try exact I; intros xs EL.
        - apply plain_careful_cols. now apply (@looks_plain H T st is).
        - apply (@plain_careful_rows H T hdec); [now apply (@looks_good H T hdec st is) | now apply (@looks_plain H T st is)]. }
      destruct (@step_good H T hdec tdec common tfloat st o G A C) as [G' _].
      pose proof (@step_plain H T hdec tdec common tfloat st o G P A NM) as P'.
      destruct (step st o) as [st' b]. cbn in FO, G', P'. specialize (IH st' G' P' FO). destruct (run st' os). exact IH. }
    destruct (X os [] (Forall_nil _) (Forall_nil _) FO) as [G P]. set (st := fst (run [] os)) in *.
    assert (C : careful hdec st o).
    { destruct o; try exact I; intros xs EL.
      - apply plain_careful_cols. now apply (@looks_plain H T st is).
      - apply (@plain_careful_rows H T hdec); [now apply (@looks_good H T hdec st is) | now apply (@looks_plain H T st is)]. }
    destruct (@step_good H T hdec tdec common tfloat st o G A C) as [G' R]. split; [assumption|].
    intros x Hx. apply (@fgood_claims H T hdec). rewrite Forall_forall in G'. auto. Qed.

  (** With column names not yet known, a dtype announced for the remaining columns, and the set of dtypes asked for,
      the same holds when frames are glued with care: side by side ([careful_cols]), the dtypes each frame knows are in
      the order of its columns, only the last frames that know something have a remaining dtype, and no remaining dtype
      meets columns of unknown dtype; on top of each other ([careful_rows]), the dtypes are in order too, and a frame
      that does not list all its columns is followed by no new names. *)
  Theorem C32_dtypes_right_partial os o :
    follows (fun st o => admissible st o /\ careful hdec st o) [] (os ++ [o]) ->
    right (fst (run [] os)) (snd (step (fst (run [] os)) o)) /\ true_claims (fst (step (fst (run [] os)) o)).
  Proof. intros FO. apply follows_app in FO as [FO [A C]].
    pose proof (@run_good H T hdec tdec common tfloat os [] (Forall_nil _) FO) as G.
    destruct (@step_good H T hdec tdec common tfloat _ o G A C) as [G' R]. split; [assumption|].
    intros x Hx. apply (@fgood_claims H T hdec). rewrite Forall_forall in G'. auto. Qed.
End Props.

Print Assumptions C32_columns_follow_pandas.
Print Assumptions C32_known_names_partial.
Print Assumptions C32_dtypes_right_partial.

(** * Examples.  Dtypes: 0 int, 1 float, 2 string, 9 object. *)
Definition nd := Nat.eq_dec.
Definition common_nat (ts : list nat) : nat :=
  match nodup nd ts with [t] => t | _ => if existsb (Nat.eqb 2) ts then 9 else 1 end.
Notation go := (run nd nd common_nat 1 []).

Lemma follows_cons (P : list (@df nat nat) -> op -> Prop) st o os st' :
  fst (step nd nd common_nat 1 st o) = st' -> P st o -> follows nd nd common_nat 1 P st' os ->
  follows nd nd common_nat 1 P st (o :: os).
Proof. intros <-. now split. Qed.
Ltac walk := repeat match goal with
         | |- follows _ _ _ _ ?P ?s (?o :: ?os) =>
             let s' := eval vm_compute in (fst (step nd nd common_nat 1 s o)) in
             apply (@follows_cons P s o os s'); [vm_compute; reflexivity | cbv beta |]
         | |- follows _ _ _ _ _ _ [] => exact I
         end.

(** A history through most of the code: a partly known frame is selected from, renamed, glued and stacked. *)
Definition story : list (@op nat nat) :=
  [New true [(0, 0); (1, 2); (2, 1)] (SDesc (Some [(1, 2)]) (Some [0; 2]) true);
   Take 0 [2; 1]; Rename 1 [7; 8]; New true [(3, 0)] SSeries; ConcatCols [1; 2]; SetItem 3 (fun l => rev l) 8 0;
   Reorder 4 [2; 1; 0]; New true [(8, 0); (9, 2)] SNone; ConcatRows [5; 6]; Order 7; Rename 7 [1; 2; 3; 4]; Dtypes 7].
Example story_admissible : follows nd nd common_nat 1 (fun st o => admissible st o /\ named o) [] story.
Proof. unfold story.
  walk; (split; [|cbn; repeat split; exact I]); cbn [admissible].
  - split; [repeat constructor; cbn; intuition discriminate|]. cbn. split; [|split; [|split]].
    + exists (fun ct => fst ct =? 1). reflexivity.
    + intros c. cbn. tauto.
    + intros c [<-|[]] X. cbn in X. intuition discriminate.
    + intros _ c. cbn. tauto.
  - repeat constructor; cbn; intuition discriminate.
  - repeat constructor; cbn; intuition discriminate.
  - split; [repeat constructor; cbn; intuition discriminate | exact I].
  - cbn. intros xs [= <-]. cbn. repeat constructor; cbn; intuition discriminate.
  - intros l. apply Permutation_sym, Permutation_rev.
  - repeat constructor; cbn; intuition discriminate.
  - split; [repeat constructor; cbn; intuition discriminate | exact I].
  - exact I. - exact I.
  - repeat constructor; cbn; intuition discriminate.
  - exact I. Qed.
Example story_seen : last (snd (go story)) Done = SawDtypes 7 [(1, 1); (2, 0); (3, 1); (4, 9)].
Proof. reflexivity. Qed.
(** The descriptor really is partly known on the way. *)
Example story_lazy :
  match nth_error (fst (go (firstn 5 story))) 3 with
  | Some x => match dcache x with Some (MDesc d) => (known d, unknown d) = ([(8, 2); (3, 0)], [7]) | _ => False end
  | None => False
  end.
Proof. vm_compute. reflexivity. Qed.

(** A careful history with names not known, a remaining dtype and the set of dtypes. *)
Definition story2 : list (@op nat nat) :=
  [New true [(1, 2)] SSeries; New false [(0, 0); (4, 0)] (SRem 0); ConcatCols [0; 1]; Types 2; Touch 2; Rename 2 [5; 6; 7]; Dtypes 2].
Example story2_careful : follows nd nd common_nat 1 (fun st o => admissible st o /\ careful nd st o) [] story2.
Proof. unfold story2.
  walk; (split; [cbn [admissible] | cbn [careful]]); try exact I.
  - split; [repeat constructor; cbn; intuition discriminate | exact I].
  - split; [repeat constructor; cbn; intuition discriminate|]. cbn. intros ct [<-|[<-|[]]]; reflexivity.
  - cbn. intros xs [= <-]. cbn. repeat constructor; cbn; intuition discriminate.
  - cbn. intros xs [= <-] vs. cbn. intros [= <-]. split; [|split].
    + repeat constructor.
    + cbn. split; [now left|]. split; [right; constructor | exact I].
    + left. repeat constructor.
  - repeat constructor; cbn; intuition discriminate. Qed.
Example story2_seen :
  snd (go story2) = [Done; Done; Done; SawTypes 2 [2; 0]; Done; Done; SawDtypes 2 [(5, 2); (6, 0); (7, 0)]].
Proof. vm_compute. reflexivity. Qed.

(** * Where the claim fails *)
(** The unconditional statement. *)
Definition dtypes_always_right : Prop :=
  forall os : list (@op nat nat), follows nd nd common_nat 1 admissible [] os ->
  forall i s, last (snd (go os)) Done = SawDtypes i s ->
    match nth_error (fst (go os)) i with Some x => s = truth x | None => False end.

Ltac admit_story := walk; cbn [admissible];
  repeat match goal with
         | |- True => exact I
         | |- _ /\ _ => split
         | |- honest _ _ => cbn [honest]
         | |- forall xs, rmap _ _ = Ok xs -> _ => cbn; intros xs [= <-]; cbn
         | |- NoDup _ => repeat constructor; cbn; intuition discriminate
         end.

(** Stacking (dtypes.py:496-509): the column "unknown" filler is applied before later frames bring new names, so a
    name that the first frame has without listing it counts as missing there.  Frame 2 has the int columns 0 and 1 but
    lists only 0; frame 3 has the int column 1: the stacked column 1 is announced as float. *)
Theorem C32_late_names_refuted : ~ dtypes_always_right.
Proof. intros X.
  specialize (X [New true [(0, 0)] SSeries; New false [(1, 0)] SNone; ConcatCols [0; 1]; New true [(1, 0)] SSeries; ConcatRows [2; 3]; Dtypes 4]).
  assert (F : follows nd nd common_nat 1 admissible []
    [New true [(0, 0)] SSeries; New false [(1, 0)] SNone; ConcatCols [0; 1]; New true [(1, 0)] SSeries; ConcatRows [2; 3]; Dtypes 4]).
  { admit_story. }
  specialize (X F 4). vm_compute in X. specialize (X _ eq_refl). discriminate. Qed.

(** Gluing (dtypes.py:572-632) a frame whose columns all have one announced dtype in front of a frame with known
    dtypes: the announced columns are added behind the known ones when the names get known (dtypes.py:171-186), the
    copy turns this order into the dtypes, and a renaming then gives the columns each other's dtypes. *)
Definition swapped_story : list (@op nat nat) :=
  [New false [(0, 0)] (SRem 0); New true [(1, 2)] SSeries; ConcatCols [0; 1]; Touch 2;
   New true [(2, 0)] SSeries; ConcatCols [2; 3]; Rename 4 [5; 6; 7]; Dtypes 4].
Theorem C32_remaining_first_refuted : ~ dtypes_always_right.
Proof. intros X. specialize (X swapped_story).
  assert (F : follows nd nd common_nat 1 admissible [] swapped_story).
  { unfold swapped_story. admit_story. intros ct [<-|[]]. reflexivity. }
  specialize (X F 4). vm_compute in X. specialize (X _ eq_refl). discriminate. Qed.

(** Asking for the set of dtypes (dtypes.py:443-456) puts computed dtypes behind the known ones; stacking such a frame
    (dtypes.py:496) lists the columns in that order. *)
Definition set_story : list (@op nat nat) :=
  [New true [(0, 0); (1, 2)] (SDesc (Some [(1, 2)]) (Some [0]) true); Types 0; New true [(0, 0)] SSeries;
   ConcatRows [0; 1]; Rename 2 [5; 6]; Dtypes 2].
Theorem C32_asked_set_refuted : ~ dtypes_always_right.
Proof. intros X. specialize (X set_story).
  assert (F : follows nd nd common_nat 1 admissible [] set_story).
  { unfold set_story. admit_story.
    - exists (fun ct => fst ct =? 1). reflexivity.
    - intros c. cbn. tauto.
    - intros c [<-|[]] Y. cbn in Y. intuition discriminate.
    - intros _ c. cbn. tauto. }
  specialize (X F 2). vm_compute in X. specialize (X _ eq_refl). discriminate. Qed.

(** The set of dtypes may contain the announced remaining dtype although no column has it. *)
Theorem C32_spare_dtype_refuted :
  ~ (forall (os : list (@op nat nat)), follows nd nd common_nat 1 admissible [] os ->
     forall i ts, last (snd (go os)) Done = SawTypes i ts ->
     match nth_error (fst (go os)) i with Some x => incl ts (map snd (truth x)) | None => False end).
Proof. intros X. specialize (X [New true [(0, 0)] SSeries; New false [] (SRem 1); ConcatCols [0; 1]; Types 2]).
  assert (F : follows nd nd common_nat 1 admissible []
    [New true [(0, 0)] SSeries; New false [] (SRem 1); ConcatCols [0; 1]; Types 2]).
  { admit_story. intros ct []. }
  specialize (X F 2). vm_compute in X. specialize (X _ eq_refl). destruct (X 1); [right; now left | discriminate | assumption]. Qed.

(** Metadata can make a legal operation fail: reordering the columns of a frame with a remaining dtype and columns of
    unknown dtype is a ValueError (dtypes.py:118-122 through 249-257; dataframe.py:1655 catches only
    NotImplementedError), and so is gluing a frame without columns that has a remaining dtype. *)
Theorem C32_reorder_fails_refuted :
  ~ (forall (os : list (@op nat nat)), follows nd nd common_nat 1 admissible [] os ->
     forall e, last (snd (go os)) Done = Raised e -> e <> ValueError).
Proof. intros X. specialize (X [New false [(0, 0)] (SRem 0); New true [(1, 2)] SNone; ConcatCols [0; 1]; Reorder 2 [1; 0]]).
  assert (F : follows nd nd common_nat 1 admissible []
    [New false [(0, 0)] (SRem 0); New true [(1, 2)] SNone; ConcatCols [0; 1]; Reorder 2 [1; 0]]).
  { admit_story. intros ct [<-|[]]. reflexivity. }
  specialize (X F). vm_compute in X. now apply (X ValueError eq_refl). Qed.
Theorem C32_copy_fails_refuted :
  ~ (forall (os : list (@op nat nat)), follows nd nd common_nat 1 admissible [] os ->
     forall e, last (snd (go os)) Done = Raised e -> e <> ValueError).
Proof. intros X. specialize (X [New true [] (SRem 0); New true [(1, 2)] SSeries; ConcatCols [0; 1]]).
  assert (F : follows nd nd common_nat 1 admissible [] [New true [] (SRem 0); New true [(1, 2)] SSeries; ConcatCols [0; 1]]).
  { admit_story. intros ct []. }
  specialize (X F). vm_compute in X. now apply (X ValueError eq_refl). Qed.

(** [pandas.concat(frames, join="inner")] and [pandas.concat(frames, sort=True)] hand over the same dtypes
    (dataframe.py:4039 does not look at [how] and [sort]): the dtypes list columns the frame does not have, or in
    another order than the columns. *)
Definition stacked_inner (css : list (list (nat * nat))) : list (nat * nat) :=
  filter (fun ct => forallb (fun cs => has nd (fst ct) (header cs)) css) (stacked nd common_nat 1 css).
Definition concat_rows_as (truth_of : list (list (nat * nat)) -> list (nat * nat)) (xs : list df) : res df :=
  do m <- m_merge nd common_nat 1 (map dcache (map (@touch nat nat) xs));
  make nd (Frame true (truth_of (map truth xs))) (Some m).
Definition two : list (@df nat nat) :=
  fst (go [New true [(3, 0); (1, 2)] SSeries; New true [(1, 2); (0, 0)] SSeries]).
Theorem C32_inner_join_refuted :
  ~ (forall xs x y s, concat_rows_as stacked_inner xs = Ok x -> get_dtypes nd x = Ok (y, s) -> s = truth x).
Proof. intros X. specialize (X two). vm_compute in X. specialize (X _ _ _ eq_refl eq_refl). discriminate. Qed.
Theorem C32_sorted_join_refuted :
  ~ (forall xs x y s, concat_rows_as (fun css => rev (stacked nd common_nat 1 css)) xs = Ok x ->
       header (truth x) = [0; 1; 3] -> get_dtypes nd x = Ok (y, s) -> s = truth x).
Proof. intros X. specialize (X two). vm_compute in X. specialize (X _ _ _ eq_refl eq_refl eq_refl). discriminate. Qed.

Print Assumptions C32_late_names_refuted.
Print Assumptions C32_remaining_first_refuted.
Print Assumptions C32_asked_set_refuted.
Print Assumptions C32_spare_dtype_refuted.
Print Assumptions C32_reorder_fails_refuted.
Print Assumptions C32_copy_fails_refuted.
Print Assumptions C32_inner_join_refuted.
Print Assumptions C32_sorted_join_refuted.
