(** C90: [df.equals(other)]. *)
From Verif Require Import Base Table ChunkModel ChunkSpec GridModel GridSpec FrameSpec GridProofs GridProofs2 GridProofs3 JoinSpec JoinModel JoinProofs3
  EquSpec EquModel EquProofs.

(** C90 (partial): [df.equals(other)] answers, without an exception, whether the two tables are the same, for all divisions of both into blocks,
    if no row block of [df] is empty, or the column widths of both frames are known, or both frames know their headers and not their widths.  Missing: other divisions (refuted below), dtypes. *)
Theorem C90_equals_partial :
  forall (L H A : Type) (leqb : L -> L -> bool) (heqb : H -> H -> bool) (aeqb : A -> A -> bool),
    (forall x y, leqb x y = true <-> x = y) -> (forall x y, heqb x y = true <-> x = y) -> (forall x y, aeqb x y = true <-> x = y) ->
  forall (fill : A) (nparts min_row min_col : nat), 0 < nparts -> 0 < min_row -> 0 < min_col ->
  forall (f g : pframe) (d e : df L H A) rl cl rl2 cl2,
    holds f d rl cl -> rl <> [] -> cl <> [] -> holds g e rl2 cl2 -> rl2 <> [] -> cl2 <> [] ->
    Forall (fun n => 0 < n) rl \/ (pcl f <> None /\ pcl g <> None) \/ (pcols f <> None /\ pcl f = None /\ pcols g <> None /\ pcl g = None) ->
    exists b, equals leqb heqb aeqb fill nparts min_row min_col f g = Ok b /\ (b = true <-> same_table d e).
Proof.
  intros L H A leqb heqb aeqb Hl Hh Ha fill np mr mc H1 H2 H3 f g d e rl cl rl2 cl2 F N1 N2 G N3 N4 Hyp.
  unfold equals. rewrite (row_labels_holds F N2), (row_labels_holds G N4), (col_labels_holds F (or_introl N1)), (col_labels_holds G (or_introl N3)).
  destruct (list_eqb leqb (dindex d) (dindex e)) eqn:E1; cbn [negb orb].
  2:{ exists false. split; [reflexivity|]. split; [discriminate|]. intros (X & _). apply (list_eqb_spec leqb Hl) in X. congruence. }
  destruct (list_eqb heqb (dcols d) (dcols e)) eqn:E2; cbn [negb].
  2:{ exists false. split; [reflexivity|]. split; [discriminate|]. intros (_ & X & _). apply (list_eqb_spec heqb Hh) in X. congruence. }
  apply (list_eqb_spec leqb Hl) in E1. apply (list_eqb_spec heqb Hh) in E2.
  destruct (@qc_equals_ok L H A leqb heqb aeqb Hl Hh Ha fill np mr mc (labelled f) (labelled g) d e rl cl rl2 cl2) as (rl' & cl' & E & S1 & S2); auto.
  - now apply labelled_holds.
  - now apply labelled_holds.
  - destruct Hyp as [Hyp|[[Y1 Y2]|(Y0 & Y1 & Y2 & Y3)]]; [now left| |]; right; unfold labelled; cbn [pcl].
    + left. split; [destruct (pcols f), (pcl f)|destruct (pcols g), (pcl g)]; congruence.
    + right. split; [destruct (pcols f), (pcl f)|destruct (pcols g), (pcl g)]; congruence.
  - rewrite E. cbn [rbind]. eexists. split; [reflexivity|].
    rewrite (@answers_true L H A leqb heqb aeqb Hl Hh Ha rl' cl' d e); auto; [|apply F|apply G].
    unfold same_table. split; [intros <-; auto|]. destruct d, e; cbn. intros (-> & -> & ->). reflexivity.
Qed.
Print Assumptions C90_equals_partial.

Definition equ_frame (rl cl : list nat) (widths : bool) (d : df nat nat nat) : @pframe nat nat nat :=
  mkpf (cut_table rl cl d) (Some (dindex d)) (Some (dcols d)) (Some rl) (if widths then Some cl else None).
Definition equ_run f g := equals Nat.eqb Nat.eqb Nat.eqb 0 3 1 1 f g.
Definition equ_d : df nat nat nat := mkdf [5;6;7] [1;2] [[10;20];[11;21];[12;22]].
Definition equ_e : df nat nat nat := mkdf [5;6;7] [1;2] [[10;20];[11;21];[12;23]].
(** the hypotheses are met by frames cut differently, one of them with an empty block *)
Example C90_case : exists b, equ_run (equ_frame [2;0;1] [2] true equ_d) (equ_frame [1;2] [1;1] true equ_e) = Ok b /\ (b = true <-> same_table equ_d equ_e).
Proof.
  apply (@C90_equals_partial nat nat nat Nat.eqb Nat.eqb Nat.eqb Nat.eqb_eq Nat.eqb_eq Nat.eqb_eq 0 3 1 1) with (rl := [2;0;1]) (cl := [2]) (rl2 := [1;2]) (cl2 := [1;1]);
    try lia; try discriminate; try (apply holds_intro; cbn; auto; split; [reflexivity|repeat constructor]).
  right. left. split; discriminate. Qed.
Example C90_answers : equ_run (equ_frame [2;0;1] [2] true equ_d) (equ_frame [1;2] [1;1] true equ_e) = Ok false
  /\ equ_run (equ_frame [2;0;1] [2] true equ_d) (equ_frame [1;2] [1;1] true equ_d) = Ok true.
Proof. split; vm_compute; reflexivity. Qed.
(** C90 refuted: the same table twice, cut alike, with an empty row block in the middle; only the left frame's widths are known: the
    empty block is dropped from the left frame only, and the frames are not equal *)
Theorem C90_right_widths_refuted :
  holds (equ_frame [2;0;1] [2] true equ_d) equ_d [2;0;1] [2] /\ holds (equ_frame [2;0;1] [2] false equ_d) equ_d [2;0;1] [2]
  /\ equ_run (equ_frame [2;0;1] [2] true equ_d) (equ_frame [2;0;1] [2] false equ_d) = Ok false.
Proof. split; [|split]; try (apply holds_intro; cbn; auto; split; [reflexivity|repeat constructor]). vm_compute. reflexivity. Qed.
(** C90 refuted: the other way round it raises IndexError *)
Theorem C90_left_widths_refuted :
  equ_run (equ_frame [2;0;1] [2] false equ_d) (equ_frame [2;0;1] [2] true equ_d) = Err IndexError.
Proof. vm_compute. reflexivity. Qed.
Print Assumptions C90_right_widths_refuted.
Print Assumptions C90_left_widths_refuted.
