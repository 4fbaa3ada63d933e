(** C62, C63: removing rows and columns, by label and by missing values.

    [removed], [dropna_rows], [dropna_columns] (RemSpec.v) say what pandas returns.  [shows f d rl cl] (SelProofs5.v)
    and [holds f d rl cl] (FrameSpec.v): the partitioned frame [f] stands for the table [d], its blocks cut at row
    lengths [rl] and column widths [cl]; with [shows] the labels are known. *)
From Coq Require Import Permutation.
From Verif Require Import Base Table ChunkModel ChunkSpec GridModel GridSpec FrameSpec GridProofs GridProofs2 GridProofs3 GridProofs5 SelSpec SelModel
  SelProofs SelProofs2 SelProofs3 SelProofs4 SelProofs5 SelProofs6 SelProofs7 LocSpec LocModel LocProofs JoinModel RemSpec RemModel RemProofs RemProofs2 RemProofs3.

Section Drop.
  Context {L A : Type}.
  Variable leqb : L -> L -> bool.
  Hypothesis leqb_ok : forall x y, leqb x y = true <-> x = y.
  Variable tuple : list L -> L.
  Variable order : list L -> list L.
  Hypothesis order_ok : forall l, Permutation (order l) l.
  Variables min_row min_col nparts : nat.
  Hypothesis min_row_pos : 0 < min_row.
  Hypothesis min_col_pos : 0 < min_col.
  Hypothesis nparts_pos : 0 < nparts.
  Variables known_l known_w : nat -> nat -> bool.
  Variable argsort : list Z -> list nat.
  Hypothesis argsort_ok : forall l, sorts l (argsort l).
  Notation drop := (drop leqb order min_row min_col nparts known_l known_w argsort).

  (** one label or a list of labels *)
  Definition no_tuple (k : option (dropped L)) : Prop := match k with Some (DTuple _) => False | _ => True end.

  (** C62 (partial): [df.drop(index=rows, columns=columns)] shows the table without the rows and columns so
      labelled, whatever the blocks; with errors="ignore" labels that are not there are passed over.  Missing: a
      tuple as one label (refuted), MultiIndex labels, [level=] (defaults to pandas). *)
  Theorem C62_drop_partial :
    forall (big raise_ : bool) (f : @pframe L L A) (d : df L L A) rl cl (rows columns : option (dropped L)),
      shows f d rl cl -> (rows <> None \/ columns <> None) -> no_tuple rows -> no_tuple columns ->
      (raise_ = true -> incl (named tuple rows) (dindex d) /\ incl (named tuple columns) (dcols d)) ->
      exists f', drop big raise_ rows columns f = Ok f'
        /\ pf_to_pandas leqb leqb f' = Ok (removed leqb tuple rows columns d).
  Proof.
    intros big raise_ f d rl cl rows columns S Hne Tr Tc Hin.
    assert (CK : forall labels k, no_tuple k -> (raise_ = true -> incl (named tuple k) labels) ->
      exists o, check leqb order raise_ labels k = Ok o /\ without leqb labels (match o with Some l => l | None => [] end) = without leqb labels (named tuple k)).
    { intros labels k T Hk. destruct k as [k|]; [|exists None; split; reflexivity].
      assert (En : named tuple (Some k) = as_list k) by (destruct k; [reflexivity|easy|reflexivity]).
      apply (check_ok leqb leqb_ok order order_ok); [|exact En]. destruct raise_; [left|now right]. intros l I. apply (Hk eq_refl). now rewrite En. }
    assert (S' := S). destruct S' as (Hh & _ & _ & Hi & Hc).
    destruct (CK (dindex d) rows Tr (fun e => proj1 (Hin e))) as (r & Er & Wr).
    destruct (CK (dcols d) columns Tc (fun e => proj2 (Hin e))) as (c & Ec & Wc).
    assert (G : exists f', (do index <- labels (pindex f); do cols <- labels (pcols f); do r <- check leqb order raise_ index rows; do c <- check leqb order raise_ cols columns;
        take_2d_positional leqb leqb min_row min_col nparts known_l known_w argsort big (remaining leqb order index r) (remaining leqb order cols c) f) = Ok f'
        /\ pf_to_pandas leqb leqb f' = Ok (removed leqb tuple rows columns d)).
    { rewrite Hi, Hc. cbn [labels rbind]. rewrite Er, Ec. cbn [rbind].
      pose proof (remaining_selects leqb leqb_ok order order_ok (dindex d) r) as SR. pose proof (remaining_selects leqb leqb_ok order order_ok (dcols d) c) as SC.
      rewrite Wr in SR. rewrite Wc in SC. destruct (@take_2d_ok L L A leqb leqb leqb_ok leqb_ok min_row min_col nparts min_row_pos min_col_pos nparts_pos known_l known_w argsort argsort_ok big f d rl cl _ _ _ _ S SR SC) as (f' & E1 & E2 & _).
      { right. split; apply marked_nodup. }
      exists f'. split; [exact E1|]. rewrite E2. f_equal. unfold removed. symmetry. apply keep_take2d; [apply Hh| |]; apply without_length. }
    unfold RemModel.drop. destruct rows, columns; auto. destruct Hne as [X|X]; now destruct X. Qed.

  (** errors="raise": a label that is not there raises KeyError *)
  Theorem C62_absent :
    forall (big : bool) (f : @pframe L L A) (d : df L L A) rl cl (rows columns : option (dropped L)) (l : L),
      shows f d rl cl -> no_tuple rows -> no_tuple columns ->
      In l (named tuple rows) /\ ~ In l (dindex d) \/ In l (named tuple columns) /\ ~ In l (dcols d) ->
      drop big true rows columns f = Err KeyError.
  Proof.
    intros big f d rl cl rows columns l (Hh & _ & _ & Hi & Hc) Tr Tc Hl.
    assert (En : forall k, no_tuple (Some k) -> named tuple (Some k) = as_list k) by (intros [| |] T; [reflexivity|easy|reflexivity]).
    unfold RemModel.drop. rewrite Hi, Hc. cbn [labels rbind].
    assert (CK : forall labels k, check leqb order true labels k = Err KeyError \/ exists o, check leqb order true labels k = Ok o).
    { intros ls [k|]; cbn; eauto. destruct (difference leqb order (as_list k) ls); eauto. }
    destruct Hl as [(I & N)|(I & N)].
    - destruct rows as [k|]; [|easy]. rewrite En in I by exact Tr. rewrite (check_missing leqb leqb_ok order order_ok (dindex d) k l I N). reflexivity.
    - destruct columns as [k|]; [|easy]. rewrite En in I by exact Tc. rewrite (check_missing leqb leqb_ok order order_ok (dcols d) k l I N).
      destruct (CK (dindex d) rows) as [E|(o & E)]; rewrite E; cbn [rbind]; destruct rows; reflexivity. Qed.
End Drop.
Print Assumptions C62_drop_partial.
Print Assumptions C62_absent.

(** What [removed] means: a row (column) is there exactly if its label was not named, in the old order. *)
Theorem C62_removed_meaning :
  forall (L A : Type) (eqb : L -> L -> bool) (tuple : list L -> L), (forall x y, eqb x y = true <-> x = y) ->
    forall (d : df L L A) (rows columns : option (dropped L)), wf d ->
      dindex (removed eqb tuple rows columns d) = filter (fun l => negb (existsb (eqb l) (named tuple rows))) (dindex d)
      /\ dcols (removed eqb tuple rows columns d) = filter (fun l => negb (existsb (eqb l) (named tuple columns))) (dcols d)
      /\ dcells (removed eqb tuple rows columns d)
         = map (fun p => map snd (filter (fun q => negb (existsb (eqb (fst q)) (named tuple columns))) (combine (dcols d) (snd p))))
             (filter (fun p => negb (existsb (eqb (fst p)) (named tuple rows))) (combine (dindex d) (dcells d))).
Proof. intros L A eqb tuple eqb_ok d rows columns [W1 W2].
  assert (K : forall {X} ls (l : list L) (xs : list X), length l = length xs -> kept (without eqb l ls) xs = map snd (filter (fun q => negb (existsb (eqb (fst q)) ls)) (combine l xs))).
  { intros X ls l. induction l as [|a l IH]; intros [|x xs] E; try discriminate; [reflexivity|]. cbn [without map kept combine filter fst]. unfold inb at 1. unfold without in IH.
    injection E as E. destruct (existsb (eqb a) ls); cbn [negb map snd]; rewrite <- (IH xs E); reflexivity. }
  assert (K' : forall ls (l : list L), kept (without eqb l ls) l = filter (fun l => negb (existsb (eqb l) ls)) l).
  { intros ls l. induction l as [|a l IH]; [reflexivity|]. cbn [without map kept filter]. unfold inb at 1. unfold without in IH. rewrite IH. reflexivity. }
  unfold removed, keep_rows, keep_columns. cbn [dindex dcols dcells]. split; [apply K'|]. split; [apply K'|].
  rewrite K by (now rewrite map_length). clear K'. revert W1 W2. generalize (dindex d), (dcells d). intros l g. revert l. induction g as [|r g IH]; intros [|a l] W1 W2; try discriminate; [reflexivity|].
  cbn [map combine filter fst]. inversion W2; subst. injection W1 as W1. specialize (IH l W1 H2). destruct (negb (existsb (eqb a) (named tuple rows))); cbn [map snd]; rewrite IH; [|reflexivity].
  f_equal. apply K. now symmetry. Qed.
Print Assumptions C62_removed_meaning.

Section Dropna.
  Context {L H A : Type}.
  Variable leqb : L -> L -> bool.
  Variable heqb : H -> H -> bool.
  Hypothesis leqb_ok : forall x y, leqb x y = true <-> x = y.
  Hypothesis heqb_ok : forall x y, heqb x y = true <-> x = y.
  Variable na : A -> bool.
  Variables min_row min_col nparts : nat.
  Hypothesis min_row_pos : 0 < min_row.
  Hypothesis min_col_pos : 0 < min_col.
  Hypothesis nparts_pos : 0 < nparts.
  Notation dropna0 := (dropna0 leqb heqb na min_row min_col nparts).
  Notation dropna1 := (dropna1 leqb heqb na min_row min_col nparts).

  (** the positions a [subset] of labels names *)
  Definition asked {X} (eqb : X -> X -> bool) (labels : list X) (subset : option (list X)) (sub : option (list nat)) : Prop :=
    match subset with None => sub = None | Some ls => exists ps, all_of eqb labels ls = Some ps /\ sub = Some ps end.
  Lemma asked_lookup {X} (eqb : X -> X -> bool) labels subset sub : asked eqb labels subset sub -> lookup eqb labels subset = Ok sub.
  Proof. destruct subset; cbn; [intros (ps & -> & ->)|intros ->]; reflexivity. Qed.

  (** C63, rows: [df.dropna(axis=0, how=, thresh=, subset=)] shows the rows that do not count as missing, whatever
      the blocks. *)
  Theorem C63_dropna_rows :
    forall (r : rule) (subset : option (list H)) (sub : option (list nat)) (f : @pframe L H A) (d : df L H A) rl cl,
      holds f d rl cl -> rl <> [] -> cl <> [] -> asked heqb (dcols d) subset sub ->
      exists f', dropna0 r subset f = Ok f' /\ shown leqb heqb f' = Ok (dropna_rows na r sub d).
  Proof. intros r subset sub f d rl cl Hh Hr Hc E%asked_lookup.
    destruct (dropna0_ok leqb heqb leqb_ok na min_row_pos min_col_pos nparts_pos r subset Hh Hr Hc E) as (f' & rl' & cl' & E1 & E2 & E3 & E4).
    exists f'. split; auto. now apply (shown_holds leqb heqb leqb_ok heqb_ok) with rl' cl'. Qed.

  (** C63, columns (partial): the same for [axis=1].  Missing: repeated column labels on the path with masks, that
      is with [how=] and fewer than 32 * CpuCount blocks (refuted). *)
  Theorem C63_dropna_columns_partial :
    forall (few : bool) (r : rule) (subset : option (list L)) (sub : option (list nat)) (f : @pframe L H A) (d : df L H A) rl cl,
      holds f d rl cl -> rl <> [] -> cl <> [] -> asked leqb (dindex d) subset sub ->
      NoDup (dcols d) \/ few = false \/ (exists t, r = FewerThan t) ->
      exists f', dropna1 few r subset f = Ok f' /\ shown leqb heqb f' = Ok (dropna_columns na r sub d).
  Proof. intros few r subset sub f d rl cl Hh Hr Hc E%asked_lookup C.
    destruct (dropna1_ok leqb heqb leqb_ok heqb_ok na min_row_pos min_col_pos nparts_pos subset Hh Hr Hc E C) as (f' & rl' & cl' & E1 & E2 & E3 & E4).
    exists f'. split; auto. now apply (shown_holds leqb heqb leqb_ok heqb_ok) with rl' cl'. Qed.

  (** A label of [subset] that is not there raises KeyError. *)
  Lemma all_of_absent {X} (eqb : X -> X -> bool) (eqb_ok : forall x y, eqb x y = true <-> x = y) labels ls l : In l ls -> ~ In l labels -> all_of eqb labels ls = None.
  Proof. intros I N. induction ls as [|x ls IH]; [easy|]. cbn [all_of]. destruct (everywhere eqb labels x) as [|p ps] eqn:E; [reflexivity|].
    destruct I as [->|I]; [|now rewrite (IH I)]. exfalso. assert (J : In p (everywhere eqb labels l)) by (rewrite E; now left).
    apply (everywhere_in eqb eqb_ok) in J. apply nth_error_In in J. auto. Qed.
  Theorem C63_absent :
    forall (few : bool) (r : rule) (f : @pframe L H A) (d : df L H A) rl cl,
      holds f d rl cl -> rl <> [] -> cl <> [] ->
      (forall (hs : list H) (h : H), In h hs -> ~ In h (dcols d) -> dropna0 r (Some hs) f = Err KeyError)
      /\ (forall (ls : list L) (l : L), In l ls -> ~ In l (dindex d) -> dropna1 few r (Some ls) f = Err KeyError).
  Proof. intros few r f d rl cl Hh Hr Hc. split.
    - intros hs h I N. unfold RemModel.dropna0. rewrite (JoinProofs3.col_labels_holds Hh (or_introl Hr)). cbn [lookup]. now rewrite (all_of_absent heqb heqb_ok (dcols d) hs h I N).
    - intros ls l I N. unfold RemModel.dropna1. rewrite (JoinProofs3.row_labels_holds Hh Hc). cbn [lookup]. now rewrite (all_of_absent leqb leqb_ok (dindex d) ls l I N). Qed.
End Dropna.
Print Assumptions C63_dropna_rows.
Print Assumptions C63_dropna_columns_partial.
Print Assumptions C63_absent.

Section Concrete.
  (** a label is a list of numbers: [[1]] is the label 1, [[1;2]] the tuple (1, 2) *)
  Definition zlab := list nat.
  Definition zeqb : zlab -> zlab -> bool := list_eqb Nat.eqb.
  Lemma zeqb_ok x y : zeqb x y = true <-> x = y.
  Proof. apply list_eqb_spec. apply Nat.eqb_eq. Qed.
  Definition ztuple : list zlab -> zlab := @concat nat.
  Definition zd : df zlab zlab (option Z) :=
    mkdf [[10];[20];[10];[30]] [[1];[2];[1;2]] [[Some 1;Some 2;None];[Some 3;None;Some 4];[Some 5;Some 6;Some 7];[None;None;None]]%Z.
  Definition zf : @pframe zlab zlab (option Z) := mkpf (cut_table [2;2] [1;2] zd) (Some (dindex zd)) (Some (dcols zd)) (Some [2;2]) (Some [1;2]).
  Lemma zf_shows : shows zf zd [2;2] [1;2].
  Proof. split; [|repeat split; easy]. apply holds_intro; cbn; auto. split; [reflexivity|repeat constructor]. Qed.
  Definition zdrop := @drop zlab (option Z) zeqb (@id (list zlab)) 1 1 2 (fun _ _ => true) (fun _ _ => true) zargsort false.
  Definition zshow (x : res (@pframe zlab zlab (option Z))) := do f <- x; shown zeqb zeqb f.

  (** the theorem's case: rows labelled 10 (twice) and column 2 go *)
  Example C62_case :
    zshow (zdrop true (Some (DOne [10])) (Some (DMany [[2]])) zf)
    = Ok (mkdf [[20];[30]] [[1];[1;2]] [[Some 3;Some 4];[None;None]]%Z).
  Proof. vm_compute. reflexivity. Qed.
  Example C62_hypotheses : exists f', zdrop true (Some (DOne [10])) (Some (DMany [[2]])) zf = Ok f'
    /\ pf_to_pandas zeqb zeqb f' = Ok (removed zeqb ztuple (Some (DOne [10])) (Some (DMany [[2]])) zd).
  Proof. apply (C62_drop_partial zeqb zeqb_ok ztuple (@id (list zlab)) (fun l => Permutation_refl l) Nat.lt_0_1 Nat.lt_0_1 Nat.lt_0_2 (fun _ _ => true) (fun _ _ => true) zargsort zargsort_ok false zf_shows).
    - left. discriminate.
    - exact I.
    - exact I.
    - intros _. split; intros x [<-|[]]; cbn; auto. Qed.
  Example C62_ignore_case : zshow (zdrop false (Some (DMany [[99]])) (Some (DMany [[1];[98]])) zf)
    = Ok (removed zeqb ztuple None (Some (DOne [1])) zd).
  Proof. vm_compute. reflexivity. Qed.

  (** df.drop(columns=(1, 2)): pandas drops the column labelled (1, 2), Modin columns 1 and 2 *)
  Theorem C62_tuple_refuted :
    removed zeqb ztuple None (Some (DTuple [[1];[2]])) zd = mkdf (dindex zd) [[1];[2]] [[Some 1;Some 2];[Some 3;None];[Some 5;Some 6];[None;None]]%Z
    /\ zshow (zdrop true None (Some (DTuple [[1];[2]])) zf) = Ok (mkdf (dindex zd) [[1;2]] [[None];[Some 4];[Some 7];[None]]%Z).
  Proof. split; vm_compute; reflexivity. Qed.
  Print Assumptions C62_tuple_refuted.

  Definition zna (x : option Z) : bool := match x with None => true | Some _ => false end.
  Definition zdropna0 := @dropna0 zlab zlab (option Z) zeqb zeqb zna 1 1 2.
  Definition zdropna1 := @dropna1 zlab zlab (option Z) zeqb zeqb zna 1 1 2.
  Example C63_rows_case : zshow (zdropna0 AnyMissing None zf) = Ok (mkdf [[10]] (dcols zd) [[Some 5;Some 6;Some 7]]%Z).
  Proof. vm_compute. reflexivity. Qed.
  Example C63_rows_subset_case : zshow (zdropna0 AnyMissing (Some [[1];[2]]) zf) = Ok (mkdf [[10];[10]] (dcols zd) [[Some 1;Some 2;None];[Some 5;Some 6;Some 7]]%Z).
  Proof. vm_compute. reflexivity. Qed.
  Example C63_columns_case : zshow (zdropna1 true AnyMissing (Some [[10];[20]]) zf) = Ok (mkdf (dindex zd) [[1]] [[Some 1];[Some 3];[Some 5];[None]]%Z).
  Proof. vm_compute. reflexivity. Qed.
  Example C63_columns_hypotheses : exists f', zdropna1 true AnyMissing (Some [[10];[20]]) zf = Ok f'
    /\ shown zeqb zeqb f' = Ok (dropna_columns zna AnyMissing (Some [0;2;1]) zd).
  Proof. destruct zf_shows as (Hh & Hr & Hc & _).
    apply (C63_dropna_columns_partial zeqb zeqb zeqb_ok zeqb_ok zna Nat.lt_0_1 Nat.lt_0_1 Nat.lt_0_2 (Some [[10];[20]]) (Some [0;2;1]) Hh Hr Hc).
    - exists [0;2;1]. split; reflexivity.
    - left. repeat constructor; cbn; intuition discriminate. Qed.

  (** df.dropna(axis=1) with a repeated column label.  Nothing is missing: pandas returns the two columns, Modin
      four. *)
  Definition zd2 (x : option Z) : df zlab zlab (option Z) := mkdf [[10];[20]] [[1];[1]] [[Some 1;Some 2];[x;Some 4]]%Z.
  Definition zf2 x : @pframe zlab zlab (option Z) := mkpf (cut_table [1;1] [2] (zd2 x)) (Some [[10];[20]]) (Some [[1];[1]]) (Some [1;1]) (Some [2]).
  Theorem C63_repeated_columns_refuted :
    dropna_columns zna AnyMissing None (zd2 (Some 3%Z)) = zd2 (Some 3%Z)
    /\ zshow (zdropna1 true AnyMissing None (zf2 (Some 3%Z)))
       = Ok (mkdf [[10];[20]] [[1];[1];[1];[1]] [[Some 1;Some 2;Some 1;Some 2];[Some 3;Some 4;Some 3;Some 4]]%Z).
  Proof. split; vm_compute; reflexivity. Qed.
  Print Assumptions C63_repeated_columns_refuted.
  (** One of the two has a missing value: Modin keeps it. *)
  Theorem C63_missing_kept_refuted :
    dropna_columns zna AnyMissing None (zd2 None) = mkdf [[10];[20]] [[1]] [[Some 2];[Some 4]]%Z
    /\ zshow (zdropna1 true AnyMissing None (zf2 None)) = Ok (zd2 None).
  Proof. split; vm_compute; reflexivity. Qed.
  Print Assumptions C63_missing_kept_refuted.
  (** and with 32 * CpuCount blocks the answer is another one *)
  Theorem C63_blocks_matter_refuted :
    zshow (zdropna1 false AnyMissing None (zf2 None)) = Ok (mkdf [[10];[20]] [[1]] [[Some 2];[Some 4]]%Z).
  Proof. vm_compute. reflexivity. Qed.
End Concrete.
