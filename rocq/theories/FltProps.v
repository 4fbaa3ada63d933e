(** C92: [df.filter] along the columns. *)
From Verif Require Import Base Table ChunkModel ChunkSpec GridModel GridSpec FrameSpec GridProofs GridProofs2 GridProofs3 SelSpec SelModel SelProofs5 SelProofs7
  SetModel InsModel ItmModel ItmProofs ResetModel FltSpec FltModel FltProofs.

(** C92 (partial): [df.filter(like=...)] and [df.filter(regex=...)] keep exactly the columns whose header passes the test, whole and in order, for
    every test and every division into blocks.  Missing: repeated headers (refuted), frames without rows, axis=0. *)
Theorem C92_filter_partial :
  forall (L H A : Type) (leqb : L -> L -> bool) (heqb : H -> H -> bool),
    (forall x y, leqb x y = true <-> x = y) -> (forall x y, heqb x y = true <-> x = y) ->
  forall (min_row min_col nparts : nat), 0 < min_row -> 0 < min_col -> 0 < nparts ->
  forall (known_l known_w : nat -> nat -> bool) (argsort : list Z -> list nat), (forall l, sorts l (argsort l)) ->
  forall (test : H -> bool) (f : pframe) (d : df L H A) rl cl, shows f d rl cl -> 0 < nrows d -> NoDup (dcols d) ->
    exists f' rl' cl', df_filter leqb heqb min_row min_col nparts known_l known_w argsort test f = Ok f' /\ shows f' (p_filter test d) rl' cl'.
Proof.
  intros L H A leqb heqb Hl Hh mr mc np H1 H2 H3 kl kw ag Hag test f d rl cl Sh Hn Nd.
  unfold df_filter, take_marked. assert (Pc : pcols f = Some (dcols d)) by apply Sh. rewrite Pc. cbn [labels rbind]. rewrite marked_headers.
  destruct (@getitem_columns_ok L H A leqb heqb Hl Hh mr mc np H1 H2 H3 kl kw ag Hag f d rl cl (filter test (dcols d)) Sh Hn Nd) as (f' & rl' & cl' & ps & E & S' & F).
  - now apply NoDup_filter.
  - apply Forall_forall. intros c Hc. now apply filter_In in Hc.
  - exists f', rl', cl'. split; [exact E|].
    rewrite (@at_unique H (dcols d) _ ps (at_ test 0 (dcols d)) Nd F (@at_headers H test [] (dcols d))) in S'.
    rewrite take_columns in S' by apply Sh. exact S'.
Qed.
Print Assumptions C92_filter_partial.

(** C92 (partial): [df.filter(items=[...])] keeps exactly the columns named, whole and in the order of the items, if the items that name columns
    come in the order of the columns.  Missing: other orders (refuted), repeated headers, frames without rows, axis=0. *)
Theorem C92_items_partial :
  forall (L H A : Type) (leqb : L -> L -> bool) (heqb : H -> H -> bool),
    (forall x y, leqb x y = true <-> x = y) -> (forall x y, heqb x y = true <-> x = y) ->
  forall (min_row min_col nparts : nat), 0 < min_row -> 0 < min_col -> 0 < nparts ->
  forall (known_l known_w : nat -> nat -> bool) (argsort : list Z -> list nat), (forall l, sorts l (argsort l)) ->
  forall (items : list H) (f : pframe) (d : df L H A) rl cl, shows f d rl cl -> 0 < nrows d -> NoDup (dcols d) ->
    dcols (p_filter_items heqb items d) = filter (fun h => mem heqb h items) (dcols d) ->
    exists f' rl' cl', df_filter_items leqb heqb min_row min_col nparts known_l known_w argsort items f = Ok f'
      /\ shows f' (p_filter_items heqb items d) rl' cl'.
Proof.
  intros L H A leqb heqb Hl Hh mr mc np H1 H2 H3 kl kw ag Hag items f d rl cl Sh Hn Nd Ho.
  destruct (@C92_filter_partial L H A leqb heqb Hl Hh mr mc np H1 H2 H3 kl kw ag Hag (fun h => mem heqb h items) f d rl cl Sh Hn Nd) as (f' & rl' & cl' & E & S').
  exists f', rl', cl'. split; [exact E|].
  replace (p_filter_items heqb items d) with (p_filter (fun h => mem heqb h items) d); [exact S'|].
  unfold p_filter_items, p_filter in *. cbn [dcols] in Ho. rewrite Ho. f_equal. apply map_ext_in. intros r Hr.
  symmetry. apply (@under_filter H A heqb Hh (fun h => mem heqb h items) (dcols d) Nd r).
  assert (W : wf d) by apply Sh. destruct W as [_ W]. rewrite Forall_forall in W. exact (W r Hr).
Qed.
Print Assumptions C92_items_partial.

Definition flt_frame (d : df nat nat nat) : @pframe nat nat nat :=
  mkpf (cut_table [1;1] [2;1] d) (Some (dindex d)) (Some (dcols d)) (Some [1;1]) (Some [2;1]).
Definition flt_d : df nat nat nat := mkdf [5;6] [1;2;3] [[10;20;30];[11;21;31]].
Definition flt_run (r : res (@pframe nat nat nat)) := do f <- r; look Nat.eqb Nat.eqb f.
Definition flt_by test d := flt_run (df_filter Nat.eqb Nat.eqb 1 1 2 (fun _ _ => true) (fun _ _ => true) zargsort test (flt_frame d)).
Definition flt_items items d := flt_run (df_filter_items Nat.eqb Nat.eqb 1 1 2 (fun _ _ => true) (fun _ _ => true) zargsort items (flt_frame d)).
Lemma flt_shows : shows (flt_frame flt_d) flt_d [1;1] [2;1].
Proof. split; [apply holds_intro; cbn; auto; split; [reflexivity|repeat constructor]|]. repeat split; discriminate. Qed.
(** the hypotheses are met *)
Example C92_case : exists f' rl' cl', df_filter_items Nat.eqb Nat.eqb 1 1 2 (fun _ _ => true) (fun _ _ => true) zargsort [1;9;3;1] (flt_frame flt_d) = Ok f'
  /\ shows f' (mkdf [5;6] [1;3] [[10;30];[11;31]]) rl' cl'.
Proof.
  apply (@C92_items_partial nat nat nat Nat.eqb Nat.eqb Nat.eqb_eq Nat.eqb_eq 1 1 2 Nat.lt_0_1 Nat.lt_0_1 Nat.lt_0_2 (fun _ _ => true) (fun _ _ => true) zargsort zargsort_ok
    [1;9;3;1] (flt_frame flt_d) flt_d [1;1] [2;1] flt_shows); [cbn; lia| |reflexivity].
  cbn. repeat constructor; cbn; intuition discriminate. Qed.
Example C92_odd : flt_by Nat.odd flt_d = Ok (p_filter Nat.odd flt_d) /\ flt_by Nat.odd flt_d = Ok (mkdf [5;6] [1;3] [[10;30];[11;31]])
  /\ flt_by (fun _ => false) flt_d = Ok (mkdf [5;6] [] [[];[]]).
Proof. repeat split; vm_compute; reflexivity. Qed.
(** C92 refuted: [df.filter(items=[3, 1])] gives the columns in the order of [df], pandas in the order of the items *)
Theorem C92_order_refuted :
  flt_items [3;1] flt_d = Ok (mkdf [5;6] [1;3] [[10;30];[11;31]])
  /\ p_filter_items Nat.eqb [3;1] flt_d = mkdf [5;6] [3;1] [[30;10];[31;11]].
Proof. split; vm_compute; reflexivity. Qed.
(** C92 refuted: with a repeated header every one of its columns is asked for as often as it is repeated, and in a block of two columns the second
    copy of the first column is the other column of the block (C07_repeated_positions_refuted) *)
Definition flt_twice : df nat nat nat := mkdf [5;6] [1;2;1] [[10;20;30];[11;21;31]].
Theorem C92_repeated_refuted :
  flt_by Nat.odd flt_twice = Ok (mkdf [5;6] [1;1;1;1] [[10;30;20;30];[11;31;21;31]])
  /\ p_filter Nat.odd flt_twice = mkdf [5;6] [1;1] [[10;30];[11;31]].
Proof. split; vm_compute; reflexivity. Qed.
Print Assumptions C92_order_refuted.
Print Assumptions C92_repeated_refuted.
