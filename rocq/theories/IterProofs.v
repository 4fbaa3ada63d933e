From Verif Require Import Base Table ChunkModel ChunkSpec GridModel GridSpec FrameSpec GridProofs GridProofs2 GridProofs3 GridProofs5 SelSpec SelModel
  SelProofs SelProofs2 SelProofs3 SelProofs4 SelProofs5 SelProofs6 SelProofs7 IterSpec IterModel.

Lemma nth_combine {X Y} : forall (l : list X) (m : list Y) k x y, nth_error (combine l m) k = Some (x, y) -> nth_error l k = Some x /\ nth_error m k = Some y.
Proof. induction l as [|a l IH]; intros [|b m] [|k] x y; cbn; try discriminate; [intros [= -> ->]; auto|apply IH]. Qed.

Section Proofs.
  Context {L H A : Type}.
  Variable leqb : L -> L -> bool.
  Variable heqb : H -> H -> bool.
  Hypothesis leqb_ok : forall x y, leqb x y = true <-> x = y.
  Hypothesis heqb_ok : forall x y, heqb x y = true <-> x = y.
  Variables min_row min_col nparts : nat.
  Hypothesis mr : 0 < min_row.
  Hypothesis mc : 0 < min_col.
  Hypothesis np : 0 < nparts.
  Variables known_l known_w : nat -> nat -> bool.
  Variable argsort : list Z -> list nat.
  Hypothesis argsort_ok : forall l, sorts l (argsort l).
  Variable big : bool.
  Notation pf := (@pframe L H A).
  Notation dframe := (df L H A).
  Notation next_row := (@next_row L H A leqb heqb min_row min_col nparts known_l known_w argsort big).
  Definition stands (f : pf) (d : dframe) : Prop := exists rl cl, shows f d rl cl.

  Lemma take_row (d : dframe) k x row : wf d -> nth_error (table_rows d) k = Some (x, row) ->
    take2d [k] (seq 0 (ncols d)) d = mkdf [x] (dcols d) [row].
  Proof. intros [_ W] E. apply nth_combine in E as [E1 E2]. unfold take2d. f_equal.
    - unfold pick. cbn. now rewrite E1.
    - now apply pick_all.
    - unfold pick at 2. cbn. rewrite E2. cbn. f_equal. apply pick_all. apply nth_error_In in E2. rewrite Forall_forall in W. now apply W. Qed.

  Lemma next_ok (f : pf) d k x : stands f d -> nth_error (table_rows d) k = Some x -> next_row k f = Ok x.
  Proof.
    intros (rl & cl & Sh) E. destruct x as [x row]. assert (W : wf d) by apply Sh.
    assert (K : k < nrows d). { apply nth_combine in E as [E _]. apply nth_error_Some. unfold nrows. congruence. }
    destruct (@take_2d_ok L H A leqb heqb leqb_ok heqb_ok min_row min_col nparts mr mc np known_l known_w argsort argsort_ok big f d rl cl
      (Some (IList [Z.of_nat k])) None [k] (seq 0 (ncols d)) Sh) as (f' & E1 & E2 & _).
    - split; [exact I|]. split; [reflexivity|]. now constructor.
    - reflexivity.
    - right. split; [|apply seq_NoDup]. constructor; [easy|constructor].
    - unfold IterModel.next_row, iloc_getitem. destruct Sh as (_ & _ & _ & -> & ->). cbn [labels rbind compute_lookup existsb orb].
      assert (Z.of_nat k <? 0 = false)%Z as -> by (apply Z.ltb_ge; lia). cbn [orb rbind]. rewrite E1. cbn [rbind]. rewrite E2. cbn [rbind].
      now rewrite (@take_row d k x row W E). Qed.

  Variable body : nat -> L * list A -> pf -> pf.
  Variable tbody : nat -> L * list A -> dframe -> dframe.
  Hypothesis body_ok : forall k x f d, stands f d -> stands (body k x f) (tbody k x d).

  Lemma loop_ok (d0 : dframe) : (forall k x d j, k < j -> j < nrows d0 -> nth_error (table_rows (tbody k x d)) j = nth_error (table_rows d) j) ->
    nrows d0 = length (table_rows d0) ->
    forall n k f d, k + n = nrows d0 -> stands f d -> (forall j, k <= j -> j < nrows d0 -> nth_error (table_rows d) j = nth_error (table_rows d0) j) ->
    exists f', loop leqb heqb min_row min_col nparts known_l known_w argsort big body (seq k n) f = (skipn k (table_rows d0), Ok f')
      /\ stands f' (run tbody k (skipn k (table_rows d0)) d).
  Proof.
    intros Keep Len. induction n as [|n IH]; intros k f d E St F.
    - cbn [seq loop]. rewrite skipn_all2 by lia. exists f. auto.
    - destruct (nth_error (table_rows d0) k) as [x|] eqn:Ex; [|apply nth_error_None in Ex; lia].
      cbn [seq loop]. rewrite (@next_ok f d k x St) by (rewrite F by lia; exact Ex).
      assert (Es : skipn k (table_rows d0) = x :: skipn (S k) (table_rows d0)).
      { clear - Ex. revert k Ex. induction (table_rows d0) as [|y l IH]; intros [|k] Ex; try discriminate; [injection Ex as ->; reflexivity|]. cbn in Ex. rewrite skipn_cons. now rewrite (IH _ Ex). }
      destruct (IH (S k) (body k x f) (tbody k x d)) as (f' & El & Sf); [lia|now apply body_ok| |].
      + intros j J1 J2. rewrite Keep by lia. apply F; lia.
      + rewrite El, Es. exists f'. split; [reflexivity|]. cbn [run]. exact Sf. Qed.

  Lemma take_column (d : dframe) k h : wf d -> nth_error (dcols d) k = Some h ->
    take2d (seq 0 (nrows d)) [k] d = mkdf (dindex d) [h] (map (fun r => match nth_error r k with Some a => [a] | None => [] end) (dcells d)).
  Proof. intros [W _] E. unfold take2d. f_equal.
    - now apply pick_all.
    - unfold pick. cbn. now rewrite E.
    - rewrite pick_all by (unfold nrows; auto). apply map_ext. intros r. unfold pick. cbn. now rewrite app_nil_r. Qed.

  Lemma next_column_ok (f : pf) d k h : stands f d -> nth_error (dcols d) k = Some h ->
    next_column leqb heqb min_row min_col nparts known_l known_w argsort big k f = Ok (h, column d k).
  Proof.
    clear body tbody body_ok. intros (rl & cl & Sh) E. assert (W : wf d) by apply Sh.
    assert (K : k < ncols d) by (apply nth_error_Some; congruence).
    destruct (@take_2d_ok L H A leqb heqb leqb_ok heqb_ok min_row min_col nparts mr mc np known_l known_w argsort argsort_ok big f d rl cl
      None (Some (IList [Z.of_nat k])) (seq 0 (nrows d)) [k] Sh) as (f' & E1 & E2 & _).
    - reflexivity.
    - split; [exact I|]. split; [reflexivity|]. now constructor.
    - right. split; [apply seq_NoDup|]. constructor; [easy|constructor].
    - unfold next_column, iloc_getitem. destruct Sh as (_ & _ & _ & -> & ->). cbn [labels rbind compute_lookup existsb orb].
      assert (Z.of_nat k <? 0 = false)%Z as -> by (apply Z.ltb_ge; lia). cbn [orb rbind]. rewrite E1. cbn [rbind]. rewrite E2. cbn [rbind].
      rewrite (@take_column d k h W E). cbn [dcols dindex dcells]. unfold column. now rewrite flat_map_concat_map. Qed.

  Variable ibody : nat -> H * list (L * A) -> pf -> pf.
  Variable itbody : nat -> H * list (L * A) -> dframe -> dframe.
  Hypothesis ibody_ok : forall k x f d, stands f d -> stands (ibody k x f) (itbody k x d).
  Lemma items_ok (cols : list H) : (forall k x d j, k < j -> j < length cols -> nth_error (dcols (itbody k x d)) j = nth_error (dcols d) j) ->
    forall hs k f d, skipn k cols = hs -> k + length hs = length cols -> stands f d -> (forall j, k <= j -> j < length cols -> nth_error (dcols d) j = nth_error cols j) ->
    exists xs f' t, items_from itbody k hs d = (xs, Ok t)
      /\ items_loop leqb heqb min_row min_col nparts known_l known_w argsort big ibody (seq k (length hs)) f = (xs, Ok f') /\ stands f' t.
  Proof.
    clear body tbody body_ok. intros Keep. induction hs as [|h hs IH]; intros k f d Es El St F.
    - exists [], f, d. auto.
    - cbn [length] in El. assert (Eh : nth_error cols k = Some h).
      { rewrite <- (firstn_skipn k cols), Es, nth_error_app2; rewrite firstn_length_le by lia; [|lia]. now rewrite Nat.sub_diag. }
      assert (Ed : nth_error (dcols d) k = Some h) by (rewrite F by lia; exact Eh).
      cbn [length seq items_loop items_from]. rewrite (@next_column_ok f d k h St Ed).
      assert (k <? ncols d = true) as -> by (apply Nat.ltb_lt; apply nth_error_Some; congruence).
      destruct (IH (S k) (ibody k (h, column d k) f) (itbody k (h, column d k) d)) as (xs & f' & t & E1 & E2 & S').
      + change (S k) with (1 + k). rewrite <- (Nat.add_comm k 1). rewrite <- (firstn_skipn k cols) at 1. rewrite Es, skipn_app, firstn_length_le, skipn_all2 by (rewrite ?firstn_length_le; lia).
        replace (k + 1 - k) with 1 by lia. reflexivity.
      + lia.
      + now apply ibody_ok.
      + intros j J1 J2. rewrite Keep by lia. apply F; lia.
      + rewrite E1, E2. eexists. exists f', t. split; [reflexivity|]. split; [reflexivity|]. exact S'. Qed.
End Proofs.
