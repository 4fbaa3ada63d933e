(** Assignment by label: from the positions to the cells. *)
From Verif Require Import Base Table ChunkModel ChunkSpec GridModel GridSpec FrameSpec GridProofs GridProofs2 GridProofs3 GridProofs5 SelSpec SelModel
  SelProofs SelProofs2 SelProofs3 SelProofs4 SelProofs5 SelProofs6 SelProofs7
  SetSpec SetModel SetProofs SetProofs2 SetProofs3 SetProofs4 SetProofs5 SetProofs6 SetProofs7 SetProofs8
  LocSpec LocModel LocProofs LocProofs2 EnlSpec EnlModel EnlProofs.

(** The locator with the same lookup. *)
Definition as_loc (ix : option indexer) : locator :=
  match ix with None => LSlice None None None | Some (IList zs) => LList zs | Some (IRange a b s) => LRange a b s end.

Lemma as_loc_ok n ix ps : selects n ix ps ->
  positions n (as_loc ix) = Some ps /\ supported n (as_loc ix) /\ compute_lookup n (as_loc ix) = Ok ix /\ is_int (as_loc ix) = false.
Proof.
  destruct ix as [[a b s|zs]|]; cbn [selects as_loc]; intros Se.
  - destruct Se as ((R1 & R2 & R3) & E & F). cbn [positions supported compute_lookup is_int]. cbn [ipos] in E. apply Z.eqb_neq in R3. rewrite R3, E.
    rewrite wrap_all_of_nat by exact F. repeat split; auto; try apply R1; auto. apply Forall_map, Forall_forall. intros p _. lia.
  - destruct Se as (_ & E & F). cbn [ipos] in E. subst zs. cbn [positions supported compute_lookup is_int]. rewrite wrap_all_of_nat by exact F. repeat split.
    replace (existsb (fun z => (z <? 0)%Z) (map Z.of_nat ps)) with false; [reflexivity|]. symmetry. apply not_true_iff_false. intros X.
    apply existsb_exists in X. destruct X as (z & (p & <- & _)%in_map_iff & X). apply Z.ltb_lt in X. lia.
  - subst ps. cbn [positions supported compute_lookup is_int]. repeat split.
    + change (slice_indices n None None None) with (Some (0%Z, Z.of_nat n, 1%Z)). cbv beta iota zeta. rewrite range_all. apply wrap_all_of_nat. apply Forall_forall. intros p I%in_seq. lia.
    + intros x y E. change (slice_indices n None None None) with (Some (0%Z, Z.of_nat n, 1%Z)) in E. injection E as <- <-. lia.
Qed.

Lemma axis_true n m r c rs cs : ~ (n = 1 /\ m = 1) -> determine_setitem_axis n m r c rs cs = Some true -> c = m /\ r = 1.
Proof.
  unfold determine_setitem_axis. intros N. destruct (Nat.eqb_spec n 1), (Nat.eqb_spec m 1); cbn [andb]; try (exfalso; now apply N);
  destruct (Nat.eqb_spec c 1), (Nat.eqb_spec r 1), (Nat.eqb_spec r n), (Nat.eqb_spec c m); cbn [andb]; try discriminate; auto.
Qed.
Lemma axis_false n m r c rs cs : ~ (n = 1 /\ m = 1) -> determine_setitem_axis n m r c rs cs = Some false -> r = n /\ c = 1.
Proof.
  unfold determine_setitem_axis. intros N. destruct (Nat.eqb_spec n 1), (Nat.eqb_spec m 1); cbn [andb]; try (exfalso; now apply N);
  destruct (Nat.eqb_spec c 1), (Nat.eqb_spec r 1), (Nat.eqb_spec r n), (Nat.eqb_spec c m); cbn [andb]; try discriminate; auto.
Qed.

Section LocSet.
  Context {L A : Type}.
  Variable leqb : L -> L -> bool.
  Hypothesis leqb_ok : forall x y, leqb x y = true <-> x = y.
  Variables min_row min_col nparts : nat.
  Hypothesis mr : 0 < min_row.
  Hypothesis mc : 0 < min_col.
  Hypothesis np : 0 < nparts.
  Variables known_l known_w : nat -> nat -> bool.
  Variable argsort : list Z -> list nat.
  Hypothesis argsort_ok : forall l, sorts l (argsort l).
  Variable join : list (list L) -> list L * list (list (option nat)).
  Variable nan : A.
  Variable fk : bool.
  Notation dframe := (df L L A).
  Notation pf := (@pframe L L A).
  Notation spos := (setitem_positional leqb min_row min_col nparts known_l known_w argsort join nan fk).
  Notation iset := (iloc_setitem leqb leqb min_row min_col nparts known_l known_w argsort nan join).

  Lemma spos_iloc (f : pf) d rl cl rs cs rix cix rows cols it : shows f d rl cl ->
    selects (nrows d) rix rows -> selects (ncols d) cix cols -> ~ (nrows d = 1 /\ ncols d = 1) ->
    spos rs cs rix cix it f = iset fk (as_loc rix) (as_loc cix) it f.
  Proof.
    intros (_ & _ & _ & Hi & Hc) Sr Sc N. destruct (as_loc_ok _ _ _ Sr) as (_ & _ & Er & Ir). destruct (as_loc_ok _ _ _ Sc) as (_ & _ & Ec & Ic).
    unfold setitem_positional, iloc_setitem. rewrite Hi, Hc. cbn [labels rbind]. unfold nrows, ncols in *. rewrite Er, Ec. cbn [rbind]. rewrite Ir, Ic.
    unfold determine_setitem_axis. destruct (Nat.eqb_spec (length (dindex d)) 1), (Nat.eqb_spec (length (dcols d)) 1); try reflexivity. exfalso. now apply N.
  Qed.

  Lemma unique_at {X} (l : list X) p k : NoDup l -> nth_error l p = Some k -> forall j, nth_error l j = Some k -> j = p.
  Proof. intros N E j Hj. apply (proj1 (NoDup_nth_error l) N); [apply nth_error_Some; congruence|congruence]. Qed.

  (** One value. *)
  Lemma spos_scalar (f : pf) d rl cl rs cs rix cix rows cols a : shows f d rl cl ->
    selects (nrows d) rix rows -> selects (ncols d) cix cols -> ~ (nrows d = 1 /\ ncols d = 1) ->
    NoDup rows -> NoDup cols ->
    (length rows = nrows d -> length cols = 1 -> NoDup (dcols d)) ->
    (length cols = ncols d -> length rows = 1 -> NoDup (dindex d)) ->
    exists f' rl' cl', spos rs cs rix cix (Scalar a) f = Ok f' /\ shows f' (put rows cols (fun _ _ => a) d) rl' cl'.
  Proof.
    intros Sh Sr Sc N1 Nr Nc Uc Ur. rewrite (@spos_iloc f d rl cl rs cs rix cix rows cols (Scalar a) Sh Sr Sc N1).
    pose proof (selects_bound _ _ _ Sr) as Br. pose proof (selects_bound _ _ _ Sc) as Bc.
    destruct (as_loc_ok _ _ _ Sr) as (Pr & Qr & _ & Ir). destruct (as_loc_ok _ _ _ Sc) as (Pc & Qc & _ & Ic).
    destruct (determine_setitem_axis (nrows d) (ncols d) (length rows) (length cols) (is_int (as_loc rix)) (is_int (as_loc cix))) as [[|]|] eqn:Ax.
    - destruct (@axis_true _ _ _ _ _ _ N1 Ax) as [Ec Er]. destruct rows as [|p [|p2 rows]]; try discriminate. pose proof (Forall_inv Br) as Bp. unfold nrows in Bp.
      destruct (nth_error (dindex d) p) as [key|] eqn:Ek; [|apply nth_error_None in Ek; lia].
      eapply iloc_row_scalar; eauto using unique_at.
    - destruct (@axis_false _ _ _ _ _ _ N1 Ax) as [Er Ec]. destruct cols as [|q [|q2 cols]]; try discriminate. pose proof (Forall_inv Bc) as Bq. unfold ncols in Bq.
      destruct (nth_error (dcols d) q) as [key|] eqn:Ek; [|apply nth_error_None in Ek; lia].
      eapply iloc_column_scalar; eauto using unique_at.
    - eapply iloc_cells; eauto; [exact I|]. intros X. exfalso. now apply (X a).
  Qed.

  (** Values for a whole row of a frame with at least two columns. *)
  Lemma spos_row (f : pf) d rl cl rs cs rix p it v : shows f d rl cl ->
    selects (nrows d) rix [p] -> NoDup (dindex d) -> 1 < ncols d ->
    wanted 1 (ncols d) it = Some v -> (forall a, it <> Scalar a) ->
    exists f' rl' cl', spos rs cs rix None it f = Ok f' /\ shows f' (put [p] (seq 0 (ncols d)) v d) rl' cl'.
  Proof.
    intros Sh Sr ND H1 Wt Ns. assert (Sc : selects (ncols d) None (seq 0 (ncols d))) by reflexivity.
    rewrite (@spos_iloc f d rl cl rs cs rix None [p] (seq 0 (ncols d)) it Sh Sr Sc) by lia. pose proof (Forall_inv (selects_bound _ _ _ Sr)) as Bp.
    destruct (as_loc_ok _ _ _ Sr) as (Pr & Qr & _ & Ir). destruct (as_loc_ok _ _ _ Sc) as (Pc & Qc & _ & Ic).
    unfold nrows in Bp. destruct (nth_error (dindex d) p) as [key|] eqn:Ek; [|apply nth_error_None in Ek; lia].
    eapply iloc_row_list; eauto using unique_at. rewrite Ir, Ic. unfold determine_setitem_axis.
    destruct (Nat.eqb_spec (ncols d) 1); [lia|]. rewrite !andb_false_r. cbn [andb]. now rewrite Nat.eqb_refl.
  Qed.
  (** Values for a whole column of a frame with at least two rows. *)
  Lemma spos_column (f : pf) d rl cl rs cs cix q n w : shows f d rl cl ->
    selects (ncols d) cix [q] -> NoDup (dcols d) -> 1 < nrows d -> n = nrows d ->
    exists f' rl' cl', spos rs cs None cix (Vector n w) f = Ok f' /\ shows f' (put (seq 0 (nrows d)) [q] (fun i _ => w i) d) rl' cl'.
  Proof.
    intros Sh Sc ND H1 ->. assert (Sr : selects (nrows d) None (seq 0 (nrows d))) by reflexivity.
    rewrite (@spos_iloc f d rl cl rs cs None cix (seq 0 (nrows d)) [q] (Vector (nrows d) w) Sh Sr Sc) by lia. pose proof (Forall_inv (selects_bound _ _ _ Sc)) as Bq.
    destruct (as_loc_ok _ _ _ Sr) as (Pr & Qr & _ & Ir). destruct (as_loc_ok _ _ _ Sc) as (Pc & Qc & _ & Ic).
    unfold ncols in Bq. destruct (nth_error (dcols d) q) as [key|] eqn:Ek; [|apply nth_error_None in Ek; lia].
    eapply iloc_column_list; eauto using unique_at; try lia.
    - rewrite Ir, Ic. unfold determine_setitem_axis. destruct (Nat.eqb_spec (nrows d) 1); [lia|]. cbn [andb]. rewrite ?andb_false_r. now rewrite Nat.eqb_refl.
    - cbn [wanted]. destruct (Nat.eqb_spec (nrows d) 1); [lia|]. now rewrite !Nat.eqb_refl.
  Qed.
End LocSet.

Section Enlarged.
  Context {L A : Type}.
  Variable leqb : L -> L -> bool.
  Hypothesis leqb_ok : forall x y, leqb x y = true <-> x = y.
  Notation dframe := (df L L A).

  Lemma with_row_wf l row (d : dframe) : wf d -> length row = ncols d -> wf (with_row l row d).
  Proof. intros [W1 W2] Hr. split; cbn; [now rewrite !app_length, W1|]. apply Forall_app. split; auto. Qed.
  Lemma with_cols_wf fill new (d : dframe) : wf d -> wf (with_cols fill new d).
  Proof. intros [W1 W2]. split; cbn; [now rewrite map_length|]. apply Forall_map. revert W2. apply Forall_impl. intros r Hr. now rewrite !app_length, repeat_length, Hr. Qed.

  Lemma reindex_row_added fill l (d : dframe) : wf d -> NoDup (dindex d) -> ~ In l (dindex d) ->
    reindex_rows leqb fill (dindex d ++ [l]) d = with_row l (repeat fill (ncols d)) d.
  Proof.
    intros W N Ni. destruct (reindex_rows_meaning leqb leqb_ok fill (dindex d ++ [l]) W N) as (W' & E1 & E2 & M).
    apply cells_ext; auto. { apply with_row_wf; auto. apply repeat_length. }
    intros p q Hp Hq. unfold nrows in Hp. unfold ncols in Hq. rewrite E1, app_length in Hp. cbn in Hp. rewrite E2 in Hq.
    unfold with_row. unfold cell at 2. cbn [dcells].
    destruct (Nat.lt_ge_cases p (length (dindex d))) as [Hl|Hl].
    - destruct (nth_error (dindex d) p) as [k|] eqn:Ek; [|apply nth_error_None in Ek; lia].
      destruct (M p k q) as [M1 _]; auto. { rewrite nth_error_app1; auto. }
      rewrite (M1 p Ek). destruct W as [W1 _]. rewrite nth_error_app1 by lia. reflexivity.
    - assert (p = length (dindex d)) as -> by lia. destruct (M (length (dindex d)) l q) as [_ M2]; auto. { rewrite nth_error_app2 by lia. now rewrite Nat.sub_diag. }
      rewrite (M2 Ni). destruct W as [W1 _]. rewrite nth_error_app2 by lia. rewrite W1, Nat.sub_diag. cbn. symmetry. now apply nth_error_repeat.
  Qed.
  Lemma put_new_row fill l v (d : dframe) : wf d ->
    put [nrows d] (seq 0 (ncols d)) v (with_row l (repeat fill (ncols d)) d) = with_row l (map (v 0) (seq 0 (ncols d))) d.
  Proof.
    intros W. apply cells_ext.
    - apply wf_put, with_row_wf; auto. apply repeat_length.
    - apply with_row_wf; auto. now rewrite map_length, seq_length.
    - reflexivity.
    - reflexivity.
    - intros p q Hp Hq. rewrite cell_put. cbn [last_index]. rewrite last_index_seq.
      unfold nrows in *. unfold ncols in Hq. cbn [put with_row dindex dcols] in Hp, Hq. rewrite app_length in Hp. cbn in Hp. fold (ncols d) in Hq.
      rewrite (proj2 (Nat.ltb_lt _ _) Hq). unfold cell, with_row. cbn [dcells]. destruct W as [W1 W2]. destruct (Nat.eqb_spec (length (dindex d)) p) as [E|E].
      + subst p. rewrite !nth_error_app2 by lia. rewrite W1, Nat.sub_diag. cbn [nth_error]. rewrite (nth_error_repeat fill Hq), nth_error_map, nth_error_seq.
        now rewrite (proj2 (Nat.ltb_lt _ _) Hq).
      + rewrite !nth_error_app1 by lia. destruct (nth_error (dcells d) p) as [r|]; [|reflexivity]. now destruct (nth_error r q).
  Qed.

  Lemma reindex_cols_added fill new (d : dframe) : wf d -> NoDup (dcols d) -> (forall l, In l new -> ~ In l (dcols d)) ->
    reindex_cols leqb fill (dcols d ++ new) d = with_cols fill new d.
  Proof.
    intros W N Ni. destruct (reindex_cols_meaning leqb leqb_ok fill (dcols d ++ new) W N) as (W' & E1 & E2 & M).
    apply cells_ext; auto. { now apply with_cols_wf. }
    intros p q Hp Hq. unfold nrows in Hp. unfold ncols in Hq. rewrite E1 in Hp. rewrite E2, app_length in Hq.
    unfold with_cols. unfold cell at 2. cbn [dcells]. rewrite nth_error_map. destruct W as [W1 W2].
    destruct (nth_error (dcells d) p) as [r|] eqn:Er; [|apply nth_error_None in Er; lia]. cbn [option_map].
    assert (Lr : length r = length (dcols d)) by (rewrite Forall_forall in W2; apply W2; eapply nth_error_In; eauto).
    destruct (Nat.lt_ge_cases q (length (dcols d))) as [Hl|Hl].
    - destruct (nth_error (dcols d) q) as [k|] eqn:Ek; [|apply nth_error_None in Ek; lia].
      destruct (M p q k) as [M1 _]; auto. { rewrite nth_error_app1; auto. }
      rewrite (M1 q Ek). unfold cell. rewrite Er, nth_error_app1 by lia. reflexivity.
    - destruct (nth_error new (q - length (dcols d))) as [k|] eqn:Ek; [|apply nth_error_None in Ek; lia].
      destruct (M p q k) as [_ M2]; auto. { rewrite nth_error_app2 by lia. exact Ek. }
      rewrite (M2 (Ni k (nth_error_In _ _ Ek))). rewrite nth_error_app2 by lia. rewrite Lr. symmetry. apply nth_error_repeat. lia.
  Qed.
  Lemma added_new (old ls : list L) l : In l (added leqb old ls) -> ~ In l old.
  Proof. unfold added. intros [_ X]%filter_In I. apply negb_true_iff, not_true_iff_false in X. apply X, existsb_exists. exists l. split; auto. now apply leqb_ok. Qed.
  Lemma has_in ls l : has leqb ls l = true <-> In l ls.
  Proof. unfold has. rewrite existsb_exists. split; [intros (y & I & E); apply leqb_ok in E; now subst|intros I; exists l; split; auto; now apply leqb_ok]. Qed.
  Lemma has_not ls l : has leqb ls l = false <-> ~ In l ls.
  Proof. rewrite <- not_true_iff_false, has_in. tauto. Qed.

  Lemma all_of_in labels ls ps : all_of leqb labels ls = Some ps -> forall l, In l ls -> In l labels.
  Proof. revert ps. induction ls as [|x ls IH]; intros ps E l I; [destruct I|]. cbn [all_of] in E.
    destruct (everywhere leqb labels x) as [|p q] eqn:Ev; [discriminate|]. destruct (all_of leqb labels ls) as [qs|] eqn:Ea; [|discriminate].
    destruct I as [->|I]; [|eapply IH; eauto]. apply (nth_error_In _ p), (everywhere_in leqb leqb_ok). rewrite Ev. now left. Qed.
  Lemma filter_nil_in ls (labels : list L) : (forall l, In l ls -> In l labels) -> filter (fun l => negb (has leqb labels l)) ls = [].
  Proof. induction ls as [|x ls IH]; intros I; [reflexivity|]. cbn. rewrite (proj2 (has_in labels x)) by (apply I; now left). cbn. apply IH. intros l Il. apply I. now right. Qed.

  (** Keys that are all present enlarge nothing. *)
  Lemma nothing_missing leb of_Z of_bool index columns rk ck rows cols :
    located leqb leb of_Z index rk = Some rows -> located leqb leb of_Z columns ck = Some cols -> rows <> [] ->
    (forall m, ck <> KMask m) ->
    check_missing_loc leqb of_bool index columns rk ck = Ok None.
  Proof.
    intros Er Ec Nr Nm. unfold check_missing_loc.
    assert (Xc : match ck with
                 | KList ls => if existsb (fun l => negb (has leqb columns l)) ls then Some true else None
                 | KMask m => if existsb (fun b => negb (has leqb columns (of_bool b))) m then Some true else None
                 | KLabel l => if has leqb columns l then None else Some true
                 | _ => None
                 end = None).
    { destruct ck as [l|ls|ls|a b s|x y s|x y s|m]; auto; cbn [located] in Ec.
      - pose proof (all_of_in _ _ Ec l (or_introl eq_refl)) as I. now rewrite (proj2 (has_in columns l) I).
      - pose proof (all_of_in _ _ Ec) as I. destruct (existsb (fun l => negb (has leqb columns l)) ls) eqn:X; auto.
        apply existsb_exists in X. destruct X as (l & Il & X). now rewrite (proj2 (has_in columns l) (I l Il)) in X.
      - exfalso. now apply (Nm m). }
    destruct rk as [l|ls|ls|a b s|x y s|x y s|m]; cbn [located] in Er; cbn [rbind]; try (rewrite Xc; reflexivity).
    - pose proof (all_of_in _ _ Er l (or_introl eq_refl)) as I. now rewrite (proj2 (has_in index l) I).
    - pose proof (all_of_in _ _ Er) as I. unfold compute_enlarge_labels. destruct ls as [|l ls]; [cbn in Er; congruence|].
      cbn [existsb]. rewrite (proj2 (has_in index l)) by (apply I; now left). cbn [orb]. rewrite (filter_nil_in _ _ I). cbn. now rewrite Xc.
    - unfold compute_enlarge_mask. destruct (length m =? length index); [|discriminate]. cbn [negb].
      destruct (existsb (fun b => b) m) eqn:X; [cbn; now rewrite Xc|]. exfalso. injection Er as <-. apply Nr.
      generalize (seq 0 (length index)). revert X. clear. induction m as [|b m IH]; intros X [|x l]; try reflexivity. cbn in X |- *. apply orb_false_iff in X as [-> X]. cbn. now apply IH.
  Qed.

  Lemma all_of_unique labels ls : NoDup labels -> NoDup ls -> (forall l, In l ls -> In l labels) ->
    exists ps, all_of leqb labels ls = Some ps /\ NoDup ps /\ length ps = length ls /\ forall p, In p ps -> exists l, In l ls /\ nth_error labels p = Some l.
  Proof.
    intros N. induction ls as [|x ls IH]; intros Nl I.
    - exists []. repeat split; auto; [constructor|intros p []].
    - inversion Nl as [|? ? Nx Nl']; subst. destruct IH as (ps & E & Np & Hl & M); auto. { intros l Il. apply I. now right. }
      destruct (In_nth_error labels x (I x (or_introl eq_refl))) as (k & Hk). exists (k :: ps). cbn [all_of]. rewrite (everywhere_unique leqb leqb_ok _ N Hk), E. split; auto. split; [|split].
      + constructor; auto. intros Ik. destruct (M k Ik) as (l & Il & El). rewrite Hk in El. injection El as <-. contradiction.
      + cbn. now rewrite Hl.
      + intros p [<-|Ip]; [exists x; split; auto; now left|]. destruct (M p Ip) as (l & Il & El). exists l. split; auto. now right.
  Qed.

  (** Present rows, and a column that is new. *)
  Lemma columns_missing leb of_Z of_bool index columns rk ck ls rows :
    located leqb leb of_Z index rk = Some rows -> rows <> [] -> (forall l, rk <> KLabel l) ->
    match ck with KLabel l => Some [l] | KList ls => Some ls | _ => None end = Some ls ->
    existsb (fun l => negb (has leqb columns l)) ls = true ->
    check_missing_loc leqb of_bool index columns rk ck = Ok (Some true).
  Proof.
    intros Er Nr Nl Nk Ex. unfold check_missing_loc.
    assert (Xc : match ck with
                 | KList ls => if existsb (fun l => negb (has leqb columns l)) ls then Some true else None
                 | KMask m => if existsb (fun b => negb (has leqb columns (of_bool b))) m then Some true else None
                 | KLabel l => if has leqb columns l then None else Some true
                 | _ => None
                 end = Some true).
    { destruct ck as [l|l|l|a b s|x y s|x y s|m]; try discriminate; injection Nk as <-; [|now rewrite Ex]. cbn in Ex. rewrite orb_false_r in Ex. now destruct (has leqb columns l). }
    destruct rk as [l|l|l|a b s|x y s|x y s|m]; cbn [located] in Er; cbn [rbind]; try (rewrite Xc; reflexivity).
    - now destruct (Nl l).
    - pose proof (all_of_in _ _ Er) as I. unfold compute_enlarge_labels. destruct l as [|x l]; [cbn in Er; congruence|].
      cbn [existsb]. rewrite (proj2 (has_in index x)) by (apply I; now left). cbn [orb]. rewrite (filter_nil_in _ _ I). cbn. now rewrite Xc.
    - unfold compute_enlarge_mask. destruct (length m =? length index); [|discriminate]. cbn [negb].
      destruct (existsb (fun b => b) m) eqn:X; [cbn; now rewrite Xc|]. exfalso. injection Er as <-. apply Nr.
      generalize (seq 0 (length index)). revert X. clear. induction m as [|b m IH]; intros X [|x l]; try reflexivity. cbn in X |- *. apply orb_false_iff in X as [-> X]. cbn. now apply IH.
  Qed.
End Enlarged.
