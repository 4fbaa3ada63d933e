From Verif Require Import Base Table ChunkModel ChunkSpec ChunkProofs GridModel GridSpec FrameSpec
  GridProofs GridProofs2 GridProofs3 GridProofs5 JoinModel JoinProofs3 GroupSpec ShufSpec ShufModel ShufProps
  MergeSpec MergeModel MergeProofs MergeProofs2 MergeProofs3.
From Coq Require Import Permutation Sorted.

(** * The row labels a sort leaves are unknown to the frame *)
Section Labels.
  Context {L H A : Type}.
  Notation pf := (@pframe L H A).

  Lemma construct_pindex (f f' : pf) : construct f = Ok f' -> pindex f' = pindex f.
  Proof. unfold construct. destruct (validate_axes_lengths f); [|discriminate]. intros [= <-]. unfold filter_empties.
    destruct (_ && _); [reflexivity|]. destruct (_ || _); reflexivity. Qed.

  Variable leqb : L -> L -> bool.
  Variable heqb : H -> H -> bool.

  Lemma full_axis_pindex nparts min_row min_col axis func ni nc keep ns (f f' : pf) :
    apply_full_axis (L2 := L) (H2 := H) (B := A) leqb heqb nparts min_row min_col axis func ni nc keep ns f = Ok f' -> pindex f' = ni.
  Proof.
    unfold apply_full_axis. destruct (map_axis_partitions _ _ _ _ _ _ _ _ _ _) as [parts|]; [|discriminate]. cbn [rbind].
    destruct keep; cbn [negb].
    - intros E. now apply construct_pindex in E.
    - match goal with |- rbind ?x _ = _ -> _ => destruct x; [|discriminate] end. cbn [rbind].
      match goal with |- rbind ?x _ = _ -> _ => destruct x; [|discriminate] end. cbn [rbind].
      intros E. now apply construct_pindex in E.
  Qed.

  Context {K : Type}.
  Variable kle : K -> K -> bool.
  Variable key : nat -> @row L A -> option K.
  Variable raw_na : nat -> @row L A -> bool.
  Variable numeric : nat -> bool.
  Variable quantiles : nat -> nat -> list (option K).

  Lemma sort_by_pindex nparts min_row min_col over asc na_first sv (f f' : pf) : pindex f = None ->
    sort_by leqb heqb kle raw_na key numeric quantiles nparts min_row min_col over asc na_first sv f = Ok f' -> pindex f' = None.
  Proof.
    intros N. unfold sort_by. destruct (_ || _); [now intros [= <-]|]. unfold range_partitioning.
    destruct (length (pgrid f) =? 1).
    { match goal with |- rbind ?x _ = _ -> _ => destruct x eqn:E; [|discriminate] end. cbn [rbind]. intros [= <-]. cbn.
      now apply full_axis_pindex in E. }
    assert (Fin : forall ideal grid,
      (do g <- shuffle_partitions leqb heqb kle raw_na key numeric quantiles min_row min_col 1 ideal asc false na_first (fun d => Ok (sv d)) grid;
       do r <- construct (mkpf g None None None None);
       Ok (mkpf (pgrid r) (pindex r) (pcols f) (prl r)
             (match pcols f with Some c => Some [length c] | None => pcl r end))) = Ok f' -> pindex f' = None).
    { intros ideal grid. match goal with |- rbind ?x _ = _ -> _ => destruct x; [|discriminate] end. cbn [rbind].
      match goal with |- rbind ?x _ = _ -> _ => destruct x eqn:E; [|discriminate] end. cbn [rbind]. intros [= <-]. cbn.
      now apply construct_pindex in E. }
    destruct over; [|apply Fin].
    destruct (_ || _).
    { unfold combine_and_apply. match goal with |- rbind ?x _ = _ -> _ => destruct x; [|discriminate] end. cbn [rbind].
      intros E. now apply full_axis_pindex in E. }
    destruct (_ <? _); [|apply Fin].
    match goal with |- rbind ?x _ = _ -> _ => destruct x; [|discriminate] end. cbn [rbind]. apply Fin.
  Qed.
End Labels.

(** * Comparing rows by their cells only *)
Section Cells.
  Context {K L A : Type}.
  Variable kle : K -> K -> bool.
  Definition of_cells (k : list A -> option K) : @row L A -> option K := fun r => k (snd r).

  Lemma lex_le_cells na (cols : list ((list A -> option K) * bool)) (r s : @row L A) :
    lex_le kle na (map (fun c => (of_cells (fst c), snd c)) cols) r s = lex_le kle na cols (snd r) (snd s).
  Proof. induction cols as [|[k a] cols IH]; [reflexivity|].
    cbn [map lex_le fst snd]. rewrite IH. reflexivity. Qed.

  Lemma sorts_cells na (cols : list ((list A -> option K) * bool)) (l l' : list (@row L A)) :
    sorts (lex_le kle na (map (fun c => (of_cells (fst c), snd c)) cols)) l l' ->
    sorts (lex_le kle na cols) (map snd l) (map snd l').
  Proof.
    intros [P S]. split; [now apply Permutation_map|]. clear P. induction S as [|x l' S IH F]; [constructor|]. cbn. constructor; auto.
    apply Forall_map. eapply Forall_impl; [|exact F]. intros y E. cbv beta in *. rewrite <- (lex_le_cells na cols x y). exact E.
  Qed.
End Cells.

Lemma map_snd_rows {L H A} (d : df L H A) : wf d -> map snd (rows_of d) = dcells d.
Proof. intros [W _]. unfold rows_of. revert W. generalize (dindex d) (dcells d). intros i c. revert i.
  induction c as [|x c IH]; intros [|y i] E; try discriminate; [reflexivity|]. cbn. now rewrite IH by auto. Qed.

Section Sorted.
  Context {L H A K : Type}.
  Variable leqb : L -> L -> bool.
  Variable heqb : H -> H -> bool.
  Variable aeqb : A -> A -> bool.
  Variable nan : A.
  Variable suffixed : bool -> H -> H.
  Hypothesis leqb_ok : forall x y, leqb x y = true <-> x = y.
  Hypothesis heqb_ok : forall x y, heqb x y = true <-> x = y.
  Variable kle : K -> K -> bool.
  Hypothesis kle_total : total_preorder kle.
  Variable quantiles : nat -> nat -> list (option K).
  Hypothesis quantiles_sorted : forall i n, StronglySorted (fun x y => npltb kle x y = true) (quantiles i n).
  Hypothesis quantiles_some : forall n, 2 <= n -> quantiles 0 n <> [].
  Variable numeric : nat -> bool.
  Variable nparts min_row min_col : nat.
  Hypothesis nparts_many : 2 <= nparts.
  Hypothesis min_row_pos : 0 < min_row.
  Hypothesis min_col_pos : 0 < min_col.
  Variable over : bool.
  (** the sort columns of the result: how to read the first one, then the further ones *)
  Variable value : list A -> option K.
  Variable rest : list ((list A -> option K) * bool).
  Variable sort_values : df nat H A -> df nat H A.

  Definition value_at : nat -> @row nat A -> option K := fun _ => of_cells value.
  Definition missing_at (i : nat) (r : @row nat A) : bool := match value_at i r with None => true | Some _ => false end.
  Definition sort_rows_by : @pframe nat H A -> res (@pframe nat H A) :=
    sort_by Nat.eqb heqb kle missing_at value_at numeric quantiles nparts min_row min_col over true false sort_values.

  Lemma merge_sorted (h : how) (k : keys_arg H) (left right : @pframe L H A) ld rd rll cll rlr clr sort_rows by_ :
    holds left ld rll cll -> holds right rd rlr clr -> rll <> [] -> rlr <> [] ->
    keys_ok (dcols ld) (dcols rd) k -> paired k ->
    match k with On o => by_ = o | LeftRight lo ro => by_ = lo ++ ro | Common => False end ->
    (forall m, sort_rows by_ m = sort_rows_by m) ->
    let M := merge heqb aeqb nan suffixed (key_pairs heqb (dcols ld) (dcols rd) k) ld rd h in
    (forall b, wf b -> dcols b = dcols M ->
       wf (sort_values b) /\ dcols (sort_values b) = dcols M
       /\ sorts (lex_le kle false ((of_cells value, true) :: map (fun c => (of_cells (fst c), snd c)) rest)) (rows_of b) (rows_of (sort_values b))) ->
    exists x rl cl D, row_axis_merge leqb heqb aeqb nan suffixed nparts min_row min_col sort_rows h k true left right = Ok x
      /\ holds x D rl cl /\ rl <> [] /\ cl <> []
      /\ dindex D = dindex M /\ dcols D = dcols M /\ sorts (lex_le kle false ((value, true) :: rest)) (dcells M) (dcells D).
  Proof.
    intros Hl Hr Nl Nr Hk P Hby Es M C.
    destruct (@row_axis_merge_parts L H A leqb heqb aeqb nan suffixed leqb_ok heqb_ok nparts min_row min_col
      ltac:(lia) ltac:(lia) ltac:(lia) h k left right ld rd rll cll rlr clr sort_rows true) as (m & rl & cl & idx & Hm & Ei & R & Cn & Ni & Hcol & E); auto.
    fold M in Hm, Ei, Hcol. rewrite E. clear E.
    replace (match k with | On o => sort_rows o m | LeftRight lo ro => sort_rows (lo ++ ro) m | Common => Ok m end) with (sort_rows_by m).
    2:{ destruct k; subst; [symmetry; apply Es|symmetry; apply Es|easy]. }
    set (T := mkdf idx (dcols M) (dcells M)) in *.
    assert (WT : wf T) by apply Hm.
    assert (PT : 0 < ncols T).
    { destruct Hm as [(_ & _ & Sc & _) _]. unfold T, ncols. cbn [dcols]. unfold M, merge. cbn [dcols]. rewrite header_length.
      destruct (keys_columns heqb aeqb nan suffixed heqb_ok (dcols ld) (dcols rd) k Hk). unfold ncols. lia. }
    assert (X : exists m' D rl' cl', sort_rows_by m = Ok m' /\ holds m' D rl' cl' /\ rl' <> [] /\ cl' <> [] /\ pindex m' = None
              /\ dcols D = dcols M /\ sorts (lex_le kle false ((value, true) :: rest)) (dcells M) (dcells D)).
    { destruct (Nat.eq_dec (nrows T) 0) as [Z|Z].
      - exists m, T, rl, cl. split; [|split; [exact Hm|split; [exact R|split; [exact Cn|split; [exact Ni|split; [reflexivity|]]]]]].
        + unfold sort_rows_by, sort_by. rewrite (gridded_row_lengths (proj1 Hm) Cn). destruct Hm as [(_ & -> & _) _]. rewrite Z. now rewrite orb_true_r.
        + change (dcells T) with (dcells M). assert (E0 : dcells M = []).
          { apply length_zero_iff_nil. rewrite <- Z. unfold nrows. apply WT. }
          rewrite E0. repeat constructor.
      - destruct (@sort_by_runs nat H A K Nat.eqb heqb Nat.eqb_eq heqb_ok kle value_at missing_at (fun i r => eq_refl) numeric quantiles
                    quantiles_sorted quantiles_some m T rl cl Hm R Cn nparts min_row min_col nparts_many min_row_pos min_col_pos over
                    true false sort_values PT ltac:(lia)) as (f' & bins & E & S & rl' & cl' & Hh).
        { intros b Wb Db. destruct (C b Wb Db) as (? & ? & _). auto. }
        set (D := of_rows (dcols T) _) in Hh.
        assert (SD : sorts (lex_le kle false ((of_cells value, true) :: map (fun c => (of_cells (fst c), snd c)) rest)) (rows_of T) (rows_of D)).
        { unfold D. rewrite ShufProofs2.rows_of_of_rows.
          apply (proj1 (@ShufProofs7.spread_sorted nat H A K kle kle_total missing_at value_at numeric (fun i r => eq_refl) true false false _ T bins sort_values WT S)).
          intros b Wb Db. destruct (C b Wb Db) as (_ & _ & X). exact X. }
        assert (WD : wf D) by apply Hh.
        assert (SC : sorts (lex_le kle false ((value, true) :: rest)) (dcells T) (dcells D)).
        { rewrite <- (map_snd_rows WT), <- (map_snd_rows WD). apply (@sorts_cells K nat A kle false ((value, true) :: rest)). exact SD. }
        assert (LD : nrows D = nrows T).
        { destruct SC as [Pm _]. apply Permutation_length in Pm. destruct WT as [E1 _], WD as [E2 _]. unfold nrows. congruence. }
        exists f', D, rl', cl'. split; [exact E|]. split; [exact Hh|]. destruct Hh as [(_ & Sr & Sc & _) _]. split; [|split].
        + intros ->. change (list_sum []) with 0 in Sr. lia.
        + intros ->. change (ncols D) with (ncols T) in Sc. change (list_sum []) with 0 in Sc. lia.
        + split; [exact (@sort_by_pindex nat H A Nat.eqb heqb K kle value_at missing_at numeric quantiles nparts min_row min_col over true false sort_values m f' Ni E)|].
          split; [reflexivity|exact SC]. }
    destruct X as (m' & D & rl' & cl' & E & Hm' & R' & C' & Ni' & Dc & S). cbv iota. rewrite E. cbn [rbind].
    destruct (@reset_index_ok H A heqb min_col m' _ rl' cl' Hm' Ni' R' C' min_col_pos) as (x & rl2 & cl2 & E1 & E2 & E3 & E4 & _).
    exists x, rl2, cl2, (mkdf (seq 0 (nrows D)) (dcols D) (dcells D)). split; [exact E1|]. split; [exact E2|]. split; [exact E3|]. split; [exact E4|].
    cbn [dindex dcols dcells]. split; [|split; [exact Dc|exact S]].
    unfold M, merge. cbn [dindex]. f_equal. destruct S as [Pm _]. apply Permutation_length in Pm. destruct Hm' as [([W1 _] & _) _].
    unfold nrows. rewrite <- W1, <- Pm. reflexivity.
  Qed.
End Sorted.
