(** C21, C22, C23: sort_values and the range-partitioning shuffle. *)
From Verif Require Import Base Table ChunkModel ChunkSpec ChunkProofs GridModel GridSpec FrameSpec
  GridProofs GridProofs2 GridProofs3 GridProofs5 ShufSpec ShufModel ShufProofs ShufProofs2 ShufProofs3 ShufProofs4
  ShufProofs5 ShufProofs6 ShufProofs7.
From Coq Require Import Permutation Sorted.

Lemma filter_perm {X} (p : X -> bool) l l' : Permutation l l' -> Permutation (filter p l) (filter p l').
Proof.
  induction 1; cbn; auto.
  - destruct (p x); auto.
  - destruct (p x), (p y); auto. constructor.
  - etransitivity; eassumption.
Qed.

Section Props.
  Context {L H A K : Type}.
  Notation dframe := (df L H A).
  Notation pf := (@pframe L H A).
  Notation row := (@row L A).
  Variable leqb : L -> L -> bool.
  Variable heqb : H -> H -> bool.
  Hypothesis leqb_ok : forall x y, leqb x y = true <-> x = y.
  Hypothesis heqb_ok : forall x y, heqb x y = true <-> x = y.
  Variable kle : K -> K -> bool.
  Hypothesis kle_total : total_preorder kle.
  (** [key i r]: the i-th key of a row after the user's [key] function, None when missing; a missing value stays
      missing under the [key] function and no other value becomes missing. *)
  Variable key : nat -> row -> option K.
  Variable raw_na : nat -> row -> bool.
  Hypothesis na_ok : forall i r, raw_na i r = match key i r with None => true | Some _ => false end.
  Variable numeric : nat -> bool.
  (** Whatever the random samples were: strictly increasing, and not empty when pivots are asked for. *)
  Variable quantiles : nat -> nat -> list (option K).
  Hypothesis quantiles_sorted : forall i n, StronglySorted (fun x y => npltb kle x y = true) (quantiles i n).
  Hypothesis quantiles_some : forall n, 2 <= n -> quantiles 0 n <> [].

  (** The partitioned frame and the configuration. *)
  Variable f : pf.
  Variable d : dframe.
  Variable rl cl : list nat.
  Hypothesis frame : holds f d rl cl.
  Hypothesis rl_ne : rl <> [].
  Hypothesis cl_ne : cl <> [].
  Variable nparts min_row min_col : nat.
  Hypothesis nparts_many : 2 <= nparts.
  Hypothesis min_row_pos : 0 < min_row.
  Hypothesis min_col_pos : 0 < min_col.
  Variable over : bool.

  Notation sort_by := (sort_by leqb heqb kle raw_na key numeric quantiles).
  Notation range_partitioning := (range_partitioning leqb heqb kle raw_na key numeric quantiles).

  Lemma wf_d : wf d.
  Proof. apply frame. Qed.

  Lemma sort_by_runs ascending na_first sort_values : 0 < ncols d -> 0 < nrows d ->
    (forall b, wf b -> dcols b = dcols d -> wf (sort_values b) /\ dcols (sort_values b) = dcols d) ->
    exists f' bins, sort_by nparts min_row min_col over ascending na_first sort_values f = Ok f'
      /\ spread kle raw_na key numeric 1 ascending false na_first d bins
      /\ (let D := of_rows (dcols d) (concat (map rows_of (map sort_values bins))) in
          exists rl' cl', holds f' D rl' cl').
  Proof.
    intros Hc Hr C. pose proof frame as ((W & Sr & Sc & _) & _).
    assert (G := proj1 frame). unfold ShufModel.sort_by.
    rewrite (gridded_row_lengths G cl_ne), (gridded_column_widths G rl_ne), Sr, Sc.
    destruct (Nat.eqb_spec (ncols d) 0); [lia|]. destruct (Nat.eqb_spec (nrows d) 0); [lia|]. cbn [orb].
    edestruct (@range_ok L H A K leqb heqb leqb_ok heqb_ok kle raw_na key numeric quantiles
                 quantiles_sorted quantiles_some d (dcols d) (fun b => Ok (sort_values b)) W) with
      (nkeys := 1) (ascending := ascending) (cr := false) (na_first := na_first) (over := over) (preserve := true) (nparts := nparts)
      (min_row := min_row) (min_col := min_col) (f := f) as [X1 X2]; eauto.
    { intros b out Wb Db E. injection E as <-. now apply C. }
    destruct X2 as (f' & E); [reflexivity|eauto|]. destruct (X1 f' E) as (bins & outs & rl' & cl' & S & F2 & Hh & _).
    assert (outs = map sort_values bins) as ->.
    { clear -F2. induction F2 as [|b o bs os E _ IH]; [reflexivity|]. injection E as <-. cbn. now rewrite IH. }
    exists f', bins. split; [exact E|]. split; [exact S|]. exists rl', cl'. exact Hh.
  Qed.

  (** C21 (and C22): a sort of the partitioned frame, for every partitioning, every pivots, every direction and
      every further sort columns ([rest]); [sort_values] is pandas' sort of one frame, any algorithm. *)
  Theorem C21_sort_values_sorts (ascending na_first : bool) (rest : list ((row -> option K) * bool)) (sort_values : dframe -> dframe) :
    let le := lex_le kle na_first ((key 0, ascending) :: rest) in
    0 < ncols d -> (nrows d = 0 -> pindex f <> None /\ pcols f <> None) ->
    (forall b, wf b -> dcols b = dcols d ->
       wf (sort_values b) /\ dcols (sort_values b) = dcols d /\ sorts le (rows_of b) (rows_of (sort_values b))) ->
    exists f' D, sort_by nparts min_row min_col over ascending na_first sort_values f = Ok f'
      /\ pf_to_pandas leqb heqb f' = Ok D
      /\ wf D /\ dcols D = dcols d /\ sorts le (rows_of d) (rows_of D).
  Proof.
    intros le Hc He C. pose proof wf_d as W. destruct (Nat.eq_dec (nrows d) 0) as [Hz|Hz].
    - exists f, d. assert (G := proj1 frame). unfold ShufModel.sort_by.
      rewrite (gridded_row_lengths G cl_ne). pose proof frame as ((_ & Sr & _) & _). rewrite Sr, Hz, orb_true_r.
      split; [reflexivity|]. split.
      + apply pf_to_pandas_holds with (rl := rl) (cl := cl); [exact leqb_ok|exact heqb_ok|exact frame|]. intros _. now apply He.
      + split; [exact W|]. split; [reflexivity|]. pose proof (rows_of_length W) as E. rewrite Hz in E.
        destruct (rows_of d); [|discriminate]. repeat constructor.
    - destruct (@sort_by_runs ascending na_first sort_values Hc) as (f' & bins & E & S & rl' & cl' & Hh); [lia| |].
      { intros b Wb Db. destruct (C b Wb Db) as (? & ? & _). auto. }
      set (D := of_rows (dcols d) (concat (map rows_of (map sort_values bins)))) in *.
      assert (SD : sorts le (rows_of d) (rows_of D)).
      { unfold D. rewrite rows_of_of_rows.
        apply (proj1 (@spread_sorted L H A K kle kle_total raw_na key numeric na_ok ascending false na_first rest d bins sort_values W S)).
        intros b Wb Db. destruct (C b Wb Db) as (_ & _ & X). exact X. }
      assert (WD : wf D) by apply Hh.
      exists f', D. split; [exact E|]. split; [|repeat split; try apply WD; apply SD].
      apply pf_to_pandas_holds with (rl := rl') (cl := cl'); [exact leqb_ok|exact heqb_ok|exact Hh|]. intros [Z|Z]; exfalso.
      + destruct SD as [P _]. apply Permutation_length in P. rewrite !rows_of_length in P by assumption. lia.
      + change (ncols D) with (ncols d) in Z. lia.
  Qed.

  (** C21, stable sorts (kind="stable" or several sort columns): the result is exactly what pandas returns. *)
  Theorem C21_stable_sort_exact (ascending na_first : bool) (rest : list ((row -> option K) * bool)) (sort_values : dframe -> dframe) :
    let le := lex_le kle na_first ((key 0, ascending) :: rest) in
    0 < ncols d -> 0 < nrows d ->
    (forall b, wf b -> dcols b = dcols d ->
       wf (sort_values b) /\ dcols (sort_values b) = dcols d /\ stably_sorts le (rows_of b) (rows_of (sort_values b))) ->
    exists f', sort_by nparts min_row min_col over ascending na_first sort_values f = Ok f'
      /\ pf_to_pandas leqb heqb f' = Ok (sort_values d).
  Proof.
    intros le Hc Hr C. pose proof wf_d as W.
    destruct (@sort_by_runs ascending na_first sort_values Hc Hr) as (f' & bins & E & S & rl' & cl' & Hh).
    { intros b Wb Db. destruct (C b Wb Db) as (? & ? & _). auto. }
    set (D := of_rows (dcols d) (concat (map rows_of (map sort_values bins)))) in *.
    destruct (C d W eq_refl) as (Wd & Dd & Sd).
    assert (D = sort_values d) as ED.
    { rewrite <- (of_rows_rows_of Wd). rewrite Dd. unfold D. f_equal.
      apply (@stable_unique _ le (@lex_le_total _ _ kle kle_total na_first _) (rows_of d)); [|exact Sd].
      apply (proj2 (@spread_sorted L H A K kle kle_total raw_na key numeric na_ok ascending false na_first rest d bins sort_values W S)).
      intros b Wb Db. destruct (C b Wb Db) as (_ & _ & X). exact X. }
    rewrite <- ED. exists f'. split; [exact E|].
    apply pf_to_pandas_holds with (rl := rl') (cl := cl'); [exact leqb_ok|exact heqb_ok|exact Hh|]. intros [Z|Z]; exfalso.
    - destruct Sd as [[P _] _]. apply Permutation_length in P. rewrite !rows_of_length in P by assumption. rewrite ED in Z. lia.
    - change (ncols D) with (ncols d) in Z. lia.
  Qed.

  (** C22: rows with a missing key are all at the requested end, in either direction. *)
  Theorem C22_missing_at_end (ascending na_first : bool) (rest : list ((row -> option K) * bool)) (sort_values : dframe -> dframe) :
    let le := lex_le kle na_first ((key 0, ascending) :: rest) in
    0 < ncols d -> 0 < nrows d ->
    (forall b, wf b -> dcols b = dcols d ->
       wf (sort_values b) /\ dcols (sort_values b) = dcols d /\ sorts le (rows_of b) (rows_of (sort_values b))) ->
    exists f' D missing present, sort_by nparts min_row min_col over ascending na_first sort_values f = Ok f'
      /\ pf_to_pandas leqb heqb f' = Ok D
      /\ rows_of D = (if na_first then missing ++ present else present ++ missing)
      /\ Permutation missing (filter (fun r => match key 0 r with None => true | _ => false end) (rows_of d))
      /\ Permutation present (filter (fun r => match key 0 r with None => false | _ => true end) (rows_of d)).
  Proof.
    intros le Hc Hr C.
    destruct (@C21_sort_values_sorts ascending na_first rest sort_values Hc ltac:(lia) C) as (f' & D & E1 & E2 & WD & _ & P & S).
    set (no := fun r : row => match key 0 r with None => true | _ => false end).
    set (yes := fun r : row => match key 0 r with None => false | _ => true end).
    exists f', D, (filter no (rows_of D)), (filter yes (rows_of D)). split; [exact E1|]. split; [exact E2|].
    split; [|split; apply filter_perm; now symmetry].
    clear P E2 WD. induction S as [|r l S IH F]; [now destruct na_first|].
    rewrite Forall_forall in F. cbn [filter].
    assert (Er : no r = match key 0 r with None => true | _ => false end) by reflexivity.
    assert (Ey : yes r = match key 0 r with None => false | _ => true end) by reflexivity.
    destruct (key 0 r) as [k|] eqn:Ek; rewrite Er, Ey.
    - destruct na_first.
      + assert (N : filter no l = []).
        { apply filter_none. intros s Hs. specialize (F s Hs). apply le_first in F. rewrite Ek in F. unfold no.
          destruct (key 0 s); [reflexivity|discriminate]. }
        rewrite N in IH |- *. cbn [app] in *. now f_equal.
      + cbn [app]. now f_equal.
    - destruct na_first.
      + cbn [app]. now f_equal.
      + assert (N : filter yes l = []).
        { apply filter_none. intros s Hs. specialize (F s Hs). apply le_first in F. rewrite Ek in F. unfold yes.
          destruct (key 0 s); [discriminate|reflexivity]. }
        rewrite N in IH |- *. cbn [app] in *. now f_equal.
  Qed.

  (** C23: whatever is computed per partition after the shuffle ([func]) is computed on pieces that keep the rows of
      every key together and in order, and the result is those pieces' results one after the other.
      Partial: with several key columns the call may instead fail (see [C23_single_row_refuted]). *)
  Theorem C23_equal_keys_meet_partial (nkeys : nat) (ascending cr na_first preserve : bool) (func : dframe -> res dframe) (c' : list H) f' :
    0 < nkeys ->
    (forall b out, wf b -> dcols b = dcols d -> func b = Ok out -> wf out /\ dcols out = c') ->
    (preserve = true -> c' = dcols d) ->
    range_partitioning nparts min_row min_col over nkeys ascending cr na_first preserve func f = Ok f' ->
    exists bins outs, gathers (same_keys kle (map key (seq 0 nkeys))) d bins
      /\ Forall2 (fun b o => func b = Ok o) bins outs
      /\ exists rl' cl', holds f' (of_rows c' (concat (map rows_of outs))) rl' cl'.
  Proof.
    intros Hk C Hp E. pose proof wf_d as W.
    edestruct (@range_ok L H A K leqb heqb leqb_ok heqb_ok kle raw_na key numeric quantiles
                 quantiles_sorted quantiles_some d c' func W) with
      (nkeys := nkeys) (ascending := ascending) (cr := cr) (na_first := na_first) (over := over) (preserve := preserve) (nparts := nparts)
      (min_row := min_row) (min_col := min_col) (f := f) as [X1 _]; eauto.
    destruct (X1 f' E) as (bins & outs & rl' & cl' & S & F2 & Hh & _).
    exists bins, outs. split; [|split; [exact F2|exists rl', cl'; exact Hh]].
    eapply spread_gathers; eauto.
  Qed.

  (** C23 for one key column: the call always succeeds, and the pieces follow the order of the keys. *)
  Theorem C23_one_key_meets (ascending cr na_first preserve : bool) (func : dframe -> dframe) (c' : list H) :
    (forall b, wf b -> dcols b = dcols d -> wf (func b) /\ dcols (func b) = c') ->
    (preserve = true -> c' = dcols d) ->
    exists f' bins,
      range_partitioning nparts min_row min_col over 1 ascending cr na_first preserve (fun b => Ok (func b)) f = Ok f'
      /\ gathers (same_keys kle [key 0]) d bins
      /\ ordered (value_le kle na_first ascending) (key 0) bins
      /\ exists rl' cl', holds f' (of_rows c' (concat (map rows_of (map func bins)))) rl' cl'.
  Proof.
    intros C Hp. pose proof wf_d as W.
    edestruct (@range_ok L H A K leqb heqb leqb_ok heqb_ok kle raw_na key numeric quantiles
                 quantiles_sorted quantiles_some d c' (fun b => Ok (func b)) W) with
      (nkeys := 1) (ascending := ascending) (cr := cr) (na_first := na_first) (over := over) (preserve := preserve) (nparts := nparts)
      (min_row := min_row) (min_col := min_col) (f := f) as [X1 X2]; eauto.
    { intros b out Wb Db E. injection E as <-. now apply C. }
    destruct X2 as (f' & E); [reflexivity|eauto|]. destruct (X1 f' E) as (bins & outs & rl' & cl' & S & F2 & Hh & _).
    assert (outs = map func bins) as ->.
    { clear -F2. induction F2 as [|b o bs os E _ IH]; [reflexivity|]. injection E as <-. cbn. now rewrite IH. }
    exists f', bins. split; [exact E|]. split; [|split; [|exists rl', cl'; exact Hh]].
    - exact (@spread_gathers L H A K kle kle_total raw_na key numeric na_ok 1 ascending cr na_first d bins W S).
    - exact (@spread_ordered L H A K kle kle_total raw_na key numeric na_ok ascending cr na_first d bins W S).
  Qed.
End Props.
Print Assumptions C21_sort_values_sorts.
Print Assumptions C21_stable_sort_exact.
Print Assumptions C22_missing_at_end.
Print Assumptions C23_equal_keys_meet_partial.
Print Assumptions C23_one_key_meets.

Definition eqk_laws {R} (eqk : R -> R -> bool) : Prop :=
  (forall x, eqk x x = true) /\ (forall x y, eqk x y = true -> eqk y x = true)
  /\ (forall x y z, eqk x y = true -> eqk y z = true -> eqk x z = true).
Lemma same_keys_laws {R K} (kle : K -> K -> bool) (keys : list (R -> option K)) : total_preorder kle ->
  eqk_laws (same_keys kle keys).
Proof.
  intros [T1 T2].
  assert (R1 : forall x, same_value kle x x = true) by (intros [x|]; cbn; [destruct (T1 x x) as [-> | ->]|]; reflexivity).
  assert (S : forall x y, same_value kle x y = true -> same_value kle y x = true).
  { intros [x|] [y|]; cbn; auto. rewrite !andb_true_iff. tauto. }
  assert (T : forall x y z, same_value kle x y = true -> same_value kle y z = true -> same_value kle x z = true).
  { intros [x|] [y|] [z|]; cbn; auto; try discriminate. rewrite !andb_true_iff. intros [? ?] [? ?]. split; eapply T2; eassumption. }
  repeat split.
  - intros r. unfold same_keys. apply forallb_forall. auto.
  - intros r s. unfold same_keys. rewrite !forallb_forall. auto.
  - intros r s t. unfold same_keys. rewrite !forallb_forall. eauto.
Qed.

(** C23, the consequence for groupby and drop_duplicates: computing the groups (the rows kept) of every piece gives
    exactly the groups (the rows kept) of the whole table, each with all its rows in their original order. *)
Theorem C23_groups_of_pieces {L H A K : Type} (kle : K -> K -> bool) (keys : list (@row L A -> option K))
    (d : df L H A) (bins : list (df L H A)) :
  total_preorder kle -> gathers (same_keys kle keys) d bins ->
  Permutation (concat (map (fun b => groups (same_keys kle keys) (rows_of b)) bins)) (groups (same_keys kle keys) (rows_of d))
  /\ Permutation (concat (map (fun b => firsts (same_keys kle keys) (rows_of b)) bins)) (firsts (same_keys kle keys) (rows_of d)).
Proof.
  intros [T1 T2] (_ & P & G1 & G2).
  destruct (@same_keys_laws (@row L A) K kle keys (conj T1 T2)) as (R & S & T).
  edestruct (@groups_pieces (@row L A) (same_keys kle keys)) with (l := rows_of d) (ps := map rows_of bins) as [X1 X2].
  - exact R.
  - exact S.
  - exact T.
  - exact P.
  - intros p r Hp Hr. apply in_map_iff in Hp. destruct Hp as (b & <- & Hb). now apply G1.
  - intros i j pi pj r s. rewrite !nth_error_map. intros Hi Hj.
    destruct (nth_error bins i) eqn:Ei; [|discriminate]. destruct (nth_error bins j) eqn:Ej; [|discriminate].
    injection Hi as <-. injection Hj as <-. now apply (G2 i j).
  - rewrite map_map in X1, X2. auto.
Qed.
Print Assumptions C23_groups_of_pieces.

(** C23, groupby(sort=True) by one key column: putting the sorted groups of the pieces one after the other gives
    exactly the sorted groups of the whole table. *)
Theorem C23_sorted_groups_exact {L H A K : Type} (kle : K -> K -> bool) (key : @row L A -> option K) (ascending na_first : bool)
    (d : df L H A) (bins : list (df L H A)) (sorted : list (list (list (@row L A)))) (whole : list (list (@row L A))) :
  let of_group g := match g with r :: _ => key r | [] => None end in
  let le g h := value_le kle na_first ascending (of_group g) (of_group h) in
  total_preorder kle -> gathers (same_keys kle [key]) d bins -> ordered (value_le kle na_first ascending) key bins ->
  Forall2 (fun b gs => sorts le (groups (same_keys kle [key]) (rows_of b)) gs) bins sorted ->
  sorts le (groups (same_keys kle [key]) (rows_of d)) whole ->
  concat sorted = whole.
Proof.
  intros of_group le T G O F2 [Pw Sw]. pose proof G as (_ & P & G1 & G2).
  set (eqk := same_keys kle [key]) in *.
  destruct (value_le_total T na_first ascending) as [V1 V2].
  assert (EQ : eqk_laws eqk) by now apply same_keys_laws.
  destruct EQ as (R & Sy & Tr).
  assert (Hd : forall l g, In g (groups eqk l) -> exists r g', g = r :: g' /\ In r l /\ g = filter (eqk r) l).
  { intros l g Hg. unfold groups in Hg. apply in_map_iff in Hg. destruct Hg as (r & <- & Hr).
    pose proof (@firsts_from_in _ eqk _ _ _ Hr) as Ir. apply firsts_in in Hr; auto.
    destruct (filter (eqk r) l) as [|r0 g'] eqn:Ef; [discriminate|]. injection Hr as ->. exists r, g'. rewrite Ef. auto. }
  assert (Pg : Permutation (concat sorted) (groups eqk (rows_of d))).
  { etransitivity; [|exact (proj1 (@C23_groups_of_pieces L H A K kle [key] d bins T G))]. fold eqk. apply perm_concat.
    clear -F2. induction F2 as [|b gs bs sd [Pb _] _ IH]; cbn; constructor; [now symmetry|exact IH]. }
  apply (@sorted_perm_unique _ le).
  - intros g h Hg Hh E1 E2. apply (Permutation_in _ Pg) in Hg, Hh.
    apply Hd in Hg, Hh. destruct Hg as (r & g' & -> & _ & Eg). destruct Hh as (s & h' & -> & _ & Eh).
    rewrite Eg, Eh. apply filter_ext. intros x. apply eqk_ext; auto.
    unfold eqk, same_keys. cbn [forallb]. rewrite andb_true_r. unfold le in E1, E2. cbn [of_group] in E1, E2.
    destruct (key r), (key s); cbn in *; try reflexivity; try (destruct na_first; discriminate).
    destruct ascending; now rewrite E1, E2.
  - now rewrite Pg.
  - clear P G1 G2 G Pg Pw Sw.
    assert (X : forall o bs, (forall i b, nth_error bs i = Some b -> nth_error bins (o + i) = Some b) ->
      forall sd, Forall2 (fun b gs => sorts le (groups eqk (rows_of b)) gs) bs sd ->
      StronglySorted (fun x y => le x y = true) (concat sd)).
    { intros o bs. revert o. induction bs as [|b bs IH]; intros o Hb sd Fs; inversion Fs as [|? gs ? sd' [Pb Sb] Fs']; subst; cbn; [constructor|].
      apply strongly_app; [exact Sb| |].
      - apply (IH (Datatypes.S o)); [|exact Fs']. intros i b' Hi. specialize (Hb (Datatypes.S i) b' Hi). now rewrite Nat.add_succ_r in Hb.
      - intros g h Hg Hh. apply (Permutation_in _ (Permutation_sym Pb)) in Hg.
        apply in_concat in Hh. destruct Hh as (hs & Hhs & Hh).
        apply In_nth_error in Hhs. destruct Hhs as (j & Hj).
        assert (exists bj, nth_error bs j = Some bj /\ sorts le (groups eqk (rows_of bj)) hs) as (bj & Hbj & [Pj _]).
        { clear -Fs' Hj. revert j Hj. induction Fs' as [|b0 g0 bs sd E _ IH]; intros [|j] Hj; cbn in Hj; try discriminate.
          - injection Hj as ->. exists b0. auto.
          - apply IH in Hj. exact Hj. }
        apply (Permutation_in _ (Permutation_sym Pj)) in Hh.
        apply Hd in Hg, Hh. destruct Hg as (r & g' & -> & Ir & _). destruct Hh as (s & h' & -> & Is & _).
        unfold le. cbn [of_group]. pose proof (Hb 0 b eq_refl) as H0. pose proof (Hb (Datatypes.S j) bj Hbj) as H1.
        rewrite Nat.add_0_r in H0.
        pose proof (O o (o + Datatypes.S j) b bj r s ltac:(lia) H0 H1 Ir Is) as N.
        destruct (V1 (key r) (key s)) as [Y|Y]; [exact Y|]. rewrite Y in N. discriminate. }
    apply (X 0 bins); auto.
  - exact Sw.
Qed.
Print Assumptions C23_sorted_groups_exact.

(* ---------------- where the full statements fail ---------------- *)
  (** Cells are [option nat] (None: missing); row labels and headers are numbers. *)
  Notation table := (df nat nat (option nat)).
  Notation line := (@row nat (option nat)).
  Definition cell (j : nat) (r : line) : option nat := match nth_error (snd r) j with Some v => v | None => None end.
  Definition tab (nc : nat) (rs : list (nat * list (option nat))) : table := of_rows (seq 0 nc) rs.
  Definition framed (rl cl : list nat) (d : table) : @pframe nat nat (option nat) :=
    mkpf (cut_table rl cl d) (Some (dindex d)) (Some (dcols d)) (Some rl) (Some cl).
  Definition is_none (v : option nat) : bool := match v with None => true | _ => false end.
  Definition ord (na_first ascending : bool) : line -> line -> bool :=
    lex_le Nat.leb na_first [(cell 0, ascending)].
  (** pandas' stable sort of one table *)
  Definition sorted_table (le : line -> line -> bool) (b : table) : table := of_rows (dcols b) (isort le (rows_of b)).
  Definition q (ps : list nat) (i n : nat) : list (option nat) := map Some ps.

  Lemma leb_total : total_preorder Nat.leb.
  Proof. split; intros; rewrite ?Nat.leb_le in *; lia. Qed.

  Lemma framed_holds rl cl (d : table) : wf d -> list_sum rl = nrows d -> list_sum cl = ncols d -> holds (framed rl cl d) d rl cl.
  Proof. intros. apply holds_intro; cbn; auto. Qed.

  Definition d4 : table := tab 2 [(10, [Some 7; Some 0]); (11, [Some 1; Some 1]); (12, [None; Some 2]); (13, [Some 1; Some 3]);
                                  (14, [Some 9; Some 4]); (15, [Some 3; Some 5])].

  (** With a single row partition wanted ([NPartitions=1]) no pivots are picked, and a frame that has several row
      partitions all the same (a concat, a frame made before the setting) is sorted partition by partition only. *)
  Theorem C21_one_partition_refuted :
    exists f d f' D, holds f d [2; 2] [1] /\
      sort_by Nat.eqb Nat.eqb Nat.leb (fun i r => is_none (cell i r)) cell (fun _ => true) (q [2]) 1 32 32 false true false
        (sorted_table (ord false true)) f = Ok f'
      /\ pf_to_pandas Nat.eqb Nat.eqb f' = Ok D
      /\ ~ sorts (ord false true) (rows_of d) (rows_of D).
  Proof.
    set (d := tab 1 [(0, [Some 3]); (1, [Some 4]); (2, [Some 1]); (3, [Some 2])]).
    exists (framed [2; 2] [1] d), d. eexists. exists d. split; [apply framed_holds; [repeat constructor|reflexivity|reflexivity]|].
    split; [reflexivity|]. split; [reflexivity|]. intros [_ S]. inversion S as [|? ? _ F]; subst.
    inversion F as [|? ? _ F2]; subst. inversion F2 as [|? ? E _]; subst. discriminate.
  Qed.

  (** ... and then equal keys do not meet either: drop_duplicates and groupby by range partitioning keep the key twice. *)
  Theorem C23_one_partition_refuted :
    exists f d f' D, holds f d [1; 1] [1] /\
      range_partitioning Nat.eqb Nat.eqb Nat.leb (fun i r => is_none (cell i r)) cell (fun _ => true) (q [2]) 1 32 32 false 1 true false false true
        (fun b => Ok (of_rows (dcols b) (firsts (same_keys Nat.leb [cell 0]) (rows_of b)))) f = Ok f'
      /\ pf_to_pandas Nat.eqb Nat.eqb f' = Ok D
      /\ ~ Permutation (rows_of D) (firsts (same_keys Nat.leb [cell 0]) (rows_of d)).
  Proof.
    set (d := tab 1 [(0, [Some 3]); (1, [Some 3])]).
    exists (framed [1; 1] [1] d), d. eexists. exists d. split; [apply framed_holds; [repeat constructor|reflexivity|reflexivity]|].
    split; [reflexivity|]. split; [reflexivity|]. intros P. apply Permutation_length in P. discriminate.
  Qed.

  (** Two key columns that both get pivots, and a row partition with exactly one row: the call fails. *)
  Theorem C23_single_row_refuted :
    exists f d, holds f d [1; 2; 1; 2] [2] /\
      range_partitioning Nat.eqb Nat.eqb Nat.leb (fun i r => is_none (cell i r)) cell (fun _ => true) (q [2]) 4 32 32 false 2 true false false true
        (fun b => Ok b) f = Err ValueError.
  Proof.
    exists (framed [1; 2; 1; 2] [2] d4), d4. split; [apply framed_holds; [repeat constructor|reflexivity|reflexivity]|]. reflexivity.
  Qed.

  (** A [key] function that makes some present value missing: the row is not treated as missing while the rows are
      distributed (it goes to the last bin, wherever missing values were asked to be). *)
  Definition hide (r : line) : option nat := match cell 0 r with Some 0 => None | v => v end.
  Theorem C22_key_function_refuted :
    exists f d f' D, holds f d [2; 2] [1] /\
      sort_by Nat.eqb Nat.eqb Nat.leb (fun i r => is_none (cell i r)) (fun _ => hide) (fun _ => true) (q [2]) 2 32 32 false true true
        (sorted_table (lex_le Nat.leb true [(hide, true)])) f = Ok f'
      /\ pf_to_pandas Nat.eqb Nat.eqb f' = Ok D
      /\ ~ sorts (lex_le Nat.leb true [(hide, true)]) (rows_of d) (rows_of D).
  Proof.
    set (d := tab 1 [(0, [Some 3]); (1, [Some 0]); (2, [Some 1]); (3, [Some 2])]).
    exists (framed [2; 2] [1] d), d.
    eexists. exists (tab 1 [(2, [Some 1]); (1, [Some 0]); (3, [Some 2]); (0, [Some 3])]).
    split; [apply framed_holds; [repeat constructor|reflexivity|reflexivity]|].
    split; [reflexivity|]. split; [reflexivity|]. intros [_ S]. inversion S as [|? ? _ F]; subst.
    inversion F as [|? ? E _]; subst. discriminate.
  Qed.

  (* ---------------- the hypotheses can be met ---------------- *)
  Lemma sorted_table_ok le (c : list nat) : total_preorder le -> forall b : table, wf b -> dcols b = c ->
    wf (sorted_table le b) /\ dcols (sorted_table le b) = c /\ stably_sorts le (rows_of b) (rows_of (sorted_table le b)).
  Proof.
    intros T b W <-. pose proof (isort_stable T (rows_of b)) as S. split; [|split; [reflexivity|]].
    - apply wf_of_rows. destruct S as [[P _] _]. rewrite Forall_forall. intros r Hr. apply (Permutation_in _ (Permutation_sym P)) in Hr.
      pose proof (rows_of_forall W) as F. rewrite Forall_forall in F. now apply F.
    - unfold sorted_table. now rewrite rows_of_of_rows.
  Qed.

  (** two row partitions, two column partitions, the pivot 2, descending, missing values first *)
  Example ex_sort :
    let f := framed [3; 3] [1; 1] d4 in
    exists f', sort_by Nat.eqb Nat.eqb Nat.leb (fun i r => is_none (cell i r)) cell (fun _ => true) (q [2]) 4 32 32 false false true
        (sorted_table (ord true false)) f = Ok f'
      /\ pf_to_pandas Nat.eqb Nat.eqb f'
         = Ok (tab 2 [(12, [None; Some 2]); (14, [Some 9; Some 4]); (10, [Some 7; Some 0]); (15, [Some 3; Some 5]);
                      (11, [Some 1; Some 1]); (13, [Some 1; Some 3])])
      /\ length (pgrid f') = 2.
  Proof. eexists. split; [reflexivity|]. split; reflexivity. Qed.

  Example ex_hypotheses :
    let f := framed [3; 3] [1; 1] d4 in
    exists f', sort_by Nat.eqb Nat.eqb Nat.leb (fun i r => is_none (cell i r)) cell (fun _ => true) (q [2]) 4 32 32 false false true
        (sorted_table (ord true false)) f = Ok f'
      /\ pf_to_pandas Nat.eqb Nat.eqb f' = Ok (sorted_table (ord true false) d4).
  Proof.
    apply (@C21_stable_sort_exact nat nat (option nat) nat) with (rl := [3; 3]) (cl := [1; 1]) (rest := []); try discriminate; try (cbn; lia).
    - exact leb_total.
    - intros i r. unfold is_none. destruct (cell i r); reflexivity.
    - intros. repeat constructor.
    - apply framed_holds; [repeat constructor|reflexivity|reflexivity].
    - apply sorted_table_ok. apply lex_le_total. exact leb_total.
  Qed.

  (** two key columns, four row partitions, equal keys from different partitions meet *)
  Definition d8 : table := tab 2 [(10, [Some 7; Some 0]); (11, [Some 1; Some 1]); (12, [None; Some 2]); (13, [Some 1; Some 3]);
                                  (14, [Some 9; Some 4]); (15, [Some 3; Some 5]); (16, [Some 1; Some 1]); (17, [Some 7; Some 0])].
  Example ex_meet :
    match range_partitioning Nat.eqb Nat.eqb Nat.leb (fun i r => is_none (cell i r)) cell (fun _ => true) (q [2]) 4 32 32 false 2 true false false true
        (fun b => Ok b) (framed [2; 3; 1; 2] [2] d8) with
    | Ok _ => False
    | Err e => e = ValueError
    end
    /\ match range_partitioning Nat.eqb Nat.eqb Nat.leb (fun i r => is_none (cell i r)) cell (fun _ => true) (q [2]) 4 32 32 false 2 true false false true
        (fun b => Ok b) (framed [2; 3; 0; 3] [2] d8) with
    | Ok f' => map (map (@dindex _ _ _)) (pgrid f') = [[[11; 16]]; [[13]]; [[10; 17]]; [[14; 12; 15]]]
    | Err _ => False
    end.
  Proof. split; reflexivity. Qed.

Print Assumptions C21_one_partition_refuted.
Print Assumptions C23_one_partition_refuted.
Print Assumptions C23_single_row_refuted.
Print Assumptions C22_key_function_refuted.
