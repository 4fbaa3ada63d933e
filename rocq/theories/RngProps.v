(** C70: merge with range partitioning. *)
From Verif Require Import Base Table ChunkModel ChunkSpec ChunkProofs GridModel GridSpec FrameSpec
  GridProofs GridProofs2 GridProofs3 GridProofs5 JoinModel JoinProofs3 GroupSpec ShufSpec ShufModel
  ShufProofs5 ShufProofs6 ShufProofs7 ShufProps
  MergeSpec MergeModel MergeProofs MergeProofs2 MergeProofs3 MergeProofs4 MergeProps RngModel RngProofs RngProofs2 RngProofs3.
From Coq Require Import Permutation Sorted.

Section Props.
  Context {L H A K : Type}.
  Variable leqb : L -> L -> bool.
  Variable heqb : H -> H -> bool.
  Variable aeqb : A -> A -> bool.               (* the same key cell; missing cells may be the same *)
  Variable nan : A.
  Variable suffixed : bool -> H -> H.
  Hypothesis leqb_ok : forall x y, leqb x y = true <-> x = y.
  Hypothesis heqb_ok : forall x y, heqb x y = true <-> x = y.
  (** The order of the key values; cells that are the same key have the same value, or are both missing. *)
  Variable kle : K -> K -> bool.
  Hypothesis kle_total : total_preorder kle.
  Variable value : A -> option K.
  Hypothesis value_ok : forall x y, aeqb x y = true -> same_value kle (value x) (value y) = true.
  Variable numeric : nat -> bool.
  (** Whatever the random samples were: strictly increasing, and not empty when pivots are asked for. *)
  Variable quantiles : nat -> nat -> list (option K).
  Hypothesis quantiles_sorted : forall i n, StronglySorted (fun x y => npltb kle x y = true) (quantiles i n).
  Hypothesis quantiles_some : forall n, 2 <= n -> quantiles 0 n <> [].
  Variable over : nat -> nat -> bool.

  Variables nparts min_row min_col : nat.
  Hypotheses (nparts_pos : 0 < nparts) (min_row_pos : 0 < min_row) (min_col_pos : 0 < min_col).

  (** The two frames, in any partitioning with at least one row of blocks; the left one has one row of blocks, or rows
      enough for the samples to be taken. *)
  Variables (left right : @pframe L H A) (ld rd : df L H A) (rll cll rlr clr : list nat).
  Hypotheses (left_holds : holds left ld rll cll) (right_holds : holds right rd rlr clr).
  Hypotheses (left_blocks : rll <> []) (right_blocks : rlr <> []).
  Hypothesis enough_rows : length rll = 1 \/ (0 < nrows ld /\ over (nrows ld) (length rll) = false).

  (** how="left" or "inner", one key column. *)
  Variable h : how.
  Hypothesis not_right : h <> HRight.
  Variable on : H.
  Hypotheses (on_left : In on (dcols ld)) (on_right : In on (dcols rd)).

  Notation whole l := (merge heqb aeqb nan suffixed [(on, on)] l rd h).
  Notation run pm sort_rows sort :=
    (merge_entry leqb heqb suffixed kle value numeric quantiles over pm nparts min_row min_col sort_rows h (On [on]) sort left right).

  Lemma h_left : is_right h = false.
  Proof. clear - not_right. now destruct h. Qed.
  Lemma on_ok l r : In on l -> In on r -> keys_ok l r (On [on]).
  Proof. clear. intros I J. cbn. repeat split; [discriminate| |]; intros x [<-|[]]; assumption. Qed.
  Lemma columns_pos : 0 < length (header heqb suffixed [(on, on)] (dcols ld) (dcols rd)).
  Proof.
    clear - on_left. unfold header. rewrite app_length, !map_length. destruct (dcols ld); [easy|cbn; lia].
  Qed.

  (** sort=False: the columns of the merge of the whole frames, its rows in some order, numbered from 0. *)
  Theorem C70_merge_partial sort_rows :
    exists x rl cl D,
      run (pandas_merge heqb aeqb nan suffixed h (On [on])) sort_rows false = Ok x
      /\ holds x D rl cl /\ rl <> [] /\ cl <> []
      /\ dcols D = dcols (whole ld) /\ dindex D = dindex (whole ld) /\ Permutation (dcells D) (dcells (whole ld))
      /\ (0 < nrows (whole ld) -> pf_to_pandas Nat.eqb heqb x = Ok D).
  Proof.
    destruct (@range_merge_pieces L H A K leqb heqb suffixed leqb_ok heqb_ok kle kle_total value numeric quantiles quantiles_sorted quantiles_some
                over nan nparts min_row min_col nparts_pos min_row_pos min_col_pos h on left right ld rd rll cll rlr clr left_holds right_holds
                left_blocks right_blocks on_left on_right h_left enough_rows) as (ps & P & X).
    specialize (X (pandas_merge heqb aeqb nan suffixed h (On [on]))).
    pose proof (proj1 (proj1 left_holds)) as Wl. pose proof (proj1 (proj1 right_holds)) as Wr.
    pose proof P as (F & _). rewrite Forall_forall in F.
    erewrite rmap_ok_inv with (g := fun q => merge heqb aeqb nan suffixed [(on, on)] (fst q) (snd q) h) in X.
    2:{ intros q Hq. destruct (F q Hq) as [[_ D1] [_ D2]]. rewrite (pandas_merge_ok heqb aeqb nan suffixed heqb_ok); [reflexivity|].
        apply on_ok; [now rewrite D1|now rewrite D2]. }
    destruct X as (x & rl & cl & E & Hx & R & C).
    { apply Forall_map. apply Forall_forall. intros q Hq. destruct (F q Hq) as [[W1 D1] [W2 D2]]. eapply part_wf; eauto; apply h_left. }
    set (rows := concat (map dcells (map (fun q => merge heqb aeqb nan suffixed [(on, on)] (fst q) (snd q) h) ps))) in *.
    assert (Pm : Permutation rows (dcells (whole ld))).
    { unfold rows. eapply pieces_merged; eauto. apply h_left. }
    eexists x, rl, cl, _. split; [unfold merge_entry; rewrite E; reflexivity|]. split; [exact Hx|]. split; [exact R|]. split; [exact C|].
    cbn [dcols dindex dcells]. split; [reflexivity|]. split; [cbn [merge dindex]; f_equal; now apply Permutation_length in Pm|]. split; [exact Pm|].
    intros Pos. eapply pf_to_pandas_holds; [exact Nat.eqb_eq|exact heqb_ok|exact Hx|]. intros [Z|Z]; exfalso.
    - unfold nrows in Z, Pos. cbn [dindex] in Z. rewrite seq_length in Z. apply Permutation_length in Pm. cbn [merge dindex dcells] in Pos, Pm. rewrite seq_length in Pos. lia.
    - unfold ncols in Z. cbn [dcols] in Z. cbn [key_pairs map] in Z. pose proof columns_pos. lia.
  Qed.

  (** sort=True: exactly what pandas returns for the whole frames.  [sort_left]: a stable sort of a table by its key
      column, missing keys last. *)
  Theorem C70_sorted_merge (sort_left : df L H A -> df L H A) sort_rows :
    (forall b, wf b -> dcols b = dcols ld ->
       wf (sort_left b) /\ dcols (sort_left b) = dcols ld
       /\ stably_sorts (lex_le kle false [(key_at heqb value on (dcols ld) 0, true)]) (rows_of b) (rows_of (sort_left b))) ->
    exists x rl cl D,
      pandas_merge_sorted heqb suffixed aeqb nan sort_left h (On [on]) ld rd = Ok D
      /\ run (pandas_merge_sorted heqb suffixed aeqb nan sort_left h (On [on])) sort_rows true = Ok x
      /\ holds x D rl cl /\ rl <> [] /\ cl <> []
      /\ (0 < nrows D -> pf_to_pandas Nat.eqb heqb x = Ok D).
  Proof.
    intros So.
    destruct (@range_merge_pieces L H A K leqb heqb suffixed leqb_ok heqb_ok kle kle_total value numeric quantiles quantiles_sorted quantiles_some
                over nan nparts min_row min_col nparts_pos min_row_pos min_col_pos h on left right ld rd rll cll rlr clr left_holds right_holds
                left_blocks right_blocks on_left on_right h_left enough_rows) as (ps & P & X).
    specialize (X (pandas_merge_sorted heqb suffixed aeqb nan sort_left h (On [on]))).
    pose proof (proj1 (proj1 left_holds)) as Wl. pose proof (proj1 (proj1 right_holds)) as Wr.
    pose proof P as (F & _). rewrite Forall_forall in F.
    erewrite rmap_ok_inv with (g := fun q => merge heqb aeqb nan suffixed [(on, on)] (sort_left (fst q)) (snd q) h) in X.
    2:{ intros q Hq. destruct (F q Hq) as [[W1 D1] [_ D2]]. unfold pandas_merge_sorted.
        destruct (So _ W1 D1) as (_ & Ds & _).
        rewrite (pandas_merge_ok heqb aeqb nan suffixed heqb_ok); [reflexivity|]. apply on_ok; [now rewrite Ds|now rewrite D2]. }
    destruct X as (x & rl & cl & E & Hx & R & C).
    { apply Forall_map. apply Forall_forall. intros q Hq. destruct (F q Hq) as [[W1 D1] [W2 D2]]. destruct (So _ W1 D1) as (Ws & Ds & _). eapply part_wf; eauto; apply h_left. }
    destruct (So _ Wl eq_refl) as (Ws & Ds & _).
    rewrite (@pieces_sorted L H A K heqb aeqb nan suffixed kle kle_total value value_ok numeric on ld rd Wl Wr ps P h h_left sort_left So) in Hx.
    exists x, rl, cl, (whole (sort_left ld)). split; [unfold pandas_merge_sorted|].
    { rewrite (pandas_merge_ok heqb aeqb nan suffixed heqb_ok); [reflexivity|]. apply on_ok; [now rewrite Ds|assumption]. }
    split; [unfold merge_entry; rewrite E; reflexivity|].
    assert (Hx' : holds x (whole (sort_left ld)) rl cl).
    { unfold merge in *. cbn [dcells] in Hx. rewrite Ds. exact Hx. }
    split; [exact Hx'|]. split; [exact R|]. split; [exact C|].
    intros Pos. eapply pf_to_pandas_holds; [exact Nat.eqb_eq|exact heqb_ok|exact Hx'|]. intros [Z|Z]; exfalso; [lia|].
    unfold ncols, merge in Z. cbn [dcols] in Z. rewrite Ds in Z. pose proof columns_pos. lia.
  Qed.

  (** validate=, either side or both: the call fails exactly when two rows of a checked side have the same key. *)
  Theorem C70_validate_partial (check_left check_right : bool) sort_rows :
    (forall x, aeqb x x = true) -> (forall x y, aeqb x y = aeqb y x) ->
    let run := run (pandas_merge_validated heqb aeqb nan suffixed check_left check_right h (On [on])) sort_rows false in
    let valid := (check_left = true -> distinct_keys aeqb (map (left_key heqb [(on, on)] ld) (dcells ld)))
                 /\ (check_right = true -> distinct_keys aeqb (map (right_key heqb [(on, on)] rd) (dcells rd))) in
    (valid -> exists x rl cl D, run = Ok x /\ holds x D rl cl /\ rl <> [] /\ cl <> []
                /\ dcols D = dcols (whole ld) /\ dindex D = dindex (whole ld) /\ Permutation (dcells D) (dcells (whole ld)))
    /\ (~ valid -> run = Err ValueError).
  Proof.
    intros Ar As run valid.
    destruct (@range_merge_pieces L H A K leqb heqb suffixed leqb_ok heqb_ok kle kle_total value numeric quantiles quantiles_sorted quantiles_some
                over nan nparts min_row min_col nparts_pos min_row_pos min_col_pos h on left right ld rd rll cll rlr clr left_holds right_holds
                left_blocks right_blocks on_left on_right h_left enough_rows) as (ps & P & X).
    specialize (X (pandas_merge_validated heqb aeqb nan suffixed check_left check_right h (On [on]))).
    pose proof (proj1 (proj1 left_holds)) as Wl. pose proof (proj1 (proj1 right_holds)) as Wr.
    pose proof P as (F & S1 & S2 & _). rewrite Forall_forall in F.
    set (okp := fun q : df L H A * df L H A =>
      (negb check_left || unique_keys aeqb (map (key_of heqb [on] (dcols (fst q))) (dcells (fst q))))
      && (negb check_right || unique_keys aeqb (map (key_of heqb [on] (dcols (snd q))) (dcells (snd q))))).
    assert (V : forallb okp ps = true <-> valid).
    { assert (E : forallb okp ps = (negb check_left || unique_keys aeqb (map (key_of heqb [on] (dcols ld)) (dcells ld)))
                                   && (negb check_right || unique_keys aeqb (map (key_of heqb [on] (dcols rd)) (dcells rd)))).
      { rewrite <- (@unique_pieces L H A K heqb aeqb kle kle_total value value_ok numeric on ld _ Wl S1).
        rewrite <- (@unique_pieces L H A K heqb aeqb kle kle_total value value_ok numeric on rd _ Wr S2).
        rewrite !forallb_map. unfold okp. clear. induction ps as [|q qs IH]; cbn [forallb]; [now destruct check_left, check_right|].
        rewrite IH. destruct check_left, check_right; cbn [negb orb andb]; auto; try (rewrite ?andb_true_r; reflexivity).
        rewrite <- !andb_assoc. f_equal. rewrite !andb_assoc. f_equal. apply andb_comm. }
      rewrite E, andb_true_iff, !orb_true_iff, !negb_true_iff, !unique_keys_ok by assumption. unfold valid, left_key, right_key. cbn [map fst snd].
      destruct check_left, check_right; intuition discriminate. }
    assert (Q : forall q, In q ps -> pandas_merge_validated heqb aeqb nan suffixed check_left check_right h (On [on]) (fst q) (snd q)
      = if okp q then Ok (merge heqb aeqb nan suffixed [(on, on)] (fst q) (snd q) h) else Err ValueError).
    { intros q Hq. destruct (F q Hq) as [[_ D1] [_ D2]]. unfold pandas_merge_validated.
      rewrite (pandas_merge_ok heqb aeqb nan suffixed heqb_ok) by (apply on_ok; [now rewrite D1|now rewrite D2]). cbn [rbind key_pairs map].
      unfold okp, left_key, right_key. cbn [map fst snd].
      destruct check_left, check_right; cbn [negb orb andb];
        repeat match goal with |- context [unique_keys aeqb ?x] => destruct (unique_keys aeqb x) end; reflexivity. }
    split.
    - intros Hv. apply V in Hv. rewrite forallb_forall in Hv.
      erewrite rmap_ok_inv with (g := fun q => merge heqb aeqb nan suffixed [(on, on)] (fst q) (snd q) h) in X.
      2:{ intros q Hq. rewrite (Q q Hq), (Hv q Hq). reflexivity. }
      destruct X as (x & rl & cl & E & Hx & R & C).
      { apply Forall_map. apply Forall_forall. intros q Hq. destruct (F q Hq) as [[W1 D1] [W2 D2]]. eapply part_wf; eauto; apply h_left. }
      assert (Pm : Permutation (concat (map dcells (map (fun q => merge heqb aeqb nan suffixed [(on, on)] (fst q) (snd q) h) ps))) (dcells (whole ld))).
      { eapply pieces_merged; eauto. apply h_left. }
      eexists x, rl, cl, _. split; [unfold run, merge_entry; rewrite E; reflexivity|]. split; [exact Hx|]. split; [exact R|]. split; [exact C|].
      cbn [dcols dindex dcells]. split; [reflexivity|]. split; [cbn [merge dindex]; f_equal; now apply Permutation_length in Pm|exact Pm].
    - intros Nv. assert (Ef : forallb okp ps = false) by (destruct (forallb okp ps); [exfalso; apply Nv, V; reflexivity|reflexivity]).
      assert (Er : rmap (fun q => pandas_merge_validated heqb aeqb nan suffixed check_left check_right h (On [on]) (fst q) (snd q)) ps = Err ValueError).
      { clear - Ef Q. induction ps as [|q qs IH]; [discriminate|]. cbn [rmap forallb] in *. rewrite (Q q) by now left.
        destruct (okp q); [|reflexivity]. cbn [rbind andb] in *. rewrite IH; auto. intros; apply Q; now right. }
      rewrite Er in X. unfold run, merge_entry. now rewrite X.
  Qed.
End Props.

(** Every other call pandas accepts - how="right", several keys, left_on=/right_on=, no key given - is the row-axis
    merge: with sort=False the rows and their order are those of the whole frames. *)
Theorem C70_other_merges_partial {L H A K} (leqb : L -> L -> bool) (heqb : H -> H -> bool) (aeqb : A -> A -> bool) (nan : A)
    (suffixed : bool -> H -> H) (kle : K -> K -> bool) (value : A -> option K) numeric quantiles over
    nparts min_row min_col (left right : @pframe L H A) (ld rd : df L H A) rll cll rlr clr h k sort_rows :
  (forall x y, leqb x y = true <-> x = y) -> (forall x y, heqb x y = true <-> x = y) ->
  0 < nparts -> 0 < min_row -> 0 < min_col ->
  holds left ld rll cll -> holds right rd rlr clr -> rll <> [] -> rlr <> [] ->
  keys_ok (dcols ld) (dcols rd) k ->
  match k with LeftRight lo ro => forall c, In c lo -> In c ro -> In (c, c) (combine lo ro) | _ => True end ->
  h = HRight \/ (forall on, k <> On [on]) ->
  let whole := merge heqb aeqb nan suffixed (key_pairs heqb (dcols ld) (dcols rd) k) ld rd h in
  exists x rl cl,
    merge_entry leqb heqb suffixed kle value numeric quantiles over (pandas_merge heqb aeqb nan suffixed h k)
      nparts min_row min_col sort_rows h k false left right = Ok x
    /\ holds x whole rl cl /\ rl <> [] /\ cl <> []
    /\ (0 < nrows whole -> pf_to_pandas Nat.eqb heqb x = Ok whole).
Proof.
  intros Le He Pn Pr Pm Hl Hr Rl Rr K1 K2 O whole.
  assert (E : merge_entry leqb heqb suffixed kle value numeric quantiles over (pandas_merge heqb aeqb nan suffixed h k)
      nparts min_row min_col sort_rows h k false left right
    = row_axis_merge leqb heqb aeqb nan suffixed nparts min_row min_col sort_rows h k false left right).
  { unfold merge_entry, range_merge. destruct O as [->|O]; [reflexivity|].
    destruct h, k as [[|on [|]]| |]; try reflexivity; exfalso; now apply (O on). }
  rewrite E. now apply C26_merge_partial with (rll := rll) (cll := cll) (rlr := rlr) (clr := clr).
Qed.

(** A left frame in two or more row partitions with too few rows for a sampling probability of at most 1: every
    left or inner merge by one column is a ValueError, whatever the frames hold. *)
Theorem C70_small_left_refuted {L H A K} (leqb : L -> L -> bool) (heqb : H -> H -> bool)
    (suffixed : bool -> H -> H) (kle : K -> K -> bool) (value : A -> option K) numeric quantiles over pm
    nparts min_row min_col (left right : @pframe L H A) (ld rd : df L H A) rll cll rlr clr h on sort_rows sort :
  (forall x y, heqb x y = true <-> x = y) ->
  holds left ld rll cll -> holds right rd rlr clr -> rlr <> [] -> h <> HRight -> In on (dcols ld) -> In on (dcols rd) ->
  2 <= length rll -> 0 < nrows ld -> over (nrows ld) (length rll) = true ->
  merge_entry leqb heqb suffixed kle value numeric quantiles over pm nparts min_row min_col sort_rows h (On [on]) sort left right
  = Err ValueError.
Proof.
  intros He Hl Hr Rr Nh Ol Or Two Pos Ov. unfold merge_entry, range_merge.
  assert (KO : keys_ok (dcols ld) (dcols rd) (On [on])) by now apply on_ok.
  pose proof (proj1 (proj1 Hl)) as [Wl Wc].
  assert (Ca : exists nan : A, True).
  { unfold nrows in Pos. destruct (dcells ld) as [|[|a r] rs]; [cbn in Wl; lia| |now exists a].
    apply Forall_inv in Wc. cbn in Wc. destruct (dcols ld); [easy|discriminate]. }
  destruct Ca as [nan _].
  destruct (@result_columns_ok L H A heqb (fun _ _ => true) nan suffixed He left right ld rd rll cll rlr clr (On [on]) Hl Hr (or_introl Rr) KO I) as (c & C3 & _).
  assert (Rl : rll <> []) by (destruct rll; [cbn in Two; lia|discriminate]).
  assert (Cl : col_labels left = dcols ld) by (eapply col_labels_holds; eauto).
  assert (Cr : col_labels right = dcols rd) by (eapply col_labels_holds; eauto).
  rewrite Cl, Cr, (in_cols heqb He _ _ Ol), (in_cols heqb He _ _ Or), C3. cbn [andb rbind].
  pose proof (proj1 Hl) as G. pose proof G as (_ & Sr & _ & El & _).
  assert (Eg : length (pgrid left) = length rll) by (rewrite El; unfold cut_table; now rewrite map_length, bounds_length).
  assert (Cn : cll <> []).
  { destruct G as (_ & _ & Sc & _). intros ->. change (list_sum []) with 0 in Sc. unfold ncols in Sc. destruct (dcols ld); [easy|discriminate]. }
  assert (Es : range_broadcast leqb heqb kle value numeric quantiles over nparts min_row min_col on pm c left right = Err ValueError).
  { unfold range_broadcast. rewrite Eg. destruct (Nat.eqb_spec (length rll) 1); [lia|]. destruct (Nat.eqb_spec (length rll) 0); [lia|].
    unfold sample. rewrite (gridded_row_lengths G), Sr by auto. destruct (Nat.eqb_spec (nrows ld) 0); [lia|]. now rewrite Ov. }
  rewrite Es. destruct h; try easy; reflexivity.
Qed.

(* ---------------- concrete frames ---------------- *)
Definition rng_eqb (x y : option nat) : bool :=
  match x, y with Some a, Some b => a =? b | None, None => true | _, _ => false end.
Definition rng_sfx (r : bool) (c : nat) : nat := if r then 200 + c else 100 + c.
Definition rng_frame (rl cl : list nat) (d : df nat nat (option nat)) : @pframe nat nat (option nat) :=
  mkpf (cut_table rl cl d) (Some (dindex d)) (Some (dcols d)) (Some rl) (Some cl).
Definition rng_over (rows partitions : nat) : bool := rows <=? partitions.
Definition rng_run (pm : df nat nat (option nat) -> df nat nat (option nat) -> res (df nat nat (option nat))) (h : how) (k : keys_arg nat) (sort : bool)
    (left right : @pframe nat nat (option nat)) : res (@pframe nat nat (option nat)) :=
  merge_entry Nat.eqb Nat.eqb rng_sfx Nat.leb (fun v => v) (fun _ => true) (q [2]) rng_over pm 2 1 1 (fun _ f => Ok f) h k sort left right.
Definition rng_pm (h : how) (k : keys_arg nat) := @pandas_merge nat nat (option nat) Nat.eqb rng_eqb None rng_sfx h k.
Definition rng_ld : df nat nat (option nat) :=
  mkdf [10;11;12;13] [1;2] [[Some 5;Some 0];[Some 1;Some 1];[None;Some 2];[Some 5;Some 3]].
Definition rng_rd : df nat nat (option nat) :=
  mkdf [20;21;22] [4;1] [[Some 7;Some 5];[Some 8;Some 1];[Some 9;None]].

Lemma rng_holds rl cl d : wf d -> list_sum rl = nrows d -> list_sum cl = ncols d -> holds (rng_frame rl cl d) d rl cl.
Proof. intros. apply holds_intro; cbn; auto. Qed.
Lemma rng_value : forall x y, rng_eqb x y = true -> same_value Nat.leb x y = true.
Proof. intros [x|] [y|]; cbn; auto; try discriminate. intros E. apply Nat.eqb_eq in E. subst. now rewrite Nat.leb_refl. Qed.

Lemma rng_ld_wf : wf rng_ld. Proof. split; [reflexivity|repeat constructor]. Qed.
Lemma rng_rd_wf : wf rng_rd. Proof. split; [reflexivity|repeat constructor]. Qed.

(** The theorem's hypotheses met: two row partitions on the left, three on the right, a pivot, missing keys. *)
Example ex_range_merge sort_rows :
  exists x rl cl D,
    merge_entry Nat.eqb Nat.eqb rng_sfx Nat.leb (fun v => v) (fun _ => true) (q [2]) rng_over (rng_pm HLeft (On [1])) 2 1 1 sort_rows
      HLeft (On [1]) false (rng_frame [2;2] [1;1] rng_ld) (rng_frame [1;1;1] [2] rng_rd) = Ok x
    /\ holds x D rl cl /\ rl <> [] /\ cl <> []
    /\ dcols D = [1;2;4] /\ dindex D = [0;1;2;3]
    /\ Permutation (dcells D) [[Some 5;Some 0;Some 7];[Some 1;Some 1;Some 8];[None;Some 2;Some 9];[Some 5;Some 3;Some 7]]
    /\ (0 < 4 -> pf_to_pandas Nat.eqb Nat.eqb x = Ok D).
Proof.
  apply (@C70_merge_partial nat nat (option nat) nat) with (ld := rng_ld) (rd := rng_rd) (rll := [2;2]) (cll := [1;1]) (rlr := [1;1;1]) (clr := [2]);
    try discriminate; try (cbn; lia); try apply Nat.eqb_eq.
  all: try exact leb_total; try exact rng_value; try (intros; repeat constructor; fail).
  all: try (apply rng_holds; [exact rng_ld_wf|reflexivity|reflexivity]).
  all: try (apply rng_holds; [exact rng_rd_wf|reflexivity|reflexivity]).
Qed.

(** sort=True with the stable sort of C21's examples. *)
Definition rng_sort : df nat nat (option nat) -> df nat nat (option nat) :=
  sorted_table (lex_le Nat.leb false [(key_at Nat.eqb (fun v => v) 1 [1;2] 0, true)]).
Example ex_range_merge_sorted :
  exists x, rng_run (pandas_merge_sorted Nat.eqb rng_sfx rng_eqb None rng_sort HLeft (On [1])) HLeft (On [1]) true
              (rng_frame [2;2] [1;1] rng_ld) (rng_frame [1;1;1] [2] rng_rd) = Ok x
    /\ pf_to_pandas Nat.eqb Nat.eqb x
       = Ok (mkdf [0;1;2;3] [1;2;4] [[Some 1;Some 1;Some 8];[Some 5;Some 0;Some 7];[Some 5;Some 3;Some 7];[None;Some 2;Some 9]]).
Proof. eexists. split; [vm_compute; reflexivity|]. vm_compute. reflexivity. Qed.
Example ex_range_sort_ok : forall b, wf b -> dcols b = dcols rng_ld ->
  wf (rng_sort b) /\ dcols (rng_sort b) = dcols rng_ld
  /\ stably_sorts (lex_le Nat.leb false [(key_at Nat.eqb (fun v => v) 1 (dcols rng_ld) 0, true)]) (rows_of b) (rows_of (rng_sort b)).
Proof. apply sorted_table_ok. apply lex_le_total. exact leb_total. Qed.

(** validate="one_to_one" with two left rows of one key in different row partitions: found here, unlike in C50. *)
Example ex_range_validate :
  rng_run (pandas_merge_validated Nat.eqb rng_eqb None rng_sfx true true HLeft (On [1])) HLeft (On [1]) false
    (rng_frame [2;2] [1;1] rng_ld) (rng_frame [1;1;1] [2] rng_rd) = Err ValueError
  /\ exists x, rng_run (pandas_merge_validated Nat.eqb rng_eqb None rng_sfx false true HLeft (On [1])) HLeft (On [1]) false
    (rng_frame [2;2] [1;1] rng_ld) (rng_frame [1;1;1] [2] rng_rd) = Ok x.
Proof. split; [vm_compute; reflexivity|]. eexists. vm_compute. reflexivity. Qed.

(** sort=False, how="left" and how="inner": pandas keeps the order of the left keys; the result is in the order of
    the key ranges. *)
Theorem C70_order_refuted :
  let l := mkdf [0;1;2] [1;2] [[Some 5;Some 0];[Some 1;Some 1];[Some 5;Some 2]] in
  let r := mkdf [0;1] [1;4] [[Some 1;Some 8];[Some 5;Some 9]] in
  rng_pm HLeft (On [1]) l r = Ok (mkdf [0;1;2] [1;2;4] [[Some 5;Some 0;Some 9];[Some 1;Some 1;Some 8];[Some 5;Some 2;Some 9]])
  /\ (exists x, rng_run (rng_pm HLeft (On [1])) HLeft (On [1]) false (rng_frame [2;1] [2] l) (rng_frame [2] [2] r) = Ok x
        /\ pf_to_pandas Nat.eqb Nat.eqb x = Ok (mkdf [0;1;2] [1;2;4] [[Some 1;Some 1;Some 8];[Some 5;Some 0;Some 9];[Some 5;Some 2;Some 9]]))
  /\ (exists x, rng_run (rng_pm HInner (On [1])) HInner (On [1]) false (rng_frame [2;1] [2] l) (rng_frame [2] [2] r) = Ok x
        /\ pf_to_pandas Nat.eqb Nat.eqb x = Ok (mkdf [0;1;2] [1;2;4] [[Some 1;Some 1;Some 8];[Some 5;Some 0;Some 9];[Some 5;Some 2;Some 9]])).
Proof.
  intros l r. split; [vm_compute; reflexivity|]. split; eexists; (split; [vm_compute; reflexivity|]; vm_compute; reflexivity).
Qed.

(** The hypotheses of [C70_small_left_refuted]: two rows in two partitions. *)
Example ex_small_left :
  rng_over 2 2 = true
  /\ rng_run (rng_pm HInner (On [1])) HInner (On [1]) false (rng_frame [1;1] [2] (mkdf [0;1] [1;2] [[Some 5;Some 0];[Some 1;Some 1]]))
       (rng_frame [3] [2] rng_rd) = Err ValueError.
Proof. split; reflexivity. Qed.

(** A right frame without blocks (no rows): how="left" loses every row of a left frame in two row partitions. *)
Theorem C70_empty_right_refuted :
  let r := mkdf [] [1;4] [] in
  holds (rng_frame [] [2] r) r [] [2]
  /\ nrows (merge Nat.eqb rng_eqb None rng_sfx [(1, 1)] rng_ld r HLeft) = 4
  /\ exists m, range_broadcast Nat.eqb Nat.eqb Nat.leb (fun v => v) (fun _ => true) (q [2]) rng_over 2 1 1 1 (rng_pm HLeft (On [1]))
                 (Some [1;2;4]) (rng_frame [2;2] [2] rng_ld) (rng_frame [] [2] r) = Ok m
       /\ pgrid m = [].
Proof.
  intros r. split; [apply rng_holds; [split; [reflexivity|constructor]|reflexivity|reflexivity]|]. split; [reflexivity|].
  eexists. split; vm_compute; reflexivity.
Qed.

(** A left frame without rows: in two rows of blocks (such as a filtered frame) a ZeroDivisionError, without blocks
    an IndexError; pandas returns no rows. *)
Theorem C70_empty_left_refuted h :
  let l := mkdf [] [1;2] [] in
  h <> HRight ->
  rng_run (rng_pm h (On [1])) h (On [1]) false (rng_frame [0;0] [2] l) (rng_frame [3] [2] rng_rd) = Err ZeroDivisionError
  /\ rng_run (rng_pm h (On [1])) h (On [1]) false (rng_frame [] [2] l) (rng_frame [3] [2] rng_rd) = Err IndexError
  /\ rng_pm h (On [1]) l rng_rd = Ok (mkdf [] [1;2;4] []).
Proof. intros l Nh. destruct h; try easy; repeat split. Qed.

Print Assumptions C70_merge_partial.
Print Assumptions C70_sorted_merge.
Print Assumptions C70_validate_partial.
Print Assumptions C70_other_merges_partial.
Print Assumptions C70_small_left_refuted.
Print Assumptions C70_order_refuted.
Print Assumptions C70_empty_right_refuted.
Print Assumptions C70_empty_left_refuted.
