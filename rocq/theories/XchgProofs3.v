From Verif Require Import Base Table ChunkModel ChunkSpec ChunkProofs GridModel GridSpec FrameSpec GridProofs GridProofs2 GridProofs3 GridProofs5 SelSpec SelModel SelProofs SelProofs2 SelProofs3 SelProofs4 SelProofs5 SelProofs6 JoinSpec XchgSpec XchgModel XchgProofs XchgProofs2.

Lemma combine_fst {X Y} (l : list X) (m : list Y) : length m = length l -> map fst (combine l m) = l.
Proof. revert m; induction l as [|x l IH]; intros [|y m] Hl; try discriminate; [reflexivity|]. cbn. f_equal. apply IH. now injection Hl. Qed.
Lemma combine_snd {X Y} (l : list X) (m : list Y) : length m = length l -> map snd (combine l m) = m.
Proof. revert m; induction l as [|x l IH]; intros [|y m] Hl; try discriminate; [reflexivity|]. cbn. f_equal. apply IH. now injection Hl. Qed.

Section Consume.
  Context {L H : Type}.
  Notation dframe := (df L H value).
  Notation pf := (@pframe L H value).
  Variable leqb : L -> L -> bool.
  Variable heqb : H -> H -> bool.
  Hypothesis leqb_ok : forall x y, leqb x y = true <-> x = y.
  Hypothesis heqb_ok : forall x y, heqb x y = true <-> x = y.
  Variables min_row min_col nparts : nat.
  Hypothesis mr : 0 < min_row.
  Hypothesis mc : 0 < min_col.
  Hypothesis np : 0 < nparts.
  Variables known_l known_w : nat -> nat -> bool.
  Variable argsort : list Z -> list nat.
  Hypothesis argsort_ok : forall l, sorts l (argsort l).
  Variable big : nat -> bool.
  Variable encode : list Z -> res (list Z).
  Variable decode : list Z -> res (list Z).
  Hypothesis codec : forall s b, encode s = Ok b -> decode b = Ok s.
  Variable is_str : H -> bool.
  Variable kind_of : H -> kind.

  (** every column is of a kind the protocol can carry *)
  Definition column_good (name : H) (vs : list value) : Prop :=
    kind_ok (encodable encode) (kind_of name) /\ Forall (belongs (encodable encode) (kind_of name)) vs /\ exact (kind_of name) vs.
  Definition col (d : dframe) (p : nat) : list value := map (fun r => nth p r VMissing) (dcells d).
  Definition good (d : dframe) : Prop :=
    forall p name, nth_error (dcols d) p = Some name -> column_good name (col d p).

  Lemma good_rows d a b : good d -> good (iloc_rows d a b).
  Proof.
    intros G p name Hp. cbn in Hp. destruct (G p name Hp) as (G1 & G2 & G3). unfold col. cbn [iloc_rows dcells]. rewrite <- slice_map.
    split; [exact G1|]. split; [now apply Forall_slice|]. destruct (kind_of name); [exact I|]. destruct G3 as [G3 G4]. split; [|exact G4].
    intros Hin. apply G3. unfold slice in Hin. fold (col d p) in Hin. rewrite <- (firstn_skipn a (col d p)). apply in_or_app. right.
    rewrite <- (firstn_skipn (b - a) (skipn a (col d p))). apply in_or_app. now left.
  Qed.

  Lemma unpack_ok (g : pf) (e : dframe) rl cl p name : shows g e rl cl -> 0 < nrows e -> NoDup (dcols e) -> good e ->
    nth_error (dcols e) p = Some name ->
    unpack_column leqb heqb min_row min_col nparts known_l known_w argsort encode decode kind_of name g = Ok (col e p).
  Proof.
    intros Hs Hn Hnd HG Hp. unfold unpack_column, get_column_by_name. assert (Hs' := Hs). destruct Hs' as ([Hg HL] & Hr & Hc & Hi & Hcol).
    rewrite Hcol. cbn [labels rbind].
    destruct (@position_in _ heqb heqb_ok name (dcols e)) as (q & Eq & Hq); [eapply nth_error_In; eauto|].
    assert (q = p). { rewrite NoDup_nth_error in Hnd. apply Hnd; [apply nth_error_Some; congruence|congruence]. } subst q. rewrite Eq.
    assert (Hpl : p < ncols e) by (apply nth_error_Some; unfold ncols; congruence).
    destruct (@take_2d_ok L H value leqb heqb leqb_ok heqb_ok min_row min_col nparts mr mc np known_l known_w argsort argsort_ok false g e rl cl
      None (Some (IList [Z.of_nat p])) (seq 0 (nrows e)) [p] Hs) as (c & E1 & E2 & _).
    { reflexivity. }
    { cbn. repeat split; auto. }
    { right. split; [apply seq_NoDup|repeat constructor; easy]. }
    rewrite E1. cbn [rbind]. rewrite E2. cbn [rbind].
    assert (W : wf e) by (destruct Hg as (W & _); exact W). destruct W as [W1 W2].
    assert (EC : concat (dcells (take2d (seq 0 (nrows e)) [p] e)) = col e p).
    { cbn [take2d dcells]. rewrite pick_all by (unfold nrows; exact W1). unfold col. unfold ncols in Hpl.
      clear -W2 Hpl. induction W2 as [|r rs Hr _ IH]; [reflexivity|]. cbn [map concat]. rewrite IH. unfold pick at 1. cbn.
      rewrite (nth_error_nth' r VMissing) by lia. reflexivity. }
    rewrite EC. destruct (HG p name Hp) as (G1 & G2 & G3). now apply column_ok.
  Qed.

  Lemma read_columns_ok (g : pf) (e : dframe) rl cl : shows g e rl cl -> 0 < nrows e -> NoDup (dcols e) -> good e ->
    Forall (fun h => is_str h = true) (dcols e) ->
    forall names pre, dcols e = rev pre ++ names ->
      read_columns leqb heqb min_row min_col nparts known_l known_w argsort encode decode is_str kind_of pre names g
      = Ok (combine names (map (col e) (seq (length pre) (length names)))).
  Proof.
    intros Hs Hn Hnd HG Hstr. induction names as [|name names IH]; intros pre Hd; [reflexivity|].
    assert (Hp : nth_error (dcols e) (length pre) = Some name).
    { rewrite Hd, nth_error_app2, rev_length, Nat.sub_diag by (rewrite rev_length; lia). reflexivity. }
    cbn [read_columns]. rewrite Forall_forall in Hstr. rewrite (Hstr name) by (eapply nth_error_In; eauto). cbn [negb].
    assert (Hs0 : existsb (heqb name) pre = false).
    { destruct (existsb (heqb name) pre) eqn:E; [|reflexivity]. apply existsb_exists in E as (x & Hx & Ex). apply heqb_ok in Ex. subst x.
      exfalso. rewrite Hd in Hnd. apply NoDup_remove_2 in Hnd. apply Hnd, in_or_app. left. now apply -> in_rev. }
    rewrite Hs0. rewrite (@unpack_ok g e rl cl (length pre) name) by auto. cbn [rbind].
    rewrite (IH (name :: pre)) by (cbn [rev]; now rewrite <- app_assoc). cbn [rbind length combine seq map]. reflexivity.
  Qed.

  Lemma chunk_to_pandas_ok (g : pf) (e : dframe) rl cl : shows g e rl cl -> 0 < nrows e -> 0 < ncols e -> NoDup (dcols e) -> good e ->
    Forall (fun h => is_str h = true) (dcols e) ->
    chunk_to_pandas leqb heqb min_row min_col nparts known_l known_w argsort encode decode is_str kind_of g
    = Ok (mkdf (seq 0 (nrows e)) (dcols e) (dcells e)).
  Proof.
    intros Hs Hn Hc Hnd HG Hstr. unfold chunk_to_pandas. assert (Hs' := Hs). destruct Hs' as ([Hg HL] & _ & _ & Hi & Hcol).
    rewrite Hcol. cbn [labels rbind]. rewrite (@read_columns_ok g e rl cl) with (pre := []) by auto. cbn [rbind length].
    assert (W : wf e) by (destruct Hg as (W & _); exact W). destruct W as [W1 W2].
    assert (Lc : forall p, length (col e p) = nrows e) by (intros p; unfold col; rewrite map_length; exact W1).
    unfold df_of_columns. set (cs := map (col e) (seq 0 (length (dcols e)))).
    assert (Hlen : length cs = length (dcols e)) by (unfold cs; now rewrite map_length, seq_length).
    assert (Hfst : map fst (combine (dcols e) cs) = dcols e).
    { now apply combine_fst. }
    assert (Hsnd : map snd (combine (dcols e) cs) = cs).
    { now apply combine_snd. }
    assert (Hh : match combine (dcols e) cs with [] => 0 | (_, c) :: _ => length c end = nrows e).
    { unfold ncols in Hc. unfold cs. destruct (dcols e) as [|h hs]; [cbn in Hc; lia|]. cbn. apply Lc. }
    rewrite Hh. rewrite (proj2 (forallb_forall _ _)).
    2:{ intros [h c] Hin. apply in_combine_r in Hin. unfold cs in Hin. apply in_map_iff in Hin as (p & <- & _). cbn. apply Nat.eqb_eq, Lc. }
    rewrite Hfst, Hsnd. do 2 f_equal. unfold cs, col.
    replace (nrows e) with (length (dcells e)) by (exact W1).
    rewrite (transp_fun (fun p r => nth p r VMissing) (seq 0 (length (dcols e))) (dcells e)).
    rewrite <- (map_id (dcells e)) at 2. apply map_ext_in. intros r Hr. rewrite Forall_forall in W2. specialize (W2 r Hr). cbn in W2.
    rewrite <- W2. clear. induction r as [|x r IH]; [reflexivity|]. cbn [length seq map nth]. f_equal. rewrite <- seq_shift, map_map. exact IH.
  Qed.

  Lemma from_dataframe_ok (f : pf) (d : dframe) rl cl n : shows f d rl cl -> Forall (fun k => 0 < k) rl -> 0 < ncols d ->
    NoDup (dcols d) -> Forall (fun h => is_str h = true) (dcols d) -> good d ->
    match n with
    | None => True
    | Some n => n = Z.of_nat (length rl) \/ (0 < n <= Z.of_nat (nrows d) /\ n mod Z.of_nat (length rl) = 0)%Z
    end ->
    from_dataframe leqb heqb min_row min_col nparts known_l known_w argsort big encode decode is_str kind_of n f = Ok d.
  Proof.
    intros Hs Hpos Hc Hnd Hstr HG Hn. unfold from_dataframe.
    destruct (@get_chunks_ok L H value leqb heqb leqb_ok heqb_ok min_row min_col nparts mr mc np known_l known_w argsort argsort_ok big f d rl cl n Hs Hn)
      as (fs & lens & E & F & Hsum & Hl).
    rewrite E. cbn [rbind]. assert (Hs' := Hs). destruct Hs' as ([Hg HL] & Hr & _ & Hi & Hcol).
    assert (W : wf d) by (destruct Hg as (W & _); exact W). assert (W' := W). destruct W' as [W1 W2].
    assert (Hpl : Forall (fun k => 0 < k) lens /\ lens <> []).
    { destruct n as [n|]; [|subst; auto]. destruct Hl as [Hl1 Hl2]. destruct (Z.eqb_spec n (Z.of_nat (length rl))); [subst lens; auto|].
      destruct Hn as [Hn|((N1 & N2) & N3)]; [easy|]. subst lens. destruct (@even_lengths_ok (nrows d) (Z.to_nat n)) as (X1 & X2 & X3); [lia|lia|].
      split; [exact X3|]. intros E0. rewrite E0 in X1. cbn in X1. lia. }
    destruct Hpl as [Hpl Hne].
    assert (R : rmap (chunk_to_pandas leqb heqb min_row min_col nparts known_l known_w argsort encode decode is_str kind_of) fs
                = Ok (map (fun iv => mkdf (seq 0 (snd iv - fst iv)) (dcols d) (slice (dcells d) (fst iv) (snd iv))) (bounds 0 lens))).
    { assert (B : Forall (fun iv => fst iv < snd iv /\ snd iv <= nrows d) (bounds 0 lens)).
      { rewrite <- Hsum. clear -Hpl. change (list_sum lens) with (0 + list_sum lens). generalize 0. induction Hpl as [|k ks Hk _ IH]; intros a; [constructor|].
        cbn [bounds]. lsum. constructor; [cbn; lia|]. specialize (IH (a + k)). eapply Forall_impl; [|exact IH]. cbn. intros; lia. }
      clear -big F B W W1 Hc Hnd HG Hstr leqb_ok heqb_ok mr mc np argsort_ok codec.
      revert B. induction F as [|iv g ivs fs (_ & Hsh) _ IH]; intros B; [reflexivity|]. inversion B as [|? ? (B1 & B2) B3]; subst. cbn [rmap map].
      destruct (Hsh B1 Hc) as (rl' & cl' & Hsh'). rewrite (@chunk_to_pandas_ok g (iloc_rows d (fst iv) (snd iv)) rl' cl'); auto.
      - cbn [rbind]. rewrite IH by auto. cbn [rbind]. do 3 f_equal. unfold nrows. cbn [iloc_rows dindex]. rewrite slice_length. f_equal. unfold nrows in B2. lia.
      - unfold nrows in *. cbn [iloc_rows dindex]. rewrite slice_length. lia.
      - now apply good_rows. }
    rewrite R. cbn [rbind]. set (ds := map _ (bounds 0 lens)).
    assert (Hds : Forall (fun e : df nat H value => dcols e = dcols d) ds).
    { unfold ds. apply Forall_forall. intros e (iv & <- & _)%in_map_iff. reflexivity. }
    assert (Hcells : concat (map dcells ds) = dcells d).
    { unfold ds. rewrite map_map. cbn [dcells]. rewrite concat_bounds. apply slice_full. unfold nrows in *. lia. }
    destruct ds as [|d0 ds'] eqn:Eds. { unfold ds in Eds. destruct lens; [easy|discriminate]. }
    rewrite (proj2 (forallb_forall _ _)).
    2:{ intros e He. rewrite Forall_forall in Hds. rewrite (Hds e He), (Hds d0 (or_introl eq_refl)). now apply list_eqb_refl. }
    rewrite Hcells, Hi. cbn [labels rbind]. rewrite (proj2 (Nat.eqb_eq (length (dindex d)) (length (dcells d)))) by auto. rewrite orb_true_r.
    f_equal. inversion Hds as [|? ? Hd0 _]; subst. rewrite Hd0. now destruct d.
  Qed.
End Consume.

(** ** A foreign column that is exactly its buffers *)
Lemma foreign_ok data after mask mafter : data <> [] -> length mask = (length data + 7) / 8 ->
  foreign_column data after mask mafter 0 (length data)
  = Ok (map (fun p => if mask_bit mask 0 (fst p) then snd p else VMissing) (combine (seq 0 (length data)) data)).
Proof.
  intros Hd Hm. unfold foreign_column, bit_buffer_to_ndarray. rewrite buffer_own. cbn [Nat.div Nat.modulo].
  rewrite Nat.div_small, Nat.mod_small by lia. cbn [skipn]. rewrite firstn_app, Nat.sub_diag, firstn_all, app_nil_r.
  rewrite bitmask_ok; [|lia|destruct data; [easy|cbn; lia]|rewrite Hm; reflexivity].
  cbn [rbind]. unfold set_nulls_mask, inverse_null_buf. rewrite !map_length, seq_length, Nat.eqb_refl.
  assert (E : map (fun p => if snd p : bool then VMissing else fst p) (combine data (map negb (map (mask_bit mask 0) (seq 0 (length data)))))
              = map (fun p => if mask_bit mask 0 (fst p) then snd p else VMissing) (combine (seq 0 (length data)) data)).
  { generalize 0 at 2 4. clear. induction data as [|x l IH]; intros k; [reflexivity|]. cbn [length seq map combine fst snd].
    f_equal; [now destruct (mask_bit mask 0 k)|apply IH]. }
  destruct (existsb _ _) eqn:Ex; [now rewrite E|]. f_equal. rewrite <- E.
  assert (Hl : length (map negb (map (mask_bit mask 0) (seq 0 (length data)))) = length data) by (now rewrite !map_length, seq_length).
  revert Ex Hl. generalize (map negb (map (mask_bit mask 0) (seq 0 (length data)))). clear.
  induction data as [|x data IH]; intros [|b l] Ex Hl; try discriminate; [reflexivity|]. cbn in *.
  apply orb_false_iff in Ex as [-> Ex]. f_equal. apply IH; auto.
Qed.

(** A window of a foreign string column with a byte mask is read right. *)
Lemma string_window_ok encode decode vs data offs offset size dafter oafter vafter :
  (forall s b, encode s = Ok b -> decode b = Ok s) ->
  Forall (fits (encodable encode) SStr) vs -> offset + size <= length vs ->
  string_data encode vs = Ok data -> string_offsets encode vs = Ok offs ->
  string_column decode (data, dafter) (map Z.of_nat offs, oafter) (Some (string_validity vs, vafter)) false offset size
  = Ok (slice vs offset (offset + size)).
Proof. intros. eapply string_window; eauto. Qed.
