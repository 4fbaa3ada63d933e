(** Chunks of the file and the rows the workers make of them. *)
From Verif Require Import Base Table ChunkModel CsvSpec CsvModel CsvProofs.

Section Csv.
  Context {B : Type}.
  Variable nl q : B -> bool.
  Variable is_quoting : bool.
  Variable file : list B.
  Notation Q := (qq q is_quoting).
  Notation records := (records nl Q).
  Notation R := (records file).
  Notation take_line := (take_line nl).
  Notation rem p := (skipn p file).
  Notation passes := (passes nl q is_quoting file).

  Lemma records_nil_inv : forall s, records s = [] -> s = [].
  Proof. intros s H. rewrite <- (concat_records nl Q s), H. reflexivity. Qed.

  (** Chunks one after another, each with the number of its records. *)
  Inductive chain : nat -> list (nat * nat) -> nat -> nat -> Prop :=
  | chain_nil : forall p, chain p [] p 0
  | chain_cons : forall p k p' rest z k', p < length file -> p < p' -> passes p k p' -> chain p' rest z k' ->
      chain p ((p, p') :: rest) z (k + k').

  Lemma chain_consecutive : forall p cs z k, chain p cs z k -> consecutive p z cs.
  Proof. induction 1; simpl; auto. Qed.
  Lemma chain_passes : forall p cs z k, chain p cs z k -> passes p k z.
  Proof. induction 1; [apply passes_0|]. eapply passes_trans; eauto. Qed.

  Lemma offset_loop_chain : forall fuel off pos, 1 <= off -> length file - pos < fuel ->
    exists z k, chain pos (offset_loop nl q file fuel is_quoting off pos) z k /\ length file <= z.
  Proof.
    induction fuel as [|fuel IH]; intros off pos Ho Hf; [lia|].
    cbn [offset_loop]. destruct (pos <? length file) eqn:Ep.
    - apply Nat.ltb_lt in Ep. destruct (offset nl q file is_quoting off pos) as [o pos'] eqn:E.
      destruct (@offset_passes _ nl q is_quoting file off pos o pos' Ho Ep E) as (H1 & k & H2 & H3).
      destruct (IH off pos' Ho) as (z & k' & H4 & H5); [lia|].
      exists z, (k + k'). split; [|exact H5]. constructor; auto.
    - apply Nat.ltb_ge in Ep. exists pos, 0. split; [constructor|exact Ep].
  Qed.

  Lemma nrows_loop_chain : forall fuel n ps counter pos, 1 <= ps -> length file - pos < fuel ->
    exists z k, chain pos (nrows_loop nl q file fuel is_quoting n ps counter pos) z k /\
      firstn k (records (rem pos)) = firstn (n - counter) (records (rem pos)).
  Proof.
    induction fuel as [|fuel IH]; intros n ps counter pos Ho Hf; [lia|].
    cbn [nrows_loop]. destruct (pos <? length file) eqn:Ep; cbn [andb].
    2: { apply Nat.ltb_ge in Ep. exists pos, 0. split; [constructor|].
         rewrite skipn_all2 by exact Ep. rewrite records_nil, !firstn_nil. reflexivity. }
    destruct (counter <? n) eqn:Ec.
    2: { apply Nat.ltb_ge in Ec. exists pos, 0. split; [constructor|].
         replace (n - counter) with 0 by lia. reflexivity. }
    apply Nat.ltb_lt in Ep, Ec.
    set (ps' := if n <? counter + ps then n - counter else ps).
    assert (Hps : 1 <= ps' <= n - counter).
    { unfold ps'. destruct (n <? counter + ps) eqn:E; [lia|]. apply Nat.ltb_ge in E. lia. }
    destruct (read_rows nl q file is_quoting ps' true pos) as [[o r] pos'] eqn:E.
    apply read_rows_passes in E as [H1 H2].
    assert (Hlt : pos < pos').
    { destruct H1 as (Ha & Hb & Hc). destruct (Nat.eq_dec pos pos') as [->|]; [|lia].
      exfalso. unfold slice in Hb. rewrite Nat.sub_diag in Hb. cbn [firstn] in Hb.
      destruct ps' as [|m]; [lia|].
      destruct (@records_cons _ nl Q (rem pos')) as (r0 & s' & E1 & _ & Hr & _).
      { intros Hx. apply (f_equal (@length B)) in Hx. rewrite skipn_length in Hx. simpl in Hx. lia. }
      rewrite E1 in Hb. cbn [firstn concat] in Hb. symmetry in Hb. apply app_eq_nil in Hb. tauto. }
    destruct (IH n ps' (counter + r) pos') as (z & k & H3 & H4); [lia|lia|].
    exists z, (ps' + k). split; [constructor; auto|].
    replace (n - counter) with (ps' + (n - counter - ps')) by lia.
    rewrite !firstn_add. f_equal. destruct H1 as (Ha & Hb & Hc). rewrite <- Hc, H4.
    destruct (le_lt_dec ps' (length (records (rem pos)))).
    - f_equal. lia.
    - rewrite Hc, (@skipn_all2 _ ps') by lia. rewrite !firstn_nil. reflexivity.
  Qed.

  (* ---------------- where a record begins ---------------- *)
  Lemma passes_at_start : forall k p, passes 0 k p -> p < length file -> at_record_start nl Q file p.
  Proof.
    intros k p (H1 & H2 & H3) Hp. unfold slice in H2. rewrite Nat.sub_0_r in H2. cbn [skipn] in *.
    assert (Hk : k < length R).
    { destruct (le_lt_dec (length R) k); [exfalso|auto].
      rewrite (@skipn_all2 _ k) in H3 by exact l. apply records_nil_inv in H3.
      apply (f_equal (@length B)) in H3. rewrite skipn_length in H3. simpl in H3. lia. }
    destruct (@closed_prefix _ nl Q file k Hk) as [H|H].
    - left. rewrite H in H2. apply (f_equal (@length B)) in H2. rewrite firstn_length in H2. simpl in H2. lia.
    - right. rewrite <- H2 in H. destruct H as (s0 & b & E & Hb & Hi).
      assert (Hl : length (firstn p file) = p) by (rewrite firstn_length; lia).
      assert (Hs0 : p = S (length s0)) by (rewrite E, app_length in Hl; simpl in Hl; lia).
      exists (length s0), b. repeat split; auto.
      rewrite <- (firstn_skipn p file), E, <- app_assoc, nth_error_app2 by lia.
      rewrite Nat.sub_diag. reflexivity.
  Qed.

  Lemma passes_length : forall k p, passes 0 k p -> p <= length file -> p = length (concat (firstn k R)).
  Proof.
    intros k p (_ & H & _) Hp. unfold slice in H. rewrite Nat.sub_0_r in H. cbn [skipn] in H.
    rewrite <- H, firstn_length. lia.
  Qed.

  (* ---------------- one worker ---------------- *)
  Variable is_row : list B -> bool.
  Notation parse := (generic_parse nl q file is_row is_quoting).

  Lemma take_line_one : forall r s, one_line nl r -> (complete nl Q r \/ s = []) ->
    take_line (r ++ s) = r.
  Proof.
    induction r as [|b r IH]; intros s H1 H2.
    - destruct H2 as [(r0 & b & E & _)|H2]; [destruct r0; discriminate|]. subst; reflexivity.
    - cbn [CsvModel.take_line app]. destruct r as [|c r].
      + destruct (nl b) eqn:Eb; [reflexivity|]. f_equal.
        destruct H2 as [(r0 & b' & E & Hb & _)| ->]; [|reflexivity].
        destruct r0 as [|x [|]]; injection E; intros; subst; congruence.
      + rewrite (H1 b) by (left; reflexivity). f_equal.
        clear IH. revert b H1 H2. revert c.
        (* only the position of newlines matters from here on *)
        assert (G : forall r c, (forall b, In b (removelast (c :: r)) -> nl b = false) ->
                    ((exists r0 b, c :: r = r0 ++ [b] /\ nl b = true) \/ s = []) ->
                    take_line ((c :: r) ++ s) = c :: r).
        { clear. induction r as [|d r IH]; intros c H1 H2.
          - cbn [app CsvModel.take_line]. destruct (nl c) eqn:Ec; [reflexivity|]. f_equal.
            destruct H2 as [(r0 & b' & E & Hb)| ->]; [|reflexivity].
            destruct r0 as [|x [|]]; injection E; intros; subst; congruence.
          - change ((c :: d :: r) ++ s) with (c :: ((d :: r) ++ s)). cbn [CsvModel.take_line].
            rewrite (H1 c) by (left; reflexivity). f_equal. apply IH.
            + intros b Hb. apply H1. right. exact Hb.
            + destruct H2 as [(r0 & b' & E & Hb)|]; [left|right; auto].
              destruct r0 as [|x r0]; [discriminate|]. injection E as -> E. eauto. }
        intros c b H1 H2. apply G.
        * intros x Hx. apply H1. right. exact Hx.
        * destruct H2 as [(r0 & b' & E & Hb & _)|]; [left|right; auto].
          destruct r0 as [|x r0]; [discriminate|]. injection E as -> E. eauto.
  Qed.

  Lemma read_lines_header : forall h s, Forall (one_line nl) (firstn h (records s)) ->
    read_lines nl h s = concat (firstn h (records s)).
  Proof.
    induction h as [|h IH]; intros s H; [reflexivity|]. cbn [read_lines].
    destruct s as [|b s0] eqn:Es.
    - cbn [CsvModel.take_line app length skipn]. rewrite records_nil. cbn [firstn concat].
      rewrite IH; rewrite records_nil, firstn_nil; constructor.
    - rewrite <- Es in *. destruct (@records_cons _ nl Q s) as (r & s' & E1 & E2 & Hr & Hc & _).
      { subst; discriminate. }
      rewrite E1 in *. cbn [firstn concat] in *. apply Forall_inv in H as H0. apply Forall_inv_tail in H.
      rewrite E2 at 1 2 3. rewrite (@take_line_one r s' H0 Hc). f_equal.
      rewrite skipn_app, skipn_all, Nat.sub_diag. cbn [skipn app]. apply IH. exact H.
  Qed.

  (** What the worker needs of the lines it puts before its chunk. *)
  Definition header_ok (enc : bool) (wh : nat) : Prop :=
    Forall (fun r => one_line nl r /\ is_row r = true) (firstn wh R) /\
    (enc = true -> wh = 0 -> forall r, hd_error R = Some r -> one_line nl r /\ complete nl Q r).

  Lemma filter_all : forall (l : list (list B)), Forall (fun r => is_row r = true) l -> filter is_row l = l.
  Proof. induction 1; simpl; [reflexivity|]. rewrite H, IHForall. reflexivity. Qed.

  Lemma parse_chunk : forall enc wh k s j e, header_ok enc wh -> wh <= k -> passes 0 k s -> passes s j e ->
    parse enc wh (s, e) = filter is_row (firstn j (skipn k R)).
  Proof.
    intros enc wh k s j e [H1 H2] Hk (P1 & P2 & P3) (P4 & P5 & P6). cbn [skipn] in *.
    rewrite P3 in P5. unfold generic_parse. rewrite P5.
    destruct (enc && (wh =? 0)) eqn:Ee.
    - apply andb_true_iff in Ee as [-> Ew]. apply Nat.eqb_eq in Ew. subst wh.
      destruct file as [|b f0] eqn:Ef.
      { rewrite records_nil. destruct k, j; reflexivity. }
      rewrite <- Ef in *. destruct (@records_cons _ nl Q file) as (r & s' & E1 & E2 & Hr & Hc & Hrr).
      { subst; discriminate. }
      destruct (H2 eq_refl eq_refl r) as [Ho Hcl]; [rewrite E1; reflexivity|].
      rewrite E2 at 1. rewrite (@take_line_one r s' Ho Hc), records_app, Hrr by exact Hcl.
      cbn [app skipn]. f_equal. rewrite <- P3. rewrite records_concat_firstn. reflexivity.
    - rewrite read_lines_header.
      2: { eapply Forall_impl; [|exact H1]. simpl. tauto. }
      assert (Hh : Forall (fun r => is_row r = true) (firstn wh R)).
      { eapply Forall_impl; [|exact H1]. simpl. tauto. }
      destruct (le_lt_dec (length R) k) as [Hl|Hl].
      + rewrite (@skipn_all2 _ k) by exact Hl. rewrite firstn_nil. cbn [concat filter].
        rewrite app_nil_r, records_concat_firstn, filter_all by exact Hh.
        apply skipn_all2. rewrite firstn_length. lia.
      + rewrite records_app_prefix by lia. rewrite filter_app, filter_all by exact Hh.
        rewrite skipn_app, skipn_all2 by (rewrite firstn_length; lia).
        rewrite firstn_length. replace (wh - min wh (length R)) with 0 by lia. cbn [app skipn].
        f_equal. rewrite <- P3. apply records_concat_firstn.
  Qed.

  Lemma chain_rows : forall p cs z j, chain p cs z j -> forall enc wh k, header_ok enc wh -> wh <= k ->
    passes 0 k p -> concat (map (parse enc wh) cs) = filter is_row (firstn j (skipn k R)).
  Proof.
    induction 1 as [p|p j p' rest z j' Hp Hlt Hps Hch IH]; intros enc wh k Hh Hk Hpas; [reflexivity|].
    cbn [map concat]. rewrite (@parse_chunk enc wh k p j p') by auto.
    rewrite (IH enc wh (k + j)); auto; [|lia|eapply passes_trans; eauto].
    rewrite <- filter_app, firstn_add, skipn_skipn'. reflexivity.
  Qed.

  (* ---------------- the whole file ---------------- *)
  Definition take_n (nrows : option nat) (done : nat) {X} (l : list X) : list X :=
    match nrows with Some (S _ as n) => firstn (n - done) l | _ => l end.

  Lemma main_loop_chain : forall num_partitions nrows counter start,
    exists z k, chain start
      (match nrows with
       | Some (S _ as n) =>
           nrows_loop nl q file (S (length file)) is_quoting n
             (max 1 (max num_partitions (n / num_partitions))) counter start
       | _ => offset_loop nl q file (S (length file)) is_quoting
                (max 1 (max num_partitions (length file / num_partitions))) start
       end) z k /\
      firstn k (records (rem start)) = take_n nrows counter (records (rem start)) /\
      (nrows = None -> length file <= z).
  Proof.
    intros. destruct nrows as [[|n]|].
    - destruct (@offset_loop_chain (S (length file)) (max 1 (max num_partitions (length file / num_partitions))) start)
        as (z & k & H1 & H2); [lia|lia|].
      exists z, k. split; [exact H1|]. split; [|auto].
      apply chain_passes in H1. destruct H1 as (_ & _ & H). rewrite skipn_all2, records_nil in H by exact H2.
      cbn [take_n]. rewrite <- (firstn_skipn k (records (rem start))) at 2. rewrite <- H. rewrite app_nil_r. reflexivity.
    - destruct (@nrows_loop_chain (S (length file)) (S n) (max 1 (max num_partitions (S n / num_partitions))) counter start)
        as (z & k & H1 & H2); [lia|lia|].
      exists z, k. split; [exact H1|]. split; [exact H2|discriminate].
    - destruct (@offset_loop_chain (S (length file)) (max 1 (max num_partitions (length file / num_partitions))) start)
        as (z & k & H1 & H2); [lia|lia|].
      exists z, k. split; [exact H1|]. split; [|auto].
      apply chain_passes in H1. destruct H1 as (_ & _ & H). rewrite skipn_all2, records_nil in H by exact H2.
      cbn [take_n]. rewrite <- (firstn_skipn k (records (rem start))) at 2. rewrite <- H. rewrite app_nil_r. reflexivity.
  Qed.

  Lemma partition_rows_plain : forall np nrows sk h enc wh, header_ok enc wh -> wh <= sk + h ->
    concat (map (parse enc wh) (partitioned_file nl q file is_quoting np nrows sk h 0)) =
    filter is_row (take_n nrows 0 (skipn (sk + h) R)).
  Proof.
    intros np nrows sk h enc wh Hh Hw. unfold partitioned_file. cbn [Nat.eqb app].
    set (start := skip_rows nl q file is_quoting h (skip_rows nl q file is_quoting sk 0)).
    assert (Hp : passes 0 (sk + h) start).
    { eapply passes_trans; apply skip_rows_passes. }
    destruct (@main_loop_chain np nrows 0 start) as (z & k & H1 & H2 & _).
    rewrite (@chain_rows _ _ _ _ H1 enc wh (sk + h)) by auto.
    f_equal. destruct Hp as (_ & _ & Hp). cbn [skipn] in Hp. rewrite Hp in H2. exact H2.
  Qed.

  Lemma partition_rows_pre : forall np nrows sk h pre enc wh, header_ok enc wh -> wh <= h -> 0 < pre ->
    concat (map (parse enc wh) (partitioned_file nl q file is_quoting np nrows sk h pre)) =
    filter is_row (firstn pre (skipn h R)) ++
    filter is_row (take_n nrows (min pre (length (skipn h R))) (skipn (h + pre + sk) R)).
  Proof.
    intros np nrows sk h pre enc wh Hh Hw Hpre. unfold partitioned_file.
    destruct (pre =? 0) eqn:E; [apply Nat.eqb_eq in E; lia|].
    set (p0 := skip_rows nl q file is_quoting h 0).
    assert (Hp0 : passes 0 h p0) by apply skip_rows_passes.
    destruct (read_rows nl q file is_quoting pre true p0) as [[o r] p1] eqn:Er.
    apply read_rows_passes in Er as [Hp1 Hr].
    assert (Hs : passes 0 (h + pre + sk) (skip_rows nl q file is_quoting sk p1)).
    { eapply passes_trans; [|apply skip_rows_passes]. eapply passes_trans; eauto. }
    destruct (@main_loop_chain np nrows r (skip_rows nl q file is_quoting sk p1)) as (z & k & H1 & H2 & _).
    rewrite map_app, concat_app.
    rewrite (@chain_rows _ _ _ _ H1 enc wh (h + pre + sk)) by (auto; lia).
    cbn [map concat]. rewrite app_nil_r. rewrite (@parse_chunk enc wh h p0 pre p1) by auto.
    f_equal. f_equal. destruct Hs as (_ & _ & Hs). cbn [skipn] in Hs. rewrite Hs in H2. rewrite H2.
    destruct Hp0 as (_ & _ & Hp0). cbn [skipn] in Hp0. rewrite Hp0 in Hr. rewrite Hr. reflexivity.
  Qed.
End Csv.
