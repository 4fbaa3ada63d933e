(** Positions and records: every move of the reader passes a whole number of records. *)
From Verif Require Import Base Table ChunkModel CsvSpec CsvModel.

Section Csv.
  Context {B : Type}.
  Variable nl : B -> bool.

  (* ---------------- records ---------------- *)
  Section Rec.
    Variable Q : B -> bool.
    Notation inside := (inside Q).
    Notation records_from := (records_from nl Q).
    Notation records := (records nl Q).

    Lemma inside_app : forall a b st, inside st (a ++ b) = inside (inside st a) b.
    Proof. induction a; simpl; auto. Qed.

    Notation closed := (complete nl Q).

    Lemma concat_records_from : forall s cur st, concat (records_from cur st s) = rev cur ++ s.
    Proof.
      induction s as [|b s IH]; intros cur st; cbn [CsvSpec.records_from].
      - destruct cur; cbn [concat]; [reflexivity|]. rewrite !app_nil_r. reflexivity.
      - destruct (nl b && _); cbn [concat].
        + rewrite IH. simpl. rewrite <- app_assoc. reflexivity.
        + rewrite IH. simpl. rewrite <- app_assoc. reflexivity.
    Qed.
    Lemma concat_records : forall s, concat (records s) = s.
    Proof. intros; apply concat_records_from. Qed.

    Lemma records_from_split : forall a b cur st,
      exists ended cur', records_from cur st (a ++ b) = ended ++ records_from cur' (inside st a) b /\
                        rev cur ++ a = concat ended ++ rev cur'.
    Proof.
      induction a as [|x a IH]; intros b cur st; cbn [CsvSpec.records_from app CsvSpec.inside].
      - exists [], cur. simpl. rewrite app_nil_r. auto.
      - set (st' := if Q x then negb st else st). destruct (nl x && negb st') eqn:E.
        + destruct (IH b [] false) as (d & c & H1 & H2).
          assert (st' = false) by (destruct (nl x), st'; simpl in E; congruence).
          exists (rev (x :: cur) :: d), c. rewrite H. split.
          * cbn [app]. f_equal. exact H1.
          * cbn [concat]. rewrite <- app_assoc, <- H2. simpl. rewrite <- !app_assoc. reflexivity.
        + destruct (IH b (x :: cur) st') as (d & c & H1 & H2). exists d, c. split; [exact H1|].
          rewrite <- H2. simpl. rewrite <- app_assoc. reflexivity.
    Qed.

    (* the first record *)
    Lemma records_from_first : forall s cur st, rev cur ++ s <> [] ->
      exists r s', records_from cur st s = (rev cur ++ r) :: records s' /\ s = r ++ s' /\ rev cur ++ r <> [] /\
        ((exists r0 b, r = r0 ++ [b] /\ nl b = true /\ inside st r = false) \/ s' = []) /\
        records_from cur st r = [rev cur ++ r].
    Proof.
      induction s as [|b s IH]; intros cur st Hne.
      - exists [], []. cbn [CsvSpec.records_from]. destruct cur as [|c cur]; [exfalso; auto|].
        rewrite app_nil_r. repeat split; auto. rewrite app_nil_r in Hne. exact Hne.
      - cbn [CsvSpec.records_from]. set (st' := if Q b then negb st else st).
        destruct (nl b && negb st') eqn:E.
        + apply andb_true_iff in E as [E1 E2]. apply negb_true_iff in E2.
          exists [b], s. repeat split; auto.
          * destruct (rev cur); discriminate.
          * left. exists [], b. repeat split; auto.
          * cbn [CsvSpec.records_from]. fold st'. rewrite E1, E2. reflexivity.
        + destruct (IH (b :: cur) st') as (r & s' & H1 & H2 & H3 & H4 & H5).
          { simpl. rewrite <- app_assoc. destruct (rev cur); discriminate. }
          exists (b :: r), s'. rewrite H1, H2. simpl. rewrite <- !app_assoc.
          cbn [CsvSpec.records_from]. fold st'. rewrite E.
          repeat split; auto.
          * destruct (rev cur); discriminate.
          * destruct H4 as [(r0 & x & E1 & E2 & E3)|]; [left|right; auto].
            exists (b :: r0), x. subst r. repeat split; auto.
          * rewrite H5. simpl. rewrite <- app_assoc. reflexivity.
    Qed.
    Lemma records_cons : forall s, s <> [] ->
      exists r s', records s = r :: records s' /\ s = r ++ s' /\ r <> [] /\
        (closed r \/ s' = []) /\ records r = [r].
    Proof.
      intros s H. destruct (@records_from_first s [] false) as (r & s' & H1 & H2 & H3 & H4 & H5); [exact H|].
      exists r, s'. repeat split; auto.
    Qed.
    Lemma records_nil : records [] = [].
    Proof. reflexivity. Qed.

    Lemma records_from_app : forall s r cur st s0 b, s = s0 ++ [b] -> nl b = true -> inside st s = false ->
      records_from cur st (s ++ r) = records_from cur st s ++ records r.
    Proof.
      induction s as [|x s IH]; intros r cur st s0 b E Hb Hi; [destruct s0; discriminate|].
      cbn [CsvSpec.records_from app]. cbn [CsvSpec.inside] in Hi.
      set (st' := if Q x then negb st else st) in *.
      destruct s0 as [|y s0]; injection E as -> E.
      - subst s. cbn [app CsvSpec.inside] in *. rewrite Hb, Hi. reflexivity.
      - destruct (nl y && negb st') eqn:Ey.
        + cbn [app]. f_equal. eapply IH; eauto.
          assert (st' = false) by (destruct (nl y), st'; simpl in Ey; congruence). rewrite H in Hi. exact Hi.
        + eapply IH; eauto.
    Qed.
    Lemma records_app : forall s r, closed s -> records (s ++ r) = records s ++ records r.
    Proof. intros s r (s0 & b & E & Hb & Hi). eapply records_from_app; eauto. Qed.

    Lemma records_length_ind : forall (P : list B -> Prop),
      P [] -> (forall r s', r <> [] -> closed r \/ s' = [] -> records r = [r] ->
                            records (r ++ s') = r :: records s' -> P s' -> P (r ++ s')) ->
      forall s, P s.
    Proof.
      intros P H0 H1 s. remember (length s) as n eqn:En. revert s En.
      induction n as [n IH] using lt_wf_ind. intros s En.
      destruct s as [|b s0] eqn:Es; [exact H0|]. rewrite <- Es in *.
      destruct (@records_cons s) as (r & s' & E & E2 & Hr & Hc & Hrr); [subst; discriminate|].
      rewrite E2. apply H1; auto.
      - rewrite <- E2. exact E.
      - apply IH with (m := length s'); [|reflexivity].
        rewrite En, E2, app_length. destruct r; [congruence|]. simpl. lia.
    Qed.

    Lemma records_concat_firstn : forall s k, records (concat (firstn k (records s))) = firstn k (records s).
    Proof.
      intros s. induction s as [|r s' Hr Hc Hrr E IH] using records_length_ind; intros k.
      - destruct k; reflexivity.
      - destruct k; [reflexivity|]. rewrite E. cbn [firstn concat].
        destruct Hc as [Hc| ->].
        + rewrite records_app, Hrr, IH by exact Hc. reflexivity.
        + rewrite records_nil. rewrite firstn_nil. cbn [concat]. rewrite app_nil_r. exact Hrr.
    Qed.
    Lemma records_concat_skipn : forall s k, records (concat (skipn k (records s))) = skipn k (records s).
    Proof.
      intros s. induction s as [|r s' Hr Hc Hrr E IH] using records_length_ind; intros k.
      - destruct k; reflexivity.
      - destruct k; [cbn [skipn]; rewrite concat_records; reflexivity|]. rewrite E. cbn [skipn]. apply IH.
    Qed.

    Lemma closed_app : forall a b, closed a -> closed b -> closed (a ++ b).
    Proof.
      intros a b (a0 & x & Ea & Hx & Ha) (b0 & y & Eb & Hy & Hb).
      exists (a ++ b0), y. subst b. rewrite app_assoc. repeat split; auto.
      rewrite <- app_assoc, inside_app, Ha. exact Hb.
    Qed.

    Lemma closed_prefix : forall s k, k < length (records s) ->
      concat (firstn k (records s)) = [] \/ closed (concat (firstn k (records s))).
    Proof.
      intros s. induction s as [|r s' Hr Hc Hrr E IH] using records_length_ind; intros k Hk.
      - simpl in Hk. lia.
      - rewrite E in *. destruct k; [left; reflexivity|]. cbn [firstn concat]. cbn [length] in Hk.
        destruct Hc as [Hc| ->]; [|rewrite records_nil in Hk; simpl in Hk; lia].
        right. destruct (IH k) as [H|H]; [lia| |].
        + rewrite H, app_nil_r. exact Hc.
        + apply closed_app; auto.
    Qed.
    Lemma records_not_nil : forall s, Forall (fun r => r <> []) (records s).
    Proof.
      intros s. induction s as [|r s' Hr Hc Hrr E IH] using records_length_ind; [constructor|].
      rewrite E. constructor; auto.
    Qed.
    Lemma records_app_prefix : forall s k r, k < length (records s) ->
      records (concat (firstn k (records s)) ++ r) = firstn k (records s) ++ records r.
    Proof.
      intros s k r Hk. destruct (closed_prefix s Hk) as [H|H].
      - rewrite H. assert (E : firstn k (records s) = []).
        { destruct (firstn k (records s)) eqn:E; [reflexivity|].
          assert (Hf : Forall (fun r => r <> []) (firstn k (records s))).
          { apply Forall_firstn'. apply records_not_nil. }
          rewrite E in Hf. inversion Hf; subst. try rewrite E in H. cbn [concat] in H.
          apply app_eq_nil in H. tauto. }
        rewrite E. reflexivity.
      - rewrite records_app by exact H. rewrite records_concat_firstn. reflexivity.
    Qed.
  End Rec.

  (* ---------------- lines ---------------- *)
  Variable q : B -> bool.
  Variable is_quoting : bool.
  Notation Q := (qq q is_quoting).
  Notation inside := (inside Q).
  Notation records_from := (records_from nl Q).
  Notation records := (records nl Q).
  Notation take_line := (take_line nl).

  Lemma inside_odd : forall s st,
    inside st s = if is_quoting && odd_count q s then negb st else st.
  Proof.
    unfold odd_count. destruct is_quoting eqn:Eq; cbn [andb].
    - induction s as [|b s IH]; intros st; [reflexivity|].
      cbn [CsvSpec.inside filter]. change (qq q true b) with (q b). destruct (q b).
      + cbn [length]. rewrite IH, Nat.odd_succ, <- Nat.negb_odd.
        destruct (Nat.odd (length (filter q s))), st; reflexivity.
      + apply IH.
    - induction s; intros st; [reflexivity|]. cbn [CsvSpec.inside]. apply IHs.
  Qed.

  Lemma take_line_prefix : forall s, s = take_line s ++ skipn (length (take_line s)) s.
  Proof.
    induction s as [|b s IH]; [reflexivity|]. cbn [CsvModel.take_line].
    destruct (nl b); [reflexivity|]. cbn [app length skipn]. f_equal. exact IH.
  Qed.
  Lemma take_line_nil : forall s, take_line s = [] -> s = [].
  Proof. intros [|b s]; [auto|]. cbn [CsvModel.take_line]. destruct (nl b); discriminate. Qed.

  Lemma take_line_records : forall s cur st, s <> [] ->
    records_from cur st s =
      if inside st (take_line s)
      then records_from (rev (take_line s) ++ cur) true (skipn (length (take_line s)) s)
      else (rev cur ++ take_line s) :: records (skipn (length (take_line s)) s).
  Proof.
    induction s as [|b s IH]; intros cur st Hne; [congruence|].
    cbn [CsvSpec.records_from CsvModel.take_line]. set (st' := if Q b then negb st else st).
    destruct (nl b) eqn:Eb.
    - cbn [CsvSpec.inside length skipn app rev andb]. fold st'. destruct st'; reflexivity.
    - cbn [andb CsvSpec.inside length skipn rev]. fold st'.
      destruct s as [|c s].
      + cbn [CsvModel.take_line CsvSpec.inside length skipn app rev]. destruct st'; reflexivity.
      + rewrite IH by discriminate. rewrite <- !app_assoc. cbn [app rev].
        destruct (inside st' (take_line (c :: s))); [reflexivity|].
        rewrite <- app_assoc. reflexivity.
  Qed.

  (* ---------------- the reader ---------------- *)
  Variable file : list B.
  Notation rem p := (skipn p file).

  (** From [pos] to [pos'] the reader passes [k] records. *)
  Definition passes (pos k pos' : nat) : Prop :=
    pos <= pos' /\ slice file pos pos' = concat (firstn k (records (rem pos))) /\
    records (rem pos') = skipn k (records (rem pos)).

  Lemma slice_app_pos : forall a b c, a <= b -> b <= c ->
    slice file a c = slice file a b ++ slice file b c.
  Proof.
    intros. unfold slice. replace (c - a) with ((b - a) + (c - b)) by lia.
    rewrite firstn_add, skipn_skipn'. do 3 f_equal. lia.
  Qed.
  Lemma passes_0 : forall p, passes p 0 p.
  Proof. intros. unfold passes, slice. rewrite Nat.sub_diag. auto. Qed.
  Lemma passes_trans : forall p k p' k' p'', passes p k p' -> passes p' k' p'' -> passes p (k + k') p''.
  Proof.
    intros p k p' k' p'' (H1 & H2 & H3) (H4 & H5 & H6). repeat split; [lia| |].
    - rewrite (@slice_app_pos p p' p''), H2, H5, H3 by lia.
      rewrite firstn_add, concat_app. reflexivity.
    - rewrite H6, H3, skipn_skipn'. reflexivity.
  Qed.

  Lemma slice_line : forall pos,
    slice file pos (pos + length (take_line (rem pos))) = take_line (rem pos).
  Proof.
    intros. unfold slice. replace (pos + _ - pos) with (length (take_line (rem pos))) by lia.
    rewrite (take_line_prefix (rem pos)) at 2. rewrite firstn_app, firstn_all, Nat.sub_diag. simpl.
    apply app_nil_r.
  Qed.

  Lemma rows_loop_pos : forall fuel n outside rows pos cur o r pos',
    length (rem pos) < fuel -> rows < n ->
    (outside = true -> 1 < n - rows -> cur = []) ->
    rows_loop nl q file fuel is_quoting n outside rows pos = (o, r, pos') ->
    pos <= pos' /\
    rev cur ++ slice file pos pos' = concat (firstn (n - rows) (records_from cur (negb outside) (rem pos))) /\
    records (rem pos') = skipn (n - rows) (records_from cur (negb outside) (rem pos)).
  Proof.
    induction fuel as [|fuel IH]; intros n outside rows pos cur o r pos' Hf Hn Hc E; [lia|].
    cbn [CsvModel.rows_loop] in E.
    destruct (take_line (rem pos)) as [|b line] eqn:El.
    - apply take_line_nil in El. injection E as <- <- <-.
      split; [lia|]. rewrite El. cbn [CsvSpec.records_from]. unfold slice. rewrite Nat.sub_diag. cbn [firstn].
      destruct (n - rows) as [|m] eqn:Em; [lia|]. destruct cur; simpl; rewrite ?app_nil_r; auto.
      rewrite firstn_nil, app_nil_r. split; [reflexivity|]. destruct m; reflexivity.
    - assert (Hne : rem pos <> []).
      { intros H. rewrite H in El. discriminate. }
      rewrite <- El in E. set (l := take_line (rem pos)) in *.
      assert (Hsl : slice file pos (pos + length l) = l) by apply slice_line.
      assert (Hrem : rem (pos + length l) = skipn (length l) (rem pos)).
      { rewrite skipn_skipn'. reflexivity. }
      assert (Hlen : length (rem (pos + length l)) < fuel).
      { rewrite Hrem, skipn_length. assert (1 <= length l) by (rewrite El; simpl; lia).
        assert (1 <= length (rem pos)) by (destruct (rem pos); [congruence|simpl; lia]). lia. }
      rewrite (@take_line_records (rem pos) cur (negb outside) Hne). fold l. rewrite <- Hrem.
      rewrite inside_odd.
      set (flip := is_quoting && odd_count q l) in *.
      assert (Eo : (if flip then negb (negb outside) else negb outside) =
                   negb (if flip then negb outside else outside)) by (destruct flip; reflexivity).
      rewrite Eo. set (outside' := if flip then negb outside else outside) in *.
      destruct outside' eqn:Eout; cbn [negb].
      + destruct (n <=? S rows) eqn:En.
        * apply Nat.leb_le in En. injection E as <- <- <-.
          replace (n - rows) with 1 by lia. split; [lia|]. rewrite Hsl. simpl. rewrite app_nil_r. auto.
        * apply Nat.leb_gt in En.
          destruct (IH n true (S rows) (pos + length l) [] o r pos') as (H1 & H2 & H3); auto.
          replace (n - rows) with (S (n - S rows)) by lia. cbn [firstn skipn concat].
          split; [lia|]. split; [|exact H3].
          rewrite (@slice_app_pos pos (pos + length l) pos'), Hsl by lia.
          simpl in H2. rewrite H2. rewrite <- app_assoc. reflexivity.
      + destruct (IH n false rows (pos + length l) (rev l ++ cur) o r pos') as (H1 & H2 & H3); auto.
        { discriminate. }
        split; [lia|]. split; [|exact H3]. cbn [negb] in H2. rewrite <- H2.
        rewrite (@slice_app_pos pos (pos + length l) pos'), Hsl by lia.
        rewrite rev_app_distr, rev_involutive, <- app_assoc. reflexivity.
  Qed.

  Lemma rows_loop_count : forall fuel n outside rows pos cur o r pos',
    length (rem pos) < fuel -> rows < n ->
    (cur = [] <-> outside = true) ->
    rows_loop nl q file fuel is_quoting n outside rows pos = (o, r, pos') ->
    (if o then r else S r) = rows + min (n - rows) (length (records_from cur (negb outside) (rem pos))).
  Proof.
    induction fuel as [|fuel IH]; intros n outside rows pos cur o r pos' Hf Hn Hc E; [lia|].
    cbn [CsvModel.rows_loop] in E.
    destruct (take_line (rem pos)) as [|b line] eqn:El.
    - apply take_line_nil in El. injection E as <- <- <-. rewrite El. cbn [CsvSpec.records_from].
      destruct outside.
      + destruct Hc as [_ Hc]. rewrite (Hc eq_refl). simpl. rewrite Nat.min_0_r. lia.
      + destruct cur; [destruct Hc as [Hc _]; discriminate (Hc eq_refl)|]. simpl. lia.
    - assert (Hne : rem pos <> []).
      { intros H. rewrite H in El. discriminate. }
      rewrite <- El in E. set (l := take_line (rem pos)) in *.
      assert (Hrem : rem (pos + length l) = skipn (length l) (rem pos)).
      { rewrite skipn_skipn'. reflexivity. }
      assert (Hlen : length (rem (pos + length l)) < fuel).
      { rewrite Hrem, skipn_length. assert (1 <= length l) by (rewrite El; simpl; lia).
        assert (1 <= length (rem pos)) by (destruct (rem pos); [congruence|simpl; lia]). lia. }
      rewrite (@take_line_records (rem pos) cur (negb outside) Hne). fold l. rewrite <- Hrem.
      rewrite inside_odd.
      set (flip := is_quoting && odd_count q l) in *.
      assert (Eo : (if flip then negb (negb outside) else negb outside) =
                   negb (if flip then negb outside else outside)) by (destruct flip; reflexivity).
      rewrite Eo. set (outside' := if flip then negb outside else outside) in *.
      destruct outside' eqn:Eout; cbn [negb].
      + destruct (n <=? S rows) eqn:En.
        * apply Nat.leb_le in En. injection E as <- <- <-. cbn [length]. lia.
        * apply Nat.leb_gt in En.
          pose proof (IH n true (S rows) (pos + length l) [] o r pos') as H. rewrite H; auto; [|tauto].
          cbn [length negb]. unfold CsvSpec.records. lia.
      + pose proof (IH n false rows (pos + length l) (rev l ++ cur) o r pos') as H. rewrite H; auto.
        split; [|discriminate]. intros Hx. rewrite El in Hx. destruct (rev (b :: line)) eqn:Er.
        * apply (f_equal (@length B)) in Er. rewrite rev_length in Er. discriminate.
        * discriminate.
  Qed.

  Lemma rem_le : forall p, length (rem p) < S (length file).
  Proof. intros. rewrite skipn_length. lia. Qed.

  Lemma read_rows_passes : forall n pos o r pos',
    read_rows nl q file is_quoting n true pos = (o, r, pos') ->
    passes pos n pos' /\ r = min n (length (records (rem pos))).
  Proof.
    intros n pos o r pos' E. unfold read_rows in E. destruct (n =? 0) eqn:En.
    - apply Nat.eqb_eq in En. injection E as <- <- <-. subst n. split; [apply passes_0|reflexivity].
    - apply Nat.eqb_neq in En.
      destruct (rows_loop nl q file (S (length file)) is_quoting n true 0 pos) as [[o1 r1] p1] eqn:El.
      injection E as <- <- <-.
      pose proof (@rows_loop_pos (S (length file)) n true 0 pos [] o1 r1 p1 (rem_le pos) ltac:(lia) (fun _ _ => eq_refl) El) as H.
      pose proof (@rows_loop_count (S (length file)) n true 0 pos [] o1 r1 p1 (rem_le pos) ltac:(lia) ltac:(tauto) El) as H'.
      rewrite Nat.sub_0_r in *. split; [exact H|exact H'].
  Qed.

  Lemma skip_rows_passes : forall n pos, passes pos n (skip_rows nl q file is_quoting n pos).
  Proof.
    intros. unfold skip_rows. destruct (n =? 0) eqn:En.
    - apply Nat.eqb_eq in En. subst. apply passes_0.
    - destruct (read_rows nl q file is_quoting n true pos) as [[o r] p] eqn:E. cbn [snd].
      apply read_rows_passes in E. tauto.
  Qed.

  Lemma offset_passes : forall off pos o pos', 1 <= off -> pos < length file ->
    offset nl q file is_quoting off pos = (o, pos') ->
    pos < pos' /\ exists k, 1 <= k /\ passes pos k pos'.
  Proof.
    intros off pos o pos' Hoff Hpos E. unfold offset in E.
    (* the position and the state after the first [off] bytes *)
    set (chunk := firstn off (rem pos)).
    assert (Hst : exists pos1 outside, pos < pos1 /\ slice file pos pos1 = chunk /\
              rem pos1 = skipn off (rem pos) /\ outside = negb (inside false chunk) /\
              (let '(outside2, _, pos2) := read_rows nl q file is_quoting 1 outside pos1 in (outside2, pos2))
              = (o, pos')).
    { destruct is_quoting eqn:Eq.
      - exists (pos + length (slice file pos (pos + off))), (negb (odd_count q (slice file pos (pos + off)))).
        assert (Es : slice file pos (pos + off) = chunk).
        { unfold slice, chunk. f_equal. lia. }
        rewrite Es in *. assert (Hc : length chunk = min off (length file - pos)).
        { unfold chunk. rewrite firstn_length, skipn_length. reflexivity. }
        split; [lia|]. split; [|split; [|split]].
        + unfold slice, chunk. replace (pos + _ - pos) with (length (firstn off (rem pos))) by lia.
          rewrite firstn_length. rewrite <- firstn_firstn. rewrite firstn_all. reflexivity.
        + rewrite skipn_skipn', Hc. destruct (le_lt_dec off (length file - pos)).
          * f_equal. lia.
          * rewrite !skipn_all2 by lia. reflexivity.
        + pose proof (inside_odd chunk false) as Hi. rewrite Eq in Hi. rewrite Hi. cbn [andb].
          destruct (odd_count q chunk); reflexivity.
        + exact E.
      - exists (pos + off), true. split; [lia|]. split; [|split; [|split]].
        + unfold slice, chunk. f_equal. lia.
        + rewrite skipn_skipn'. reflexivity.
        + pose proof (inside_odd chunk false) as Hi. rewrite Eq in Hi. rewrite Hi. reflexivity.
        + exact E. }
    destruct Hst as (pos1 & outside & Hp & Hs & Hr & Ho & E').
    destruct (read_rows nl q file is_quoting 1 outside pos1) as [[o2 r2] p2] eqn:Er.
    injection E' as <- <-. unfold read_rows in Er. cbn [Nat.eqb] in Er.
    destruct (rows_loop nl q file (S (length file)) is_quoting 1 outside 0 pos1) as [[o1 r1] p1] eqn:El.
    injection Er as <- <- <-.
    destruct (@records_from_split Q chunk (skipn off (rem pos)) [] false) as (d & cur & H1 & H2).
    unfold chunk in H1 at 1. rewrite firstn_skipn in H1. simpl in H2.
    assert (Hn : negb outside = inside false chunk).
    { rewrite Ho. apply negb_involutive. }
    pose proof (@rows_loop_pos (S (length file)) 1 outside 0 pos1 cur o1 r1 p1 (rem_le pos1) ltac:(lia) ltac:(intros; lia) El) as (P1 & P2 & P3).
    rewrite Nat.sub_0_r, Hn, Hr in P2, P3. split; [lia|].
    exists (length d + 1). split; [lia|]. repeat split; [lia| |].
    - rewrite (@slice_app_pos pos pos1 p1), Hs, H2 by lia. unfold CsvSpec.records. rewrite H1.
      rewrite firstn_app_2, concat_app, <- P2, <- app_assoc. reflexivity.
    - unfold CsvSpec.records at 2. rewrite H1, P3. rewrite skipn_app.
      rewrite (@skipn_all2 _ (length d + 1) d) by lia. cbn [app].
      replace (length d + 1 - length d) with 1 by lia. reflexivity.
  Qed.
End Csv.
