(** The newline iterator reads what plain line iteration reads, when the file ends with a newline. *)
From Verif Require Import Base CsvSpec CsvModel CsvProofs NewlineModel.

Section Newline.
  Context {B : Type}.
  Variable nl q : B -> bool.
  Hypothesis nl_not_q : forall b, nl b = true -> q b = false.
  Variable file : list B.
  Variable buffer_size : nat.
  Hypothesis buffer_pos : 1 <= buffer_size.
  Variable is_quoting : bool.

  (** Lines with their newline bytes. *)
  Fixpoint unlines (ls : list (list B)) (ends : list B) : list B :=
    match ls, ends with
    | l :: ls, b :: ends => (l ++ [b]) ++ unlines ls ends
    | _, _ => []
    end.
  Lemma split_newline_spec : forall s cur ls r, split_newline nl cur s = (ls, r) ->
    exists ends, length ends = length ls /\ Forall (fun b => nl b = true) ends /\
      rev cur ++ s = unlines ls ends ++ r /\
      (Forall (fun b => nl b = false) cur -> Forall (Forall (fun b => nl b = false)) ls /\ Forall (fun b => nl b = false) r).
  Proof.
    induction s as [|b s IH]; intros cur ls r E; cbn [split_newline] in E.
    - injection E as <- <-. exists []. repeat split; auto; simpl.
      + rewrite app_nil_r. reflexivity.
      + apply Forall_rev. assumption.
    - destruct (nl b) eqn:Eb.
      + destruct (split_newline nl [] s) as [ls' r'] eqn:E'. injection E as <- <-.
        destruct (IH [] ls' r' E') as (ends & H1 & H2 & H3 & H4).
        exists (b :: ends). repeat split; simpl; auto.
        * simpl in H3. rewrite H3, <- !app_assoc. reflexivity.
        * constructor; [apply Forall_rev; assumption|]. apply H4. constructor.
        * apply H4. constructor.
      + destruct (IH (b :: cur) ls r E) as (ends & H1 & H2 & H3 & H4).
        exists ends. repeat split; auto.
        * simpl in H3. rewrite <- app_assoc in H3. exact H3.
        * apply H4. constructor; auto.
        * apply H4. constructor; auto.
  Qed.

  Lemma take_line_of : forall l b s, Forall (fun b => nl b = false) l -> nl b = true ->
    take_line nl (l ++ b :: s) = l ++ [b].
  Proof.
    induction l as [|x l IH]; intros b s H Hb; simpl.
    - rewrite Hb. reflexivity.
    - apply Forall_inv in H as H0. apply Forall_inv_tail in H. rewrite H0. f_equal. apply IH; auto.
  Qed.

  Lemma odd_count_line : forall l b, nl b = true -> odd_count q (l ++ [b]) = odd_count q l.
  Proof.
    intros l b Hb. unfold odd_count. rewrite filter_app. simpl. rewrite (nl_not_q Hb), app_nil_r. reflexivity.
  Qed.

  (** Feeding whole lines is running the plain loop over them. *)
  Lemma feed_rows : forall ls ends r n outside rows bytes base fuel st o rw by', length ends = length ls ->
    Forall (fun b => nl b = true) ends -> Forall (Forall (fun b => nl b = false)) ls ->
    (exists rest, skipn (base + bytes) file = unlines ls ends ++ r ++ rest) ->
    length (skipn (base + bytes) file) < fuel ->
    feed q is_quoting n ls outside rows bytes = (st, o, rw, by') ->
    exists fuel', length (skipn (base + by') file) < fuel' /\
    (if st then rows_loop nl q file fuel is_quoting n outside rows (base + bytes) = (o, rw, base + by')
     else rows_loop nl q file fuel is_quoting n outside rows (base + bytes) =
          rows_loop nl q file fuel' is_quoting n o rw (base + by') /\
          by' = bytes + length (unlines ls ends)).
  Proof.
    induction ls as [|l ls IH]; intros ends r n outside rows bytes base fuel st o rw by' Hl He Hls [rest Hs] Hf E.
    - cbn [feed] in E. injection E as <- <- <- <-. exists fuel. split; [exact Hf|]. split; [reflexivity|].
      simpl. lia.
    - destruct ends as [|b ends]; [discriminate|]. injection Hl as Hl.
      apply Forall_inv in He as Hb. apply Forall_inv_tail in He.
      apply Forall_inv in Hls as Hl0. apply Forall_inv_tail in Hls.
      cbn [unlines] in *. rewrite <- !app_assoc in Hs. cbn [app] in Hs.
      assert (Ht : take_line nl (skipn (base + bytes) file) = l ++ [b]).
      { rewrite Hs. apply take_line_of; auto. }
      destruct fuel as [|fuel]; [lia|].
      assert (Hlen : length (l ++ [b]) = length l + 1) by (rewrite app_length; reflexivity).
      assert (Hs' : skipn (base + (bytes + (length l + 1))) file =
                    unlines ls ends ++ r ++ rest).
      { replace (base + (bytes + (length l + 1))) with (base + bytes + length (l ++ [b])) by lia.
        rewrite <- skipn_skipn', Hs.
        replace (l ++ b :: unlines ls ends ++ r ++ rest)
          with ((l ++ [b]) ++ unlines ls ends ++ r ++ rest)
          by (rewrite <- app_assoc; reflexivity).
        rewrite skipn_app, (skipn_all (l ++ [b])), Nat.sub_diag. reflexivity. }
      assert (Hf' : length (skipn (base + (bytes + (length l + 1))) file) < fuel).
      { rewrite Hs'. rewrite Hs in Hf. rewrite app_length in Hf. cbn [length] in Hf. lia. }
      assert (Hpos : base + bytes + length (l ++ [b]) = base + (bytes + (length l + 1))) by lia.
      cbn [feed] in E. cbn [rows_loop]. rewrite Ht.
      destruct (l ++ [b]) as [|x y] eqn:Exy; [destruct l; discriminate|]. rewrite <- Exy in *.
      rewrite odd_count_line by exact Hb. rewrite Hpos.
      set (outside' := if is_quoting && odd_count q l then negb outside else outside) in *.
      destruct outside' eqn:Eo.
      + destruct (n <=? S rows) eqn:En.
        * injection E as <- <- <- <-. exists fuel. split; [exact Hf'|reflexivity].
        * destruct (IH ends r n true (S rows) (bytes + (length l + 1)) base fuel st o rw by' Hl He Hls)
            as (fuel' & F1 & F2); auto; [exists rest; exact Hs'|].
          exists fuel'. split; [exact F1|]. destruct st; [exact F2|]. destruct F2 as [F2 F3].
          split; [exact F2|]. rewrite F3, app_length. lia.
      + destruct (IH ends r n false rows (bytes + (length l + 1)) base fuel st o rw by' Hl He Hls)
          as (fuel' & F1 & F2); auto; [exists rest; exact Hs'|].
        exists fuel'. split; [exact F1|]. destruct st; [exact F2|]. destruct F2 as [F2 F3].
        split; [exact F2|]. rewrite F3, app_length. lia.
  Qed.

  Definition ends_nl (s : list B) : Prop := s = [] \/ exists s0 b, s = s0 ++ [b] /\ nl b = true.

  Lemma ends_nl_skipn : forall s n, ends_nl s -> ends_nl (skipn n s).
  Proof.
    intros s n [-> |(s0 & b & -> & Hb)]; [left; apply skipn_nil|].
    destruct (le_lt_dec n (length s0)).
    - right. exists (skipn n s0), b. split; [|exact Hb]. rewrite skipn_app.
      replace (n - length s0) with 0 by lia. reflexivity.
    - left. apply skipn_all2. rewrite app_length. simpl. lia.
  Qed.

  Lemma newline_loop_rows : forall k n outside rows base chunk fuel fuel1, ends_nl file ->
    (exists rest, skipn base file = chunk ++ rest /\ rest = skipn (base + length chunk) file) ->
    (length file - (base + length chunk)) + (match chunk with [] => 0 | _ => 1 end) < k ->
    (chunk = [] -> length file <= base) ->
    k <= fuel -> length (skipn base file) < fuel1 ->
    newline_loop nl q file buffer_size fuel is_quoting n outside rows base chunk =
    Some (rows_loop nl q file fuel1 is_quoting n outside rows base).
  Proof.
    induction k as [|k IH]; intros n outside rows base chunk fuel fuel1 Hnl (rest & Hr & Hrest) Hk Hc Hf Hf1; [lia|].
    destruct fuel as [|fuel]; [lia|]. cbn [newline_loop].
    destruct chunk as [|c0 c] eqn:Ech.
    - specialize (Hc eq_refl). destruct fuel1 as [|fuel1]; [lia|]. cbn [rows_loop].
      rewrite (@skipn_all2 _ base file) by exact Hc. reflexivity.
    - rewrite <- Ech in *. assert (Hne : chunk <> []) by (subst; discriminate). clear Ech c0 c Hc.
      destruct (split_newline nl [] chunk) as [ls r] eqn:Es.
      destruct (@split_newline_spec chunk [] ls r Es) as (ends & S1 & S2 & S3 & S4).
      destruct S4 as [S4 S5]; [constructor|]. simpl in S3.
      destruct (feed q is_quoting n ls outside rows 0) as [[[st o] rw] by'] eqn:Ef.
      destruct (@feed_rows ls ends r n outside rows 0 base fuel1 st o rw by' S1 S2 S4) as (fuel' & F1 & F2).
      { exists rest. rewrite Nat.add_0_r, Hr, S3, <- app_assoc. reflexivity. }
      { rewrite Nat.add_0_r. exact Hf1. }
      { exact Ef. }
      rewrite Nat.add_0_r in F2. destruct st; [rewrite F2; reflexivity|].
      destruct F2 as [F2 F3]. rewrite F2. simpl in F3.
      set (C := unlines ls ends) in *.
      assert (Hlen : length chunk = by' + length r) by (rewrite S3, app_length; lia).
      set (new := firstn buffer_size (skipn (base + length chunk) file)).
      assert (Hrem : skipn (base + by') file = r ++ rest).
      { rewrite <- skipn_skipn', Hr, S3, F3, <- app_assoc, skipn_app, skipn_all, Nat.sub_diag. reflexivity. }
      assert (Hcl : 1 <= length chunk) by (destruct chunk; [congruence|simpl; lia]).
      assert (Hnewl : length new = min buffer_size (length file - (base + length chunk))).
      { unfold new. rewrite firstn_length, skipn_length. reflexivity. }
      (* at the end of the file nothing is carried over *)
      assert (Hend : length file <= base + length chunk -> r = []).
      { intros Hle. assert (rest = []) as Hre by (rewrite Hrest; apply skipn_all2; lia).
        assert (He : ends_nl (r ++ [])).
        { rewrite <- Hre, <- Hrem. apply ends_nl_skipn. exact Hnl. }
        rewrite app_nil_r in He. destruct He as [He|(s0 & b & He & Hb)]; [exact He|].
        rewrite He in S5. apply Forall_app in S5 as [_ S5]. apply Forall_inv in S5. congruence. }
      apply IH; auto.
      + exists (skipn (length new) rest). split.
        * rewrite Hrem, <- app_assoc. f_equal. unfold new. rewrite <- Hrest.
          rewrite firstn_length. destruct (le_lt_dec buffer_size (length rest)).
          -- replace (min _ _) with buffer_size by lia. symmetry. apply firstn_skipn.
          -- rewrite firstn_all2, skipn_all2 by lia. rewrite app_nil_r. reflexivity.
        * rewrite app_length, Hrest, skipn_skipn'. f_equal. lia.
      + rewrite app_length, Hnewl.
        assert (Hk1 : length file - (base + length chunk) < k).
        { destruct chunk; [congruence|lia]. }
        destruct (le_lt_dec (length file) (base + length chunk)) as [Hle|Hgt].
        * rewrite (Hend Hle) in *. assert (new = []) as ->.
          { apply length_zero_iff_nil. lia. }
          simpl. lia.
        * destruct (r ++ new); lia.
      + intros Happ. apply app_eq_nil in Happ as [Ha Hb]. rewrite Hb in Hnewl. simpl in Hnewl.
        rewrite Ha in Hlen. simpl in Hlen. lia.
      + destruct chunk; [congruence|]. lia.
  Qed.

  Theorem read_rows_newline_ok : forall n outside pos, ends_nl file ->
    forall fuel, length file + 2 <= fuel ->
    read_rows_newline nl q file buffer_size fuel is_quoting n outside pos =
    Some (read_rows nl q file is_quoting n outside pos).
  Proof.
    intros n outside pos Hnl fuel Hfuel. unfold read_rows_newline, read_rows.
    destruct (n =? 0); [reflexivity|].
    set (chunk := firstn buffer_size (skipn pos file)).
    assert (Hcl : length chunk = min buffer_size (length file - pos)).
    { unfold chunk. rewrite firstn_length, skipn_length. reflexivity. }
    rewrite (@newline_loop_rows (length file + 2) n outside 0 pos chunk fuel (S (length file))); auto.
    - destruct (rows_loop nl q file (S (length file)) is_quoting n outside 0 pos) as [[o r] p]. reflexivity.
    - exists (skipn (length chunk) (skipn pos file)). split; [|apply skipn_skipn'].
      destruct (le_lt_dec buffer_size (length file - pos)).
      + replace (length chunk) with buffer_size by lia. symmetry. apply firstn_skipn.
      + unfold chunk. rewrite firstn_all2 by (rewrite skipn_length; lia). rewrite skipn_all. rewrite app_nil_r. reflexivity.
    - destruct chunk; lia.
    - intros Hx. rewrite Hx in Hcl. simpl in Hcl. lia.
    - rewrite skipn_length. lia.
  Qed.

  (** An unterminated last line makes the iterator spin for ever once it is reached. *)
  Lemma newline_loop_spins : forall chunk n outside rows base fuel, chunk <> [] ->
    Forall (fun b => nl b = false) chunk -> length file <= base + length chunk ->
    newline_loop nl q file buffer_size fuel is_quoting n outside rows base chunk = None.
  Proof.
    intros chunk n outside rows base fuel Hne Hall Hle. induction fuel as [|fuel IH]; [reflexivity|].
    cbn [newline_loop]. destruct chunk as [|c cs] eqn:E; [congruence|]. rewrite <- E in *.
    assert (Hs : split_newline nl [] chunk = ([], chunk)).
    { assert (G : forall s cur, Forall (fun b => nl b = false) s -> split_newline nl cur s = ([], rev cur ++ s)).
      { clear. induction s as [|b s IH]; intros cur H; simpl; [rewrite app_nil_r; reflexivity|].
        apply Forall_inv in H as H0. apply Forall_inv_tail in H. rewrite H0, IH by exact H. simpl.
        rewrite <- app_assoc. reflexivity. }
      apply G. exact Hall. }
    rewrite Hs. cbn [feed]. rewrite Nat.add_0_r.
    rewrite (@skipn_all2 _ (base + length chunk)) by exact Hle. rewrite firstn_nil, app_nil_r. exact IH.
  Qed.
End Newline.
