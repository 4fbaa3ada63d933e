(** Column widths of the readers; read_csv_glob over many files. *)
From Verif Require Import Base Table ChunkModel ChunkSpec ChunkProofs CsvSpec CsvModel CsvProofs CsvProofs2 CsvProofs3 GlobModel.

(* ---------------- widths ---------------- *)
Section Widths.
  Context {L H A : Type}.
  Variable leqb : L -> L -> bool.
  Variable heqb : H -> H -> bool.
  Hypothesis leqb_ok : forall x y, leqb x y = true <-> x = y.
  Hypothesis heqb_ok : forall x y, heqb x y = true <-> x = y.

  Lemma define_metadata_widths : forall n np mb (d : df L H A), 0 < np -> 0 < mb -> wf d -> ncols d = n ->
    exists widths k bs, define_metadata n np mb = Ok (widths, k) /\
      split_result_of_axis_func true k d mb None = Ok bs /\
      map (@ncols L H A) bs = widths /\ length widths = k /\ k <= np /\ 0 < k /\ list_sum widths = n.
  Proof.
    intros n np mb d Hnp Hmb W Hn. unfold define_metadata.
    set (ks := min (if n =? 0 then 1 else n) np).
    assert (Hks : 0 < ks).
    { unfold ks. destruct (Nat.eqb_spec n 0); lia. }
    destruct (compute_chunksize_ok n Hks Hmb) as (c & Ec & Hc & Hnc & _). rewrite Ec. cbn [rbind].
    destruct (n <? c) eqn:E.
    - exists [n], 1, [d]. unfold split_result_of_axis_func. cbn [Nat.eqb map length list_sum fold_right].
      rewrite Hn. repeat split; try lia. lsum. lia.
    - destruct (@split_formula L H A leqb heqb leqb_ok heqb_ok true ks d mb W Hks Hmb)
        as (lens & bs & E1 & E2 & E3 & E4 & _).
      assert (Ew : map (fun i => if c * (i + 1) <? n then c else if n <? c * i then 0 else n - c * i) (seq 0 ks)
                   = lens).
      { unfold get_length_list, axis_len in E1. rewrite Hn, Ec in E1. cbn [rbind] in E1.
        injection E1 as <-. apply map_ext. intros i.
        destruct (Nat.ltb_spec (c * (i + 1)) n), (Nat.leb_spec ((i + 1) * c) n), (Nat.ltb_spec n (c * i)); nia. }
      rewrite Ew. exists lens, ks, bs. repeat split; auto; [|unfold ks; lia|].
      + rewrite <- Ew, map_length, seq_length. reflexivity.
      + destruct (@get_length_list_ok n ks mb Hks Hmb) as (l2 & F1 & F2 & F3).
        unfold axis_len in E1. rewrite Hn, F1 in E1. injection E1 as <-. exact F3.
  Qed.
End Widths.

(* ---------------- many files ---------------- *)
Section Glob.
  Context {B : Type}.
  Variable nl q : B -> bool.
  Variable is_row : list B -> bool.
  Variable is_quoting enc : bool.
  Notation Q := (qq q is_quoting).
  Notation records := (records nl Q).
  Notation parse files := (glob_parse nl q is_row is_quoting enc files).

  Definition chunks_of (s : gstate) : list gchunk := concat (g_result s) ++ g_split s.
  Lemma add_last_concat : forall r s, concat (add_last r s) = concat r ++ s.
  Proof.
    intros r [|c s]; simpl; [rewrite app_nil_r; reflexivity|].
    rewrite concat_app. simpl. rewrite app_nil_r. reflexivity.
  Qed.

  (** The rows still wanted when [c] have been counted. *)
  Notation take nrows c l := (take_n nrows c l).
  Definition more (nrows : option nat) (count : nat) (l : list (list B)) : nat :=
    match nrows with Some (S _ as n) => count + length (firstn (n - count) l) | _ => count end.

  Lemma file_loop_chain : forall fuel file idx nrows psize start s, 1 <= psize ->
    length file - start < fuel ->
    exists cs z k, chain nl q is_quoting file start cs z k /\
      firstn k (records (skipn start file)) = take nrows (g_count s) (records (skipn start file)) /\
      match file_loop nl q is_quoting fuel file idx nrows psize start s with
      | Cont s' => chunks_of s' = chunks_of s ++ map (pair idx) cs /\
                   g_count s' = more nrows (g_count s) (records (skipn start file))
      | Return r => concat r = chunks_of s ++ map (pair idx) cs /\
                   exists n, nrows = Some (S n) /\
                             S n <= more nrows (g_count s) (records (skipn start file))
      end.
  Proof.
    induction fuel as [|fuel IH]; intros file idx nrows psize start s Hp Hf; [lia|].
    cbn [file_loop]. destruct (start <? length file) eqn:Es.
    2: { apply Nat.ltb_ge in Es. exists [], start, 0. split; [constructor|].
         rewrite skipn_all2, records_nil by exact Es. cbn [firstn map]. rewrite app_nil_r.
         split; [destruct nrows as [[|]|]; cbn [take_n]; rewrite ?firstn_nil; reflexivity|].
         split; [reflexivity|]. destruct nrows as [[|]|]; cbn [more]; rewrite ?firstn_nil; simpl; lia. }
    apply Nat.ltb_lt in Es.
    set (s1 := if psize <=? g_size s then GState (g_result s ++ [g_split s]) [] 0 (g_count s) else s).
    assert (H1 : chunks_of s1 = chunks_of s /\ g_count s1 = g_count s /\ g_size s1 < psize).
    { unfold s1. destruct (psize <=? g_size s) eqn:E.
      - unfold chunks_of. simpl. rewrite concat_app. simpl. rewrite !app_nil_r. repeat split; lia.
      - apply Nat.leb_gt in E. auto. }
    destruct H1 as (Hch & Hct & Hsz). clearbody s1. rewrite <- Hch, <- Hct. clear Hch Hct s.
    assert (Hoff : exists cs z k,
        chain nl q is_quoting file start cs z k /\
        firstn k (records (skipn start file)) = records (skipn start file) /\
        match (let '(_, pos) := offset nl q file is_quoting (psize - g_size s1) start in
               file_loop nl q is_quoting fuel file idx None psize pos
                 (GState (g_result s1) (g_split s1 ++ [(idx, (start, pos))])
                    (g_size s1 + (pos - start)) (g_count s1))) with
        | Cont s' => chunks_of s' = chunks_of s1 ++ map (pair idx) cs /\ g_count s' = g_count s1
        | Return r => False
        end).
    { destruct (offset nl q file is_quoting (psize - g_size s1) start) as [o pos] eqn:E.
      destruct (@offset_passes _ nl q is_quoting file (psize - g_size s1) start o pos) as (Hlt & k & Hk & Hpass); auto; [lia|].
      set (s2 := GState (g_result s1) (g_split s1 ++ [(idx, (start, pos))]) (g_size s1 + (pos - start)) (g_count s1)).
      destruct (IH file idx None psize pos s2 Hp) as (cs & z & k' & C1 & C2 & C3); [lia|].
      exists ((start, pos) :: cs), z, (k + k'). split; [constructor; auto|].
      split.
      - destruct Hpass as (_ & _ & Hpass). rewrite firstn_add, <- Hpass, C2. cbn [take_n].
        rewrite Hpass. apply firstn_skipn.
      - destruct (file_loop _ _ _ fuel _ _ None _ _ s2) as [s'|r].
        + destruct C3 as [C3 C4]. split; [|exact C4]. rewrite C3. unfold chunks_of, s2. simpl.
          rewrite <- !app_assoc. reflexivity.
        + destruct C3 as (_ & n & Hn & _). discriminate. }
    destruct nrows as [[|n]|].
    - (* nrows = 0 is taken as no nrows *)
      assert (Hsame : forall fuel psize start s, file_loop nl q is_quoting fuel file idx (Some 0) psize start s
                        = file_loop nl q is_quoting fuel file idx None psize start s).
      { clear. induction fuel as [|fuel IH]; intros psize start s; [reflexivity|]. cbn [file_loop].
        destruct (start <? length file); [|reflexivity].
        destruct (offset nl q file is_quoting _ start) as [o pos]. apply IH. }
      destruct Hoff as (cs & z & k & C1 & C2 & C3). exists cs, z, k. split; [exact C1|]. split; [exact C2|].
      destruct (offset nl q file is_quoting (psize - g_size s1) start) as [o pos]. rewrite Hsame.
      destruct (file_loop _ _ _ fuel _ _ None _ _ _) as [s'|r]; [exact C3|destruct C3].
    - destruct (S n <=? g_count s1) eqn:Ec.
      + apply Nat.leb_le in Ec. exists [], start, 0. split; [constructor|].
        cbn [take_n more]. replace (S n - g_count s1) with 0 by lia. split; [reflexivity|].
        rewrite add_last_concat. cbn [map]. rewrite app_nil_r. split; [reflexivity|].
        exists n. split; [reflexivity|]. simpl. lia.
      + apply Nat.leb_gt in Ec.
        set (rs := if S n <? g_count s1 + (psize - g_size s1) then S n - g_count s1 else psize - g_size s1).
        assert (Hrs : 1 <= rs <= S n - g_count s1).
        { unfold rs. destruct (Nat.ltb_spec (S n) (g_count s1 + (psize - g_size s1))); lia. }
        destruct (read_rows nl q file is_quoting rs true start) as [[o rd] pos] eqn:Er.
        apply read_rows_passes in Er as [Hpass Hrd].
        assert (Hlt : start < pos).
        { destruct Hpass as (Ha & Hb & Hc). destruct (Nat.eq_dec start pos) as [->|]; [|lia].
          exfalso. unfold slice in Hb. rewrite Nat.sub_diag in Hb. cbn [firstn] in Hb.
          destruct rs as [|m]; [lia|].
          destruct (@records_cons _ nl Q (skipn pos file)) as (r0 & s' & E1 & _ & Hr & _).
          { intros Hx. apply (f_equal (@length B)) in Hx. rewrite skipn_length in Hx. simpl in Hx. lia. }
          rewrite E1 in Hb. cbn [firstn concat] in Hb. symmetry in Hb. apply app_eq_nil in Hb. tauto. }
        set (s2 := GState (g_result s1) (g_split s1 ++ [(idx, (start, pos))])
                     (g_size s1 + rd + (pos - start)) (g_count s1 + rd)).
        destruct (IH file idx (Some (S n)) psize pos s2 Hp) as (cs & z & k' & C1 & C2 & C3); [lia|].
        exists ((start, pos) :: cs), z, (rs + k'). split; [constructor; auto|].
        destruct Hpass as (_ & _ & Hpass). cbn [take_n more] in *.
        assert (Hc2 : g_count s2 = g_count s1 + rd) by reflexivity. rewrite Hc2 in *.
        rewrite Hpass in *. set (RR := records (skipn start file)) in *.
        assert (Hsplit : firstn (S n - g_count s1) RR =
                         firstn rs RR ++ firstn (S n - (g_count s1 + rd)) (skipn rs RR)).
        { replace (S n - g_count s1) with (rs + (S n - g_count s1 - rs)) by lia. rewrite firstn_add. f_equal.
          destruct (le_lt_dec rs (length RR)).
          - f_equal. lia.
          - rewrite (@skipn_all2 _ rs) by lia. rewrite !firstn_nil. reflexivity. }
        split; [rewrite Hsplit, firstn_add, C2; reflexivity|].
        assert (Hlen : g_count s1 + length (firstn (S n - g_count s1) RR) =
                       g_count s1 + rd + length (firstn (S n - (g_count s1 + rd)) (skipn rs RR))).
        { rewrite Hsplit, app_length. rewrite (@firstn_length _ rs). lia. }
        rewrite Hlen.
        destruct (file_loop _ _ _ fuel _ _ (Some (S n)) _ _ s2) as [s'|r].
        * destruct C3 as [C3 C4]. split; [|exact C4]. rewrite C3. unfold chunks_of, s2. simpl.
          rewrite <- !app_assoc. reflexivity.
        * destruct C3 as [C3 C4]. split; [|exact C4]. rewrite C3. unfold chunks_of, s2. simpl.
          rewrite <- !app_assoc. reflexivity.
    - destruct Hoff as (cs & z & k & C1 & C2 & C3). exists cs, z, k. split; [exact C1|]. split; [exact C2|].
      destruct (offset nl q file is_quoting (psize - g_size s1) start) as [o pos].
      destruct (file_loop _ _ _ fuel _ _ None _ _ _) as [s'|r]; [exact C3|destruct C3].
  Qed.

  (** With an [encoding], every file's first record must be one complete line. *)
  Definition first_line_ok (file : list B) : Prop :=
    enc = true -> forall r, hd_error (records file) = Some r -> one_line nl r /\ complete nl Q r.

  Lemma first_line_header : forall file, first_line_ok file ->
    header_ok nl q is_quoting file is_row enc 0.
  Proof. intros file H. split; [constructor|]. intros He _. apply H. exact He. Qed.

  Lemma glob_parse_app : forall files a b, parse files (a ++ b) = parse files a ++ parse files b.
  Proof. intros. unfold glob_parse. rewrite map_app, concat_app. reflexivity. Qed.
  Lemma glob_parse_concat : forall files l, concat (map (parse files) l) = parse files (concat l).
  Proof. induction l as [|x l IH]; [reflexivity|]. cbn [map concat]. rewrite IH, glob_parse_app. reflexivity. Qed.

  Lemma glob_parse_file : forall files idx file p cs z j k, nth_error files idx = Some file ->
    first_line_ok file -> chain nl q is_quoting file p cs z j -> passes nl q is_quoting file 0 k p ->
    parse files (map (pair idx) cs) = filter is_row (firstn j (skipn k (records file))).
  Proof.
    intros files idx file p cs z j k Hi Hf Hc Hp. unfold glob_parse. rewrite map_map. cbn [fst snd].
    rewrite (nth_error_nth _ _ _ Hi).
    apply (@chain_rows _ nl q is_quoting file is_row p cs z j Hc enc 0 k); auto; [|lia].
    apply first_line_header. exact Hf.
  Qed.

  (** What remains of the wanted rows of the files from number [idx] on. *)
  Definition rest_rows (h : nat) (files : list (list B)) : list (list B) :=
    concat (map (fun f => skipn h (records f)) files).

  Lemma take_more_app : forall nrows c (a b : list (list B)), 
    take nrows c (a ++ b) = take nrows c a ++ take nrows (more nrows c a) b.
  Proof.
    intros [[|n]|] c a b; cbn [take_n more]; [reflexivity| |reflexivity].
    rewrite firstn_app, firstn_length. f_equal. destruct (le_lt_dec (S n) c).
    - replace (S n - c) with 0 by lia. replace (S n - _) with 0 by lia. reflexivity.
    - destruct (le_lt_dec (length a) (S n - c)).
      + f_equal. lia.
      + replace (S n - c - length a) with 0 by lia. replace (S n - _) with 0 by lia. reflexivity.
  Qed.

  Lemma take_enough : forall n c (b : list (list B)), S n <= c -> take (Some (S n)) c b = [].
  Proof. intros. cbn [take_n]. replace (S n - c) with 0 by lia. reflexivity. Qed.

  Lemma files_loop_plain : forall files all idx nrows psize h s,
    1 <= psize -> Forall first_line_ok files ->
    (forall i, nth_error files i = nth_error all (idx + i)) ->
    parse all (concat (files_loop nl q is_quoting files idx nrows psize 0 h s)) =
    parse all (chunks_of s) ++ filter is_row (take nrows (g_count s) (rest_rows h files)).
  Proof.
    induction files as [|file files IH]; intros all idx nrows psize h s Hp Hf Hi; cbn [files_loop].
    - rewrite add_last_concat. unfold rest_rows. cbn [map concat].
      destruct nrows as [[|]|]; cbn [take_n]; rewrite ?firstn_nil; cbn [filter]; rewrite app_nil_r; reflexivity.
    - cbn [Z.eqb negb orb andb]. rewrite Z.add_0_l.
      set (ps := if negb (h =? 0) && (0 <? Z.of_nat h)%Z
                 then read_rows nl q file is_quoting (Z.to_nat (Z.of_nat h)) true 0 else (true, 0, 0)).
      assert (Hst : passes nl q is_quoting file 0 h (snd ps)).
      { unfold ps. destruct (Nat.eqb_spec h 0) as [->|Hne]; cbn [negb andb]; [apply passes_0|].
        replace (0 <? Z.of_nat h)%Z with true by (symmetry; apply Z.ltb_lt; lia).
        rewrite Nat2Z.id. destruct (read_rows nl q file is_quoting h true 0) as [[o r] p] eqn:E.
        apply read_rows_passes in E. cbn [snd]. tauto. }
      destruct ps as [[o rd] start]. cbn [snd] in Hst.
      apply Forall_inv in Hf as Hf0. apply Forall_inv_tail in Hf.
      destruct (@file_loop_chain (S (length file)) file idx nrows psize start s Hp) as (cs & z & k & C1 & C2 & C3); [lia|].
      assert (Hi0 : nth_error all idx = Some file) by (rewrite <- (Nat.add_0_r idx), <- Hi; reflexivity).
      pose proof (@glob_parse_file all idx file start cs z k h Hi0 Hf0 C1 Hst) as Hrows.
      destruct Hst as (_ & _ & Hst). cbn [skipn] in Hst. rewrite Hst in *. rewrite C2 in Hrows.
      unfold rest_rows. cbn [map concat]. fold (rest_rows h files). rewrite take_more_app, filter_app.
      destruct (file_loop nl q is_quoting (S (length file)) file idx nrows psize start s) as [s'|r].
      + destruct C3 as [C3 C4]. rewrite (IH all (S idx)); auto.
        * rewrite C3, C4, glob_parse_app, Hrows, <- app_assoc. reflexivity.
        * intros i. rewrite Nat.add_succ_comm, <- Hi. reflexivity.
      + destruct C3 as (C3 & n & -> & C4). rewrite C3, glob_parse_app, Hrows.
        rewrite (@take_enough n (more _ _ _)) by exact C4. cbn [filter]. rewrite app_nil_r. reflexivity.
  Qed.

  Theorem glob_rows_take : forall files np nrows h, Forall first_line_ok files ->
    read_csv_glob nl q is_row is_quoting enc files np nrows 0 h =
    filter is_row (take nrows 0 (rest_rows h files)).
  Proof.
    intros files np nrows h Hf. unfold read_csv_glob. rewrite glob_parse_concat. unfold glob_partitions.
    rewrite (@files_loop_plain files files 0); auto. lia.
  Qed.

  (** Without header lines, [skiprows] removes the first rows of all the files together. *)
  Lemma files_loop_skip : forall files all idx nrows psize k s,
    1 <= psize -> Forall first_line_ok files ->
    (forall i, nth_error files i = nth_error all (idx + i)) ->
    parse all (concat (files_loop nl q is_quoting files idx nrows psize (Z.of_nat k) 0 s)) =
    parse all (chunks_of s) ++ filter is_row (take nrows (g_count s) (skipn k (rest_rows 0 files))).
  Proof.
    induction files as [|file files IH]; intros all idx nrows psize k s Hp Hf Hi.
    - cbn [files_loop]. rewrite add_last_concat. unfold rest_rows. cbn [map concat]. rewrite skipn_nil.
      destruct nrows as [[|]|]; cbn [take_n]; rewrite ?firstn_nil; cbn [filter]; rewrite app_nil_r; reflexivity.
    - destruct (Nat.eq_dec k 0) as [->|Hk].
      { change (Z.of_nat 0) with 0%Z. cbn [skipn]. apply files_loop_plain; auto. }
      cbn [files_loop]. replace (Z.of_nat k =? 0)%Z with false by (symmetry; apply Z.eqb_neq; lia).
      cbn [negb orb andb Nat.eqb]. change (Z.of_nat 0) with 0%Z. rewrite Z.add_0_r, Nat2Z.id.
      replace (0 <? Z.of_nat k)%Z with true by (symmetry; apply Z.ltb_lt; lia).
      destruct (read_rows nl q file is_quoting k true 0) as [[o rd] start] eqn:Er.
      apply read_rows_passes in Er as [Hst Hrd]. cbn [skipn] in Hrd.
      apply Forall_inv in Hf as Hf0. apply Forall_inv_tail in Hf.
      assert (Hi' : forall i, nth_error files i = nth_error all (S idx + i)).
      { intros i. rewrite Nat.add_succ_comm, <- Hi. reflexivity. }
      unfold rest_rows. cbn [map concat skipn]. fold (rest_rows 0 files).
      rewrite skipn_app.
      destruct (0 <? Z.of_nat k - Z.of_nat rd)%Z eqn:Ez.
      + apply Z.ltb_lt in Ez. replace (Z.of_nat k - Z.of_nat rd)%Z with (Z.of_nat (k - rd)) by lia.
        rewrite (IH all (S idx)); auto. f_equal. f_equal. rewrite (@skipn_all2 _ k (records file)) by lia.
        cbn [app]. replace rd with (length (records file)) by lia. reflexivity.
      + apply Z.ltb_ge in Ez.
        destruct (@file_loop_chain (S (length file)) file idx nrows psize start s Hp) as (cs & z & j & C1 & C2 & C3); [lia|].
        assert (Hi0 : nth_error all idx = Some file) by (rewrite <- (Nat.add_0_r idx), <- Hi; reflexivity).
        pose proof (@glob_parse_file all idx file start cs z j k Hi0 Hf0 C1 Hst) as Hrows.
        destruct Hst as (_ & _ & Hst). cbn [skipn] in Hst. rewrite Hst in *. rewrite C2 in Hrows.
        replace (k - length (records file)) with 0 by lia. cbn [skipn].
        rewrite take_more_app, filter_app.
        replace (Z.of_nat k - Z.of_nat rd)%Z with 0%Z by lia.
        destruct (file_loop nl q is_quoting (S (length file)) file idx nrows psize start s) as [s'|r].
        * destruct C3 as [C3 C4]. rewrite (@files_loop_plain files all (S idx)); auto.
          rewrite C3, C4, glob_parse_app, Hrows, <- app_assoc. reflexivity.
        * destruct C3 as (C3 & n & -> & C4). rewrite C3, glob_parse_app, Hrows.
          rewrite (@take_enough n (more _ _ _)) by exact C4. cbn [filter]. rewrite app_nil_r. reflexivity.
  Qed.

  Theorem glob_rows_skip : forall files np nrows k, Forall first_line_ok files ->
    read_csv_glob nl q is_row is_quoting enc files np nrows k 0 =
    filter is_row (take nrows 0 (skipn k (rest_rows 0 files))).
  Proof.
    intros files np nrows k Hf. unfold read_csv_glob. rewrite glob_parse_concat. unfold glob_partitions.
    rewrite (@files_loop_skip files files 0); auto. lia.
  Qed.

  (** One file only: skiprows and header together. *)
  Theorem glob_rows_one : forall file np nrows k h, first_line_ok file ->
    read_csv_glob nl q is_row is_quoting enc [file] np nrows k h =
    filter is_row (take nrows 0 (skipn (k + h) (records file))).
  Proof.
    intros file np nrows k h Hf. unfold read_csv_glob. rewrite glob_parse_concat. unfold glob_partitions.
    set (psize := max 1 _). assert (Hp : 1 <= psize) by lia. clearbody psize.
    cbn [files_loop].
    set (ps := if (negb (Z.of_nat k =? 0)%Z || negb (h =? 0)) && (0 <? Z.of_nat k + Z.of_nat h)%Z
               then read_rows nl q file is_quoting (Z.to_nat (Z.of_nat k + Z.of_nat h)) true 0 else (true, 0, 0)).
    assert (Hps : passes nl q is_quoting file 0 (k + h) (snd ps) /\ snd (fst ps) = min (k + h) (length (records file))).
    { unfold ps. destruct (Nat.eq_dec (k + h) 0) as [E|E].
      - assert (k = 0) as -> by lia. assert (h = 0) as -> by lia. cbn. split; [apply passes_0|reflexivity].
      - replace (0 <? Z.of_nat k + Z.of_nat h)%Z with true by (symmetry; apply Z.ltb_lt; lia).
        rewrite andb_true_r. replace (negb (Z.of_nat k =? 0)%Z || negb (h =? 0)) with true.
        2: { symmetry. apply orb_true_iff. rewrite !negb_true_iff, Z.eqb_neq, Nat.eqb_neq. lia. }
        replace (Z.to_nat (Z.of_nat k + Z.of_nat h)) with (k + h) by lia.
        destruct (read_rows nl q file is_quoting (k + h) true 0) as [[o r] p] eqn:Er.
        apply read_rows_passes in Er. exact Er. }
    destruct ps as [[o rd] start]. cbn [fst snd] in Hps. destruct Hps as [Hst Hrd].
    match goal with |- context [if ?c then add_last _ _ else _] => destruct c eqn:Ec end.
    - apply andb_true_iff in Ec as [E1 E2]. apply negb_true_iff in E1. rewrite E1 in E2.
      apply Z.ltb_lt in E2. rewrite skipn_all2 by lia. cbn.
      destruct nrows as [[|]|]; reflexivity.
    - destruct (@file_loop_chain (S (length file)) file 0 nrows psize start (GState [] [] 0 0) Hp)
        as (cs & z & j & C1 & C2 & C3); [lia|].
      pose proof (@glob_parse_file [file] 0 file start cs z j (k + h) eq_refl Hf C1 Hst) as Hrows.
      destruct Hst as (_ & _ & Hst). cbn [skipn] in Hst. rewrite Hst in C2. rewrite C2 in Hrows.
      cbn [g_count] in Hrows. rewrite <- Hrows.
      destruct (file_loop nl q is_quoting (S (length file)) file 0 nrows psize start _) as [s'|r].
      + destruct C3 as [C3 _]. rewrite add_last_concat. fold (chunks_of s'). rewrite C3. reflexivity.
      + destruct C3 as [C3 _]. rewrite C3. reflexivity.
  Qed.
End Glob.
