(** C15-C20: reading text files in chunks. *)
From Coq Require Import Permutation Ascii String.
From Verif Require Import Base Table ChunkModel ChunkProofs CsvSpec CsvModel CsvProofs CsvProofs2 CsvProofs3
  NewlineModel NewlineProofs GlobModel GlobProofs.
Local Close Scope string_scope.
Local Open Scope list_scope.

Section Props.
  Context {B : Type}.
  Variable nl q : B -> bool.

  (** C15.  The chunks follow one another; the first begins after exactly the skipped lines and the header;
      every chunk begins, and ends unless the file ends, at the start of a record; without nrows they reach the
      end of the file. *)
  Theorem C15_chunks : forall (file : list B) is_quoting num_partitions nrows skiprows header_size,
    let Q := qq q is_quoting in
    let chunks := partitioned_file nl q file is_quoting num_partitions nrows skiprows header_size 0 in
    exists start stop,
      consecutive start stop chunks /\
      firstn start file = concat (firstn (skiprows + header_size) (records nl Q file)) /\
      Forall (fun c => fst c < length file /\ at_record_start nl Q file (fst c) /\
                       (snd c < length file -> at_record_start nl Q file (snd c))) chunks /\
      (nrows = None -> length file <= stop).
  Proof.
    intros file is_quoting np nrows sk h Q chunks. unfold chunks, partitioned_file. cbn [Nat.eqb app].
    set (start := skip_rows nl q file is_quoting h (skip_rows nl q file is_quoting sk 0)).
    assert (Hp : passes nl q is_quoting file 0 (sk + h) start).
    { eapply passes_trans; apply skip_rows_passes. }
    destruct (@main_loop_chain _ nl q is_quoting file (fun _ => true) np nrows 0 start) as (z & k & H1 & _ & H3).
    exists start, z. split; [eapply chain_consecutive; exact H1|]. split.
    { destruct Hp as (_ & Hp & _). unfold slice in Hp. rewrite Nat.sub_0_r in Hp. exact Hp. }
    split; [|exact H3]. clear H3.
    match type of H1 with chain _ _ _ _ _ ?l _ _ => set (cs := l) in * end. clearbody start.
    clearbody cs. clear chunks. revert Hp. generalize (sk + h) as m. induction H1; intros m Hp; constructor.
    - cbn [fst snd]. split; [exact H|]. split.
      + eapply passes_at_start; [exact Hp|exact H].
      + intros He. eapply passes_at_start; [|exact He]. eapply passes_trans; eauto.
    - eapply IHchain. eapply passes_trans; eauto.
  Qed.

  (** The same for a file skipped in the middle ([skiprows] a list of consecutive lines after the header): one
      chunk before the gap, the others after it. *)
  Theorem C15_chunks_around_gap : forall (file : list B) is_quoting num_partitions nrows gap header_size before,
    0 < before ->
    let Q := qq q is_quoting in
    let R := records nl Q file in
    exists s e start stop chunks,
      partitioned_file nl q file is_quoting num_partitions nrows gap header_size before = (s, e) :: chunks /\
      firstn s file = concat (firstn header_size R) /\
      slice file s e = concat (firstn before (skipn header_size R)) /\
      firstn start file = concat (firstn (header_size + before + gap) R) /\
      consecutive start stop chunks /\
      Forall (fun c => fst c < length file /\ at_record_start nl Q file (fst c) /\
                       (snd c < length file -> at_record_start nl Q file (snd c))) chunks /\
      (nrows = None -> length file <= stop).
  Proof.
    intros file is_quoting np nrows gap h pre Hpre Q R. unfold partitioned_file.
    destruct (pre =? 0) eqn:E; [apply Nat.eqb_eq in E; lia|].
    set (p0 := skip_rows nl q file is_quoting h 0).
    assert (Hp0 : passes nl q is_quoting file 0 h p0) by apply skip_rows_passes.
    destruct (read_rows nl q file is_quoting pre true p0) as [[o r] p1] eqn:Er.
    apply read_rows_passes in Er as [Hp1 Hr].
    set (start := skip_rows nl q file is_quoting gap p1).
    assert (Hp : passes nl q is_quoting file 0 (h + pre + gap) start).
    { eapply passes_trans; [|apply skip_rows_passes]. eapply passes_trans; eauto. }
    destruct (@main_loop_chain _ nl q is_quoting file (fun _ => true) np nrows r start) as (z & k & H1 & _ & H3).
    exists p0, p1, start, z. eexists. split; [reflexivity|]. repeat split.
    - destruct Hp0 as (_ & Hp0 & _). unfold slice in Hp0. rewrite Nat.sub_0_r in Hp0. exact Hp0.
    - destruct Hp1 as (_ & Hp1 & _). destruct Hp0 as (_ & _ & Hp0). cbn [skipn] in Hp0. rewrite Hp1, Hp0. reflexivity.
    - destruct Hp as (_ & Hp & _). unfold slice in Hp. rewrite Nat.sub_0_r in Hp. exact Hp.
    - eapply chain_consecutive; exact H1.
    - clear H3. match type of H1 with chain _ _ _ _ _ ?l _ _ => set (cs := l) in * end. clearbody start.
      clearbody cs. revert Hp. generalize (h + pre + gap) as m. clear Hr Hp1 Hp0. induction H1; intros m Hp; constructor.
      + cbn [fst snd]. split; [exact H|]. split.
        * eapply passes_at_start; [exact Hp|exact H].
        * intros He. eapply passes_at_start; [|exact He]. eapply passes_trans; eauto.
      + eapply IHchain. eapply passes_trans; eauto.
    - exact H3.
  Qed.

  (** For files in which quotes only open and close fields, the start of a record is where pandas' tokenizer is
      between two records: never inside a quoted field. *)
  Theorem C15_boundary_outside_fields_partial : forall delim (file : list B) p,
    (forall b, nl b = true -> q b = false) -> well_quoted nl q delim StartField file ->
    p <= length file -> at_record_start nl q file p -> tokens nl q delim StartField (firstn p file) = StartField.
  Proof.
    intros delim file p Hnq Hw Hp [->|(p' & b & -> & Hb & Hnl & Hin)]; [reflexivity|].
    assert (G : forall s st i, well_quoted nl q delim st s ->
        (i = true <-> st = Quoted) -> forall n,
        (inside q i (firstn n s) = true <-> tokens nl q delim st (firstn n s) = Quoted)).
    { clear - Hnq. induction s as [|b s IH]; intros st i Hw Hi n.
      - rewrite firstn_nil. exact Hi.
      - destruct n as [|n]; [exact Hi|]. cbn [firstn inside tokens fold_left] in *. destruct Hw as [Hu Hw].
        apply IH; [exact Hw|]. destruct st; cbn [tstep].
        + destruct i; [destruct Hi as [Hi _]; discriminate (Hi eq_refl)|].
          destruct (q b); simpl; [tauto|]. destruct (delim b || nl b); split; discriminate.
        + destruct i; [destruct Hi as [Hi _]; discriminate (Hi eq_refl)|]. rewrite (Hu eq_refl).
          destruct (delim b || nl b); split; discriminate.
        + destruct Hi as [_ Hi]. rewrite (Hi eq_refl). destruct (q b); simpl; split; congruence.
        + destruct i; [destruct Hi as [Hi _]; discriminate (Hi eq_refl)|].
          destruct (q b); simpl; [tauto|]. destruct (delim b || nl b); split; discriminate. }
    assert (Es : firstn (S p') file = firstn p' file ++ [b]).
    { clear - Hb. revert file Hb. induction p' as [|p' IH]; intros [|x file] Hb; try discriminate.
      - injection Hb as ->. reflexivity.
      - rewrite !firstn_cons, (IH file Hb). reflexivity. }
    assert (Hst : tokens nl q delim StartField (firstn p' file) <> Quoted).
    { intros E. apply (G file StartField false Hw ltac:(split; discriminate) p') in E.
      rewrite Es, inside_app, E in Hin. cbn [inside] in Hin. rewrite (Hnq b Hnl) in Hin. discriminate. }
    rewrite Es. unfold tokens in *. rewrite fold_left_app. cbn [fold_left].
    destruct (fold_left (tstep nl q delim) (firstn p' file) StartField); try congruence; cbn [tstep];
      rewrite ?(Hnq b Hnl), Hnl, ?orb_true_r; reflexivity.
  Qed.

  Variable is_row : list B -> bool.   (* does pandas make a row of this record? *)
  Notation rows_ok := (Forall (fun r => is_row r = true)).

  (** What the workers need of the lines they read from the start of the file: the header is written on single
      lines that count as rows; with an [encoding], the first record is one complete line. *)
  Definition header_lines_ok (file : list B) (is_quoting enc : bool) (header_size : nat) : Prop :=
    let R := records nl (qq q is_quoting) file in
    Forall (fun r => one_line nl r /\ is_row r = true) (firstn header_size R) /\
    (enc = true -> forall r, hd_error R = Some r -> one_line nl r /\ complete nl (qq q is_quoting) r).

  (** C16.  Reading in chunks gives the rows of the whole file, in order. *)
  Theorem C16_rows_partial : forall (file : list B) num_partitions is_quoting enc names usecols header_size,
    header_lines_ok file is_quoting enc header_size ->
    read_csv nl q file is_row num_partitions is_quoting enc names usecols SkipNone header_size None
    = Ok (pandas_rows nl (qq q is_quoting) is_row (skips SkipNone) header_size None file).
  Proof. intros. apply read_none; [assumption|exact I]. Qed.

  (** C17.  With [nrows = n > 0]: the first [n] data rows (all of them if there are fewer), provided the first
      [n] lines of data are rows. *)
  Theorem C17_nrows_partial : forall (file : list B) num_partitions is_quoting enc names usecols k header_size n,
    header_lines_ok file is_quoting enc header_size ->
    let R := records nl (qq q is_quoting) file in
    rows_ok (firstn header_size (skipn k R)) ->
    0 < n -> rows_ok (firstn n (skipn (k + header_size) R)) ->
    read_csv nl q file is_row num_partitions is_quoting enc names usecols (SkipInt k) header_size (Some n)
    = Ok (pandas_rows nl (qq q is_quoting) is_row (skips (SkipInt k)) header_size (Some n) file) /\
    length (pandas_rows nl (qq q is_quoting) is_row (skips (SkipInt k)) header_size (Some n) file)
    = min n (length R - (k + header_size)).
  Proof.
    intros file np is_quoting enc names usecols k h n Hh R H1 Hn H2. split.
    - apply read_int; auto. split; assumption.
    - unfold pandas_rows. cbn [first_rows]. fold R.
      assert (E : drop_lines (skips (SkipInt k)) 0 R = skipn k R) by apply drop_lines_first.
      rewrite E, skipn_filter by exact H1. rewrite skipn_skipn'.
      rewrite firstn_filter by exact H2. rewrite firstn_length, skipn_length. reflexivity.
  Qed.

  (** C18.  [skiprows = k]. *)
  Theorem C18_skip_first_partial : forall (file : list B) num_partitions is_quoting enc names usecols k header_size,
    header_lines_ok file is_quoting enc header_size ->
    rows_ok (firstn header_size (skipn k (records nl (qq q is_quoting) file))) ->
    read_csv nl q file is_row num_partitions is_quoting enc names usecols (SkipInt k) header_size None
    = Ok (pandas_rows nl (qq q is_quoting) is_row (skips (SkipInt k)) header_size None file).
  Proof. intros. apply read_int; auto. exact I. Qed.

  (** [skiprows] a list of consecutive line numbers, in any order, wherever they lie. *)
  Theorem C18_skip_consecutive_partial :
    forall (file : list B) num_partitions is_quoting enc names usecols l a m header_size nrows,
    header_lines_ok file is_quoting enc header_size ->
    Permutation l (seq a (S m)) ->
    let kept := drop_lines (skips (SkipList l)) 0 (records nl (qq q is_quoting) file) in
    rows_ok (firstn header_size kept) ->
    (forall n, nrows = Some n -> 0 < n /\ rows_ok (firstn n (skipn header_size kept)) /\ a - header_size <= n) ->
    read_csv nl q file is_row num_partitions is_quoting enc names usecols (SkipList l) header_size nrows
    = Ok (pandas_rows nl (qq q is_quoting) is_row (skips (SkipList l)) header_size nrows file).
  Proof.
    intros file np is_quoting enc names usecols l a m h nrows Hh P kept H1 H2.
    eapply read_contiguous; eauto.
    - destruct nrows as [n|]; [|exact I]. destruct (H2 n eq_refl) as (Ha & Hb & _). split; assumption.
    - intros _ n E. destruct (H2 n E) as (_ & _ & Hc). exact Hc.
  Qed.

  (** [skiprows] any other list of line numbers of the file, all after the header. *)
  Theorem C18_skip_scattered_partial :
    forall (file : list B) num_partitions is_quoting enc names usecols l header_size nrows,
    header_lines_ok file is_quoting enc header_size ->
    let R := records nl (qq q is_quoting) file in
    (forall a m, ~ Permutation l (seq a m)) ->
    (forall x, In x l -> (header_size < x \/ header_size = 0) /\ x < length R) ->
    rows_ok R -> nrows <> Some 0 ->
    read_csv nl q file is_row num_partitions is_quoting enc names usecols (SkipList l) header_size nrows
    = Ok (pandas_rows nl (qq q is_quoting) is_row (skips (SkipList l)) header_size nrows file).
  Proof.
    intros file np is_quoting enc names usecols l h nrows Hh R Hp Hx Hr Hn. apply read_spread; auto.
    destruct (uniform (np_sort l)) eqn:E; [exfalso|reflexivity].
    apply uniform_seq in E. eapply Hp. rewrite <- E. apply np_sort_perm.
  Qed.

  (** [skiprows] a predicate on line numbers. *)
  Theorem C18_skip_predicate_partial :
    forall (file : list B) num_partitions is_quoting enc names usecols f header_size nrows,
    header_lines_ok file is_quoting enc header_size ->
    rows_ok (records nl (qq q is_quoting) file) -> nrows <> Some 0 ->
    read_csv nl q file is_row num_partitions is_quoting enc names usecols (SkipFun f) header_size nrows
    = Ok (pandas_rows nl (qq q is_quoting) is_row (skips (SkipFun f)) header_size nrows file).
  Proof. intros. apply read_callable; auto. Qed.

  (** The line iterator used for encodings with a byte order mark reads what plain iteration reads, on files
      that end with a newline. *)
  Theorem C17_newline_iterator_partial : forall (file : list B) buffer_size is_quoting n outside pos fuel,
    (forall b, nl b = true -> q b = false) -> 1 <= buffer_size ->
    (file = [] \/ exists s b, file = s ++ [b] /\ nl b = true) -> length file + 2 <= fuel ->
    read_rows_newline nl q file buffer_size fuel is_quoting n outside pos
    = Some (read_rows nl q file is_quoting n outside pos).
  Proof. intros. apply read_rows_newline_ok; auto. Qed.

  (** C20.  Every file's data rows in order, each once; no header line among them. *)
  Theorem C20_rows_partial : forall (files : list (list B)) num_partitions is_quoting enc header_size nrows,
    let Q := qq q is_quoting in
    (enc = true -> Forall (fun f => forall r, hd_error (records nl Q f) = Some r ->
                                      one_line nl r /\ complete nl Q r) files) ->
    Forall (fun f => rows_ok (firstn header_size (records nl Q f))) files ->
    let all := concat (map (pandas_rows nl Q is_row (skips SkipNone) header_size None) files) in
    (forall n, nrows = Some n -> 0 < n /\ Forall (fun f => rows_ok (records nl Q f)) files) ->
    read_csv_glob nl q is_row is_quoting enc files num_partitions nrows 0 header_size = first_rows nrows all.
  Proof.
    intros files np is_quoting enc h nrows Q H1 H2 all H3.
    rewrite glob_rows_take.
    2: { apply Forall_forall. intros f Hf He. specialize (H1 He). rewrite Forall_forall in H1. apply H1. exact Hf. }
    assert (Eall : all = filter is_row (rest_rows nl q is_quoting h files)).
    { unfold all, rest_rows. clear H1 H3 all. induction files as [|f files IH]; [reflexivity|].
      apply Forall_inv in H2 as H0. apply Forall_inv_tail in H2. cbn [map concat]. rewrite filter_app, <- IH by exact H2.
      f_equal. unfold pandas_rows. cbn [first_rows]. rewrite (drop_lines_ext _ (skips SkipNone) (fun _ => false)) by reflexivity.
      rewrite drop_lines_none. apply skipn_filter. exact H0. }
    rewrite Eall. destruct nrows as [[|n]|]; [destruct (H3 0 eq_refl); lia| |reflexivity].
    destruct (H3 (S n) eq_refl) as [_ H4]. cbn [take_n first_rows]. rewrite Nat.sub_0_r.
    assert (Hr : rows_ok (rest_rows nl q is_quoting h files)).
    { unfold rest_rows. apply Forall_concat. apply Forall_map. eapply Forall_impl; [|exact H4].
      intros f Hf. cbv beta in Hf. rewrite <- (firstn_skipn h (records nl Q f)) in Hf.
      apply Forall_app in Hf. apply Hf. }
    rewrite !filter_all; auto. apply Forall_firstn'. exact Hr.
  Qed.

  (** Without header lines, skiprows removes the first rows of all the files together. *)
  Theorem C20_skiprows_no_header_partial : forall (files : list (list B)) num_partitions is_quoting enc k,
    let Q := qq q is_quoting in
    (enc = true -> Forall (fun f => forall r, hd_error (records nl Q f) = Some r ->
                                      one_line nl r /\ complete nl Q r) files) ->
    read_csv_glob nl q is_row is_quoting enc files num_partitions None k 0
    = filter is_row (skipn k (concat (map (records nl Q) files))).
  Proof.
    intros files np is_quoting enc k Q H1. rewrite glob_rows_skip; [reflexivity|].
    apply Forall_forall. intros f Hf He. specialize (H1 He). rewrite Forall_forall in H1. apply H1. exact Hf.
  Qed.

  (** One file: read_csv_glob is read_csv, with skiprows and header. *)
  Theorem C20_one_file : forall (file : list B) num_partitions is_quoting enc k header_size,
    let Q := qq q is_quoting in
    (enc = true -> forall r, hd_error (records nl Q file) = Some r -> one_line nl r /\ complete nl Q r) ->
    rows_ok (firstn header_size (skipn k (records nl Q file))) ->
    read_csv_glob nl q is_row is_quoting enc [file] num_partitions None k header_size
    = pandas_rows nl Q is_row (skips (SkipInt k)) header_size None file.
  Proof.
    intros file np is_quoting enc k h Q H1 H2. rewrite glob_rows_one by exact H1. cbn [take_n].
    unfold pandas_rows. cbn [first_rows].
    assert (E : drop_lines (skips (SkipInt k)) 0 (records nl Q file) = skipn k (records nl Q file))
      by apply drop_lines_first.
    rewrite E, skipn_filter by exact H2.
    rewrite skipn_skipn'. reflexivity.
  Qed.
End Props.
Print Assumptions C15_chunks.
Print Assumptions C15_chunks_around_gap.
Print Assumptions C15_boundary_outside_fields_partial.
Print Assumptions C16_rows_partial.
Print Assumptions C17_nrows_partial.
Print Assumptions C17_newline_iterator_partial.
Print Assumptions C18_skip_first_partial.
Print Assumptions C18_skip_consecutive_partial.
Print Assumptions C18_skip_scattered_partial.
Print Assumptions C18_skip_predicate_partial.
Print Assumptions C20_rows_partial.
Print Assumptions C20_skiprows_no_header_partial.
Print Assumptions C20_one_file.

(** C19.  The widths computed up front are those of the blocks every worker returns. *)
Theorem C19_widths : forall (L H A : Type) (leqb : L -> L -> bool) (heqb : H -> H -> bool),
  (forall x y, leqb x y = true <-> x = y) -> (forall x y, heqb x y = true <-> x = y) ->
  forall (n nparts min_block : nat) (d : df L H A), 0 < nparts -> 0 < min_block -> wf d -> ncols d = n ->
  exists widths k bs,
    define_metadata n nparts min_block = Ok (widths, k) /\
    split_result_of_axis_func true k d min_block None = Ok bs /\
    map (@ncols L H A) bs = widths /\ length widths = k /\ 0 < k <= nparts /\ list_sum widths = n.
Proof.
  intros L H A leqb heqb H1 H2 n np mb d Hnp Hmb W Hn.
  destruct (@define_metadata_widths L H A leqb heqb H1 H2 n np mb d Hnp Hmb W Hn)
    as (w & k & bs & E1 & E2 & E3 & E4 & E5 & E6 & E7).
  exists w, k, bs. repeat split; auto.
Qed.
Print Assumptions C19_widths.

(* ---------------- counterexamples and examples ---------------- *)
Definition ch_nl (c : ascii) : bool := Ascii.eqb c "010"%char.
Definition ch_q (c : ascii) : bool := Ascii.eqb c """"%char.
Definition ch_comma (c : ascii) : bool := Ascii.eqb c ","%char.
(** pandas makes no row of an empty line. *)
Definition ch_row (r : list ascii) : bool := negb (match r with [c] => ch_nl c | [] => true | _ => false end).
(** ["/"] stands for the newline byte in the texts below. *)
Definition text (s : string) : list ascii :=
  map (fun c => if Ascii.eqb c "/"%char then "010"%char else c) (list_ascii_of_string s).
Notation rd f np enc skip h n := (read_csv ch_nl ch_q (text f) ch_row np true enc false false skip h n).
Notation pd f skip h n := (pandas_rows ch_nl (qq ch_q true) ch_row (skips skip) h n (text f)).

(** C15: with a quote in the middle of an unquoted field, a chunk begins inside a quoted field. *)
Theorem C15_stray_quote_refuted :
  let f := text "h/5""pipe,x/""a/b"",y/z,w/" in
  exists c, In c (partitioned_file ch_nl ch_q f true 2 None 0 1 0) /\
    tokens ch_nl ch_q ch_comma StartField (firstn (fst c) f) = Quoted.
Proof. eexists. split; [right; left; reflexivity|reflexivity]. Qed.
Print Assumptions C15_stray_quote_refuted.

(** C16: an empty first line makes every chunk but the first lose a row. *)
Theorem C16_blank_first_line_refuted :
  rd "/a/1/2/3/4/" 2 false SkipNone 1 None <> Ok (pd "/a/1/2/3/4/" SkipNone 1 None) /\
  rd "/a/1/2/3/4/" 2 false SkipNone 1 None = Ok (map text ["1/"; "2/"; "4/"]%string).
Proof. split; [vm_compute; discriminate|reflexivity]. Qed.
Print Assumptions C16_blank_first_line_refuted.

(** C16: a column name with a newline in it: the rows disappear into the header. *)
Theorem C16_header_newline_refuted :
  rd """a/b"",c/1,2/3,4/" 1 false SkipNone 1 None = Ok [] /\
  pd """a/b"",c/1,2/3,4/" SkipNone 1 None = map text ["1,2/"; "3,4/"]%string.
Proof. split; reflexivity. Qed.
Print Assumptions C16_header_newline_refuted.

(** C16: a single line without newline, no header, an encoding given: the row is lost. *)
Theorem C16_single_line_encoding_refuted :
  rd "1,2" 1 true SkipNone 0 None = Ok [] /\ pd "1,2" SkipNone 0 None = [text "1,2"].
Proof. split; reflexivity. Qed.
Print Assumptions C16_single_line_encoding_refuted.

(** C17: [nrows = 0] reads everything. *)
Theorem C17_zero_rows_refuted :
  rd "a/1/2/" 2 false SkipNone 1 (Some 0) = Ok (map text ["1/"; "2/"]%string) /\ pd "a/1/2/" SkipNone 1 (Some 0) = [].
Proof. split; reflexivity. Qed.
Print Assumptions C17_zero_rows_refuted.

(** C17: empty lines are counted as rows. *)
Theorem C17_blank_lines_refuted :
  rd "a/1//2/3/" 2 false SkipNone 1 (Some 2) = Ok [text "1/"] /\
  pd "a/1//2/3/" SkipNone 1 (Some 2) = map text ["1/"; "2/"]%string.
Proof. split; reflexivity. Qed.
Print Assumptions C17_blank_lines_refuted.

(** C17: lines skipped further down than [nrows]: all the lines before them are read. *)
Theorem C17_skip_below_refuted :
  rd "a/1/2/3/4/5/" 2 false (SkipList [4]) 1 (Some 2) = Ok (map text ["1/"; "2/"; "3/"]%string) /\
  pd "a/1/2/3/4/5/" (SkipList [4]) 1 (Some 2) = map text ["1/"; "2/"]%string.
Proof. split; reflexivity. Qed.
Print Assumptions C17_skip_below_refuted.

(** C17: with a byte-order-mark encoding and no newline at the end of the file, reading never ends. *)
Theorem C17_unterminated_never_ends_refuted :
  forall fuel buffer_size, 3 <= buffer_size ->
    read_rows_newline ch_nl ch_q (text "a/b") buffer_size fuel true 2 true 0 = None.
Proof.
  intros fuel bs H. unfold read_rows_newline. cbn [Nat.eqb].
  assert (E : firstn bs (skipn 0 (text "a/b")) = text "a/b") by (apply firstn_all2; simpl; lia).
  rewrite E. destruct fuel as [|fuel]; [reflexivity|].
  change (newline_loop ch_nl ch_q (text "a/b") bs (S fuel) true 2 true 0 0 (text "a/b"))
    with (newline_loop ch_nl ch_q (text "a/b") bs fuel true 2 true 1 2
            (text "b" ++ firstn bs (skipn 3 (text "a/b")))).
  change (skipn 3 (text "a/b")) with (@nil ascii). rewrite firstn_nil, app_nil_r.
  rewrite newline_loop_spins; [reflexivity|discriminate| |simpl; lia].
  repeat constructor.
Qed.
Print Assumptions C17_unterminated_never_ends_refuted.

(** C18: a scattered list beginning right after the header is shifted by one line. *)
Theorem C18_after_header_refuted :
  rd "a/1/2/3/4/" 2 false (SkipList [1; 3]) 1 None = Ok (map text ["1/"; "3/"]%string) /\
  pd "a/1/2/3/4/" (SkipList [1; 3]) 1 None = map text ["2/"; "4/"]%string.
Proof. split; reflexivity. Qed.
Print Assumptions C18_after_header_refuted.

(** C18: a line number past the end of the file. *)
Theorem C18_past_end_refuted :
  rd "a/1/2/3/4/" 2 false (SkipList [2; 9]) 1 None = Err IndexError /\
  pd "a/1/2/3/4/" (SkipList [2; 9]) 1 None = map text ["1/"; "3/"; "4/"]%string.
Proof. split; reflexivity. Qed.
Print Assumptions C18_past_end_refuted.

(** C18: empty lines move the lines a list or predicate names. *)
Theorem C18_blank_lines_refuted :
  rd "a//1/2/3/" 2 false (SkipFun (fun i => i =? 3)) 1 None = Ok (map text ["1/"; "2/"]%string) /\
  pd "a//1/2/3/" (SkipFun (fun i => i =? 3)) 1 None = map text ["1/"; "3/"]%string.
Proof. split; reflexivity. Qed.
Print Assumptions C18_blank_lines_refuted.

(** C20: with skiprows and a header, the header of the second file becomes a row. *)
Theorem C20_skiprows_header_refuted :
  read_csv_glob ch_nl ch_q ch_row true false (map text ["x/a/1/"; "x/a/2/"]%string) 2 None 1 1
  = map text ["1/"; "x/"; "a/"; "2/"]%string.
Proof. reflexivity. Qed.
Print Assumptions C20_skiprows_header_refuted.

(** The theorems apply: a quoted newline, three chunks, skipped lines and nrows. *)
Definition ex_file : string := "junk/h/""1/1"",x/2,y/3,z/""4/4"",w/5,v/".
Example ex_header_ok : header_lines_ok ch_nl ch_q ch_row (text ex_file) true true 1.
Proof.
  split.
  - repeat constructor. intros b Hb. vm_compute in Hb. decompose [or] Hb; subst; try reflexivity. contradiction.
  - intros _ r E. vm_compute in E. injection E as <-. split.
    + intros b Hb. vm_compute in Hb. decompose [or] Hb; subst; try reflexivity. contradiction.
    + exists (text "junk"), "010"%char. repeat split.
Qed.
Example ex_chunks :
  partitioned_file ch_nl ch_q (text ex_file) true 3 None 1 1 0 = [(7, 19); (19, 31); (31, 35)] /\
  partitioned_file ch_nl ch_q (text ex_file) true 3 (Some 5) 1 1 0 = [(7, 23); (23, 35)].
Proof. split; reflexivity. Qed.
Example ex_rows : rd ex_file 3 true (SkipInt 1) 1 (Some 4)
  = Ok (map text ["""1/1"",x/"; "2,y/"; "3,z/"; """4/4"",w/"]%string).
Proof. reflexivity. Qed.
Example ex_scattered : rd ex_file 3 true (SkipList [5; 2; 4]) 1 (Some 2)
  = Ok (map text ["h/"; "2,y/"]%string) /\ pd ex_file (SkipList [5; 2; 4]) 1 (Some 2) = map text ["h/"; "2,y/"]%string.
Proof. split; reflexivity. Qed.
Example ex_well_quoted : well_quoted ch_nl ch_q ch_comma StartField (text ex_file).
Proof. cbn. repeat split; discriminate. Qed.
Example ex_glob : read_csv_glob ch_nl ch_q ch_row true true (map text ["a/1/2/"; "a/3/"; "a/"; "a/4/5"]%string) 2 (Some 4) 0 1
  = map text ["1/"; "2/"; "3/"; "4/"]%string.
Proof. reflexivity. Qed.
Example ex_widths : define_metadata 80 4 32 = Ok ([32; 32; 16; 0], 4).
Proof. reflexivity. Qed.
