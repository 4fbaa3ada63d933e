(** case_when: all the blocks together. *)
From Verif Require Import Base Table CaseSpec CaseModel CaseProofs.
From Verif Require ResetProofs.

Section Whole.
  Context {L A : Type}.
  Variable leqb : L -> L -> bool.
  Hypothesis leqb_ok : forall x y, leqb x y = true <-> x = y.
  Variable na : A.
  Variable lab : nat -> L.
  Hypothesis lab_inj : forall i j, lab i = lab j -> i = j.
  Variable bounds : list L -> nat -> nat -> nat * nat.
  Notation series := (@series L).
  Notation arg := (@arg L A).
  Notation case := (@case L A).
  Notation parts := (parts leqb na bounds).
  Notation resolve := (resolve leqb na).
  Notation case_when := (case_when leqb na lab bounds).
  Notation p_case_when := (p_case_when leqb na).
  Definition piece (x n : nat) (c : case) : case := (map_data bounds x n (fst c), map_data bounds x n (snd c)).

  Lemma parts_cons off b blocks (cs : list case) : parts off (b :: blocks) cs =
    do r <- remote_fn leqb na b (map (piece off (length b)) cs); do rs <- parts (off + length b) blocks cs; Ok (r :: rs).
  Proof. reflexivity. Qed.

  Lemma mappable_piece (cs : list case) x n : forallb (fun c => mappable (fst c) && mappable (snd c)) cs = true -> map (piece x n) cs = cs.
  Proof. clear. induction cs as [|[a b] cs IH]; [reflexivity|]. cbn [forallb map fst snd]. intros [[M1 M2]%andb_true_iff M]%andb_true_iff. rewrite IH by exact M. f_equal.
    unfold piece. cbn [fst snd]. destruct a, b; try discriminate; reflexivity. Qed.
  Lemma parts_map blocks : forall off cs, forallb (fun c => mappable (fst c) && mappable (snd c)) cs = true ->
    parts off blocks cs = rmap (fun b => remote_fn leqb na b cs) blocks.
  Proof. clear. induction blocks as [|b blocks IH]; intros off cs M; [reflexivity|]. rewrite parts_cons. cbn [rmap].
    rewrite mappable_piece by exact M. destruct (remote_fn _ _ _ _); [|reflexivity]. cbn [rbind]. now rewrite IH. Qed.
  Lemma case_when_parts blocks cases : case_when blocks cases = do cs <- rmap (prepare_case leqb na lab (map fst (concat blocks))) cases; parts 0 blocks cs.
  Proof. clear. unfold CaseModel.case_when. destruct (rmap _ _) as [cs|]; [|reflexivity]. cbn [rbind]. match goal with |- context [if ?b then _ else _] => destruct b eqn:M end; [|reflexivity]. now rewrite parts_map. Qed.

  Definition whole_pieces (s : series A) (c : case) (rc : list (bool * A)) : Prop :=
    forall x n, x + n <= length s -> resolve (slice s x (x + n)) (piece x n c) = Ok (slice rc x (x + n)).

  Lemma prepared s (c : case) rc : fits bounds s (fst c) -> fits bounds s (snd c) -> resolve s c = Ok rc ->
    exists c', prepare_case leqb na lab (map fst s) c = Ok c' /\ whole_pieces s c' rc.
  Proof. intros F1 F2 R. unfold CaseSpec.resolve in R. destruct (elements leqb false true s (fst c)) as [b|] eqn:E1; [|discriminate]. cbn [rbind] in R.
    destruct (elements leqb true na s (snd c)) as [r|] eqn:E2; [|discriminate]. cbn [rbind] in R. injection R as <-.
    destruct (prepare_ok leqb leqb_ok lab bounds lab_inj false true s (fst c) F1 E1) as (b' & P1 & Q1). destruct (prepare_ok leqb leqb_ok lab bounds lab_inj true na s (snd c) F2 E2) as (r' & P2 & Q2).
    exists (b', r'). unfold prepare_case. rewrite P1, P2. split; [reflexivity|]. intros x n B. unfold CaseSpec.resolve, piece. cbn [fst snd]. rewrite (Q1 x n B), (Q2 x n B). cbn [rbind].
    now rewrite ResetProofs.combine_slice. Qed.
  Lemma prepared_all s (cases : list case) rcs : Forall (fun c => fits bounds s (fst c) /\ fits bounds s (snd c)) cases -> rmap (resolve s) cases = Ok rcs ->
    exists cs, rmap (prepare_case leqb na lab (map fst s)) cases = Ok cs /\ Forall2 (whole_pieces s) cs rcs.
  Proof. intros F R. apply rmap_forall2 in R. induction R as [|c rc cases rcs E R IH]; [exists []; split; [reflexivity|constructor]|].
    inversion F as [|? ? [F1 F2] F3]; subst. destruct (IH F3) as (cs & P & Q). destruct (@prepared s c rc F1 F2 E) as (c' & P1 & Q1).
    exists (c' :: cs). cbn [rmap]. rewrite P1, P. split; [reflexivity|]. now constructor. Qed.

  Lemma parts_ok (s : series A) (cs : list case) rcs : cs <> [] -> Forall2 (whole_pieces s) cs rcs -> forall blocks pre, s = pre ++ concat blocks ->
    exists rs, parts (length pre) blocks cs = Ok rs /\ concat rs = skipn (length pre) (choose rcs s).
  Proof. clear - leqb_ok. intros Ne F. induction blocks as [|b blocks IH]; intros pre Es.
    - exists []. split; [reflexivity|]. cbn. cbn in Es. rewrite app_nil_r in Es. subst pre. symmetry. apply skipn_all2.
      clear. induction rcs as [|rc rcs IH]; cbn [choose fold_right]; [now rewrite map_length|]. rewrite map2_length. unfold choose in IH. lia.
    - rewrite parts_cons. cbn [concat] in Es.
      assert (Eb : b = slice s (length pre) (length pre + length b)).
      { subst s. unfold slice. rewrite skipn_app, skipn_all, Nat.sub_diag. cbn. replace (length pre + length b - length pre) with (length b) by lia. now rewrite firstn_app, firstn_all, Nat.sub_diag, firstn_O, app_nil_r. }
      assert (B : length pre + length b <= length s) by (subst s; rewrite !app_length; lia).
      assert (R : remote_fn leqb na b (map (piece (length pre) (length b)) cs) = Ok (slice (choose rcs s) (length pre) (length pre + length b))).
      { unfold remote_fn, CaseSpec.p_case_when. destruct (map (piece (length pre) (length b)) cs) eqn:M; [destruct cs; [easy|discriminate]|]. rewrite <- M. clear M.
        rewrite (proj2 (rmap_forall2 (resolve b) (map (piece (length pre) (length b)) cs) (map (fun rc => slice rc (length pre) (length pre + length b)) rcs))).
        - cbn [rbind]. f_equal. rewrite <- choose_slice. now rewrite <- Eb.
        - clear - F Eb B. induction F as [|c rc cs rcs P F IH]; cbn; constructor; [|exact IH]. specialize (P (length pre) (length b) B). now rewrite <- Eb in P. }
      rewrite R. cbn [rbind]. specialize (IH (pre ++ b)). rewrite <- app_assoc, app_length in IH. destruct (IH Es) as (rs & P & Q). rewrite P. cbn [rbind].
      eexists. split; [reflexivity|]. cbn [concat]. rewrite Q. clear. unfold slice. replace (length pre + length b - length pre) with (length b) by lia.
      generalize (choose rcs s). intros w. rewrite <- (firstn_skipn (length b) (skipn (length pre) w)) at 2. f_equal. clear. generalize (length b) (length pre). intros y x. revert w. induction x as [|x IH]; intros w; [reflexivity|]. destruct w; [now rewrite !skipn_nil|]. cbn. apply IH. Qed.

  (** a case that cannot be resolved in a block of [n] rows at [x] *)
  Definition stuck (c : case) (x n : nat) : Prop := forall b : series A, length b = n -> exists e, resolve b (piece x n c) = Err e.
  Lemma resolve_fails (s : series A) (c : case) e : elements leqb false true s (fst c) = Err e \/ elements leqb true na s (snd c) = Err e -> exists e', resolve s c = Err e'.
  Proof. unfold CaseSpec.resolve. intros [E|E].
    - rewrite E. eexists. reflexivity.
    - destruct (elements leqb false true s (fst c)); [|eexists; reflexivity]. cbn [rbind]. rewrite E. eexists. reflexivity. Qed.
  Lemma parts_stuck (cs : list case) c : In c cs -> forall bs1 b bs2 off, stuck c (off + length (concat bs1)) (length b) -> parts off (bs1 ++ b :: bs2) cs = Err ValueError.
  Proof. intros I. induction bs1 as [|b1 bs1 IH]; intros b bs2 off St.
    - cbn [app concat length] in *. rewrite Nat.add_0_r in St. destruct (parts off (b :: bs2) cs) as [rs|e] eqn:P; [exfalso|f_equal; now apply parts_err in P].
      rewrite parts_cons in P.
      destruct (St b eq_refl) as (e & E). destruct (rmap_fails (resolve b) (map (piece off (length b)) cs) (piece off (length b) c) (in_map _ _ _ I) E) as (e' & R).
      unfold remote_fn, CaseSpec.p_case_when in P. destruct (map (piece off (length b)) cs) eqn:M; [discriminate|]. rewrite R in P. discriminate.
    - destruct (parts off ((b1 :: bs1) ++ b :: bs2) cs) as [rs|e] eqn:P; [exfalso|f_equal; now apply parts_err in P].
      cbn [app] in P. rewrite parts_cons in P. cbn [concat] in St. rewrite app_length, Nat.add_assoc in St. rewrite (IH b bs2 (off + length b1) St) in P.
      destruct (remote_fn _ _ _ _) in P; discriminate. Qed.
  Lemma short_block {X} (l : list X) : forall (blocks : list (series A)) off, off <= length l -> length l < off + length (concat blocks) ->
    exists bs1 b bs2, blocks = bs1 ++ b :: bs2 /\ length (slice l (off + length (concat bs1)) (off + length (concat bs1) + length b)) <> length b.
  Proof. clear. induction blocks as [|b blocks IH]; intros off H1 H2; [cbn in H2; lia|]. cbn [concat] in H2. rewrite app_length in H2.
    destruct (le_lt_dec (off + length b) (length l)) as [Le|Lt].
    - destruct (IH (off + length b) Le ltac:(lia)) as (bs1 & b' & bs2 & -> & N). exists (b :: bs1), b', bs2. split; [reflexivity|]. cbn [concat]. now rewrite app_length, Nat.add_assoc.
    - exists [], b, blocks. split; [reflexivity|]. cbn. rewrite slice_length. lia. Qed.

  Lemma unprepared s (c : case) e : fits bounds s (fst c) -> fits bounds s (snd c) -> resolve s c = Err e ->
    prepare_case leqb na lab (map fst s) c = Err ValueError
    \/ exists c', prepare_case leqb na lab (map fst s) c = Ok c' /\ forall blocks, blocks <> [] -> concat blocks = s ->
         exists bs1 b bs2, blocks = bs1 ++ b :: bs2 /\ stuck c' (length (concat bs1)) (length b).
  Proof. intros F1 F2 R.
    assert (T : forall {X} (sc : bool) (fill : X) a e, fits bounds s a -> elements leqb sc fill s a = Err e ->
      prepare leqb lab fill (map fst s) a = Err ValueError \/ prepare leqb lab fill (map fst s) a = Ok a /\ forall blocks, blocks <> [] -> concat blocks = s ->
        exists bs1 b bs2, blocks = bs1 ++ b :: bs2 /\ forall b', length b' = length b -> elements leqb sc fill b' (map_data bounds (length (concat bs1)) (length b) a) = Err ValueError).
    { intros X sc fill a e0 F E. destruct (prepare_fails leqb leqb_ok lab bounds lab_inj sc fill s a F E) as [P|(P & [All|(l & -> & Lt)])]; [now left| |].
      - right. split; [exact P|]. intros [|b bs] Ne _; [easy|]. exists [], b, bs. split; [reflexivity|]. intros b' _. apply All.
      - right. split; [exact P|]. intros blocks Ne Es. destruct (short_block l blocks (Nat.le_0_l _)) as (bs1 & b & bs2 & Eb & N); [now rewrite Es|].
        exists bs1, b, bs2. split; [exact Eb|]. intros b' Lb. cbn [map_data elements]. unfold as_long_as. cbn [Nat.add] in N. rewrite Lb. apply Nat.eqb_neq in N. now rewrite N. }
    assert (P2 : forall e, prepare leqb lab na (map fst s) (snd c) = Err e -> e = ValueError).
    { intros e' P. destruct (elements leqb true na s (snd c)) eqn:E.
      - destruct (prepare_ok leqb leqb_ok lab bounds lab_inj true na s (snd c) F2 E) as (a' & P' & _). congruence.
      - destruct (T _ _ _ _ _ F2 E) as [P'|[P' _]]; congruence. }
    unfold prepare_case. destruct (elements leqb false true s (fst c)) as [b|e1] eqn:E1.
    - destruct (elements leqb true na s (snd c)) as [r|e2] eqn:E2; [unfold CaseSpec.resolve in R; rewrite E1, E2 in R; discriminate|].
      destruct (prepare_ok leqb leqb_ok lab bounds lab_inj false true s (fst c) F1 E1) as (b' & Pb & _). rewrite Pb. cbn [rbind].
      destruct (T _ _ _ _ _ F2 E2) as [P|[P Q]]; rewrite P; cbn [rbind]; [now left|]. right. eexists. split; [reflexivity|].
      intros blocks Ne Es. destruct (Q blocks Ne Es) as (bs1 & bb & bs2 & Eb & K). exists bs1, bb, bs2. split; [exact Eb|]. intros b0 Lb. apply (resolve_fails _ _ (e := ValueError)). right. now apply K.
    - destruct (T _ _ _ _ _ F1 E1) as [P|[P Q]]; rewrite P; cbn [rbind]; [now left|].
      destruct (prepare leqb lab na (map fst s) (snd c)) as [r|e2] eqn:Pr; cbn [rbind]; [|left; f_equal; now apply P2]. right. eexists. split; [reflexivity|].
      intros blocks Ne Es. destruct (Q blocks Ne Es) as (bs1 & bb & bs2 & Eb & K). exists bs1, bb, bs2. split; [exact Eb|]. intros b0 Lb. apply (resolve_fails _ _ (e := ValueError)). left. now apply K. Qed.

  Lemma prepare_case_err s (c : case) e : fits bounds s (fst c) -> fits bounds s (snd c) -> prepare_case leqb na lab (map fst s) c = Err e -> e = ValueError.
  Proof. intros F1 F2 P. destruct (resolve s c) as [rc|e'] eqn:R.
    - destruct (@prepared s c rc F1 F2 R) as (c' & P' & _). congruence.
    - destruct (@unprepared s c e' F1 F2 R) as [P'|(c' & P' & _)]; congruence. Qed.

  Theorem case_when_ok (blocks : list (series A)) (cases : list case) : blocks <> [] ->
    Forall (fun c => fits bounds (concat blocks) (fst c) /\ fits bounds (concat blocks) (snd c)) cases ->
    match p_case_when (concat blocks) cases with
    | Ok w => exists rs, case_when blocks cases = Ok rs /\ concat rs = w
    | Err e => case_when blocks cases = Err e
    end.
  Proof. intros Ne F. rewrite case_when_parts. set (s := concat blocks) in *. destruct (p_case_when s cases) as [w|e] eqn:P.
    - unfold CaseSpec.p_case_when in P. destruct cases as [|c0 cases0] eqn:Ec; [discriminate|]. rewrite <- Ec in *. destruct (rmap (resolve s) cases) as [rcs|] eqn:R; [|discriminate].
      cbn [rbind] in P. injection P as <-. destruct (@prepared_all s cases rcs F R) as (cs & P & Q). rewrite P. cbn [rbind].
      destruct (@parts_ok s cs rcs) with (blocks := blocks) (pre := @nil (L * A)) as (rs & E & W); auto.
      + intros ->. apply rmap_forall2 in P. rewrite Ec in P. inversion P.
      + exists rs. now split.
    - assert (e = ValueError) as -> by now apply p_err in P. destruct cases as [|c0 cases0] eqn:Ec.
      + cbn [rmap rbind]. destruct blocks; [easy|]. reflexivity.
      + rewrite <- Ec in *. unfold CaseSpec.p_case_when in P. rewrite Ec in P. rewrite <- Ec in P. destruct (rmap (resolve s) cases) eqn:R; [discriminate|].
        apply rmap_err_in in R as (c & I & R). rewrite Forall_forall in F. destruct (F c I) as [F1 F2].
        destruct (rmap (prepare_case leqb na lab (map fst s)) cases) as [cs|e'] eqn:Q; cbn [rbind].
        * destruct (@unprepared s c _ F1 F2 R) as [U|(c' & U & K)].
          { destruct (rmap_fails _ _ _ I U) as (e' & X). congruence. }
          destruct (K blocks Ne eq_refl) as (bs1 & b & bs2 & -> & St). apply (@parts_stuck cs c'); [|exact St].
          apply rmap_forall2 in Q. clear - Q I U. induction Q as [|x y l l' E Q IH]; [easy|]. destruct I as [->|I]; [left; congruence|right; now apply IH].
        * f_equal. apply rmap_err_in in Q as (c' & I' & Q). destruct (F c' I') as [G1 G2]. now apply (@prepare_case_err s c' e' G1 G2). Qed.
End Whole.
