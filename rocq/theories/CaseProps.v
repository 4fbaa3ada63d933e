(** C85: Series.case_when.
    [p_case_when] (CaseSpec.v) says what pandas returns; [case_when] (CaseModel.v) is the code, given the blocks of rows of the
    Series and returning those of the result. *)
From Verif Require Import Base Table CaseSpec CaseModel CaseProofs CaseProofs2.

Lemma combine_at {X Y} (l : list X) : forall (m : list Y) i x y, nth_error l i = Some x -> nth_error m i = Some y -> nth_error (combine l m) i = Some (x, y).
Proof. induction l as [|a l IH]; intros [|b m] [|i] x y E1 E2; try discriminate; cbn in *; [congruence|]. now apply IH. Qed.

(** [choose], from which [p_case_when] is made: a cell is the replacement of the first case whose condition holds in its row *)
Theorem C85_choose_meaning {L A} (cs : list (list (bool * A))) (s : @series L A) i x :
  Forall (fun c => length c = length s) cs -> nth_error (map snd s) i = Some x ->
  nth_error (choose cs s) i = Some (match find fst (map (fun c => nth i c (false, x)) cs) with Some br => snd br | None => x end).
Proof. intros F N. assert (G : length (choose cs s) = length s /\ nth_error (choose cs s) i = Some (match find fst (map (fun c => nth i c (false, x)) cs) with Some br => snd br | None => x end)); [|apply G].
  induction F as [|c cs Lc F IH]; cbn [choose fold_right map find]; [split; [apply map_length|exact N]|]. destruct IH as [IHl IH]. fold (choose cs s). split.
  - rewrite map2_length. lia.
  - assert (Li : i < length c) by (rewrite Lc, <- (map_length snd); apply nth_error_Some; congruence).
    assert (Ec : nth_error c i = Some (nth i c (false, x))) by now apply nth_error_nth'.
    unfold map2. rewrite nth_error_map. 
    assert (Cb : nth_error (combine c (choose cs s)) i = Some (nth i c (false, x), match find fst (map (fun c => nth i c (false, x)) cs) with Some br => snd br | None => x end)).
    { now apply combine_at. }
    rewrite Cb. cbn [option_map]. destruct (nth i c (false, x)) as [[|] r]; reflexivity. Qed.

Section C85.
  Context {L A : Type}.
  Variable leqb : L -> L -> bool.
  Hypothesis leqb_ok : forall x y, leqb x y = true <-> x = y.
  Variable na : A.
  Variable lab : nat -> L.
  Hypothesis lab_inj : forall i j, lab i = lab j -> i = j.
  Variable bounds : list L -> nat -> nat -> nat * nat.

  (** functions answer row by row, lists of conditions are not longer than the Series, lists of replacements are as long as it, and with
      a pandas Series as argument the labels of [s] are not floats *)
  Definition covered {X} (exact : bool) (s : @series L A) (a : @arg L A X) : Prop :=
    match a with
    | Fun f => exists g, forall t, f t = map g t
    | Items l => if exact then length l = length s else length l <= length s
    | Ser _ => forall x y, bounds (map fst s) x y = (x, y)
    | Mod _ | Val _ => True
    end.

  (** C85 (partial): [s.case_when(cases)] shows pandas' result under the labels of [s], or raises ValueError where pandas does,
      however the rows of [s] are divided into blocks.  Missing: functions that look at several rows, lists that are too long, pandas
      Series with float labels (all refuted). *)
  Theorem C85_case_when_partial :
    forall (blocks : list (@series L A)) (cases : list (@case L A)), blocks <> [] ->
      Forall (fun c => covered false (concat blocks) (fst c) /\ covered true (concat blocks) (snd c)) cases ->
      match p_case_when leqb na (concat blocks) cases with
      | Ok w => exists rs, case_when leqb na lab bounds blocks cases = Ok rs /\ concat rs = w
      | Err e => case_when leqb na lab bounds blocks cases = Err e
      end.
  Proof.
    intros blocks cases Ne F. apply (case_when_ok leqb leqb_ok na lab lab_inj bounds); [exact Ne|]. eapply Forall_impl; [|exact F].
    intros [a b] [F1 F2]. cbn [fst snd] in *. split; [destruct a; exact F1|]. destruct b; cbn [covered fits] in *; try exact F2. now rewrite F2. Qed.
End C85.
Print Assumptions C85_choose_meaning.
Print Assumptions C85_case_when_partial.

(** Labels are numbers (twice the label, so that odd ones stand for floats), [None] is a missing cell.  Slices of a Series with float
    labels are by label, both ends included. *)
Definition cas_s : @series nat (option Z) := [(0, Some 3%Z); (2, Some 1%Z); (4, Some 7%Z)].
Definition cas_float : @series nat (option Z) := [(21, Some 3%Z); (23, Some 1%Z); (25, Some 7%Z)].
Definition cas_bounds (idx : list nat) (a b : nat) : nat * nat :=
  if existsb Nat.odd idx then (length (filter (fun l => l <? 2 * a) idx), length (filter (fun l => l <=? 2 * b) idx)) else (a, b).
Definition cas_blocks (s : @series nat (option Z)) := [firstn 1 s; skipn 1 s].
Definition cas_run s cases := do rs <- case_when Nat.eqb None (fun i => 2 * i) cas_bounds (cas_blocks s) cases; Ok (concat rs).
Definition cas_p (s : @series nat (option Z)) cases := p_case_when Nat.eqb None s cases.
(** a function, a Series with other labels, a list; replacements of all kinds *)
Definition cas_cases : list (@case nat (option Z)) :=
  [(Fun (map (fun lx => match snd lx with Some x => (x <? 2)%Z | None => false end)), Val (Some 0%Z));
   (Ser [(4, false); (0, false)], Items [None; Some 5; Some 6]%Z);
   (Mod [(4, true)], Ser [(4, Some 9%Z)])].
Example C85_case : cas_p cas_s cas_cases = Ok [None; Some 0; Some 9]%Z /\ cas_run cas_s cas_cases = Ok [None; Some 0; Some 9]%Z.
Proof. assert (P : cas_p cas_s cas_cases = Ok [None; Some 0; Some 9]%Z) by (vm_compute; reflexivity). split; [exact P|].
  assert (J : forall i j, 2 * i = 2 * j -> i = j) by (intros; lia).
  pose proof (@C85_case_when_partial nat (option Z) Nat.eqb Nat.eqb_eq None (fun i => 2 * i) J cas_bounds (cas_blocks cas_s) cas_cases) as T.
  change (concat (cas_blocks cas_s)) with cas_s in T. unfold cas_p in P. rewrite P in T. destruct T as (rs & E & W); [discriminate| |unfold cas_run; rewrite E; cbn [rbind]; now rewrite W].
  repeat constructor; cbn; try lia; intros; eexists; reflexivity. Qed.

(** C85 refuted: a function that compares each cell with the largest one sees one block at a time *)
Definition cas_largest (t : @series nat (option Z)) : list bool :=
  map (fun lx => forallb (fun ly => match snd lx, snd ly with Some x, Some y => (y <=? x)%Z | _, _ => true end) t) t.
Theorem C85_function_refuted : cas_p cas_s [(Fun cas_largest, Val (Some 0%Z))] = Ok [Some 3; Some 1; Some 0]%Z
  /\ cas_run cas_s [(Fun cas_largest, Val (Some 0%Z))] = Ok [Some 0; Some 1; Some 0]%Z.
Proof. split; vm_compute; reflexivity. Qed.
(** C85 refuted: a list of conditions that is longer than the Series is cut off; pandas raises ValueError *)
Theorem C85_long_list_refuted : cas_p cas_s [(Items [true; false; true; true], Val (Some 0%Z))] = Err ValueError
  /\ cas_run cas_s [(Items [true; false; true; true], Val (Some 0%Z))] = Ok [Some 0; Some 1; Some 0]%Z.
Proof. split; vm_compute; reflexivity. Qed.
(** C85 refuted: with float labels a pandas Series as condition is sliced by label, and the rows it then lacks count as true *)
Theorem C85_float_labels_refuted : cas_p cas_float [(Ser [(21, false); (23, true); (25, false)], Val (Some 0%Z))] = Ok [Some 3; Some 0; Some 7]%Z
  /\ cas_run cas_float [(Ser [(21, false); (23, true); (25, false)], Val (Some 0%Z))] = Ok [Some 0; Some 0; Some 0]%Z.
Proof. split; vm_compute; reflexivity. Qed.
Print Assumptions C85_function_refuted.
Print Assumptions C85_long_list_refuted.
Print Assumptions C85_float_labels_refuted.
