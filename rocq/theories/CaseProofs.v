(** case_when on blocks of rows. *)
From Verif Require Import Base Table CaseSpec CaseModel.
From Verif Require ResetProofs.

Lemma rmap_err_in {X Y} (f : X -> res Y) l e : rmap f l = Err e -> exists x, In x l /\ f x = Err e.
Proof. induction l as [|x l IH]; cbn; [discriminate|]. destruct (f x) eqn:E; cbn; [|intros [= <-]; exists x; auto].
  destruct (rmap f l); cbn; [discriminate|]. intros [= <-]. destruct (IH eq_refl) as (y & I & Ey). exists y; auto. Qed.
Lemma rmap_fails {X Y} (f : X -> res Y) l x e : In x l -> f x = Err e -> exists e', rmap f l = Err e'.
Proof. induction l as [|y l IH]; intros I E; [easy|]. destruct I as [->|I]; cbn; [rewrite E; eexists; reflexivity|].
  destruct (f y); cbn; [|eexists; reflexivity]. destruct (IH I E) as (e' & ->). eexists; reflexivity. Qed.
Lemma rmap_forall2 {X Y} (f : X -> res Y) l ys : rmap f l = Ok ys <-> Forall2 (fun x y => f x = Ok y) l ys.
Proof. revert ys. induction l as [|x l IH]; intros ys; cbn.
  - split; [intros [= <-]; constructor|]. now inversion 1.
  - split.
    + destruct (f x) eqn:E; cbn; [|discriminate]. destruct (rmap f l) eqn:R; cbn; [|discriminate]. intros [= <-]. constructor; [exact E|]. now apply IH.
    + inversion 1 as [|? y ? ys' E F]; subst. rewrite E. cbn. apply IH in F. now rewrite F. Qed.

Section Proofs.
  Context {L A : Type}.
  Variable leqb : L -> L -> bool.
  Hypothesis leqb_ok : forall x y, leqb x y = true <-> x = y.
  Variable na : A.
  Variable lab : nat -> L.
  Variable bounds : list L -> nat -> nat -> nat * nat.
  Notation series := (@series L).
  Notation arg := (@arg L A).
  Notation case := (@case L A).
  Notation parts := (parts leqb na bounds).
  Notation prepare := (prepare leqb lab).

  Lemma aligned_err {X} (fill : X) idx t e : aligned_to leqb fill idx t = Err e -> e = ValueError.
  Proof. unfold aligned_to. destruct (list_eqb _ _ _); [discriminate|]. destruct (unique _ _); [discriminate|]. now intros [= <-]. Qed.
  Lemma aligned_length {X} (fill : X) idx t v : aligned_to leqb fill idx t = Ok v -> length v = length idx.
  Proof. unfold aligned_to. destruct (list_eqb leqb (map fst t) idx) eqn:E.
    - apply (list_eqb_spec leqb leqb_ok) in E. intros [= <-]. rewrite <- E. now rewrite !map_length.
    - destruct (unique _ _); [|discriminate]. intros [= <-]. apply map_length. Qed.
  Lemma elements_err {X} sc (fill : X) (s : series A) (a : arg X) e : elements leqb sc fill s a = Err e -> e = ValueError.
  Proof. destruct a; cbn [elements]; unfold as_long_as; try apply aligned_err.
    - destruct (_ =? _); [discriminate|]. now intros [= <-].
    - destruct (_ =? _); [discriminate|]. now intros [= <-].
    - destruct sc; [discriminate|]. now intros [= <-]. Qed.
  Lemma elements_length {X} sc (fill : X) (s : series A) (a : arg X) v : elements leqb sc fill s a = Ok v -> length v = length s.
  Proof. destruct a; cbn [elements]; unfold as_long_as.
    - destruct (_ =? _) eqn:E; [|discriminate]. intros [= <-]. now apply Nat.eqb_eq.
    - destruct (_ =? _) eqn:E; [|discriminate]. intros [= <-]. now apply Nat.eqb_eq.
    - intros H%aligned_length. now rewrite map_length in H.
    - intros H%aligned_length. now rewrite map_length in H.
    - destruct sc; [|discriminate]. intros [= <-]. apply repeat_length. Qed.
  Lemma resolve_err (s : series A) (c : case) e : resolve leqb na s c = Err e -> e = ValueError.
  Proof. unfold resolve. destruct (elements leqb false true s (fst c)) eqn:E1; cbn; [|intros [= <-]; now apply elements_err in E1].
    destruct (elements leqb true na s (snd c)) eqn:E2; cbn; [discriminate|intros [= <-]; now apply elements_err in E2]. Qed.
  Lemma p_err (s : series A) (cs : list case) e : p_case_when leqb na s cs = Err e -> e = ValueError.
  Proof. unfold p_case_when. destruct cs; [now intros [= <-]|]. destruct (rmap _ _) eqn:E; cbn; [discriminate|]. intros [= <-].
    apply rmap_err_in in E as (c' & _ & E). now apply resolve_err in E. Qed.
  Lemma parts_err blocks : forall off cs e, parts off blocks cs = Err e -> e = ValueError.
  Proof. induction blocks as [|b blocks IH]; intros off cs e; cbn [CaseModel.parts]; [discriminate|].
    destruct (remote_fn _ _ _ _) eqn:E; cbn [rbind]; [|intros [= <-]; now apply p_err in E].
    destruct (parts _ _ _) eqn:P; cbn [rbind]; [discriminate|]. intros [= <-]. now apply IH in P. Qed.

  (** functions work row by row; lists are not too long; slices of Series are by position *)
  Definition fits {X} (s : series A) (a : arg X) : Prop :=
    match a with
    | Fun f => exists g, forall t, f t = map g t
    | Items l => length l <= length s
    | Ser _ => forall x y, bounds (map fst s) x y = (x, y)
    | _ => True
    end.

  Lemma map_fst_combine {X Y} (l : list X) (m : list Y) : length l = length m -> map fst (combine l m) = l.
  Proof. clear. revert m. induction l; intros [|y m] E; try discriminate; cbn; f_equal; auto. Qed.
  Lemma map_snd_combine {X Y} (l : list X) (m : list Y) : length l = length m -> map snd (combine l m) = m.
  Proof. clear. revert m. induction l; intros [|y m] E; try discriminate; cbn; f_equal; auto. Qed.

  Lemma labelled_block {X} sc (fill : X) (s : series A) v x y : length v = length s ->
    elements leqb sc fill (slice s x y) (Ser (slice (combine (map fst s) v) x y)) = Ok (slice v x y).
  Proof. clear bounds lab na. intros E. cbn [elements]. unfold aligned_to. rewrite <- !slice_map. rewrite map_fst_combine, map_snd_combine by now rewrite map_length.
    now rewrite list_eqb_refl. Qed.

  Lemma seq_labels_lookup {X} (fill : X) (vs : list X) (inj : forall i j, lab i = lab j -> i = j) : forall a n,
    map (at_label leqb fill (combine (map lab (seq a (length vs))) vs)) (map lab (seq a n)) = firstn n vs ++ repeat fill (n - length vs).
  Proof. clear - leqb_ok inj. induction vs as [|v vs IH]; intros a n.
    - cbn. rewrite firstn_nil, Nat.sub_0_r. cbn. rewrite map_map. cbn. clear. revert a. induction n; intros a; cbn; f_equal; auto.
    - destruct n as [|n]; [reflexivity|]. cbn [length seq map combine firstn app]. rewrite Nat.sub_succ. f_equal.
      + unfold at_label. cbn [find fst]. now rewrite (proj2 (leqb_ok _ _) eq_refl).
      + rewrite <- (IH (S a) n). rewrite !map_map. apply map_ext_in. intros i I%in_seq. unfold at_label. cbn [find fst].
        destruct (leqb (lab i) (lab a)) eqn:E; [|reflexivity]. apply leqb_ok, inj in E. lia. Qed.

  Lemma unique_labs (inj : forall i j, lab i = lab j -> i = j) : forall n a, unique leqb (map lab (seq a n)) = true.
  Proof. clear - leqb_ok inj. unfold unique. induction n as [|n IH]; intros a; [reflexivity|]. cbn [seq map]. rewrite IH, andb_true_r. apply negb_true_iff.
    destruct (existsb _ _) eqn:E; [|reflexivity]. apply existsb_exists in E as (l & I & E). apply leqb_ok in E. subst. apply in_map_iff in I as (j & E & I).
    apply inj in E. apply in_seq in I. lia. Qed.

  (** truncating and padding a Series labelled 0, 1, 2, ... aligns it *)
  Lemma trivial_prepared {X} (fill : X) idx (t : series X) (inj : forall i j, lab i = lab j -> i = j) : trivial leqb lab idx = true -> trivial leqb lab (map fst t) = true ->
    exists v, aligned_to leqb fill idx t = Ok v
      /\ (let data := firstn (length idx) t in let diff := length idx - length data in
          if 0 <? diff then combine (map lab (seq 0 (length idx))) (map snd data ++ repeat fill diff) else data) = combine idx v.
  Proof. clear na bounds. unfold trivial. intros T1 T2. apply (list_eqb_spec leqb leqb_ok) in T1, T2. rewrite map_length in T2. set (n := length idx) in *.
    set (vs := map snd t). assert (Lt : length vs = length t) by apply map_length.
    assert (Et : t = combine (map lab (seq 0 (length vs))) vs).
    { rewrite Lt, <- T2. unfold vs. clear. induction t as [|[l x] t IH]; [reflexivity|]. cbn. now rewrite <- IH. }
    assert (V : aligned_to leqb fill idx t = Ok (firstn n vs ++ repeat fill (n - length vs))).
    { unfold aligned_to. rewrite T2. destruct (list_eqb leqb (map lab (seq 0 (length t))) idx) eqn:E.
      - apply (list_eqb_spec leqb leqb_ok) in E. f_equal. fold vs. assert (n = length t) as -> by (unfold n; rewrite <- E, map_length, seq_length; reflexivity).
        rewrite Lt, Nat.sub_diag, <- Lt, firstn_all. cbn. now rewrite app_nil_r.
      - rewrite (unique_labs inj). f_equal. rewrite T1. rewrite Et at 1. apply (seq_labels_lookup fill vs inj). }
    eexists. split; [exact V|]. cbn zeta. rewrite firstn_length. destruct (0 <? n - Nat.min n (length t)) eqn:D.
    - apply Nat.ltb_lt in D. rewrite <- T1. f_equal. rewrite <- firstn_map. fold vs. do 2 f_equal. lia.
    - apply Nat.ltb_ge in D. replace (n - length vs) with 0 by lia. cbn [repeat]. rewrite app_nil_r. rewrite Et, T1. rewrite Lt.
      clear - D. assert (N : n <= length t) by lia. rewrite combine_firstn. f_equal. rewrite firstn_map. f_equal.
      replace (length t) with (n + (length t - n)) by lia. rewrite seq_app, firstn_app, seq_length, Nat.sub_diag, firstn_O, app_nil_r. apply firstn_all2. now rewrite seq_length. Qed.

  Hypothesis lab_inj : forall i j, lab i = lab j -> i = j.

  (** what [prepare] makes of an argument with elements [v] stands, in each block, for the block of [v] *)
  Lemma prepare_ok {X} sc (fill : X) (s : series A) (a : arg X) v : fits s a -> elements leqb sc fill s a = Ok v ->
    exists a', prepare fill (map fst s) a = Ok a'
      /\ forall x n, x + n <= length s -> elements leqb sc fill (slice s x (x + n)) (map_data bounds x n a') = Ok (slice v x (x + n)).
  Proof. intros Ft E. assert (Lv := elements_length _ _ _ _ E). destruct a as [f|l|t|t|y]; cbn [CaseModel.prepare].
    - destruct Ft as (g & G). exists (Fun f). split; [reflexivity|]. intros x n B. cbn [map_data elements] in *. unfold as_long_as in *. rewrite !G in *.
      rewrite map_length, Nat.eqb_refl in *. injection E as <-. now rewrite slice_map.
    - exists (Items l). split; [reflexivity|]. intros x n B. cbn [map_data elements] in *. unfold as_long_as in *. destruct (length l =? length s) eqn:El; [|discriminate].
      injection E as <-. rewrite !slice_length, Lv, Nat.eqb_refl. reflexivity.
    - cbn [fits] in Ft. cbn [elements] in E.
      assert (P : exists t', (if trivial leqb lab (map fst s) && trivial leqb lab (map fst t) then
          let data := firstn (length (map fst s)) t in let diff := length (map fst s) - length data in
          Ok (Ser (if 0 <? diff then combine (map lab (seq 0 (length (map fst s)))) (map snd data ++ repeat fill diff) else data))
        else do v <- aligned_to leqb fill (map fst s) t; Ok (Ser (combine (map fst s) v))) = Ok (@Ser L A X t') /\ t' = combine (map fst s) v).
      { destruct (trivial leqb lab (map fst s) && trivial leqb lab (map fst t)) eqn:T.
        - apply andb_true_iff in T as [T1 T2]. destruct (trivial_prepared fill (map fst s) t lab_inj T1 T2) as (v' & E' & D). rewrite E in E'. injection E' as <-.
          eexists. split; [cbn zeta; reflexivity|]. exact D.
        - rewrite E. eexists. split; [reflexivity|]. reflexivity. }
      destruct P as (t' & P & ->). exists (Ser (combine (map fst s) v)). split; [exact P|]. intros x n B. cbn [map_data].
      rewrite map_fst_combine by now rewrite map_length. rewrite Ft. cbn [fst snd]. now apply labelled_block.
    - cbn [elements] in E. rewrite E. cbn [rbind]. exists (Mod (combine (map fst s) v)). split; [reflexivity|]. intros x n B. cbn [map_data]. now apply labelled_block.
    - exists (Val y). split; [reflexivity|]. intros x n B. cbn [map_data elements] in *. destruct sc; [|discriminate]. injection E as <-. f_equal.
      rewrite slice_repeat, slice_length. f_equal. Qed.

  (** an argument that stands for nothing: [prepare] raises, or every part of it fails, or it is a list that is too short *)
  Lemma prepare_fails {X} sc (fill : X) (s : series A) (a : arg X) e : fits s a -> elements leqb sc fill s a = Err e ->
    prepare fill (map fst s) a = Err ValueError
    \/ prepare fill (map fst s) a = Ok a /\ ((forall b x n, elements leqb sc fill b (map_data bounds x n a) = Err ValueError)
         \/ exists l, a = Items l /\ length l < length s).
  Proof. intros Ft E. assert (Ev := elements_err _ _ _ _ E). subst e. destruct a as [f|l|t|t|y]; cbn [CaseModel.prepare elements] in *; unfold as_long_as in *.
    - destruct Ft as (g & G). rewrite G, map_length, Nat.eqb_refl in E. discriminate.
    - right. split; [reflexivity|]. right. exists l. split; [reflexivity|]. cbn [fits] in Ft. destruct (length l =? length s) eqn:El; [discriminate|]. apply Nat.eqb_neq in El. lia.
    - left. destruct (trivial leqb lab (map fst s) && trivial leqb lab (map fst t)) eqn:T.
      + apply andb_true_iff in T as [T1 T2]. destruct (trivial_prepared fill (map fst s) t lab_inj T1 T2) as (v' & E' & D). congruence.
      + now rewrite E.
    - left. now rewrite E.
    - right. split; [reflexivity|]. left. intros b x n. cbn [map_data elements]. now destruct sc. Qed.

  Lemma choose_slice (cs : list (list (bool * A))) (s : series A) x y : choose (map (fun c => slice c x y) cs) (slice s x y) = slice (choose cs s) x y.
  Proof. clear. induction cs as [|c cs IH]; cbn [choose fold_right map]; [now rewrite slice_map|]. fold (choose cs s). fold (choose (map (fun c => slice c x y) cs) (slice s x y)).
    rewrite IH. now rewrite slice_map2. Qed.
End Proofs.
