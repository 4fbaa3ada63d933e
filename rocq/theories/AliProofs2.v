(** The invariant of every history, and what an in-place call does to the objects. *)
From Verif Require Import Base AliSpec AliModel AliProofs.

Section Inv.
Variables (L A : Type).
Notation table := (table L A).
Notation op := (op L A).
Notation mst := (mst L A).

Lemma fold_kinds v (h : list op) : forall p, fst (fold_left (fam_step (A := A) v) h p) = fold_left (@kind_step L A) h (fst p).
Proof. induction h as [|x h IH]; intros p; cbn [fold_left]; [reflexivity|]. now rewrite IH. Qed.

Lemma kinds_snoc (h : list op) x : kinds (h ++ [x]) = kind_step (kinds h) x.
Proof. unfold kinds. now rewrite fold_left_app. Qed.
Lemma fams_snoc v (h : list op) x : fams v (h ++ [x]) =
  if creates x then fams v h ++ [match shares v (fun o => nth o (kinds h) Frame) x with
                                 | Some o => nth o (fams v h) (length (fams v h))
                                 | None => length (fams v h)
                                 end]
  else fams v h.
Proof. unfold fams at 1. rewrite fold_left_app. cbn [fold_left fam_step snd].
  rewrite fold_kinds. reflexivity. Qed.

Record inv (ks : list kind) (tf sf : list nat) (s : mst) : Prop := {
  i_kinds : size s = length ks;
  i_tf : size s = length tf;
  i_sf : size s = length sf;
  i_kind : forall o, mkind s o = nth o ks Frame;
  i_pointed : pointed s;
  i_sibs : forall o x, o < size s -> In x (sibs s o) ->
             x < size s /\ nth x tf 0 = nth o tf 0 /\ nth x sf 0 = nth o sf 0;
  i_par : forall o p c, o < size s -> parent s o = Some (p, c) ->
             p < o /\ nth p tf 0 = nth o tf 0 /\ nth o sf 0 = o;
  i_qc : forall x y, x < size s -> y < size s -> qc s x = qc s y -> nth x tf 0 = nth y tf 0;
  i_cover : forall x y, x < size s -> y < size s -> x <> y -> nth x sf 0 = nth y sf 0 -> In y (sibs s x);
  i_rep : forall o, o < size s -> nth o sf 0 <= o
}.

(** ** Creating an object *)

Definition appended (s : mst) (qs : list table) (x : mobj) : mst := MSt (m_qcs s ++ qs) (m_objs s ++ [x]).

Lemma app_obj s qs x o : mobject (appended s qs x) o =
  if o =? size s then x else mobject s o.
Proof. unfold mobject, appended, size. cbn [m_objs]. destruct (Nat.eqb_spec o (length (m_objs s))) as [->|N].
  - now rewrite app_nth2, Nat.sub_diag by lia.
  - destruct (Nat.lt_ge_cases o (length (m_objs s))) as [H|H]; [now rewrite app_nth1|].
    rewrite (nth_overflow (m_objs s)) by lia. rewrite nth_overflow; [reflexivity|]. rewrite app_length. cbn. lia. Qed.
Lemma app_size s qs x : size (appended s qs x) = S (size s).
Proof. unfold size, appended. cbn [m_objs]. rewrite app_length. cbn. lia. Qed.
Lemma app_new s qs x : mobject (appended s qs x) (size s) = x.
Proof. now rewrite app_obj, Nat.eqb_refl. Qed.
Lemma app_old s qs x o : o < size s -> mobject (appended s qs x) o = mobject s o.
Proof. intros H. rewrite app_obj. destruct (Nat.eqb_spec o (size s)); [lia | reflexivity]. Qed.

Lemma nth_snoc_old X (l : list X) a d o : o < length l -> nth o (l ++ [a]) d = nth o l d.
Proof. intros H. now apply app_nth1. Qed.
Lemma nth_snoc_new X (l : list X) a d : nth (length l) (l ++ [a]) d = a.
Proof. rewrite app_nth2, Nat.sub_diag by lia. reflexivity. Qed.

Lemma unknown_obj (s : mst) o : size s <= o -> mobject s o = mdead.
Proof. intros H. now apply nth_overflow. Qed.

(** A new object with a new query compiler, without siblings. *)
Lemma create_inv ks tf sf s k t par a :
  inv ks tf sf s ->
  (forall p c, par = Some (p, c) -> p < size s /\ nth p tf 0 = a) ->
  inv (ks ++ [k]) (tf ++ [a]) (sf ++ [size s]) (create s k t par).
Proof. intros [i1 i2 i3 i4 i5 i6 i7 i8 i9 i10] Hp.
  change (create s k t par) with (appended s [t] (MObj k (length (m_qcs s)) [] par)).
  set (x := MObj k (length (m_qcs s)) [] par).
  assert (Q : forall o, o < S (size s) -> (o = size s /\ qc (appended s [t] x) o = length (m_qcs s)) \/
                        (o < size s /\ qc (appended s [t] x) o = qc s o)).
  { intros o Ho. unfold qc. destruct (Nat.eq_dec o (size s)) as [->|N]; [left | right].
    - now rewrite app_new. - split; [lia|]. rewrite app_old by lia. reflexivity. }
  assert (Tn : nth (size s) (tf ++ [a]) 0 = a) by (rewrite i2; apply nth_snoc_new).
  assert (Fn : nth (size s) (sf ++ [size s]) 0 = size s) by (rewrite i3 at 1; apply nth_snoc_new).
  split; try (rewrite app_size, app_length; cbn; lia).
  - intros o. unfold mkind. rewrite app_obj. destruct (Nat.eqb_spec o (size s)) as [->|N].
    + now rewrite i1, nth_snoc_new.
    + destruct (Nat.lt_ge_cases o (size s)) as [H|H].
      * rewrite nth_snoc_old by lia. apply i4.
      * rewrite unknown_obj by lia. rewrite nth_overflow; [reflexivity|]. rewrite app_length. cbn. lia.
  - intros o Ho. rewrite app_size in Ho. destruct (Q o Ho) as [[_ ->]|[H ->]];
      unfold appended; cbn [m_qcs]; rewrite app_length; cbn; [lia|]. pose proof (i5 o H). lia.
  - intros o y Ho Hy. rewrite app_size in *. unfold sibs in Hy.
    destruct (Nat.eq_dec o (size s)) as [->|N]; [rewrite app_new in Hy; destruct Hy|].
    rewrite app_old in Hy by lia. destruct (i6 o y) as (E1 & E2 & E3); [lia | exact Hy|].
    rewrite !nth_snoc_old by lia. repeat split; auto.
  - intros o p c Ho Hpar. rewrite app_size in Ho. unfold parent in Hpar.
    destruct (Nat.eq_dec o (size s)) as [->|N].
    + rewrite app_new in Hpar. cbn in Hpar. destruct (Hp p c Hpar) as [H1 H2].
      rewrite nth_snoc_old by lia. rewrite Tn, Fn. auto.
    + rewrite app_old in Hpar by lia. destruct (i7 o p c) as (E1 & E2 & E3); [lia | exact Hpar|].
      rewrite !nth_snoc_old by lia. auto.
  - intros y z Hy Hz E. rewrite app_size in *. destruct (Q y Hy) as [[-> Ey]|[Hy' Ey]], (Q z Hz) as [[-> Ez]|[Hz' Ez]].
    + reflexivity.
    + pose proof (i5 z Hz'). lia.
    + pose proof (i5 y Hy'). lia.
    + rewrite !nth_snoc_old by lia. apply i8; auto. congruence.
  - intros y z Hy Hz N E. rewrite app_size in *.
    destruct (Nat.eq_dec y (size s)) as [->|Ny], (Nat.eq_dec z (size s)) as [->|Nz]; [easy | | |].
    + rewrite Fn in E. rewrite nth_snoc_old in E by lia.
      pose proof (i10 z). lia.
    + rewrite Fn in E. rewrite nth_snoc_old in E by lia.
      pose proof (i10 y). lia.
    + rewrite !nth_snoc_old in E by lia. unfold sibs. rewrite app_old by lia. apply i9; auto; lia.
  - intros o Ho. rewrite app_size in Ho. destruct (Nat.eq_dec o (size s)) as [->|N].
    + rewrite Fn. lia.
    + rewrite nth_snoc_old by lia. apply i10. lia. Qed.

(** A new object linked to [o]. *)
Lemma link_inv ks tf sf s k qs q o :
  inv ks tf sf s -> o < size s ->
  (q = length (m_qcs s) /\ length qs = 1 \/ q = qc s o) ->
  inv (ks ++ [k]) (tf ++ [nth o tf 0]) (sf ++ [nth o sf 0])
      (add_sibling (appended s qs (MObj k q [] None)) o (size s)).
Proof. intros [i1 i2 i3 i4 i5 i6 i7 i8 i9 i10] Ho Hq.
  set (x := MObj k q [] None). set (s1 := appended s qs x).
  assert (Z : size s1 = S (size s)) by apply app_size.
  assert (So : sibs s1 o = sibs s o) by (unfold sibs, s1; now rewrite app_old).
  assert (Sn : sibs s1 (size s) = []) by (unfold sibs, s1; now rewrite app_new).
  assert (Sl : forall y, y < size s -> sibs s1 y = sibs s y) by (intros y H; unfold sibs, s1; now rewrite app_old).
  destruct (@add_ok L A s1 o (size s)) as [(B1 & B2 & B3) I]; [lia | lia | lia | exact Sn | |].
  { intros y Hy. rewrite So in Hy. destruct (i6 o y Ho Hy). lia. }
  rewrite So in I.
  set (s2 := add_sibling s1 o (size s)) in *.
  assert (Q : forall y, y < S (size s) -> (y = size s /\ qc s2 y = q) \/ (y < size s /\ qc s2 y = qc s y)).
  { intros y Hy. destruct (B3 y) as (_ & -> & _). unfold qc, s1.
    destruct (Nat.eq_dec y (size s)) as [->|N]; [left | right].
    - now rewrite app_new. - split; [lia|]. now rewrite app_old by lia. }
  assert (LQ : length (m_qcs s2) = length (m_qcs s) + length qs).
  { rewrite B2. unfold s1, appended. cbn [m_qcs]. now rewrite app_length. }
  assert (Tn : nth (size s) (tf ++ [nth o tf 0]) 0 = nth o tf 0) by (rewrite i2; apply nth_snoc_new).
  assert (Fn : nth (size s) (sf ++ [nth o sf 0]) 0 = nth o sf 0) by (rewrite i3; apply nth_snoc_new).
  assert (Tl : forall y, y < size s -> nth y (tf ++ [nth o tf 0]) 0 = nth y tf 0) by (intros; apply nth_snoc_old; lia).
  assert (Fl : forall y, y < size s -> nth y (sf ++ [nth o sf 0]) 0 = nth y sf 0) by (intros; apply nth_snoc_old; lia).
  split; try (rewrite B1, Z, app_length; cbn; lia).
  - intros y. destruct (B3 y) as (-> & _). unfold mkind, s1. rewrite app_obj.
    destruct (Nat.eqb_spec y (size s)) as [->|N].
    + now rewrite i1, nth_snoc_new.
    + destruct (Nat.lt_ge_cases y (size s)) as [H|H].
      * rewrite nth_snoc_old by lia. apply i4.
      * rewrite unknown_obj by lia. rewrite nth_overflow; [reflexivity|]. rewrite app_length. cbn. lia.
  - intros y Hy. rewrite B1, Z in Hy. rewrite LQ. destruct (Q y Hy) as [[_ ->]|[H ->]].
    + destruct Hq as [[-> E]| ->]; [lia|]. pose proof (i5 o Ho). lia.
    + pose proof (i5 y H). lia.
  - intros y z Hy Hz. rewrite B1, Z in *. apply I in Hz.
    assert (H1 : In z (sibs s1 y) -> z < S (size s) /\ nth z (tf ++ [nth o tf 0]) 0 = nth y (tf ++ [nth o tf 0]) 0 /\
                 nth z (sf ++ [nth o sf 0]) 0 = nth y (sf ++ [nth o sf 0]) 0).
    { intros H. destruct (Nat.eq_dec y (size s)) as [->|N]; [rewrite Sn in H; destruct H|].
      rewrite Sl in H by lia. destruct (i6 y z) as (E1 & E2 & E3); [lia | exact H|].
      rewrite !Tl, !Fl by lia. repeat split; auto. }
    assert (H2 : In y (sibs s o) -> y < size s /\ nth y tf 0 = nth o tf 0 /\ nth y sf 0 = nth o sf 0) by (apply i6; exact Ho).
    assert (H3 : In z (sibs s o) -> z < size s /\ nth z tf 0 = nth o tf 0 /\ nth z sf 0 = nth o sf 0) by (apply i6; exact Ho).
    destruct Hz as [Hz|[(-> & [Hz | [-> | ->]])|[[-> | Hz] ->]]].
    + now apply H1.
    + destruct (H3 Hz) as (E1 & E2 & E3). rewrite Tn, Fn, Tl, Fl by lia. auto.
    + rewrite Tn, Fn, Tl, Fl by lia. auto.
    + rewrite Tn, Fn. auto.
    + rewrite Tn, Fn, Tl, Fl by lia. auto.
    + destruct (H2 Hz) as (E1 & E2 & E3). rewrite Tn, Fn, Tl, Fl by lia. auto.
  - intros y p c Hy Hp. rewrite B1, Z in Hy. destruct (B3 y) as (_ & _ & E). rewrite E in Hp.
    unfold parent, s1 in Hp. destruct (Nat.eq_dec y (size s)) as [->|N]; [rewrite app_new in Hp; discriminate|].
    rewrite app_old in Hp by lia. destruct (i7 y p c) as (E1 & E2 & E3); [lia | exact Hp|].
    rewrite !Tl, !Fl by lia. auto.
  - intros y z Hy Hz E. rewrite B1, Z in *.
    assert (W : forall w, w < size s -> q = qc s w -> nth w tf 0 = nth o tf 0).
    { intros w Hw Ew. destruct Hq as [[-> _]| ->]; [pose proof (i5 w Hw); lia|]. now apply i8. }
    destruct (Q y Hy) as [[-> Ey]|[Hy' Ey]], (Q z Hz) as [[-> Ez]|[Hz' Ez]].
    + reflexivity.
    + rewrite Tn, Tl by lia. symmetry. apply W; auto. congruence.
    + rewrite Tn, Tl by lia. apply W; auto. congruence.
    + rewrite !Tl by lia. apply i8; auto. congruence.
  - intros y z Hy Hz N E. rewrite B1, Z in *. apply I.
    destruct (Nat.eq_dec y (size s)) as [->|Ny], (Nat.eq_dec z (size s)) as [->|Nz]; [easy | | |].
    + rewrite Fn, Fl in E by lia. right. left. split; auto.
      destruct (Nat.eq_dec z o) as [->|Nzo]; [now right; left|]. left. apply i9; auto; lia.
    + rewrite Fn, Fl in E by lia. right. right. split; auto.
      destruct (Nat.eq_dec y o) as [->|Nyo]; [now left|]. right. apply i9; auto; lia.
    + rewrite !Fl in E by lia. left. rewrite Sl by lia. apply i9; auto; lia.
  - intros y Hy. rewrite B1, Z in Hy. destruct (Nat.eq_dec y (size s)) as [->|N].
    + rewrite Fn. pose proof (i10 o Ho). lia.
    + rewrite Fl by lia. apply i10. lia. Qed.

(** ** In-place calls *)

Lemma touched_inv P ks tf sf s s' : inv ks tf sf s -> touched P s s' -> inv ks tf sf s'.
Proof. intros [i1 i2 i3 i4 i5 i6 i7 i8 i9 i10] T.
  split; try (rewrite (same_size T); assumption).
  - intros o. now rewrite (same_kind T).
  - eapply touched_pointed; eauto.
  - intros o x. rewrite (same_size T), (same_sibs T). apply i6.
  - intros o p c. rewrite (same_size T), (same_parent T). apply i7.
  - intros x y. rewrite (same_size T). intros Hx Hy E.
    destruct (apart T (fun o => nth o tf 0)) with (x := x) (y := y) as [E'|E']; auto.
    intros o z Ho Hz. now destruct (i6 o z Ho Hz).
  - intros x y. rewrite (same_size T), (same_sibs T). apply i9. Qed.

Lemma closed_tf ks tf sf s a : inv ks tf sf s -> closed (fun x => nth x tf 0 = a) s.
Proof. intros I o Ho E. split.
  - intros x Hx. destruct (i_sibs I x Ho Hx) as (_ & E1 & _). now rewrite E1.
  - intros p c Hp. destruct (i_par I Ho Hp) as (H1 & H2 & _). split; [lia | congruence]. Qed.

Lemma closed_sf ks tf sf s k : inv ks tf sf s -> closed (fun x => nth x sf 0 < k) s.
Proof. intros I o Ho E. split.
  - intros x Hx. destruct (i_sibs I x Ho Hx) as (_ & _ & E1). now rewrite E1.
  - intros p c Hp. destruct (i_par I Ho Hp) as (H1 & H2 & H3). split; [lia|].
    assert (Hps : p < size s) by lia. pose proof (i_rep I Hps). lia. Qed.

(** Relabelling changes the query compiler where it is. *)
Lemma relabel_inv ks tf sf (s : mst) o t : inv ks tf sf s -> inv ks tf sf (relabel o t s).
Proof. intros I. unfold relabel. destruct (known s o); [|exact I].
  destruct I as [i1 i2 i3 i4 i5 i6 i7 i8 i9 i10]. split; auto.
  intros x Hx. cbn [m_qcs]. rewrite length_put. apply i5. exact Hx. Qed.

Lemma relabel_read ks tf sf (s : mst) o t x : inv ks tf sf s -> x < size s ->
  nth x tf 0 <> nth o tf 0 -> mread (relabel o t s) x = mread s x.
Proof. intros I Hx N. unfold relabel. destruct (known s o) eqn:K; [|reflexivity].
  unfold mread, known. cbn [m_objs m_qcs]. fold (size s).
  change (mobject (MSt (put (m_qc (mobject s o)) t (m_qcs s)) (m_objs s)) x) with (mobject s x).
  destruct (x <? size s); [|reflexivity]. apply nth_put_other. intros E. apply N.
  apply (i_qc I); auto. unfold known in K. apply Nat.ltb_lt in K. exact K. Qed.

End Inv.

Section History.
Variables (L A : Type) (leqb : L -> L -> bool) (nan zero : A) (lab : nat -> L).
Notation table := (table L A).
Notation op := (op L A).
Notation mst := (mst L A).
Notation update := (update leqb nan zero).
Notation update_inplace := (update_inplace leqb nan zero).
Notation m_step := (m_step leqb nan zero lab).
Notation m_run := (m_run leqb nan zero lab).

Lemma update_unknown o t (s : mst) fuel : size s <= o -> m_objs (update fuel o t s) = m_objs s.
Proof. clear lab. intros H. assert (E : m_objs (replace_qc s o t) = m_objs s).
  { apply nth_ext with (d := mdead) (d' := mdead); [apply length_numbered|].
    intros x Hx. change (mobject (replace_qc s o t) x = mobject s x).
    change (x < size (replace_qc s o t)) in Hx. rewrite replace_size in Hx. rewrite replace_obj.
    assert (Es : sibs s o = []) by (unfold sibs; now rewrite unknown_obj).
    rewrite Es. cbn [existsb]. destruct (Nat.eqb_spec x o); [lia|]. now rewrite andb_false_r. }
  destruct fuel; cbn [AliModel.update]; auto. unfold mkind. rewrite unknown_obj by lia. exact E. Qed.

Lemma update_unknown_touched P o t s fuel : size s <= o -> pointed s -> touched P s (update fuel o t s).
Proof. clear lab. intros H Pt. pose proof (update_unknown t s fuel H) as E.
  assert (M : exists ext, m_qcs (update fuel o t s) = m_qcs s ++ ext).
  { exists [t]. destruct fuel; cbn [AliModel.update]; auto. unfold mkind. rewrite unknown_obj by lia. reflexivity. }
  assert (O : forall x, mobject (update fuel o t s) x = mobject s x) by (intros; unfold mobject; now rewrite E).
  split; auto; unfold mkind, sibs, parent, qc, size; intros; rewrite ?O in *; auto.
  now rewrite E. Qed.

Lemma update_inv ks tf sf (s : mst) o t : inv ks tf sf s ->
  touched (fun x => nth x tf 0 = nth o tf 0) s (update_inplace o t s).
Proof. clear lab. intros I. unfold AliModel.update_inplace. destruct (Nat.lt_ge_cases o (size s)) as [H|H].
  - apply update_touched; auto; [apply I | eapply closed_tf; eauto].
  - apply update_unknown_touched; [exact H | apply I]. Qed.

Lemma update_seen ks tf sf (s : mst) o t x : inv ks tf sf s -> o < size s -> x < size s ->
  nth x sf 0 = nth o sf 0 -> mread (update_inplace o t s) x = t.
Proof. clear lab. intros I Ho Hx E. unfold AliModel.update_inplace.
  apply update_read with (P := fun y => nth y sf 0 < nth o sf 0); auto.
  - apply I.
  - eapply closed_sf; eauto.
  - intros p c Hp. destruct (i_par I Ho Hp) as (H1 & H2 & H3). split; [lia|].
    assert (Hps : p < size s) by lia. pose proof (i_rep I Hps). lia.
  - destruct (Nat.eq_dec o x) as [->|N]; [now left|]. right. apply (i_cover I); auto.
  - rewrite E. lia. Qed.

(** ** Every history *)

Lemma nth_tf_default (l : list nat) o d : o < length l -> nth o l d = nth o l 0.
Proof. intros H. now apply nth_indep. Qed.

Lemma step_inv (h : list op) x s : inv (kinds h) (fams true h) (fams false h) s ->
  inv (kinds (h ++ [x])) (fams true (h ++ [x])) (fams false (h ++ [x])) (m_step s x).
Proof. intros I. rewrite kinds_snoc, !fams_snoc. unfold kind_step.
  pose proof (i_kind I) as K. pose proof (i_tf I) as Tl. pose proof (i_sf I) as Sl.
  assert (CR : forall k t a, inv (kinds h ++ [k]) (fams true h ++ [a]) (fams false h ++ [length (fams false h)])
                               (create s k t None)).
  { intros k t a. rewrite <- Sl. apply create_inv; [exact I | discriminate]. }
  assert (CP : forall k t o c, o < size s ->
             inv (kinds h ++ [k]) (fams true h ++ [nth o (fams true h) (length (fams true h))])
                 (fams false h ++ [length (fams false h)]) (create s k t (Some (o, c)))).
  { intros k t o c Ho. rewrite <- Sl. apply create_inv; [exact I|]. intros p c' [= <- <-]. split; auto.
    symmetry. apply nth_tf_default. lia. }
  assert (LK : forall k qs q o, o < size s -> (q = length (m_qcs s) /\ length qs = 1 \/ q = qc s o) ->
             inv (kinds h ++ [k]) (fams true h ++ [nth o (fams true h) (length (fams true h))])
                 (fams false h ++ [nth o (fams false h) (length (fams false h))])
                 (add_sibling (appended s qs (MObj k q [] None)) o (size s))).
  { intros k qs q o Ho Hq. rewrite (nth_tf_default (fams true h)), (nth_tf_default (fams false h)) by lia.
    now apply link_inv. }
  assert (UN : forall k t o, size s <= o ->
             inv (kinds h ++ [k]) (fams true h ++ [nth o (fams true h) (length (fams true h))])
                 (fams false h ++ [nth o (fams false h) (length (fams false h))]) (create s k t None)).
  { intros k t o Ho. rewrite (nth_overflow (fams false h)) by lia. apply CR. }
  assert (KN : forall o, known s o = true -> o < size s) by (intros o; apply Nat.ltb_lt).
  assert (KU : forall o, known s o = false -> size s <= o) by (intros o; apply Nat.ltb_ge).
  assert (ND : forall o t, t_cols (mread s o) <> t -> t = [] -> o < size s).
  { intros o t N ->. unfold mread in N. destruct (known s o) eqn:E; [now apply KN | now elim N]. }
  destruct x as [k t|o|o|o|o|o l|o j|o a b|o i j v|o l vals|o kk|o ls|o ls];
    cbn [creates shares made AliModel.m_step]; try (rewrite <- K).
  - apply CR.
  - apply CR.
  - destruct (known s o) eqn:E.
    + destruct (mkind s o) eqn:Ek; cbn [is_array].
      1, 2: rewrite <- (app_nil_r (m_qcs s)) at 1; apply (LK _ []); [now apply KN | now right].
      apply (LK _ [_]); [now apply KN | now left].
    + apply UN. now apply KU.
  - destruct (is_frame (mkind s o)) eqn:Ek.
    + destruct (known s o) eqn:E; [apply (LK _ [_]); [now apply KN | now left] | apply UN; now apply KU].
    + apply CR.
  - destruct (known s o) eqn:E; [apply (LK _ [_]); [now apply KN | now left] | apply UN; now apply KU].
  - destruct (is_frame (mkind s o)); [|apply CR].
    destruct (times leqb l (t_names (mread s o))) as [|[|n]]; try apply CR.
    destruct (where_ leqb l (t_names (mread s o))) as [j|]; [|apply CR].
    destruct (nth_error (t_cols (mread s o)) j) as [c|] eqn:En; [|apply CR].
    apply CP. apply (ND o []); auto. intros C. rewrite C in En. now destruct j.
  - destruct (is_frame (mkind s o)); [|apply CR].
    destruct (nth_error (t_cols (mread s o)) j) as [c|] eqn:En; [|apply CR].
    destruct (nth_error (t_names (mread s o)) j) as [l|]; [|apply CR].
    apply CP. apply (ND o []); auto. intros C. rewrite C in En. now destruct j.
  - destruct (is_series (mkind s o)); [|apply CR].
    destruct (t_cols (mread s o)) as [|c [|c' r]] eqn:Ec; try apply CR.
    apply CP. apply (ND o []); auto. now rewrite Ec.
  - destruct (in_table i j (mread s o)); [|exact I]. eapply touched_inv; [exact I | eapply update_inv; exact I].
  - destruct (_ && _); [|exact I]. eapply touched_inv; [exact I | eapply update_inv; exact I].
  - destruct (is_array _); [exact I|]. eapply touched_inv; [exact I | eapply update_inv; exact I].
  - destruct (_ && _); [|exact I]. now apply relabel_inv.
  - destruct (_ && _); [|exact I]. now apply relabel_inv. Qed.

Lemma run_snoc (h : list op) x : m_run (h ++ [x]) = m_step (m_run h) x.
Proof. unfold AliModel.m_run. now rewrite fold_left_app. Qed.

Lemma run_inv (h : list op) : inv (kinds h) (fams true h) (fams false h) (m_run h).
Proof. induction h as [|x h IH] using rev_ind.
  - split; cbn; auto; try (intros; lia); try (intros; unfold size in *; cbn in *; lia).
    + now intros [|o].
    + intros o Ho. cbn in Ho. lia.
  - rewrite run_snoc. now apply step_inv. Qed.

End History.
