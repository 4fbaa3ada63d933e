(** The machinery: which objects an update touches, and what sibling lists contain after any history. *)
From Verif Require Import Base AliSpec AliModel.

Lemma nth_put_same X i (x d : X) l : i < length l -> nth i (put i x l) d = x.
Proof. revert i; induction l as [|y l IH]; intros [|i] H; cbn in *; try lia; auto. apply IH; lia. Qed.
Lemma nth_put_other X i k (x d : X) l : k <> i -> nth k (put i x l) d = nth k l d.
Proof. revert i k; induction l as [|y l IH]; intros [|i] [|k] H; cbn in *; try lia; auto. Qed.
Lemma length_put X i (x : X) l : length (put i x l) = length l.
Proof. revert i; induction l as [|y l IH]; intros [|i]; cbn; auto. Qed.
Lemma put_out X i (x : X) l : length l <= i -> put i x l = l.
Proof. revert i; induction l as [|y l IH]; intros [|i] H; cbn in *; try lia; auto. f_equal. apply IH; lia. Qed.

Lemma combine_seq_nth X (l : list X) d : forall a o, o < length l ->
  nth o (combine (seq a (length l)) l) (a + o, d) = (a + o, nth o l d).
Proof. induction l as [|x l IH]; intros a [|o] H; cbn in *; try lia.
  - f_equal; lia.
  - replace (a + S o) with (S a + o) by lia. apply IH. lia. Qed.

Lemma nth_numbered X (f : nat * X -> X) (l : list X) d o :
  nth o (map f (combine (seq 0 (length l)) l)) d = if o <? length l then f (o, nth o l d) else d.
Proof. destruct (Nat.ltb_spec o (length l)) as [H|H].
  - rewrite (nth_indep _ d (f (o, d))) by (rewrite map_length, combine_length, seq_length; lia).
    rewrite (map_nth f). f_equal. exact (combine_seq_nth l d 0 H).
  - apply nth_overflow. rewrite map_length, combine_length, seq_length. lia. Qed.
Lemma length_numbered X (f : nat * X -> X) (l : list X) :
  length (map f (combine (seq 0 (length l)) l)) = length l.
Proof. rewrite map_length, combine_length, seq_length. lia. Qed.

Section Proofs.
Variables (L A : Type).
Notation mst := (mst L A).

Definition size (s : mst) : nat := length (m_objs s).
Definition sibs (s : mst) (o : nat) : list nat := m_sibs (mobject s o).
Definition qc (s : mst) (o : nat) : nat := m_qc (mobject s o).
Definition parent (s : mst) (o : nat) := m_parent (mobject s o).
Definition pointed (s : mst) : Prop := forall o, o < size s -> qc s o < length (m_qcs s).

(** What an update may do, [P] being the objects it may touch. *)
Record touched (P : nat -> Prop) (s s' : mst) : Prop := {
  same_size : size s' = size s;
  same_kind : forall o, mkind s' o = mkind s o;
  same_sibs : forall o, sibs s' o = sibs s o;
  same_parent : forall o, parent s' o = parent s o;
  more_qcs : exists ext, m_qcs s' = m_qcs s ++ ext;
  outside : forall o, ~ P o -> qc s' o = qc s o;
  new_or_old : forall o, qc s' o = qc s o \/ length (m_qcs s) <= qc s' o < length (m_qcs s');
  apart : forall f : nat -> nat, (forall o x, o < size s -> In x (sibs s o) -> f x = f o) ->
          forall x y, x < size s -> y < size s -> qc s' x = qc s' y -> qc s x = qc s y \/ f x = f y
}.

Lemma touched_refl P s : touched P s s.
Proof. split; auto. exists []. now rewrite app_nil_r. Qed.

Lemma touched_trans P s1 s2 s3 : touched P s1 s2 -> touched P s2 s3 -> touched P s1 s3.
Proof. intros [a1 a2 a3 a4 [e1 a5] a6 a7 a8] [b1 b2 b3 b4 [e2 b5] b6 b7 b8]. split.
  - congruence.
  - intros o. now rewrite b2.
  - intros o. now rewrite b3.
  - intros o. now rewrite b4.
  - exists (e1 ++ e2). now rewrite b5, a5, app_assoc.
  - intros o H. now rewrite b6, a6.
  - assert (Le : length (m_qcs s1) <= length (m_qcs s2)) by (rewrite a5, app_length; lia).
    assert (Le' : length (m_qcs s2) <= length (m_qcs s3)) by (rewrite b5, app_length; lia).
    intros o. destruct (b7 o) as [E|E]; [|right; lia]. rewrite E.
    destruct (a7 o) as [E'|E']; [now left | right; lia].
  - intros f Hf x y Hx Hy E.
    assert (Hf2 : forall o z, o < size s2 -> In z (sibs s2 o) -> f z = f o).
    { intros o z Ho Hz. rewrite a3 in Hz. rewrite a1 in Ho. auto. }
    rewrite <- a1 in Hx, Hy. destruct (b8 f Hf2 x y Hx Hy E) as [E'|E']; [|now right].
    rewrite a1 in Hx, Hy. now apply a8. Qed.

Lemma touched_weaken (P Q : nat -> Prop) s s' : (forall o, P o -> Q o) -> touched P s s' -> touched Q s s'.
Proof. intros W [a1 a2 a3 a4 a5 a6 a7 a8]. split; auto. Qed.

Lemma touched_pointed P s s' : touched P s s' -> pointed s -> pointed s'.
Proof. intros T H o Ho. rewrite (same_size T) in Ho. destruct (more_qcs T) as [e E].
  destruct (new_or_old T o) as [Q|Q]; [|lia]. rewrite Q, E, app_length. pose proof (H o Ho). lia. Qed.

Lemma touched_read P s s' : touched P s s' -> pointed s -> forall o, ~ P o -> mread s' o = mread s o.
Proof. intros T H o N. unfold mread, known. fold (size s') (size s). rewrite (same_size T).
  destruct (Nat.ltb_spec o (size s)) as [Ho|Ho]; [|reflexivity].
  fold (qc s' o) (qc s o). rewrite (outside T o N). destruct (more_qcs T) as [e ->].
  rewrite app_nth1; [reflexivity | now apply H]. Qed.

Lemma replace_size s o t : size (replace_qc s o t) = size s.
Proof. apply length_numbered. Qed.

Lemma replace_obj s o t x : mobject (replace_qc s o t) x =
  if (x <? size s) && existsb (Nat.eqb x) (o :: sibs s o)
  then MObj (mkind s x) (length (m_qcs s)) (sibs s x) (parent s x) else mobject s x.
Proof. unfold mobject at 1, replace_qc. cbn [m_objs].
  rewrite nth_numbered. fold (size s). destruct (Nat.ltb_spec x (size s)) as [H|H]; cbn [andb fst snd].
  - reflexivity.
  - symmetry. apply nth_overflow. exact H. Qed.

Lemma existsb_in x l : existsb (Nat.eqb x) l = true <-> In x l.
Proof. rewrite existsb_exists. split.
  - intros (y & H & E). apply Nat.eqb_eq in E. now subst.
  - intros H. exists x. split; auto. apply Nat.eqb_refl. Qed.

Lemma replace_touched (P : nat -> Prop) s o t :
  o < size s -> P o -> (forall x, In x (sibs s o) -> P x) -> pointed s -> touched P s (replace_qc s o t).
Proof. intros Ho Po Ps Pt.
  assert (Hq : forall x, qc (replace_qc s o t) x = qc s x /\ (x < size s -> ~ In x (o :: sibs s o)) \/
                         x < size s /\ In x (o :: sibs s o) /\ qc (replace_qc s o t) x = length (m_qcs s)).
  { intros x. unfold qc. rewrite replace_obj. destruct (Nat.ltb_spec x (size s)) as [H|H]; cbn [andb].
    - destruct (existsb _ _) eqn:E; [right | left].
      + split; [exact H|]. split; [now apply existsb_in | reflexivity].
      + split; [reflexivity|]. intros _ C. apply existsb_in in C. congruence.
    - left. split; [reflexivity|]. intros C. lia. }
  split.
  - apply replace_size.
  - intros x. unfold mkind. rewrite replace_obj. now destruct (_ && _).
  - intros x. unfold sibs. rewrite replace_obj. now destruct (_ && _).
  - intros x. unfold parent. rewrite replace_obj. now destruct (_ && _).
  - exists [t]. reflexivity.
  - intros x N. destruct (Hq x) as [[E _]|(H & I & E)]; [exact E|]. exfalso. apply N.
    destruct I as [<- | I]; auto.
  - intros x. destruct (Hq x) as [[E _]|(H & I & E)]; [now left|]. right. rewrite E.
    unfold replace_qc. cbn [m_qcs]. rewrite app_length. cbn [length]. lia.
  - intros f Hf x y Hx Hy E. pose proof (Pt x Hx). pose proof (Pt y Hy).
    destruct (Hq x) as [[Ex Nx]|(_ & Ix & Ex)], (Hq y) as [[Ey Ny]|(_ & Iy & Ey)].
    + left. congruence.
    + lia.
    + lia.
    + right. assert (G : forall z, In z (o :: sibs s o) -> f z = f o).
      { intros z [<- | I]; auto. }
      now rewrite (G x Ix), (G y Iy). Qed.

Lemma replace_read s o t x : In x (o :: sibs s o) -> x < size s -> mread (replace_qc s o t) x = t.
Proof. intros I H. unfold mread, known. fold (size (replace_qc s o t)). rewrite replace_size.
  destruct (Nat.ltb_spec x (size s)); [|lia]. rewrite replace_obj.
  destruct (Nat.ltb_spec x (size s)); [|lia]. apply existsb_in in I. rewrite I. cbn [andb m_qc].
  unfold replace_qc. cbn [m_qcs]. rewrite app_nth2, Nat.sub_diag by lia. reflexivity. Qed.

(** [P] is closed under siblings and parents. *)
Definition closed (P : nat -> Prop) (s : mst) : Prop :=
  forall o, o < size s -> P o ->
    (forall x, In x (sibs s o) -> P x) /\ (forall p c, parent s o = Some (p, c) -> p < size s /\ P p).

Lemma touched_closed P Q s s' : touched Q s s' -> closed P s -> closed P s'.
Proof. intros T C o Ho Po. rewrite (same_size T) in Ho. destruct (C o Ho Po) as [C1 C2]. split.
  - intros x. rewrite (same_sibs T). apply C1.
  - intros p c. rewrite (same_parent T), (same_size T). apply C2. Qed.

(** ** Siblings *)

Lemma more_obj s o l x : mobject (more_sibs s o l) x =
  if (x <? size s) && (x =? o) then MObj (mkind s x) (qc s x) (sibs s x ++ l) (parent s x) else mobject s x.
Proof. unfold mobject at 1, more_sibs. cbn [m_objs]. rewrite nth_numbered. fold (size s).
  destruct (Nat.ltb_spec x (size s)) as [H|H]; cbn [andb fst snd]; [reflexivity|].
  symmetry. apply nth_overflow. exact H. Qed.

(** Two states that differ in sibling lists alone. *)
Definition but_sibs (s s' : mst) : Prop :=
  size s' = size s /\ m_qcs s' = m_qcs s /\
  forall x, mkind s' x = mkind s x /\ qc s' x = qc s x /\ parent s' x = parent s x.

Lemma more_but s o l : but_sibs s (more_sibs s o l).
Proof. split; [apply length_numbered|]. split; [reflexivity|].
  intros x. unfold mkind, qc, parent. rewrite more_obj. now destruct (_ && _). Qed.
Lemma but_trans s1 s2 s3 : but_sibs s1 s2 -> but_sibs s2 s3 -> but_sibs s1 s3.
Proof. intros (a & b & c) (a' & b' & c'). split; [congruence|]. split; [congruence|].
  intros x. destruct (c x) as (e1 & e2 & e3), (c' x) as (f1 & f2 & f3). rewrite f1, f2, f3. auto. Qed.

Lemma more_in s o l x z : o < size s ->
  (In z (sibs (more_sibs s o l) x) <-> In z (sibs s x) \/ x = o /\ In z l).
Proof. intros Ho. unfold sibs at 1. rewrite more_obj.
  destruct (Nat.eqb_spec x o) as [->|N].
  - destruct (Nat.ltb_spec o (size s)); [|lia]. cbn [andb m_sibs]. rewrite in_app_iff. intuition.
  - rewrite andb_false_r. unfold sibs. intuition. Qed.

Lemma fold_more sib : forall ws s,
  (forall w, In w ws -> w < size s) ->
  but_sibs s (fold_left (fun st x => more_sibs st x [sib]) ws s) /\
  forall x z, In z (sibs (fold_left (fun st x => more_sibs st x [sib]) ws s) x) <->
              In z (sibs s x) \/ In x ws /\ z = sib.
Proof. induction ws as [|w ws IH]; intros s H; cbn [fold_left].
  - split; [split; auto|]. intros x z. cbn. intuition.
  - pose proof (more_but s w [sib]) as B. destruct (IH (more_sibs s w [sib])) as [B' I].
    { intros y Hy. destruct B as (-> & _). apply H. now right. }
    split; [eapply but_trans; eauto|]. intros x z. rewrite I, more_in by (apply H; now left). cbn. intuition. Qed.

Lemma add_ok s self sib : self < size s -> sib < size s -> self <> sib -> sibs s sib = [] ->
  (forall x, In x (sibs s self) -> x < size s) ->
  but_sibs s (add_sibling s self sib) /\
  forall x z, In z (sibs (add_sibling s self sib) x) <->
    In z (sibs s x) \/
    x = sib /\ (In z (sibs s self) \/ z = self \/ z = sib) \/
    (x = self \/ In x (sibs s self)) /\ z = sib.
Proof. intros H1 H2 N E Hs. unfold add_sibling. fold (sibs s self).
  set (old := sibs s self) in *.
  set (s1 := more_sibs s sib (old ++ [self])). pose proof (more_but s sib (old ++ [self])) as B1. fold s1 in B1.
  set (s2 := more_sibs s1 self [sib]). pose proof (more_but s1 self [sib]) as B2. fold s2 in B2.
  assert (Z1 : size s1 = size s) by apply B1. assert (Z2 : size s2 = size s) by (destruct B2 as [-> _]; exact Z1).
  destruct (fold_more sib (old ++ [sib] ++ repeat sib (length (filter (fun x => x =? self) old))) s2) as [B3 I].
  { intros w Hw. rewrite Z2. rewrite !in_app_iff in Hw. destruct Hw as [Hw|[[<-|[]]|Hw]]; auto.
    apply repeat_spec in Hw. now subst. }
  split; [eapply but_trans; [exact B1|]; eapply but_trans; eauto|].
  intros x z. rewrite I. unfold s2. rewrite more_in by (rewrite Z1; exact H1).
  unfold s1. rewrite more_in by exact H2. rewrite !in_app_iff. cbn [In].
  assert (R : forall n, In x (repeat sib n) -> x = sib) by (intros n; apply repeat_spec).
  specialize (R (length (filter (fun x => x =? self) old))).
  intuition (subst; auto). Qed.

End Proofs.

Section Update.
Variables (L A : Type) (leqb : L -> L -> bool) (nan zero : A).
Notation mst := (mst L A).
Notation update := (update leqb nan zero).
Notation give_back := (give_back leqb nan zero).

Lemma give_back_touched (P : nat -> Prop) upd o p c s :
  pointed s -> closed P s -> p < size s -> P p ->
  (forall t s1, pointed s1 -> closed P s1 -> size s1 = size s -> touched P s1 (upd p t s1)) ->
  touched P s (give_back upd o p c s).
Proof. intros Pt C Hp Pp U. unfold give_back, AliModel.give_back.
  destruct (t_names (mread s o)) as [|name r]; [apply touched_refl|].
  destruct c.
  - destruct (_ <=? 1); [|apply touched_refl]. destruct (_ =? 0); [apply touched_refl|].
    destruct (align _ _ _ _ _); [now apply U | apply touched_refl].
  - destruct (has_cells _); [|apply touched_refl].
    assert (S : forall s1, pointed s1 -> closed P s1 -> size s1 = size s ->
      touched P s1 (match where_ leqb name (t_rows (mread s1 p)) with
          | Some i =>
              if (length (t_cols (mread s1 p)) =? 1) && negb (length (t_rows (mread s1 p)) =? 1) then
                match align leqb nan [name] (t_rows (mread s o)) (first_col (mread s o)) with
                | Some vals => upd p (row_set i vals (mread s1 p)) s1
                | None => s1
                end
              else
                match align leqb nan (t_names (mread s1 p)) (t_rows (mread s o)) (first_col (mread s o)) with
                | Some vals => upd p (row_set i vals (mread s1 p)) s1
                | None => s1
                end
          | None => s1
          end)).
    { intros s1 Q1 Q2 Q3. destruct (where_ _ _ _); [|apply touched_refl].
      destruct (_ && _); destruct (align _ _ _ _ _); try apply touched_refl; now apply U. }
    destruct (times leqb name (t_rows (mread s p))) as [|[|k]]; [| now apply S | apply touched_refl].
    destruct (forallb _ _); [|apply touched_refl].
    assert (T : touched P s (upd p (row_added zero name (mread s p)) s)) by now apply U.
    eapply touched_trans; [exact T|]. apply S.
    + eapply touched_pointed; eauto.
    + eapply touched_closed; eauto.
    + now rewrite (same_size T). Qed.

Lemma update_touched (P : nat -> Prop) : forall fuel o t s,
  pointed s -> closed P s -> o < size s -> P o -> touched P s (update fuel o t s).
Proof. induction fuel as [|fuel IH]; intros o t s Pt C Ho Po; cbn [AliModel.update].
  - apply replace_touched; auto. now apply C.
  - assert (T : touched P s (replace_qc s o t)) by (apply replace_touched; auto; now apply C).
    destruct (mkind s o); auto. destruct (m_parent (mobject s o)) as [[p c]|] eqn:Ep; auto.
    destruct (C o Ho Po) as [_ Cp]. destruct (Cp p c Ep) as [Hp Pp].
    eapply touched_trans; [exact T|]. apply give_back_touched; auto.
    + eapply touched_pointed; eauto.
    + eapply touched_closed; eauto.
    + now rewrite replace_size.
    + intros t1 s1 Q1 Q2 Q3. apply IH; auto. rewrite Q3, replace_size. exact Hp. Qed.

(** After an update of [o], [o] and its siblings show the new table, provided giving it back to the parent
    touches none of them. *)
Lemma update_read (P : nat -> Prop) fuel o t s x :
  pointed s -> closed P s -> o < size s -> (forall p c, parent s o = Some (p, c) -> p < size s /\ P p) ->
  In x (o :: sibs s o) -> x < size s -> ~ P x -> mread (update fuel o t s) x = t.
Proof. intros Pt C Ho Pp Ix Hx Nx. destruct fuel as [|fuel]; cbn [AliModel.update].
  - now apply replace_read.
  - destruct (mkind s o); try now apply replace_read.
    destruct (m_parent (mobject s o)) as [[p c]|] eqn:Ep; [|now apply replace_read].
    assert (T0 : touched (fun _ => True) s (replace_qc s o t)) by (apply replace_touched; auto).
    destruct (Pp p c Ep) as [Hp Pp'].
    assert (T : touched P (replace_qc s o t) (give_back (update fuel) o p c (replace_qc s o t))).
    { apply give_back_touched; auto.
      - eapply touched_pointed; eauto.
      - eapply touched_closed; eauto.
      - now rewrite replace_size.
      - intros t1 s1 Q1 Q2 Q3. apply update_touched; auto. rewrite Q3, replace_size. exact Hp. }
    rewrite (touched_read T); auto; [now apply replace_read|]. eapply touched_pointed; eauto. Qed.

End Update.
