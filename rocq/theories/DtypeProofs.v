(** Soundness of single descriptor operations. *)
From Verif Require Import Base DtypeSpec DtypeModel.

Inductive subseq {A} : list A -> list A -> Prop :=
| subseq_nil l : subseq [] l
| subseq_keep x k l : subseq k l -> subseq (x :: k) (x :: l)
| subseq_drop x k l : subseq k l -> subseq k (x :: l).

Lemma subseq_incl {A} (k l : list A) : subseq k l -> incl k l.
Proof. induction 1; intros y Hy; [destruct Hy | destruct Hy as [->|Hy]; [now left | right; auto] | right; auto]. Qed.
Lemma subseq_refl {A} (l : list A) : subseq l l.
Proof. induction l; now constructor. Qed.
Lemma subseq_app {A} (k k' l l' : list A) : subseq k l -> subseq k' l' -> subseq (k ++ k') (l ++ l').
Proof. induction 1; intros S; cbn; [|constructor; auto..].
  induction l; cbn; [assumption | now constructor]. Qed.
Lemma subseq_filter {A} (p : A -> bool) l : subseq (filter p l) l.
Proof. induction l as [|x l IH]; cbn; [constructor|]. destruct (p x); now constructor. Qed.
Lemma subseq_map {A B} (f : A -> B) k l : subseq k l -> subseq (map f k) (map f l).
Proof. induction 1; cbn; now constructor. Qed.
Lemma subseq_NoDup {A} (k l : list A) : subseq k l -> NoDup l -> NoDup k.
Proof. induction 1 as [|x k l S IH|x k l S IH]; intros N; [constructor| |]; inversion_clear N as [|? ? N1 N2].
  - constructor; [intros I; apply N1; revert I; apply (subseq_incl S) | auto].
  - auto. Qed.
Lemma subseq_full {A B} (k l : list (A * B)) :
  subseq k l -> NoDup (map fst l) -> incl (map fst l) (map fst k) -> k = l.
Proof. induction 1 as [[|x l]|x k l S IH|x k l S IH]; intros N I.
  - reflexivity.
  - destruct (I (fst x)); now left.
  - f_equal. inversion_clear N as [|? ? N1 N2]. apply IH; [assumption|]. intros c Hc.
    destruct (I c); [now right| |assumption]. subst c. contradiction.
  - exfalso. inversion_clear N as [|? ? N1 N2]. apply N1.
    assert (J : In (fst x) (map fst k)) by (apply I; now left).
    apply in_map_iff in J as [y [E J]]. rewrite <- E. apply in_map. now apply (subseq_incl S). Qed.

Section Proofs.
  Context {H T : Type}.
  Variable hdec : forall a b : H, {a = b} + {a <> b}.
  Notation has := (has hdec).
  Notation dup := (dup hdec).
  Notation dtype_of := (dtype_of hdec).
  Notation dupdate := (dupdate hdec).
  Notation columns_order := (columns_order hdec).
  Notation init := (init hdec).
  Notation desc := (@desc H T).

  Lemma has_true c l : has c l = true <-> In c l.
  Proof. unfold DtypeModel.has. destruct (in_dec hdec c l); split; (easy || congruence). Qed.
  Lemma has_false c l : has c l = false <-> ~ In c l.
  Proof. unfold DtypeModel.has. destruct (in_dec hdec c l); split; (easy || congruence). Qed.
  Lemma dup_false l : dup l = false <-> NoDup l.
  Proof. unfold DtypeModel.dup. rewrite negb_false_iff, Nat.eqb_eq. split.
    - intros E. apply (@NoDup_incl_NoDup _ (nodup hdec l) l); [apply NoDup_nodup | lia |].
      intros x Hx. now apply nodup_In in Hx.
    - intros N. now rewrite nodup_fixed_point. Qed.

  Lemma dtype_of_some c t (cs : list (H * T)) : dtype_of c cs = Some t -> In (c, t) cs.
  Proof. induction cs as [|[c' t'] cs IH]; cbn; [discriminate|].
    destruct (hdec c c') as [->|]; [intros [= ->]; now left | auto]. Qed.
  Lemma dtype_of_in c t (cs : list (H * T)) : NoDup (header cs) -> In (c, t) cs -> dtype_of c cs = Some t.
  Proof. induction cs as [|[c' t'] cs IH]; cbn; [easy|]. intros N. inversion_clear N as [|? ? N1 N2].
    intros [[= -> ->]|I]; [now destruct (hdec c c)|]. destruct (hdec c c') as [->|]; [|auto].
    destruct N1. now apply (in_map fst) in I. Qed.
  Lemma dtype_of_none c (cs : list (H * T)) : dtype_of c cs = None <-> ~ In c (header cs).
  Proof. induction cs as [|[c' t'] cs IH]; cbn; [easy|].
    destruct (hdec c c') as [->|n]; [split; [discriminate | intros X; destruct X; now left]|].
    rewrite IH. split; [intros X [->|Y]; [now apply n | now apply X] | tauto]. Qed.
  Lemma header_in c (cs : list (H * T)) : In c (header cs) -> exists t, In (c, t) cs.
  Proof. intros I. apply in_map_iff in I as [[c' t] [E I]]. cbn in E. subst. now exists t. Qed.
  Lemma in_header c t (cs : list (H * T)) : In (c, t) cs -> In c (header cs).
  Proof. intros I. now apply (in_map fst) in I. Qed.
  Lemma header_fun c t t' (cs : list (H * T)) : NoDup (header cs) -> In (c, t) cs -> In (c, t') cs -> t = t'.
  Proof. intros N I I'. apply (@dtype_of_in c t cs N) in I. apply (@dtype_of_in c t' cs N) in I'. congruence. Qed.

  Lemma dset_new d c (t : T) : ~ In c (map fst d) -> dset hdec d c t = d ++ [(c, t)].
  Proof. induction d as [|[c' t'] d IH]; cbn; [reflexivity|]. intros N.
    destruct (hdec c c') as [->|]; [destruct N; now left | now rewrite IH by tauto]. Qed.
  Lemma dupdate_new (d l : list (H * T)) :
    NoDup (map fst l) -> (forall c, In c (map fst l) -> ~ In c (map fst d)) -> dupdate d l = d ++ l.
  Proof. unfold DtypeModel.dupdate. revert d. induction l as [|[c t] l IH]; intros d N D; cbn; [now rewrite app_nil_r|].
    inversion_clear N as [|? ? N1 N2]. rewrite dset_new by (apply D; now left). rewrite IH; [now rewrite <- app_assoc | assumption |].
    intros x Hx. rewrite map_app, in_app_iff. cbn. intros [J|[->|[]]]; [|now apply N1].
    apply (D x); [now right | assumption]. Qed.

  (** What a descriptor knows, and that all of it is true of a frame with columns [cs]. *)
  Definition names (d : desc) : list H := map fst (known d) ++ unknown d.
  Record sound (d : desc) (cs : list (H * T)) : Prop := Sound {
    s_truth : NoDup (header cs);
    s_names : NoDup (names d);
    s_known : incl (known d) cs;
    s_unknown : incl (unknown d) (header cs);
    s_rem : forall r, remaining d = Some r -> forall c t, In (c, t) cs -> ~ In c (names d) -> t = r;
    s_all : know_all d = true -> remaining d = None -> incl (header cs) (names d);
    s_schema : schema d = true -> unknown d = [] /\ remaining d = None /\ incl (header cs) (names d) /\ know_all d = true;
    s_order : forall o, order d = Some o -> o = header cs /\ know_all d = true /\ incl (header cs) (names d);
    s_knowrem : know_all d = false -> remaining d = None }.
  (** Its parent frame really has the described columns (and only these, unless the order is already known). *)
  Definition attached (d : desc) (cs : list (H * T)) : Prop :=
    forall f, parent d = Some f ->
      NoDup (header (ftruth f)) /\ incl cs (ftruth f) /\
      (order d = None \/ remaining d <> None -> ftruth f = cs).
  Definition inorder (d : desc) (cs : list (H * T)) : Prop := subseq (known d) cs.

  Lemma names_incl d cs : incl (known d) cs -> incl (unknown d) (header cs) -> incl (names d) (header cs).
  Proof. intros K U c Hc. apply in_app_iff in Hc as [Hc|Hc]; [|auto].
    apply in_map_iff in Hc as [ct [<- Hc]]. apply in_map. auto. Qed.

  Lemma names_length d cs : sound d cs -> length (names d) <= length (header cs).
  Proof. intros S. apply NoDup_incl_length; [apply (s_names S)|]. now apply names_incl; destruct S. Qed.

  Lemma names_full d cs : sound d cs -> ~ length (names d) < length (header cs) -> incl (header cs) (names d).
  Proof. intros S L. apply NoDup_length_incl; [apply (s_names S) | lia |]. now apply names_incl; destruct S. Qed.

  Definition missing (d : desc) (cs : list (H * T)) : list H :=
    filter (fun c => negb (has c (map fst (known d))) && negb (has c (unknown d))) (header cs).
  Lemma in_missing d cs c : In c (missing d cs) <-> In c (header cs) /\ ~ In c (names d).
  Proof. unfold missing, names. rewrite filter_In, andb_true_iff, !negb_true_iff, !has_false, in_app_iff. tauto. Qed.
  Lemma missing_NoDup d cs : NoDup (header cs) -> NoDup (missing d cs).
  Proof. intros N. now apply NoDup_filter. Qed.

  (** The columns described by the remaining dtype come after the known ones. *)
  Definition tidy (d : desc) (cs : list (H * T)) : Prop :=
    forall r, remaining d = Some r -> subseq (known d ++ map (fun c => (c, r)) (missing d cs)) cs.

  (** Appending columns of the frame that were not listed. *)
  Lemma NoDup_app_disjoint {A} (a b : list A) :
    NoDup a -> NoDup b -> (forall x, In x a -> ~ In x b) -> NoDup (a ++ b).
  Proof. induction 1 as [|x a N1 N2 IH]; intros NB D; cbn; [assumption|]. constructor.
    - rewrite in_app_iff. intros [J|J]; [contradiction|]. apply (D x); [now left | assumption].
    - apply IH; [assumption|]. intros y Hy. apply D. now right. Qed.
  Lemma NoDup_app_inv {A} (a b : list A) : NoDup (a ++ b) -> NoDup a /\ NoDup b /\ (forall x, In x a -> ~ In x b).
  Proof. induction a as [|x a IH]; cbn; intros N; [split; [constructor|easy]|].
    inversion_clear N as [|? ? N1 N2]. destruct (IH N2) as (A1 & A2 & A3). rewrite in_app_iff in N1.
    split; [constructor; tauto|]. split; [assumption|]. intros y [->|Hy]; [tauto | auto]. Qed.

  Lemma dupdate_missing (d : desc) cs r : sound d cs ->
    dupdate (known d) (map (fun c => (c, r)) (missing d cs)) = known d ++ map (fun c => (c, r)) (missing d cs).
  Proof. intros S. apply dupdate_new; rewrite map_map; cbn; rewrite map_id.
    - apply missing_NoDup, (s_truth S).
    - intros c Hc. apply in_missing in Hc as [_ Hc]. unfold names in Hc. rewrite in_app_iff in Hc. tauto. Qed.

  Lemma columns_order_sound d cs : sound d cs -> attached d cs -> sound (columns_order d) cs.
  Proof. intros S A. unfold DtypeModel.columns_order. destruct (order d) as [o|] eqn:EO; [assumption|].
    destruct (parent d) as [f|] eqn:EP; [|assumption]. destruct (fmat f) eqn:EM; [|assumption].
    assert (E : ftruth f = cs) by (apply (A f EP); now left). rewrite E.
    fold (missing d cs).
    assert (LN : length (names d) = length (known d) + length (unknown d)) by (unfold names; now rewrite app_length, map_length).
    destruct (length (known d) + length (unknown d) <? length (header cs)) eqn:L.
    - destruct (remaining d) as [r|] eqn:ER.
      + rewrite (dupdate_missing r S). destruct (length (unknown d) =? 0) eqn:EU;
        (split; unfold names; cbn [known unknown schema know_all remaining order parent];
          rewrite ?map_app, ?map_map, ?map_id; cbn [fst]; rewrite ?map_id).
        all: try (intros; discriminate).
        all: try apply S.
        all: try (intros _ _).
        all: assert (FULL : incl (header cs) ((map fst (known d) ++ missing d cs) ++ unknown d))
            by (intros c Hc; rewrite !in_app_iff; destruct (in_dec hdec c (names d)) as [I|I];
                [unfold names in I; rewrite in_app_iff in I; tauto | left; right; now apply in_missing]).
        all: try (intros o [= <-]; split; [reflexivity | split; [reflexivity | assumption]]).
        all: try assumption.
        all: try (intros ct Hct; apply in_app_iff in Hct as [Hct|Hct]; [now apply (s_known S)|];
                  apply in_map_iff in Hct as [c [<- Hc]]; apply in_missing in Hc as [Hc N];
                  apply header_in in Hc as [t Ht]; rewrite <- (s_rem S ER c t Ht N); exact Ht).
        all: try (apply (Permutation_NoDup (l := (map fst (known d) ++ unknown d) ++ missing d cs));
                  [rewrite <- !app_assoc; apply Permutation_app_head, Permutation_app_comm|];
                  apply NoDup_app_disjoint; [apply (s_names S) | apply missing_NoDup, (s_truth S) |];
                  intros c Hc Hc'; apply in_missing in Hc' as [_ N]; now apply N).
        * intros _. apply Nat.eqb_eq in EU. apply length_zero_iff_nil in EU. split; [assumption|]. now split.
        * intros X. destruct (s_schema S X) as (_ & X' & _). congruence.
      + assert (FULL : incl (header cs) (map fst (known d) ++ unknown d ++ missing d cs))
            by (intros c Hc; rewrite !in_app_iff; destruct (in_dec hdec c (names d)) as [I|I];
                [unfold names in I; rewrite in_app_iff in I; tauto | right; right; now apply in_missing]).
        split; unfold names; cbn [known unknown schema know_all remaining order parent]; try apply S; try easy.
        * rewrite app_assoc. apply NoDup_app_disjoint; [apply (s_names S) | apply missing_NoDup, (s_truth S) |].
          intros c Hc Hc'. apply in_missing in Hc' as [_ N]. now apply N.
        * intros c Hc. apply in_app_iff in Hc as [Hc|Hc]; [now apply (s_unknown S)|]. now apply in_missing in Hc.
        * intros X. destruct (s_schema S X) as (X1 & X2 & X3 & X4).
          assert (EM' : missing d cs = []).
          { destruct (missing d cs) as [|c l] eqn:EQ; [reflexivity|]. exfalso.
            assert (I : In c (missing d cs)) by (rewrite EQ; now left). apply in_missing in I as [I1 I2]. auto. }
          rewrite X1, EM'. split; [reflexivity|]. split; [reflexivity|]. cbn. rewrite app_nil_r.
          unfold names in X3. rewrite X1, app_nil_r in X3. now split.
        * intros o [= <-]. now split.
    - apply Nat.ltb_ge in L.
      assert (FULL : incl (header cs) (names d)) by (apply (names_full S); lia).
      split; unfold names; cbn [known unknown schema know_all remaining order parent]; try apply S; try easy.
      + intros X. destruct (s_schema S X) as (X1 & X2 & X3 & _). now repeat split.
      + intros o [= <-]. now split. Qed.

  Lemma columns_order_remaining (d : desc) r : remaining (columns_order d) = Some r -> remaining d = Some r.
  Proof. unfold DtypeModel.columns_order. destruct (order d); [easy|]. destruct (parent d) as [f|]; [|easy].
    destruct (fmat f); [|easy]. destruct (_ <? _); [|easy]. destruct (remaining d); cbn; congruence. Qed.
  Lemma columns_order_parent (d : desc) : parent (columns_order d) = parent d.
  Proof. unfold DtypeModel.columns_order. destruct (order d); [easy|]. destruct (parent d) as [f|] eqn:E; [|easy].
    destruct (fmat f); [|easy]. destruct (_ <? _); [|easy]. now destruct (remaining d). Qed.
  Lemma columns_order_order (d : desc) o : order d = Some o -> columns_order d = d.
  Proof. unfold DtypeModel.columns_order. now intros ->. Qed.

  Lemma columns_order_attached d cs : attached d cs -> attached (columns_order d) cs.
  Proof. intros A f. rewrite columns_order_parent. intros EP. destruct (A f EP) as (A1 & A2 & A3).
    split; [assumption|]. split; [assumption|]. intros X. apply A3.
    destruct (order d) as [o|] eqn:EO; [|now left].
    rewrite (columns_order_order _ EO) in X. rewrite EO in X. destruct X; [discriminate | now right]. Qed.

  Lemma subseq_map_filter (cs : list (H * T)) (p : H -> bool) r :
    (forall c t, In (c, t) cs -> p c = true -> t = r) ->
    subseq (map (fun c => (c, r)) (filter p (header cs))) cs.
  Proof. induction cs as [|[c t] cs IH]; cbn; intros E; [constructor|].
    assert (S : subseq (map (fun c => (c, r)) (filter p (header cs))) cs) by (apply IH; intros; eapply E; eauto).
    destruct (p c) eqn:P; cbn; [|now constructor].
    rewrite (E c t); [now constructor | now left | assumption]. Qed.

  Lemma columns_order_inorder d cs :
    sound d cs -> attached d cs -> tidy d cs -> inorder d cs -> inorder (columns_order d) cs.
  Proof. intros S A TD I. unfold inorder, DtypeModel.columns_order. destruct (order d) as [o|] eqn:EO; [assumption|].
    destruct (parent d) as [f|] eqn:EP; [|assumption]. destruct (fmat f) eqn:EM; [|assumption].
    assert (E : ftruth f = cs) by (apply (A f EP); now left). rewrite E.
    destruct (_ <? _); [|exact I]. fold (missing d cs).
    destruct (remaining d) as [r|] eqn:ER; [|exact I]. cbn. rewrite (dupdate_missing r S). now apply TD. Qed.
  Lemma columns_order_tidy d cs : tidy d cs -> tidy (columns_order d) cs.
  Proof. intros TD r R. pose proof (columns_order_remaining _ R) as R'. revert R.
    unfold DtypeModel.columns_order. destruct (order d); [intros _; now apply TD|]. destruct (parent d); [|intros _; now apply TD].
    destruct (fmat f); [|intros _; now apply TD]. destruct (_ <? _); [|intros _; now apply TD].
    rewrite R'. discriminate. Qed.

  (** [__init__] adds nothing untrue: the arguments describe the frame. *)
  Lemma init_sound kn un rem par ord know sch d cs :
    init kn un rem par ord know sch = Ok d ->
    let k := match kn with Some k => k | None => [] end in
    let u := match un with Some u => u | None => [] end in
    NoDup (header cs) -> (forall c, In c (map fst k) -> ~ In c u) -> incl k cs -> incl u (header cs) ->
    (forall r, rem = Some r -> forall c t, In (c, t) cs -> ~ In c (map fst k ++ u) -> t = r) ->
    (know = true -> rem = None -> incl (header cs) (map fst k ++ u)) ->
    (sch = Some true -> u = [] /\ rem = None /\ incl (header cs) (map fst k ++ u) /\ know = true) ->
    (forall o, ord = Some o -> o = header cs) ->
    (forall f, par = Some f -> NoDup (header (ftruth f)) /\ incl cs (ftruth f) /\ (ord = None -> ftruth f = cs)) ->
    sound d cs /\ attached d cs /\ (ord = None -> exists d0, d = columns_order d0 /\ sound d0 cs /\ attached d0 cs /\
      known d0 = k /\ unknown d0 = u /\ remaining d0 = rem) /\
    (forall o, ord = Some o -> known d = k /\ unknown d = u /\ remaining d = None /\ order d = Some o /\ parent d = par).
  Proof. intros E k u NT DJ IK IU IR IA IS IO IP. unfold DtypeModel.init in E. fold k u in E.
    destruct (negb know && _) eqn:E1; [discriminate|].
    destruct (dup (map fst k)) eqn:E2; [discriminate|]. apply dup_false in E2.
    destruct (dup u) eqn:E3; [discriminate|]. apply dup_false in E3.
    set (s := match sch with Some s => s | None => _ end) in E.
    assert (NN : NoDup (map fst k ++ u)) by now apply NoDup_app_disjoint.
    assert (SS : s = true -> u = [] /\ rem = None /\ incl (header cs) (map fst k ++ u) /\ know = true).
    { unfold s. destruct sch as [b|]; [intros ->; now apply IS|]. destruct un as [u'|]; [|discriminate].
      destruct rem as [r|]; [discriminate|]. destruct know; [|discriminate]. cbn. destruct (is_nil k) eqn:EK; [discriminate|].
      cbn. intros X. destruct u' as [|? ?]; [|discriminate].
      split; [reflexivity|]. split; [reflexivity|]. split; [now apply IA | reflexivity]. }
    assert (KR : know = false -> rem = None) by (intros ->; destruct rem; [discriminate | reflexivity]).
    destruct ord as [o|].
    - destruct rem; [discriminate|]. destruct know; [|discriminate]. cbn [negb] in E.
      destruct (length o =? length u + length k) eqn:EL; [|discriminate]. cbn [negb] in E. injection E as <-.
      split; [|split; [|split]].
      + split; unfold names; cbn; try assumption; try easy. intros o' [= <-]. split; [now apply IO|]. split; [reflexivity | now apply IA].
      + intros f. cbn. intros EP. destruct (IP f EP) as (P1 & P2 & P3). split; [assumption|]. split; [assumption|].
        intros [X|X]; [discriminate | now destruct X].
      + discriminate.
      + intros o' [= <-]. cbn. repeat (split; [reflexivity|]). reflexivity.
    - injection E as <-. set (d0 := Desc k u s know rem par None).
      assert (S0 : sound d0 cs) by (split; unfold names; cbn; try assumption; easy).
      assert (A0 : attached d0 cs).
      { intros f. cbn. intros EP. destruct (IP f EP) as (P1 & P2 & P3). split; [assumption|]. split; [assumption|]. intros _. now apply P3. }
      split; [now apply columns_order_sound|]. split; [now apply columns_order_attached|]. split; [|discriminate].
      intros _. exists d0. split; [reflexivity|]. split; [exact S0|]. split; [exact A0|]. repeat (split; [reflexivity|]). reflexivity. Qed.
End Proofs.
