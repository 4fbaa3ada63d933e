(** Registrations for other backends, and the module (C77). *)
From Verif Require Import Base ExtSpec ExtModel ExtProofs.

Section Isolation.
Variables (norm : nat -> nat) (reserved : nat -> bool) (own : cls -> nat -> option attr).
Notation run := (run norm reserved own).
Notation step := (step norm reserved).

Lemma find_stays s r c n e : find s c n = Some e -> exists e', find (step s r) c n = Some e'.
Proof. unfold find. intros F. destruct (step_dict norm reserved s r c n) as [-> | (-> & _)]; eauto.
  destruct (dict s c n); eauto. destruct (above c) as [k|]; [|discriminate].
  destruct (step_dict norm reserved s r k n) as [-> | (-> & _)]; eauto. Qed.

Definition taken (h : list reg) (c : cls) (n : nat) : Prop :=
  (exists k, in_mro c k /\ own k n <> None) \/ method_registered h c n.

Lemma taken_find h c n : reserved n = false -> taken h c n -> exists e, find (run h) c n = Some e.
Proof. intros R [(k & [-> | A] & O) | M].
  - destruct (native_entry reserved own c n) as [e|] eqn:N.
    + exists e. unfold find. now rewrite (native_stays norm reserved own h c n N).
    + unfold native_entry in N. rewrite R in N. destruct (own c n) as [[]|]; congruence.
  - destruct (native_entry reserved own k n) as [e|] eqn:N.
    + unfold find. destruct (dict (run h) c n); eauto. rewrite A. exists e. exact (native_stays norm reserved own h k n N).
    + unfold native_entry in N. rewrite R in N. destruct (own k n) as [[]|]; congruence.
  - induction h as [|r h IH] using rev_ind; [destruct M as (? & [] & _)|]. rewrite run_snoc.
    destruct M as (q & Iq & Eq & En & Em). apply in_app_iff in Iq. destruct Iq as [Iq | [<- | []]].
    + destruct IH as (e & E); [exists q; auto|]. exact (find_stays _ _ _ _ E).
    + destruct (find (run h) c n) as [e|] eqn:F; [exact (find_stays _ _ _ _ F)|].
      destruct r as [c' b' n' a]. cbn in *. subst c' n'. unfold ExtModel.step, register. rewrite R, F.
      exists (Wrapper c). unfold find. cbn. rewrite (proj2 (cls_eqb_ok c c) eq_refl), Nat.eqb_refl.
      destruct a; try discriminate Em. reflexivity. Qed.

Lemma other_backend no_lookup h r b' c b n column empty ip :
  r_backend r = Some b' -> norm b' <> b ->
  r_name r <> n \/ is_value (r_attr r) = true \/ taken h (r_cls r) n ->
  access no_lookup (run (h ++ [r])) c b n column empty ip = access no_lookup (run h) c b n column empty ip.
Proof. intros Hb Nb Q. rewrite run_snoc. destruct (reserved (r_name r)) eqn:R; [now rewrite step_reserved|].
  assert (D : forall k, dict (step (run h) r) k n = dict (run h) k n).
  { intros k. destruct (step_dict norm reserved (run h) r k n) as [-> | (_ & F & <- & <- & _ & Ca & _)]; auto.
    exfalso. destruct Q as [Q | [Q | Q]]; auto.
    - destruct (r_attr r); discriminate.
    - destruct (@taken_find h _ _ R Q) as (e & E). congruence. }
  assert (G : forall k, get_extension (step (run h) r) k b n = get_extension (run h) k b n).
  { intros k. destruct r as [c' ob n' a]. cbn in *. subst ob. unfold ExtModel.step, register. rewrite R. unfold get_extension. cbn.
    rewrite (proj2 (Nat.eqb_neq _ _) Nb). rewrite ?andb_false_r. reflexivity. }
  unfold access, from_extension, find, call_wrapper. rewrite !D, !G.
  destruct (above c) as [k|]; rewrite ?G, ?D; auto.
  - destruct (if no_lookup n then None else _); auto.
    destruct (dict (run h) c n) as [[k'|]|]; rewrite ?G; auto.
    + destruct (empty && ip); auto. destruct (get_extension (run h) k' b n) as [[|k2]|]; rewrite ?G; auto.
    + destruct (dict (run h) k n) as [[k'|]|]; rewrite ?G; auto.
      destruct (empty && ip); auto. destruct (get_extension (run h) k' b n) as [[|k2]|]; rewrite ?G; auto.
  - destruct (if no_lookup n then None else _); auto.
    destruct (dict (run h) c n) as [[k'|]|]; rewrite ?G; auto.
    destruct (empty && ip); auto. destruct (get_extension (run h) k' b n) as [[|k2]|]; rewrite ?G; auto. Qed.

Lemma plain_dict h c n : (forall r, In r h -> r_cls r = c -> r_name r = n -> exists i, r_attr r = Property i) ->
  (forall k a, in_mro c k -> own k n = Some a -> exists i, a = Property i) ->
  dict (run h) c n = option_map Plain (own c n).
Proof. intros Rg O.
  assert (N : native_entry reserved own c n = option_map Plain (own c n)).
  { unfold native_entry. destruct (reserved n); auto. destruct (own c n) as [a|] eqn:E.
    - destruct (O c a) as (i & ->); [now left | exact E | reflexivity].
    - destruct (above c) as [k|] eqn:A; auto. destruct (own k n) as [a|] eqn:E2; auto.
      destruct (O k a) as (i & ->); [now right | exact E2 | reflexivity]. }
  destruct (own c n) as [a|] eqn:E; [exact (native_stays norm reserved own h c n N)|].
  destruct (dict (run h) c n) as [e|] eqn:D; auto. exfalso.
  assert (Ok : forall r, In r h -> r_cls r = c -> r_name r = n -> ok_attr (r_attr r)).
  { intros r I1 I2 I3. destruct (Rg r I1 I2 I3) as (i & ->). reflexivity. }
  destruct (dict_cases norm reserved own h Ok D) as [X | (_ & (r & I1 & I2 & I3 & M) & _)]; [cbn in N; congruence|].
  destruct (Rg r I1 I2 I3) as (i & Ei). rewrite Ei in M. discriminate M. Qed.

Lemma assign h c b n column : c <> BaseClass ->
  (forall r, In r h -> in_mro c (r_cls r) -> r_name r = n -> exists i, r_attr r = Property i) ->
  (forall k a, in_mro c k -> own k n = Some a -> exists i, a = Property i) ->
  registered norm reserved h c b n <> None \/ registered norm reserved h BaseClass b n = None \/
    (own c n = None /\ (column = false \/ own BaseClass n <> None)) ->
  (match c with FrameClass => set_frame (run h) b n column | _ => set_series (run h) b n end) =
  match c, wanted norm reserved own h c b n with
  | SeriesClass, None => InObject
  | _, _ => promised_set norm reserved own h c b n column
  end.
Proof. intros Nb Rg O Q.
  assert (A : above c = Some BaseClass) by (destruct c; [exfalso; now apply Nb | reflexivity | reflexivity]).
  assert (Dc : dict (run h) c n = option_map Plain (own c n)).
  { apply plain_dict; [|exact O]. intros r I1 I2 I3. apply (Rg r I1); [now left | exact I3]. }
  assert (Db : dict (run h) BaseClass n = option_map Plain (own BaseClass n)).
  { apply plain_dict; [|]. - intros r I1 I2 I3. apply (Rg r I1); [right; congruence | exact I3].
    - intros k a [-> | X]; [|discriminate X]. apply O. now right. }
  assert (Ob : forall a, own BaseClass n = Some a -> exists i, a = Property i) by (intros a; apply O; now right).
  assert (Oc : forall a, own c n = Some a -> exists i, a = Property i) by (intros a; apply O; now left).
  assert (Nc : native_impl reserved own c n = None).
  { unfold native_impl. destruct (reserved n); auto. destruct (own c n) as [a|]; [destruct (Oc a eq_refl) as (i & ->); auto|].
    rewrite A. destruct (own BaseClass n) as [a|]; auto. destruct (Ob a eq_refl) as (i & ->); auto. }
  assert (Nb' : native_impl reserved own BaseClass n = None).
  { unfold native_impl. destruct (reserved n); auto. destruct (own BaseClass n) as [a|]; auto. destruct (Ob a eq_refl) as (i & ->); auto. }
  assert (Gc : forall a, registered norm reserved h c b n = Some a -> exists i, a = Property i).
  { intros a X. destruct (@registered_in norm reserved own _ _ _ _ _ X) as (_ & r & I1 & I2 & I3 & <-). apply (Rg r I1); [left; exact I2 | exact I3]. }
  assert (Gb : forall a, registered norm reserved h BaseClass b n = Some a -> exists i, a = Property i).
  { intros a X. destruct (@registered_in norm reserved own _ _ _ _ _ X) as (_ & r & I1 & I2 & I3 & <-). apply (Rg r I1); [right; congruence | exact I3]. }
  unfold promised_set, wanted, at_class. rewrite A.
  destruct c; [congruence | unfold set_frame | unfold set_series]; unfold find; cbn [above] in *;
    rewrite ?get_run, Dc, ?Db, Nc, ?Nb';
    match goal with |- context[registered _ _ h ?c b n] => match c with BaseClass => fail 1 | _ => destruct (registered norm reserved h c b n) as [a|] eqn:Rc end end;
    try (destruct (Gc a eq_refl) as (i & ->); reflexivity); cbn [first];
    destruct (registered norm reserved h BaseClass b n) as [a|] eqn:Rb; cbn [first];
    try (destruct (Gb a eq_refl) as (i & ->)).
  all: destruct Q as [Q | [Q | (Q1 & Q2)]]; try congruence.
  all: try rewrite Q1 in *; cbn [first option_map] in *.
  all: try (destruct (own FrameClass n) as [a1|]; [destruct (Oc a1 eq_refl) as (i1 & ->)|]); cbn [first option_map] in *.
  all: try (destruct (own SeriesClass n) as [a1|]; [destruct (Oc a1 eq_refl) as (i1 & ->)|]); cbn [first option_map] in *.
  all: try (destruct (own BaseClass n) as [a2|]; [destruct (Ob a2 eq_refl) as (i2 & ->)|]); cbn [first option_map] in *.
  all: try reflexivity; try (destruct column; reflexivity).
  all: destruct Q2 as [-> | Q2]; try congruence; reflexivity. Qed.
End Isolation.

Section Module_.
Variables (norm : nat -> nat) (reserved : nat -> bool) (own_pd : nat -> option attr).
Notation pd_run := (pd_run norm reserved own_pd).
Notation latest_pd := (latest_pd norm reserved).

Lemma pd_run_snoc h r : pd_run (h ++ [r]) = pd_register norm reserved (pd_run h) r.
Proof. unfold ExtModel.pd_run. now rewrite fold_left_app. Qed.
Lemma latest_pd_snoc h b' n' a b n : latest_pd (h ++ [(b', n', a)]) b n =
  if opt_eqb (option_map norm b') b && (n' =? n) && negb (reserved n) then Some a else latest_pd h b n.
Proof. unfold ExtSpec.latest_pd. now rewrite fold_left_app. Qed.

Lemma pd_ext_run h b n : pd_ext (pd_run h) b n =
  first (latest_pd h b n) (match b, own_pd n with None, Some (Meth i) => Some (Meth i) | _, _ => None end).
Proof. induction h as [|[[b' n'] a] h IH] using rev_ind; [reflexivity|]. rewrite pd_run_snoc, latest_pd_snoc. unfold pd_register.
  destruct (reserved n') eqn:R.
  - destruct (_ && _ && _) eqn:E; [|exact IH]. rewrite !andb_true_iff, Nat.eqb_eq, negb_true_iff in E. destruct E as ((_ & <-) & E). congruence.
  - cbn [pd_ext]. destruct (opt_eqb _ b && (n' =? n)) eqn:E; [|exact IH].
    rewrite !andb_true_iff, Nat.eqb_eq in E. destruct E as (_ & <-). rewrite R. reflexivity. Qed.

Lemma pd_functions h b n : (forall a, own_pd n = Some a -> is_method a = true) ->
  (forall b' a, In (b', n, a) h -> is_method a = true) ->
  pd_access (pd_run h) b n = promised_pd norm reserved own_pd h b n.
Proof. intros O Rg.
  assert (I : pd_dict (pd_run h) n = Some PdWrapper \/
              (pd_dict (pd_run h) n = None /\ own_pd n = None /\ reexports (pd_run h) n = None /\
               forall b, latest_pd h b n = None)).
  { induction h as [|[[b' n'] a] h IH] using rev_ind.
    - cbn. destruct (own_pd n) as [a|] eqn:E; [left | right; auto]. specialize (O a eq_refl). destruct a; auto; discriminate O.
    - rewrite pd_run_snoc. assert (Rg' : forall b' a, In (b', n, a) h -> is_method a = true) by (intros; eapply Rg; rewrite in_app_iff; eauto).
      specialize (IH Rg'). unfold pd_register. destruct (reserved n') eqn:R.
      + destruct IH as [IH | (D & On & Re & La)]; [now left | right]. repeat split; auto. intros b0. rewrite latest_pd_snoc, La.
        destruct (_ && _ && _) eqn:E; auto. rewrite !andb_true_iff, Nat.eqb_eq, negb_true_iff in E. destruct E as ((_ & <-) & E). congruence.
      + cbn [pd_dict reexports]. destruct (Nat.eqb_spec n' n) as [->|Nn].
        * assert (M : is_method a = true) by (eapply (Rg b'); rewrite in_app_iff; cbn; auto). destruct a; try discriminate M. cbn [callable is_class negb].
          rewrite !andb_true_r. left. cbn [andb].
          destruct IH as [-> | (-> & _)]; destruct (pd_ext (pd_run h) b' n); cbn; rewrite ?Nat.eqb_refl; reflexivity.
        * rewrite !andb_false_r. destruct IH as [IH | (D & On & Re & La)]; [now left | right]. repeat split; auto.
          intros b0. rewrite latest_pd_snoc, La. apply Nat.eqb_neq in Nn. rewrite Nn, andb_false_r. reflexivity. }
  unfold pd_access, promised_pd. destruct I as [-> | (-> & On & -> & La)].
  - unfold pd_entry_seen, pd_call_wrapper. rewrite !pd_ext_run.
    assert (K : forall b a, latest_pd h b n = Some a -> call a = seen_as a).
    { clear O b. induction h as [|[[b' n'] a'] h IH] using rev_ind; [discriminate|]. intros b a. rewrite latest_pd_snoc.
      destruct (_ && _ && _) eqn:E.
      - intros [= <-]. rewrite !andb_true_iff, Nat.eqb_eq in E. destruct E as ((_ & ->) & _).
        assert (M : is_method a' = true) by (eapply (Rg b'); rewrite in_app_iff; cbn; auto). destruct a'; try discriminate M; auto.
      - apply IH. intros; eapply Rg; rewrite in_app_iff; eauto. }
    destruct (latest_pd h (Some b) n) as [a|] eqn:E1; cbn [first]; [eauto|].
    destruct (latest_pd h None n) as [a|] eqn:E2; cbn [first]; [eauto|].
    destruct (own_pd n) as [a|] eqn:E3; auto. specialize (O a eq_refl). destruct a; auto; discriminate O.
  - rewrite !pd_ext_run, !La, On. reflexivity. Qed.

Lemma pd_values h b n : (forall a, own_pd n = Some a -> is_method a = false) ->
  (forall b' a, In (b', n, a) h -> is_value a = true \/ exists i, a = Cls i) ->
  pd_access (pd_run h) b n = promised_pd norm reserved own_pd h b n.
Proof. intros O Rg.
  assert (On : forall ob, match ob : option nat, own_pd n with None, Some (Meth i) => Some (Meth i) | _, _ => None end = None).
  { intros ob. destruct ob; auto. destruct (own_pd n) as [a|]; auto. specialize (O a eq_refl). destruct a; auto; discriminate O. }
  assert (X : forall h ob, pd_ext (pd_run h) ob n = latest_pd h ob n).
  { intros h0 ob. rewrite pd_ext_run, On. destruct (latest_pd h0 ob n); reflexivity. }
  assert (I : (pd_dict (pd_run h) n = option_map PdPlain (own_pd n) /\ reexports (pd_run h) n = None /\ forall b, latest_pd h b n = None) \/
              (pd_dict (pd_run h) n = None /\ reexports (pd_run h) n = option_map PdPlain (own_pd n))).
  { induction h as [|[[b' n'] a] h IH] using rev_ind.
    - left. cbn. repeat split. destruct (own_pd n) as [a|]; auto. specialize (O a eq_refl). destruct a; auto; discriminate O.
    - rewrite pd_run_snoc. assert (Rg' : forall b' a, In (b', n, a) h -> is_value a = true \/ exists i, a = Cls i) by (intros; eapply Rg; rewrite in_app_iff; eauto).
      specialize (IH Rg'). unfold pd_register. destruct (reserved n') eqn:R.
      + destruct IH as [(D & Re & La) | IH]; [left | now right]. repeat split; auto. intros b0. rewrite latest_pd_snoc, La.
        destruct (_ && _ && _) eqn:E; auto. rewrite !andb_true_iff, Nat.eqb_eq, negb_true_iff in E. destruct E as ((_ & <-) & E). congruence.
      + cbn [pd_dict reexports]. destruct (Nat.eqb_spec n' n) as [->|Nn].
        * assert (NW : callable a && negb (is_class a) = false).
          { destruct (Rg b' a) as [V|(i & ->)]; [rewrite in_app_iff; cbn; auto| |reflexivity]. destruct a; try discriminate V; reflexivity. }
          replace (callable a && _ && negb (is_class a)) with false
            by (symmetry; destruct (callable a); auto; destruct (is_class a); [now rewrite andb_false_r | discriminate NW]).
          cbn [andb]. right. rewrite !andb_true_r. rewrite X.
          destruct IH as [(-> & Re & La) | (-> & ->)].
          { rewrite La. cbn [first]. destruct (own_pd n) as [a0|]; cbn [option_map]; rewrite ?Nat.eqb_refl; auto. }
          { destruct (latest_pd h b' n); cbn [first]; auto. }
        * rewrite !andb_false_r. destruct IH as [(D & Re & La) | IH]; [left | now right]. repeat split; auto.
          intros b0. rewrite latest_pd_snoc, La. apply Nat.eqb_neq in Nn. rewrite Nn, andb_false_r. reflexivity. }
  unfold pd_access, promised_pd. rewrite !X.
  destruct I as [(-> & -> & La) | (-> & ->)].
  - rewrite !La. cbn [first]. destruct (own_pd n) as [a|]; auto.
  - destruct (latest_pd h (Some b) n); cbn [first]; auto. destruct (latest_pd h None n); cbn [first]; auto.
    destruct (own_pd n); auto. Qed.
End Module_.
