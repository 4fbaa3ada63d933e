(** Proofs about the extension system (C77). *)
From Verif Require Import Base ExtSpec ExtModel.

Lemma cls_eqb_ok a b : cls_eqb a b = true <-> a = b.
Proof. destruct a, b; cbn; split; congruence. Qed.
Lemma opt_eqb_ok a b : opt_eqb a b = true <-> a = b.
Proof. destruct a, b; cbn; rewrite ?Nat.eqb_eq; split; congruence. Qed.

Section Facts.
Variables (norm : nat -> nat) (reserved : nat -> bool) (own : cls -> nat -> option attr).
Notation latest := (latest norm reserved).
Notation run := (run norm reserved own).
Notation step := (step norm reserved).
Notation registered := (registered norm reserved).

Lemma run_snoc h r : run (h ++ [r]) = step (run h) r.
Proof. unfold ExtModel.run. now rewrite fold_left_app. Qed.
Lemma latest_snoc h r c b n : latest (h ++ [r]) c b n =
  if cls_eqb (r_cls r) c && opt_eqb (option_map norm (r_backend r)) b && (r_name r =? n) && negb (reserved n)
  then Some (r_attr r) else latest h c b n.
Proof. unfold ExtSpec.latest. now rewrite fold_left_app. Qed.

Lemma latest_in h c b n a : latest h c b n = Some a ->
  reserved n = false /\ exists r, In r h /\ r_cls r = c /\ option_map norm (r_backend r) = b /\ r_name r = n /\ r_attr r = a.
Proof. induction h as [|r h IH] using rev_ind; [discriminate|]. rewrite latest_snoc.
  destruct (cls_eqb _ _ && _ && _ && _) eqn:E.
  - intros [= <-]. rewrite !andb_true_iff, cls_eqb_ok, opt_eqb_ok, Nat.eqb_eq, negb_true_iff in E.
    split; [tauto|]. exists r. rewrite in_app_iff. cbn. tauto.
  - intros X. destruct (IH X) as (R & q & I & Q). split; auto. exists q. rewrite in_app_iff. tauto. Qed.
Lemma registered_in h c b n a : registered h c b n = Some a ->
  reserved n = false /\ exists r, In r h /\ r_cls r = c /\ r_name r = n /\ r_attr r = a.
Proof. unfold ExtSpec.registered, first. destruct (latest h c (Some b) n) eqn:E; intros X.
  - injection X as ->. destruct (latest_in _ _ _ _ E) as (R & r & ?). split; auto. exists r. tauto.
  - destruct (latest_in _ _ _ _ X) as (R & r & ?). split; auto. exists r. tauto. Qed.

Lemma step_reserved s r : reserved (r_name r) = true -> step s r = s.
Proof. destruct r as [c b n a]. unfold ExtModel.step, register. cbn. now intros ->. Qed.

Lemma ext_run h c b n : ext (run h) c b n =
  match latest h c b n with Some a => Some (Direct a) | None => match b with None => native_impl reserved own c n | Some _ => None end end.
Proof. induction h as [|r h IH] using rev_ind; [reflexivity|]. rewrite run_snoc, latest_snoc.
  destruct (reserved (r_name r)) eqn:R.
  - rewrite step_reserved by assumption. destruct (cls_eqb _ _ && _ && _ && _) eqn:E; [|exact IH].
    rewrite !andb_true_iff, Nat.eqb_eq, negb_true_iff in E. destruct E as ((_ & <-) & E). congruence.
  - destruct r as [c' b' n' a]. unfold ExtModel.step, register. cbn in *. rewrite R. cbn.
    destruct (cls_eqb c' c && opt_eqb (option_map norm b') b && (n' =? n)) eqn:E; [|exact IH].
    rewrite !andb_true_iff, Nat.eqb_eq in E. destruct E as (_ & <-). rewrite R. reflexivity. Qed.

Lemma get_run h c b n : get_extension (run h) c b n =
  match registered h c b n with Some a => Some (Direct a) | None => native_impl reserved own c n end.
Proof. unfold get_extension, ExtSpec.registered, first. rewrite !ext_run. destruct (latest h c (Some b) n); auto. Qed.

Lemma step_dict s r c n : dict (step s r) c n = dict s c n \/
  (dict (step s r) c n = Some (Wrapper c) /\ find s c n = None /\ r_cls r = c /\ r_name r = n /\
   reserved n = false /\ callable (r_attr r) = true /\ is_class (r_attr r) = false).
Proof. destruct r as [c' b' n' a]. unfold ExtModel.step, register. destruct (reserved n') eqn:R; [now left|]. cbn.
  destruct (_ && _ && _ && _ && _) eqn:E; [right | now left].
  rewrite !andb_true_iff, !negb_true_iff, cls_eqb_ok, Nat.eqb_eq in E. destruct E as ((((Ca & Fi) & Ic) & <-) & <-).
  destruct (find s c' n'); [discriminate|]. repeat split; auto. Qed.

Lemma native_stays h c n e : native_entry reserved own c n = Some e -> dict (run h) c n = Some e.
Proof. intros E. induction h as [|r h IH] using rev_ind; [exact E|]. rewrite run_snoc.
  destruct (step_dict (run h) r c n) as [-> | (_ & F & _)]; auto. unfold find in F. now rewrite IH in F. Qed.

Definition ok_attr (a : attr) : Prop := is_method a || is_value a = true.

Lemma dict_cases h c n e : (forall r, In r h -> r_cls r = c -> r_name r = n -> ok_attr (r_attr r)) ->
  dict (run h) c n = Some e -> native_entry reserved own c n = Some e \/
  (e = Wrapper c /\ method_registered h c n /\ native_entry reserved own c n = None).
Proof. intros Ok E. revert e E. induction h as [|r h IH] using rev_ind; [auto|]. rewrite run_snoc. intros e.
  assert (Ok' : forall r, In r h -> r_cls r = c -> r_name r = n -> ok_attr (r_attr r)).
  { intros q Iq. apply Ok. rewrite in_app_iff. auto. }
  destruct (step_dict (run h) r c n) as [-> | (-> & F & Ec & En & R & Ca & Ic)]; intros E.
  - destruct (IH Ok' _ E) as [? | (? & (q & Iq & Q) & ?)]; auto. right. split; auto. split; auto. exists q.
    rewrite in_app_iff. tauto.
  - injection E as <-. right. split; auto. split.
    + exists r. rewrite in_app_iff. cbn. repeat split; auto.
      assert (O : ok_attr (r_attr r)) by (apply Ok; auto; rewrite in_app_iff; cbn; auto).
      unfold ok_attr in O. destruct (r_attr r); cbn in *; congruence.
    + destruct (native_entry reserved own c n) eqn:N; auto. apply (native_stays h) in N. unfold find in F. now rewrite N in F. Qed.

Lemma method_prefix h r c n : method_registered h c n -> method_registered (h ++ [r]) c n.
Proof. intros (q & Iq & Q). exists q. rewrite in_app_iff. tauto. Qed.

Lemma dict_wrapper h c n : reserved n = false ->
  (forall r k, In r h -> above c = Some k -> r_cls r = k -> r_name r = n -> ok_attr (r_attr r)) ->
  native_entry reserved own c n = None ->
  (forall k, above c = Some k -> native_entry reserved own k n = None /\ ~ method_registered h k n) ->
  method_registered h c n -> dict (run h) c n = Some (Wrapper c).
Proof. intros R Ok N Ab. induction h as [|r h IH] using rev_ind; intros M.
  - destruct M as (? & [] & _).
  - rewrite run_snoc.
    assert (Ok' : forall r k, In r h -> above c = Some k -> r_cls r = k -> r_name r = n -> ok_attr (r_attr r)).
    { intros q k Iq. apply Ok. rewrite in_app_iff. auto. }
    assert (Ab' : forall k, above c = Some k -> native_entry reserved own k n = None /\ ~ method_registered h k n).
    { intros k Hk. destruct (Ab k Hk) as [? Nm]. split; auto. intros Mk. apply Nm. now apply method_prefix. }
    destruct (step_dict (run h) r c n) as [Ed | (-> & _)]; [|reflexivity].
    destruct (dict (run h) c n) as [e|] eqn:D.
    + rewrite Ed. assert (Some e = Some (Wrapper c)) as [= ->]; [|reflexivity].
      destruct M as (q & Iq & Eq & En & Em). apply in_app_iff in Iq. cbn in Iq. destruct Iq as [Iq | [<- | []]].
      * apply IH; auto. exists q; auto.
      * (* the new registration meets an entry: it comes from an earlier method *)
        clear IH Ed Em Eq En Ok Ab. revert e D.
        induction h as [|p h IH] using rev_ind; intros e D.
        { change (dict (run []) c n) with (native_entry reserved own c n) in D. congruence. }
        rewrite run_snoc in D. destruct (step_dict (run h) p c n) as [E2 | (E2 & _)]; rewrite E2 in D; [|congruence].
        apply IH; auto.
        { intros q' k Iq'. apply Ok'. rewrite in_app_iff. auto. }
        { intros k Hk. destruct (Ab' k Hk) as [? Nm]. split; auto. intros Mk. apply Nm. now apply method_prefix. }
    + exfalso. (* nothing there: then a method makes the wrapper *)
      destruct M as (q & Iq & Eq & En & Em). apply in_app_iff in Iq. cbn in Iq. destruct Iq as [Iq | [<- | []]].
      * enough (X : None = Some (Wrapper c)) by discriminate X. apply IH; auto. exists q; auto.
      * assert (F : find (run h) c n = None).
        { unfold find. rewrite D. destruct (above c) as [k|] eqn:A; auto. destruct (Ab' k eq_refl) as [Nk Mk].
          destruct (dict (run h) k n) as [e|] eqn:Dk; auto. destruct (@dict_cases h k n e) as [?|(_ & ? & _)]; [|exact Dk|congruence|tauto].
          intros q Iq Ec' En'. eapply Ok'; eauto. }
        revert Ed. destruct r as [c' b' n' a]. cbn in Eq, En, Em. subst c' n'. unfold ExtModel.step, register. rewrite R. cbn.
        rewrite F. cbn. rewrite (proj2 (cls_eqb_ok c c) eq_refl), Nat.eqb_refl.
        destruct a; try discriminate Em. cbn. discriminate. Qed.

Lemma above_base c k : above c = Some k -> k = BaseClass /\ above k = None.
Proof. destruct c; cbn; intros [= <-]; auto. Qed.

(** *** The lookup *)
Variable no_lookup : nat -> bool.
Notation access := (access no_lookup).

Lemma access_tidy h c b n column ip : no_lookup n = false -> reserved n = false ->
  tidy norm reserved own h c b n column ->
  access (run h) c b n column false ip = promised norm reserved own h c b n column.
Proof. intros NL R T. unfold ExtModel.access. rewrite NL. cbn [andb negb].
  assert (FX : forall k, from_extension (run h) k b n =
     match registered h k b n with Some (Property i) => Some (Reads i) | Some (Val i) => Some (Object i) | _ => None end).
  { intros k. unfold from_extension. rewrite get_run. destruct (registered h k b n) as [[]|]; auto.
    unfold native_impl. rewrite R. destruct (own k n) as [[]|]; auto. destruct (above k); auto. destruct (own c0 n) as [[]|]; auto. }
  assert (CW : forall k, call_wrapper (run h) k b n =
     match registered h k b n with
     | Some a => call a
     | None => match native_impl reserved own k n with
               | Some (Direct a) => call a
               | Some (Inherited k') => match registered h k' b n with
                                        | Some a => call a
                                        | None => match native_impl reserved own k' n with Some (Direct a) => call a | _ => Missing end end
               | None => Missing end end).
  { intros k. unfold call_wrapper. rewrite get_run. destruct (registered h k b n); auto.
    destruct (native_impl reserved own k n) as [[|k']|]; auto. rewrite get_run. destruct (registered h k' b n); auto. }
  assert (KA : forall k a, in_mro c k -> registered h k b n = Some a -> ok_attr a /\ (is_method a = true -> method_registered h k n)).
  { intros k a Hk E. destruct (registered_in _ _ _ _ E) as (_ & r & Ir & Ec & En & <-). split.
    - apply (no_class T); auto. now rewrite Ec.
    - intros M. exists r. auto. }
  assert (Mc : in_mro c c) by (left; reflexivity).
  assert (OkD : forall k r, in_mro c k -> In r h -> r_cls r = k -> r_name r = n -> ok_attr (r_attr r)).
  { intros k r Hk Ir Ec En. apply (no_class T); auto. now rewrite Ec. }
  unfold promised, wanted. unfold at_class at 1. rewrite FX.
  destruct (registered h c b n) as [a|] eqn:Rc.
  - (* registered for the class *)
    destruct (KA c a Mc Rc) as [Oa Ma]. cbn [first].
    destruct a as [i|i|i|i|i]; try (unfold ok_attr in Oa; discriminate Oa); try reflexivity.
    specialize (Ma eq_refl).
    assert (BX : match above c with Some k => from_extension (run h) k b n | None => None end = None).
    { destruct (above c) as [k|] eqn:A; auto. rewrite FX.
      destruct (registered h k b n) as [a|] eqn:Rk; auto. destruct (is_value a) eqn:V; [|destruct a; auto; discriminate V].
      exfalso. destruct (base_values T A) as [E|(a' & E & V')].
      - exists a. auto.
      - unfold at_class in E. rewrite Rc in E. discriminate.
      - rewrite Rc in E. injection E as <-. discriminate V'. }
    rewrite BX.
    assert (D : dict (run h) c n = Some (Wrapper c)).
    { destruct (functions T) as [F|F]; [|exfalso; exact (F c Mc Ma)].
      destruct (native_entry reserved own c n) as [e|] eqn:N.
      - rewrite (native_stays h _ _ N). unfold native_entry in N. rewrite R in N.
        destruct (own c n) as [a|] eqn:O.
        + specialize (F c a Mc O). destruct a; try discriminate F. now injection N as <-.
        + destruct (above c) as [k|]; [|discriminate]. destruct (own k n) as [[]|]; congruence.
      - apply dict_wrapper; auto.
        + intros r k Ir A. apply OkD; auto. now right.
        + intros k A. unfold native_entry in *. rewrite R in *. destruct (own c n) as [[]|] eqn:O; try discriminate.
          destruct (@above_base c k A) as [_ A2]. rewrite A in N. rewrite A2.
          assert (O2 : own k n = None).
          { destruct (own k n) as [a|] eqn:O2; auto. assert (In2 : in_mro c k) by (right; auto). specialize (F k a In2 O2). destruct a; discriminate || discriminate. }
          rewrite O2. split; auto. apply (one_class T A); auto.
          intros k' [-> | A']; congruence. }
    unfold find. rewrite D. rewrite CW, Rc. reflexivity.
  - assert (NV : ~ value_registered norm reserved h c b n) by (intros (a & E & _); congruence).
    destruct (own c n) as [a0|] eqn:O; cbn [first].
    + (* defined by the class itself *)
      assert (BX : match above c with Some k => from_extension (run h) k b n | None => None end = None).
      { destruct (above c) as [k|] eqn:A; auto. rewrite FX.
        destruct (registered h k b n) as [a|] eqn:Rk; auto. destruct (is_value a) eqn:V; [|destruct a; auto; discriminate V].
        exfalso. destruct (base_values T A) as [E|?]; [exists a; auto| |tauto].
        unfold at_class in E. rewrite Rc, O in E. discriminate. }
      rewrite BX. assert (N : native_entry reserved own c n = Some (match a0 with Meth _ => Wrapper c | _ => Plain a0 end)).
      { unfold native_entry. rewrite R, O. destruct a0; auto. }
      unfold find. rewrite (native_stays h _ _ N). destruct a0; auto. rewrite CW, Rc. unfold native_impl. rewrite R, O. reflexivity.
    + assert (AC : at_class norm reserved own h c b n = None) by (unfold at_class; now rewrite Rc, O).
      destruct (above c) as [k|] eqn:A.
      * destruct (@above_base c k A) as [Ek A2]. assert (Mk : in_mro c k) by (right; auto).
        unfold at_class. rewrite FX. destruct (registered h k b n) as [a|] eqn:Rk.
        -- destruct (KA k a Mk Rk) as [Oa Ma]. cbn [first].
           destruct a as [i|i|i|i|i]; try (unfold ok_attr in Oa; discriminate Oa); try reflexivity.
           specialize (Ma eq_refl). destruct (functions T) as [F|F]; [|exfalso; exact (F k Mk Ma)].
           destruct (own k n) as [a1|] eqn:O2.
           ++ specialize (F k a1 Mk O2). destruct a1; try discriminate F.
              assert (N : native_entry reserved own c n = Some (Wrapper c)) by (unfold native_entry; now rewrite R, O, A, O2).
              unfold find. rewrite (native_stays h _ _ N), CW, Rc. unfold native_impl. rewrite R, O, A, O2, Rk. reflexivity.
           ++ assert (Dc : dict (run h) c n = None).
              { destruct (dict (run h) c n) as [e|] eqn:D; auto. exfalso. destruct (@dict_cases h c n e (fun r => OkD c r Mc) D) as [N|(_ & M & _)].
                - unfold native_entry in N. rewrite R, O, A, O2 in N. discriminate.
                - rewrite (hides T A O2 M AC) in Rk. discriminate. }
              assert (Dk : dict (run h) k n = Some (Wrapper k)).
              { apply dict_wrapper; auto.
                - intros r k' _ A'. congruence.
                - unfold native_entry. now rewrite R, O2, A2.
                - intros k' A'. congruence. }
              unfold find. rewrite Dc, A, Dk, CW, Rk. reflexivity.
        -- cbn [first]. destruct (own k n) as [a1|] eqn:O2.
           ++ destruct (is_method a1) eqn:M1.
              ** destruct a1; try discriminate M1.
                 assert (N : native_entry reserved own c n = Some (Wrapper c)) by (unfold native_entry; now rewrite R, O, A, O2).
                 unfold find. rewrite (native_stays h _ _ N), CW, Rc. unfold native_impl. rewrite R, O, A, O2, Rk. rewrite ?O2. reflexivity.
              ** assert (Dc : dict (run h) c n = None).
                 { destruct (dict (run h) c n) as [e|] eqn:D; auto. exfalso. destruct (@dict_cases h c n e (fun r => OkD c r Mc) D) as [N|(_ & M & _)].
                   - unfold native_entry in N. rewrite R, O, A, O2 in N. destruct a1; discriminate.
                   - destruct (functions T) as [F|F]; [rewrite (F k a1 Mk O2) in M1; discriminate | exact (F c Mc M)]. }
                 assert (N : native_entry reserved own k n = Some (Plain a1)) by (unfold native_entry; rewrite R, O2; destruct a1; auto; discriminate M1).
                 unfold find. rewrite Dc, A, (native_stays h _ _ N). reflexivity.
           ++ unfold find. destruct (dict (run h) c n) as [e|] eqn:D.
              ** destruct (@dict_cases h c n e (fun r => OkD c r Mc) D) as [N|(-> & M & _)].
                 { unfold native_entry in N. rewrite R, O, A, O2 in N. discriminate. }
                 rewrite (hides_column T Mc M), CW, Rc.
                 { unfold native_impl. now rewrite R, O, A, O2. }
                 unfold wanted. rewrite AC, A. unfold at_class. now rewrite Rk, O2.
              ** rewrite A. destruct (dict (run h) k n) as [e|] eqn:Dk; [|now rewrite andb_true_r].
                 destruct (@dict_cases h k n e (fun r => OkD k r Mk) Dk) as [N|(-> & M & _)].
                 { unfold native_entry in N. rewrite R, O2, A2 in N. discriminate. }
                 rewrite (hides_column T Mk M), CW, Rk.
                 { unfold native_impl. now rewrite R, O2, A2. }
                 unfold wanted. rewrite AC, A. unfold at_class. now rewrite Rk, O2.
      * unfold find. destruct (dict (run h) c n) as [e|] eqn:D.
        -- destruct (@dict_cases h c n e (fun r => OkD c r Mc) D) as [N|(-> & M & _)].
           { unfold native_entry in N. rewrite R, O, A in N. discriminate. }
           rewrite (hides_column T Mc M), CW, Rc.
           { unfold native_impl. now rewrite R, O, A. }
           unfold wanted. now rewrite AC, A.
        -- rewrite A. now rewrite andb_true_r. Qed.
End Facts.
