(** Taking deferred executions apart: the invariant and its primitive steps. *)
From Verif Require Import Base DefSpec DefModel DefProofs.

Lemma update_length {A} (l : list A) i f : length (update l i f) = length l.
Proof. revert i. induction l as [|x l IH]; intros [|i]; cbn; auto. Qed.
Lemma update_same {A} (l : list A) i f : nth_error (update l i f) i = option_map f (nth_error l i).
Proof. revert i. induction l as [|x l IH]; intros [|i]; cbn; auto. Qed.
Lemma update_other {A} (l : list A) i j f : i <> j -> nth_error (update l i f) j = nth_error l j.
Proof. revert i j. induction l as [|x l IH]; intros [|i] [|j] N; cbn; auto; lia. Qed.
Lemma update_map {A B} (g : A -> B) (l : list A) i f : (forall x, nth_error l i = Some x -> g (f x) = g x) ->
  map g (update l i f) = map g l.
Proof. revert i. induction l as [|x l IH]; intros [|i] H; cbn; auto.
  - f_equal. now apply H.
  - f_equal. apply IH. auto. Qed.

Section Driver.
  Context {V : Type}.
  Variable call : nat -> V -> forest V -> list nat -> forest V -> res V.
  Variables vlen vwid : V -> nat.
  Variable store : list (res V).
  Notation obj := (obj V).
  Notation ref := (ref V).
  Notation node := (node V).
  Notation dstate := (dstate V).
  Notation wstate := (wstate V).
  Notation resolve := (resolve store).
  Notation chain := (@chain V).
  Notation items := (@items V).

  Definition strip (nd : node) : node :=
    Node (data nd) (func nd) (args nd) (keys nd) (kwargs nd) (flat_args nd) (flat_kwargs nd) 0 None (nmeta nd) (moffset nd).
  Definition sub (h : list node) (n : nat) : nat := match nth_error h n with Some nd => subscribers nd | None => 0 end.
  Definition opos (h : list node) (n : nat) : option nat := match nth_error h n with Some nd => out_pos nd | None => None end.
  Definition fnodes (l : forest ref) : list nat := flat_map (@node_of V) (atoms l).
  Definition node_refs (nd : node) : list nat := node_of (data nd) ++ fnodes (args nd) ++ fnodes (kwargs nd).
  Definition occ (n : nat) (l : list nat) : nat := count_occ Nat.eq_dec l n.
  Lemma occ_app n l l' : occ n (l ++ l') = occ n l + occ n l'.
  Proof. apply count_occ_app. Qed.
  Definition one (m n : nat) : nat := if Nat.eq_dec m n then 1 else 0.

  (** The deferred executions when the task is put together, and what each of them and each object stands for. *)
  Variable h0 : list node.
  Variable ev : nat -> res V.
  Variable oval : obj -> res V.
  Definition rval (r : ref) : res V := match r with RObj o => oval o | RNode n => ev n end.
  Hypothesis resolve_ok : forall o v, resolve o = Ok v -> oval o = Ok v.
  Definition pending (n : nat) : bool := match nth_error h0 n with Some nd => negb (has_result nd) | None => false end.
  Definition node_ok (n : nat) (nd : node) : Prop :=
    match func nd with
    | Some f => (forall m, In m (node_refs nd) -> m < n)
                /\ flat_args nd = is_flat (args nd) /\ flat_kwargs nd = is_flat (kwargs nd)
                /\ lists_only (args nd) = true /\ lists_only (kwargs nd) = true /\ width (kwargs nd) = length (keys nd)
                /\ ev n = direct call f (rval (data nd)) (traverse rval (args nd)) (keys nd) (traverse rval (kwargs nd))
    | None => exists o, data nd = RObj o /\ oval o = ev n
    end.
  Hypothesis nodes_ok : forall n nd, nth_error h0 n = Some nd -> node_ok n nd.

  (** References from nodes not yet taken apart. *)
  Definition rem (X : nat -> bool) (n : nat) : nat :=
    list_sum (map (fun m => if pending m && negb (X m) then match nth_error h0 m with Some nd => occ n (node_refs nd) | None => 0 end else 0)
                  (seq 0 (length h0))).
  Definition pend (X : nat -> bool) (f : nat) : nat :=
    list_sum (map (fun m => if negb (X m) then match nth_error h0 m with
                                               | Some nd => match func nd with Some g => one g f | None => 0 end
                                               | None => 0 end else 0)
                  (seq 0 (length h0))).
  Definition add (X : nat -> bool) (n : nat) : nat -> bool := fun m => (m =? n) || X m.
  Lemma sum_cons x l : list_sum (x :: l) = x + list_sum l.
  Proof. reflexivity. Qed.
  Lemma sum_pick (g : nat -> nat) (P : nat -> bool) n k : forall a, a <= n < a + k -> P n = false ->
    list_sum (map (fun m => if negb (P m) then g m else 0) (seq a k))
    = g n + list_sum (map (fun m => if negb ((m =? n) || P m) then g m else 0) (seq a k)).
  Proof using Type. clear. induction k as [|k IH]; intros a Ha Hp; [lia|]. cbn [seq map]. rewrite !sum_cons.
    destruct (Nat.eqb_spec a n) as [->|N].
    - rewrite Hp. cbn. f_equal. f_equal. apply map_ext_in. intros m Hm. apply in_seq in Hm.
      destruct (Nat.eqb_spec m n); [lia|easy].
    - rewrite (IH (S a)) by (auto; lia). cbn [orb]. lia. Qed.
  Lemma rem_add X id nd n : nth_error h0 id = Some nd -> has_result nd = false -> X id = false ->
    rem X n = occ n (node_refs nd) + rem (add X id) n.
  Proof using h0. clear - h0. intros Hn Hp HX. unfold rem.
    assert (L : id < length h0) by (apply nth_error_Some; congruence).
    pose proof (@sum_pick (fun m => if pending m then match nth_error h0 m with Some nd => occ n (node_refs nd) | None => 0 end else 0)
      X id (length h0) 0 ltac:(lia) HX) as E. cbv beta in E. unfold pending at 2 in E. rewrite Hn, Hp in E. cbn [negb] in E.
    etransitivity; [etransitivity; [|exact E]|].
    - f_equal. apply map_ext. intros m. destruct (pending m), (X m); easy.
    - f_equal. f_equal. apply map_ext. intros m. unfold add. destruct (pending m), ((m =? id) || X m); easy. Qed.
  Lemma pend_add X id nd f g : nth_error h0 id = Some nd -> func nd = Some g -> X id = false ->
    pend X f = one g f + pend (add X id) f.
  Proof using h0. clear - h0. intros Hn Hp HX. unfold pend.
    assert (L : id < length h0) by (apply nth_error_Some; congruence).
    pose proof (@sum_pick (fun m => match nth_error h0 m with Some nd => match func nd with Some g => one g f | None => 0 end | None => 0 end)
      X id (length h0) 0 ltac:(lia) HX) as E. cbv beta in E. rewrite Hn, Hp in E. exact E. Qed.

  (** The invariant: [X] are the nodes taken apart before or being taken apart, [E] the references still to come from
      elsewhere, [reg] the positions of the nodes whose results may be needed, [mref] and [mret] the marks set so far. *)
  Record Inv (X : nat -> bool) (E : nat -> nat) (s : dstate) (aout : list (@atok V)) (reg : list (nat * nat))
      (mref mret : nat -> bool) : Prop := {
    i_strip : map strip (heap s) = map strip h0;
    i_sub : forall n, E n + rem X n <= sub (heap s) n;
    i_out : output s = map (interp mref mret) aout;
    i_slots : forall i p, (nth_error aout i = Some (ASlot p) -> p = i) /\ (nth_error aout i = Some (ARet p) -> i = S p);
    i_cons : consumers s = map snd (filter (fun pn => mret (fst pn)) reg);
    i_nodup : NoDup (map snd reg);
    i_nodup_pos : NoDup (map fst reg);
    i_reg : forall p n, In (p, n) reg -> 0 < p /\ nth_error aout p = Some (ASlot p) /\ nth_error aout (S p) = Some (ARet p)
                                         /\ (mret p = true -> opos (heap s) n = Some p) /\ X n = true;
    i_fresh : forall n, X n = false -> pending n = true -> opos (heap s) n = None;
    i_ret : forall p, mret p = true -> In p (map fst reg);
    i_mref : forall p, mref p = true -> In p (map fst reg) }.
  Definition finished (s : dstate) (reg : list (nat * nat)) (mret : nat -> bool) (n : nat) : Prop :=
    sub (heap s) n = 0 \/ exists p, In (p, n) reg /\ mret p = true.

  Lemma strip_nth s n : map strip (heap s) = map strip h0 ->
    match nth_error (heap s) n, nth_error h0 n with
    | Some nd, Some nd0 => strip nd = strip nd0
    | None, None => True
    | _, _ => False
    end.
  Proof. intros E. assert (X : nth_error (map strip (heap s)) n = nth_error (map strip h0) n) by now rewrite E.
    rewrite !nth_error_map in X. destruct (nth_error (heap s) n), (nth_error h0 n); cbn in X; first [congruence | exact I]. Qed.

  (** What later marks there are does not matter to the worker as long as they include those asked for. *)
  Definition right (pn : nat * nat) (v : V) : Prop := ev (snd pn) = Ok v.
  Definition good (mref mret : nat -> bool) (reg : list (nat * nat)) (w : wstate) : Prop :=
    (forall p n, In (p, n) reg -> mref p = true -> exists v, lookup p (refs w) = Ok v /\ ev n = Ok v)
    /\ Forall2 right (filter (fun pn => mret (fst pn)) reg) (yields w)
    /\ wmeta w = flat_map (fun v => [vlen v; vwid v]) (yields w).
  Definition partly (mret : nat -> bool) (reg : list (nat * nat)) (w : wstate) : Prop :=
    exists l1 l2, filter (fun pn => mret (fst pn)) reg = l1 ++ l2 /\ Forall2 right l1 (yields w).
  Definition sem {A} (reg reg' : list (nat * nat)) (objs : list obj) (rfs steps : list nat)
      (comp : (nat -> bool) -> (nat -> bool) -> wstate -> wstate * res A) (spec : res A) : Prop :=
    forall mref mret w,
      (forall p, In p rfs -> mref p = true) -> (forall o, In o objs -> exists v, resolve o = Ok v) ->
      good mref mret reg w ->
      let '(w', r) := comp mref mret w in
      (forall f, occ f (calls w') <= occ f (calls w) + occ f steps)
      /\ match r with
         | Ok a => spec = Ok a /\ good mref mret reg' w'
         | Err _ => partly mret reg' w' /\ exists n e, pending n = true /\ ev n = Err e
         end.
  Lemma good_partly mref mret reg w x : good mref mret reg w -> partly mret (reg ++ x) w.
  Proof. intros (_ & H & _). exists (filter (fun pn => mret (fst pn)) reg), (filter (fun pn => mret (fst pn)) x).
    split; [apply filter_app | assumption]. Qed.
  Lemma partly_app mret reg w x : partly mret reg w -> partly mret (reg ++ x) w.
  Proof. intros (l1 & l2 & E & H). exists l1, (l2 ++ filter (fun pn => mret (fst pn)) x). rewrite filter_app, E, app_assoc. easy. Qed.
  Lemma sem_bind {A B} reg reg1 x objs1 objs2 rfs1 rfs2 st1 st2 comp1 (comp2 : A -> _) spec1 (spec2 : A -> res B) :
    sem reg reg1 objs1 rfs1 st1 comp1 spec1 ->
    (forall a, spec1 = Ok a -> sem reg1 (reg1 ++ x) objs2 rfs2 st2 (comp2 a) (spec2 a)) ->
    sem reg (reg1 ++ x) (objs1 ++ objs2) (rfs1 ++ rfs2) (st1 ++ st2)
        (fun mr mt w => wbind (comp1 mr mt w) (fun w a => comp2 a mr mt w)) (do a <- spec1; spec2 a).
  Proof. intros S1 S2 mref mret w R O G.
    specialize (S1 mref mret w (fun p H => R p (in_or_app _ _ _ (or_introl H))) (fun p H => O p (in_or_app _ _ _ (or_introl H))) G).
    destruct (comp1 mref mret w) as [w1 [a|e]]; cbn [wbind].
    - destruct S1 as (C1 & -> & G1). cbn [rbind].
      specialize (S2 a eq_refl mref mret w1 (fun p H => R p (in_or_app _ _ _ (or_intror H))) (fun p H => O p (in_or_app _ _ _ (or_intror H))) G1).
      destruct (comp2 a mref mret w1) as [w2 r]. destruct S2 as [C2 S2]. split; [|exact S2].
      intros f. specialize (C1 f). specialize (C2 f). rewrite occ_app. lia.
    - destruct S1 as (C1 & P & H). split; [|split; [now apply partly_app | exact H]].
      intros f. specialize (C1 f). rewrite occ_app. lia. Qed.
  Lemma sem_ret {A} reg (a : A) : sem reg reg [] [] [] (fun _ _ w => (w, Ok a)) (Ok a).
  Proof. intros mref mret w R O G. split; [intros f; lia|]. easy. Qed.
  Lemma sem_resolve reg o : sem reg reg [o] [] [] (fun _ _ w => (w, resolve o)) (oval o).
  Proof. intros mref mret w R O G. split; [intros f; lia|]. destruct (O o) as [v E]; [now left|]. rewrite E. split; [now apply resolve_ok|easy]. Qed.
  Lemma sem_lookup reg p n : In (p, n) reg -> sem reg reg [] [p] [] (fun _ _ w => (w, lookup p (refs w))) (ev n).
  Proof. intros I mref mret w R O G. split; [intros f; lia|].
    destruct (proj1 G p n I) as (v & E1 & E2); [apply R; now left|]. rewrite E1. easy. Qed.
  Lemma sem_eq {A} reg reg' objs rfs st comp comp' (spec spec' : res A) :
    sem reg reg' objs rfs st comp spec -> (forall mr mt w, comp mr mt w = comp' mr mt w) -> spec = spec' ->
    sem reg reg' objs rfs st comp' spec'.
  Proof. intros S E <- mr mt w R O G. rewrite <- E. now apply S. Qed.

  (** ** Primitive steps *)
  Lemma inv_weaken X E E' s aout reg mref mret : Inv X E s aout reg mref mret -> (forall n, E' n <= E n) -> Inv X E' s aout reg mref mret.
  Proof. intros [] H. constructor; auto. intros n. specialize (i_sub0 n). specialize (H n). lia. Qed.
  Lemma nth_app_slot (aout : list (@atok V)) t i p :
    nth_error (aout ++ map AT t) i = Some (ASlot p) -> nth_error aout i = Some (ASlot p).
  Proof. intros H. destruct (Nat.lt_ge_cases i (length aout)); [now rewrite nth_error_app1 in H|].
    rewrite nth_error_app2 in H by lia. rewrite nth_error_map in H. destruct (nth_error t (i - length aout)); easy. Qed.
  Lemma nth_app_ret (aout : list (@atok V)) t i p :
    nth_error (aout ++ map AT t) i = Some (ARet p) -> nth_error aout i = Some (ARet p).
  Proof. intros H. destruct (Nat.lt_ge_cases i (length aout)); [now rewrite nth_error_app1 in H|].
    rewrite nth_error_app2 in H by lia. rewrite nth_error_map in H. destruct (nth_error t (i - length aout)); easy. Qed.
  Lemma nth_app_keep {A} (l l' : list A) i x : nth_error l i = Some x -> nth_error (l ++ l') i = Some x.
  Proof. intros H. rewrite nth_error_app1; [assumption|]. apply nth_error_Some. congruence. Qed.
  Lemma emit_ok X E s aout reg mref mret t :
    Inv X E s aout reg mref mret -> Inv X E (emit s t) (aout ++ map AT t) reg mref mret.
  Proof. intros []. constructor; cbn [emit heap output consumers]; auto.
    - rewrite i_out0, map_app, map_map. cbn. now rewrite map_id.
    - intros i p. split; intros H; [apply nth_app_slot in H | apply nth_app_ret in H]; now apply i_slots0.
    - intros p n H. destruct (i_reg0 p n H) as (? & ? & ? & ? & ?). repeat split; auto using nth_app_keep. Qed.
  Lemma unsub_ok X E s aout reg mref mret n nd :
    Inv X (fun m => E m + one n m) s aout reg mref mret -> nth_error h0 n = Some nd ->
    exists s', unsub s n = Ok s' /\ Inv X E s' aout reg mref mret
      /\ (forall m, sub (heap s') m = sub (heap s) m - one n m)
      /\ output s' = output s
      /\ exists nd', nth_error (heap s') n = Some nd' /\ strip nd' = strip nd /\ out_pos nd' = opos (heap s) n.
  Proof. intros [] Hn. unfold unsub, unsubscribe, get_node.
    pose proof (strip_nth s n i_strip0) as N. rewrite Hn in N. destruct (nth_error (heap s) n) as [nd'|] eqn:Hs; [|easy].
    cbn [rbind]. pose proof (i_sub0 n) as Sn. unfold sub in Sn at 1. rewrite Hs in Sn. unfold one in Sn. destruct (Nat.eq_dec n n); [|easy].
    destruct (subscribers nd') as [|k] eqn:Ek; [lia|]. cbn [rbind]. eexists. split; [reflexivity|].
    assert (S' : forall m, sub (update (heap s) n (set_subscribers k)) m = sub (heap s) m - one n m).
    { intros m. unfold sub, one. destruct (Nat.eq_dec n m) as [<-|Ne].
      - rewrite update_same, Hs. cbn. rewrite Ek. lia.
      - rewrite update_other by assumption. lia. }
    assert (O' : forall m, opos (update (heap s) n (set_subscribers k)) m = opos (heap s) m).
    { intros m. unfold opos. destruct (Nat.eq_dec n m) as [<-|Ne].
      - rewrite update_same, Hs. easy.
      - now rewrite update_other. }
    split; [constructor; cbn [heap output consumers]; auto|].
    - rewrite <- i_strip0. apply update_map. intros x. now destruct x.
    - intros m. rewrite S'. specialize (i_sub0 m). lia.
    - intros p m H. rewrite O'. now apply i_reg0.
    - intros m H1 H2. rewrite O'. auto.
    - cbn [heap output]. repeat split; auto. rewrite update_same, Hs. cbn. eexists. split; [reflexivity|]. split.
      + rewrite <- N. now destruct nd'.
      + unfold opos. now rewrite Hs. Qed.

  Lemma update_interp mref mret mref' mret' (aout : list (@atok V)) i (t : token obj) :
    (forall j a, nth_error aout j = Some a -> j <> i -> interp mref' mret' a = interp mref mret a) ->
    (forall a, nth_error aout i = Some a -> interp mref' mret' a = t) ->
    update (map (interp mref mret) aout) i (fun _ => t) = map (interp mref' mret') aout.
  Proof. revert i. induction aout as [|a aout IH]; intros i H1 H2; [easy|]. destruct i as [|i]; cbn.
    - f_equal; [symmetry; now apply H2|]. apply map_ext_in. intros x Hx. apply In_nth_error in Hx as [j Hj].
      symmetry. now apply (H1 (S j)).
    - f_equal; [symmetry; now apply (H1 0)|]. apply IH; [|assumption]. intros j x Hj Ne. apply (H1 (S j)); auto. Qed.

  Lemma remove_first_snd (mret : nat -> bool) (reg : list (nat * nat)) p n :
    NoDup (map snd reg) -> NoDup (map fst reg) -> In (p, n) reg -> mret p = true ->
    remove_first n (map snd (filter (fun pn => mret (fst pn)) reg))
    = Ok (map snd (filter (fun pn => negb (fst pn =? p) && mret (fst pn)) reg)).
  Proof. induction reg as [|[q m] reg IH]; cbn [map filter]; intros N1 N2 I M; [easy|].
    apply NoDup_cons_iff in N1 as [N1 N1']. apply NoDup_cons_iff in N2 as [N2 N2']. cbn [fst snd] in *.
    destruct I as [[= -> ->]|I].
    - rewrite M, Nat.eqb_refl. cbn. rewrite Nat.eqb_refl. f_equal. f_equal. apply filter_ext_in. intros [q' m'] H. cbn.
      destruct (Nat.eqb_spec q' p); [|easy]. subst. exfalso. apply N2. now apply (in_map fst) in H.
    - assert (q <> p) by (intros ->; apply N2; now apply (in_map fst) in I).
      assert (m <> n) by (intros ->; apply N1; now apply (in_map snd) in I).
      destruct (Nat.eqb_spec q p); [easy|]. cbn [negb andb]. destruct (mret q); cbn [map remove_first snd]; [|auto].
      destruct (Nat.eqb_spec m n); [easy|]. rewrite IH by auto. easy. Qed.
  Lemma emit_ref_ok X E s aout reg mref mret p n :
    Inv X E s aout reg mref mret -> In (p, n) reg -> mret p = true -> n < length h0 ->
    exists s' mref' mret', emit_ref s n p = Ok s'
      /\ Inv X E s' (aout ++ [AT (TTag REF); AT (int p)]) reg mref' mret'
      /\ heap s' = heap s
      /\ (forall q, mref q = true -> mref' q = true) /\ mref' p = true
      /\ (forall m, finished s reg mret m -> finished s' reg mret' m).
  Proof. intros I0 Hr Hm Hn. pose proof (emit_ok [TTag REF; TInt (Z.of_nat p)] I0) as I1. unfold emit_ref, get_node.
    set (s1 := emit s [TTag REF; TInt (Z.of_nat p)]) in *. cbn [map] in I1.
    set (aout1 := aout ++ [AT (TTag REF); AT (TInt (Z.of_nat p))]) in *.
    destruct (i_reg I1 p n Hr) as (Hp & Sl & Rt & _ & _).
    pose proof (i_strip I1) as St. pose proof (strip_nth s1 n St) as N.
    change (heap (set_output s1 p (TInt (Z.of_nat p)))) with (heap s1).
    destruct (nth_error h0 n) as [nd0|] eqn:Hn0; [|apply nth_error_None in Hn0; lia].
    destruct (nth_error (heap s1) n) as [nd|] eqn:Hs; [|easy]. cbn [rbind].
    set (mref' := fun q => (q =? p) || mref q).
    assert (M1 : update (output s1) p (fun _ => TInt (Z.of_nat p)) = map (interp mref' mret) aout1).
    { rewrite (i_out I1). apply update_interp.
      - intros j a Hj Ne. destruct a as [t|q|q]; cbn; auto. apply (proj1 (i_slots I1 j q)) in Hj. subst q. unfold mref'.
        destruct (Nat.eqb_spec j p); [easy|reflexivity].
      - intros a Ha. rewrite Sl in Ha. injection Ha as <-. cbn. unfold mref'. now rewrite Nat.eqb_refl. }
    destruct (Nat.eqb_spec (subscribers nd) 0) as [Z|NZ].
    - set (mret' := fun q => negb (q =? p) && mret q).
      cbn [set_output consumers]. rewrite (i_cons I1). rewrite (remove_first_snd mret reg p n (i_nodup I1) (i_nodup_pos I1) Hr Hm).
      cbn [rbind heap output]. do 3 eexists. split; [reflexivity|]. split.
      + instantiate (1 := mret'). instantiate (1 := mref'). destruct I1. constructor; cbn [heap output consumers]; auto.
        * unfold set_output; cbn [output]. rewrite M1. apply update_interp.
          -- intros j a Hj Ne. destruct a as [t|q|q]; cbn; auto. apply (proj2 (i_slots0 j q)) in Hj. subst j. unfold mret'.
             destruct (Nat.eqb_spec q p); [congruence|reflexivity].
          -- intros a Ha. change (nth_error aout1 (S p) = Some a) in Ha. rewrite Rt in Ha. injection Ha as <-. cbn. unfold mret'. now rewrite Nat.eqb_refl.
        * intros q m Hq. destruct (i_reg0 q m Hq) as (? & ? & ? & Ho & ?). repeat split; auto. unfold mret'. intros Hx.
          apply andb_true_iff in Hx as [_ Hx]. auto.
        * intros q. unfold mret'. intros H. apply andb_true_iff in H as [_ H]. auto.
        * intros q. unfold mref'. intros H. apply orb_true_iff in H as [H|H]; auto. apply Nat.eqb_eq in H. subst. now apply (in_map fst) in Hr.
      + split; [reflexivity|]. split; [intros q H; unfold mref'; rewrite H; apply orb_true_r|]. split; [unfold mref'; now rewrite Nat.eqb_refl|].
        intros m [H|(q & H1 & H2)]; [now left|]. destruct (Nat.eq_dec q p) as [->|Ne].
        * left. assert (m = n). {
            clear - H1 Hr I0. pose proof (i_nodup_pos I0) as ND. revert ND H1 Hr.
            generalize reg. induction reg0 as [|[a b] r IH]; cbn; [easy|]. intros ND. apply NoDup_cons_iff in ND as [ND1 ND2].
            intros [[= -> ->]|A] [[= ->]|B]; auto; exfalso; apply ND1; [now apply (in_map fst) in B | now apply (in_map fst) in A]. }
          subst m. unfold sub. change (heap _) with (heap s1). now rewrite Hs.
        * right. exists q. split; [assumption|]. unfold mret'. apply Nat.eqb_neq in Ne. now rewrite Ne, H2.
    - do 3 eexists. split; [reflexivity|]. split.
      + instantiate (1 := mret). instantiate (1 := mref'). destruct I1. constructor; cbn [set_output heap output consumers]; auto.
        intros q. unfold mref'. intros H. apply orb_true_iff in H as [H|H]; auto. apply Nat.eqb_eq in H. subst. now apply (in_map fst) in Hr.
      + split; [reflexivity|]. split; [intros q H; unfold mref'; rewrite H; apply orb_true_r|]. split; [unfold mref'; now rewrite Nat.eqb_refl|].
        intros m H. exact H. Qed.

  (** ** Trees *)
  Fixpoint crefs (c : chain) : list nat :=
    match c with CObj _ => [] | CRef p => [p] | CStep c _ a _ k _ => crefs c ++ arefs a ++ arefs k ++ [] end
  with arefs (a : cargs) : list nat := match a with AFlat _ => [] | AItems i => irefs i end
  with irefs (i : items) : list nat :=
    match i with INil => [] | IObj _ i => irefs i | IRef p i => p :: irefs i | IChain c i => crefs c ++ irefs i | IList i j => irefs i ++ irefs j end.
  Fixpoint cobjs (c : chain) : list obj :=
    match c with CObj o => [o] | CRef _ => [] | CStep c _ a _ k _ => cobjs c ++ aobjs a ++ aobjs k ++ [] end
  with aobjs (a : cargs) : list obj := match a with AFlat l => l | AItems i => iobjs i end
  with iobjs (i : items) : list obj :=
    match i with INil => [] | IObj o i => o :: iobjs i | IRef _ i => iobjs i | IChain c i => cobjs c ++ iobjs i | IList i j => iobjs i ++ iobjs j end.
  Fixpoint csteps (c : chain) : list nat :=
    match c with CObj _ => [] | CRef _ => [] | CStep c f a _ k _ => csteps c ++ asteps a ++ asteps k ++ [f] end
  with asteps (a : cargs) : list nat := match a with AFlat _ => [] | AItems i => isteps i end
  with isteps (i : items) : list nat :=
    match i with INil => [] | IObj _ i => isteps i | IRef _ i => isteps i | IChain c i => csteps c ++ isteps i | IList i j => isteps i ++ isteps j end.
  Notation echain := (echain call vlen vwid store).
  Notation eargs := (eargs call vlen vwid store).
  Notation eitems := (eitems call vlen vwid store).
  Notation ecall := (ecall call vlen vwid).

  (** How a part of [_deconstruct] changes the state. *)
  Definition moves (X X' : nat -> bool) (s s' : dstate) (reg reg2 : list (nat * nat)) (mref mref' mret mret' : nat -> bool) (bound : nat) : Prop :=
    (forall n, X n = true -> X' n = true)
    /\ (forall n, X' n = true -> X n = true \/ finished s' (reg ++ reg2) mret' n)
    /\ (forall n, finished s reg mret n -> finished s' (reg ++ reg2) mret' n)
    /\ (forall p, mref p = true -> mref' p = true)
    /\ (forall p n, In (p, n) reg2 -> n < bound).
  Lemma moves_trans X X1 X2 s s1 s2 reg r1 r2 mref mref1 mref2 mret mret1 mret2 b b1 b2 :
    moves X X1 s s1 reg r1 mref mref1 mret mret1 b1 -> moves X1 X2 s1 s2 (reg ++ r1) r2 mref1 mref2 mret1 mret2 b2 ->
    b1 <= b -> b2 <= b -> moves X X2 s s2 reg (r1 ++ r2) mref mref2 mret mret2 b.
  Proof. intros (A1 & A2 & A3 & A4 & A5) (B1 & B2 & B3 & B4 & B5) L1 L2. unfold moves. rewrite app_assoc. repeat split; auto.
    - intros n H. destruct (B2 n H) as [H1|H1]; auto. destruct (A2 n H1); auto.
    - intros p n H. apply in_app_iff in H as [H|H]; [specialize (A5 _ _ H) | specialize (B5 _ _ H)]; lia. Qed.
  Lemma moves_refl X s s' reg mref mret : (forall n, sub (heap s') n <= sub (heap s) n) -> moves X X s s' reg [] mref mref mret mret 0.
  Proof. intros H. unfold moves. rewrite app_nil_r. repeat split; auto; [|easy]. intros n [Z|Z]; [left; specialize (H n); lia | now right]. Qed.
  Lemma moves_weaken X X' s s' reg reg2 mref mref' mret mret' b b' :
    moves X X' s s' reg reg2 mref mref' mret mret' b -> b <= b' -> moves X X' s s' reg reg2 mref mref' mret mret' b'.
  Proof. intros (A1 & A2 & A3 & A4 & A5) L. repeat split; auto. intros p n H. specialize (A5 _ _ H). lia. Qed.
  Lemma still_finished X X1 s s1 reg r1 mref mref1 mret mret1 b (P : nat -> Prop) :
    moves X X1 s s1 reg r1 mref mref1 mret mret1 b ->
    (forall n, P n -> X n = true -> pending n = true -> finished s reg mret n) ->
    (forall n, P n -> X1 n = true -> pending n = true -> finished s1 (reg ++ r1) mret1 n).
  Proof. intros (A1 & A2 & A3 & _) F n Pn H Hp. destruct (A2 n H) as [H1|H1]; auto. Qed.

  Definition chain_spec (go : nat -> dstate -> res dstate) (id : nat) : Prop :=
    forall X E s aout reg mref mret,
      Inv X (fun m => E m + one id m) s aout reg mref mret ->
      (forall n, n <= id -> X n = true -> pending n = true -> finished s reg mret n) ->
      exists s' X' c reg2 mref' mret',
        go id s = Ok s' /\ Inv X' E s' (aout ++ fchain c) (reg ++ reg2) mref' mret' /\ wfc c
        /\ moves X X' s s' reg reg2 mref mref' mret mret' (S id)
        /\ (pending id = true -> X' id = true)
        /\ (forall p, In p (crefs c) -> mref' p = true)
        /\ (forall f, occ f (csteps c) + pend X' f = pend X f)
        /\ sem reg (reg ++ reg2) (cobjs c) (crefs c) (csteps c) (fun mr mt => echain mr mt c) (ev id).
  Definition list_spec (go : nat -> dstate -> res dstate) (l : forest ref) (j : nat) : Prop :=
    forall X E s aout reg mref mret,
      Inv X (fun m => E m + occ m (fnodes l)) s aout reg mref mret ->
      (forall n, n < j -> X n = true -> pending n = true -> finished s reg mret n) ->
      exists s' X' i reg2 mref' mret',
        deconstruct_list go l s = Ok s' /\ Inv X' E s' (aout ++ fitems i) (reg ++ reg2) mref' mret' /\ wfi i /\ iwidth i = width l
        /\ moves X X' s s' reg reg2 mref mref' mret mret' j
        /\ (forall p, In p (irefs i) -> mref' p = true)
        /\ (forall f, occ f (isteps i) + pend X' f = pend X f)
        /\ sem reg (reg ++ reg2) (iobjs i) (irefs i) (isteps i) (fun mr mt => eitems mr mt i) (traverse rval l).

  Lemma heap_node X E s aout reg mref mret n nd : Inv X E s aout reg mref mret -> nth_error h0 n = Some nd ->
    exists nd', nth_error (heap s) n = Some nd' /\ strip nd' = strip nd /\ out_pos nd' = opos (heap s) n.
  Proof. intros I Hn. pose proof (strip_nth s n (i_strip I)) as N. rewrite Hn in N. unfold opos.
    destruct (nth_error (heap s) n) as [nd'|]; [|easy]. now exists nd'. Qed.
  Lemma strip_fields (a b : node) : strip a = strip b -> data a = data b /\ func a = func b /\ args a = args b /\ keys a = keys b
    /\ kwargs a = kwargs b /\ flat_args a = flat_args b /\ flat_kwargs a = flat_kwargs b.
  Proof. destruct a, b. unfold strip. cbn. intros [= ? ? ? ? ? ? ? ? ?]. now subst. Qed.

  (** One atom of a list that is a node. *)
  Definition list_atom (go : nat -> dstate -> res dstate) (n : nat) (s : dstate) : res dstate :=
    do nd <- get_node (heap s) n;
    match position nd with
    | Some pos =>
        do s <- unsub s n;
        if has_result nd
        then match data nd with RObj o => Ok (emit s [TObj o]) | RNode _ => Err InternalBug end
        else emit_ref s n pos
    | None => let s := emit s [TTag CHAIN] in do s <- go n s; Ok (emit s [TTag END])
    end.
  Inductive entry := EObj (o : obj) | ERef (p : nat) | EChain (c : chain).
  Definition push (e : entry) (i : items) : items :=
    match e with EObj o => IObj o i | ERef p => IRef p i | EChain c => IChain c i end.
  Definition fentry (e : entry) : list (@atok V) :=
    match e with EObj o => [AT (TObj o)] | ERef p => [AT (TTag REF); AT (int p)] | EChain c => AT (TTag CHAIN) :: fchain c ++ [AT (TTag END)] end.
  Definition erefs e := match e with EObj _ => [] | ERef p => [p] | EChain c => crefs c end.
  Definition eobjs e := match e with EObj o => [o] | ERef p => [] | EChain c => cobjs c end.
  Definition esteps e := match e with EObj o => [] | ERef p => [] | EChain c => csteps c end.
  Definition wfe e := match e with EChain c => wfc c | _ => True end.
  Definition eentry mr mt e (w : wstate) : wstate * res V :=
    match e with EObj o => (w, resolve o) | ERef p => (w, lookup p (refs w)) | EChain c => echain mr mt c w end.
  Lemma fitems_push e i : fitems (push e i) = fentry e ++ fitems i.
  Proof. destruct e; cbn; auto. now rewrite <- app_assoc. Qed.
  Lemma atom_ok go n : n < length h0 -> chain_spec go n ->
    forall X E s aout reg mref mret,
      Inv X (fun m => E m + one n m) s aout reg mref mret ->
      (forall m, m <= n -> X m = true -> pending m = true -> finished s reg mret m) ->
      exists s' X' e reg2 mref' mret',
        list_atom go n s = Ok s' /\ Inv X' E s' (aout ++ fentry e) (reg ++ reg2) mref' mret' /\ wfe e
        /\ moves X X' s s' reg reg2 mref mref' mret mret' (S n)
        /\ (forall p, In p (erefs e) -> mref' p = true)
        /\ (forall f, occ f (esteps e) + pend X' f = pend X f)
        /\ sem reg (reg ++ reg2) (eobjs e) (erefs e) (esteps e) (fun mr mt => eentry mr mt e) (ev n).
  Proof. intros Hn Go X E s aout reg mref mret I F.
    destruct (nth_error h0 n) as [nd0|] eqn:Hn0; [|apply nth_error_None in Hn0; lia].
    destruct (heap_node n I Hn0) as (nd & Hs & St & Op). unfold list_atom, get_node. rewrite Hs. cbn [rbind].
    destruct (strip_fields St) as (Ed & Ef & _).
    assert (Hres : has_result nd = negb (pending n)).
    { unfold pending. rewrite Hn0. unfold has_result. rewrite Ef. now destruct (func nd0). }
    destruct (position nd) as [p|] eqn:Po.
    - destruct (unsub_ok E n I Hn0) as (s1 & -> & I1 & S1 & O1 & _). cbn [rbind].
      assert (M1 : moves X X s s1 reg [] mref mref mret mret 0) by (apply moves_refl; intros m; rewrite S1; lia).
      rewrite Hres. destruct (pending n) eqn:Pe; cbn [negb].
      + assert (HX : X n = true).
        { destruct (X n) eqn:HX; [easy|]. pose proof (i_fresh I n HX Pe) as Fr. unfold position in Po. rewrite Op, Fr in Po. easy. }
        assert (Fn : exists q, In (q, n) reg /\ mret q = true).
        { destruct (F n (le_n n) HX Pe) as [Z|Z]; [|assumption]. pose proof (i_sub I n) as Sn. rewrite Z in Sn. unfold one in Sn.
          destruct (Nat.eq_dec n n); lia. }
        destruct Fn as (q & Q1 & Q2).
        assert (q = p).
        { destruct (i_reg I q n Q1) as (? & _ & _ & Q & _). specialize (Q Q2). unfold position in Po. rewrite Op, Q in Po.
          destruct q; [discriminate|]. congruence. }
        subst q. destruct (emit_ref_ok p I1 Q1 Q2 Hn) as (s2 & mref' & mret' & E2 & I2 & H2 & R2 & R3 & F2).
        exists s2, X, (ERef p), [], mref', mret'. rewrite app_nil_r. split; [exact E2|]. split; [exact I2|]. split; [exact Logic.I|].
        split.
        { replace (@nil (nat * nat)) with (@nil (nat * nat) ++ []) by easy.
          apply (moves_trans (X1 := X) (s1 := s1) (mref1 := mref) (mret1 := mret) (b1 := 0) (b2 := 0)); try lia; [exact M1|].
          unfold moves. rewrite !app_nil_r. repeat split; auto. easy. }
        split; [cbn; intros q [<-|[]]; assumption|]. split; [intros f; cbn; lia|].
        cbn. now apply sem_lookup.
      + pose proof (nodes_ok n Hn0) as Nk. unfold node_ok in Nk. unfold pending in Pe. rewrite Hn0 in Pe. unfold has_result in Pe.
        destruct (func nd0); [discriminate|]. destruct Nk as (o & Do & Vo). rewrite Ed, Do.
        exists (emit s1 [TObj o]), X, (EObj o), [], mref, mret. rewrite app_nil_r. split; [reflexivity|].
        split; [exact (emit_ok [TObj o] I1)|]. split; [exact Logic.I|]. split; [exact (moves_weaken M1 ltac:(lia))|].
        split; [easy|]. split; [intros f; cbn; lia|]. cbn. rewrite <- Vo. apply sem_resolve.
    - pose proof (emit_ok [TTag CHAIN] I) as I1.
      destruct (Go X E _ _ _ _ _ I1) as (s2 & X2 & c & reg2 & mref2 & mret2 & E2 & I2 & W & M & _ & R & P & Sm).
      { intros m Hm HX Pe. exact (F m Hm HX Pe). }
      rewrite E2. cbn [rbind]. exists (emit s2 [TTag END]), X2, (EChain c), reg2, mref2, mret2. split; [reflexivity|].
      split. { pose proof (emit_ok [TTag END] I2) as I3. cbn [map] in I3. rewrite <- !app_assoc in I3. exact I3. }
      split; [exact W|]. split; [exact M|]. split; [exact R|]. split; [exact P|]. exact Sm. Qed.

  Lemma sem_map {A B} reg reg' objs rfs st comp (spec : res A) (g : A -> B) :
    sem reg reg' objs rfs st comp spec ->
    sem reg reg' objs rfs st (fun mr mt w => wbind (comp mr mt w) (fun w a => (w, Ok (g a)))) (do a <- spec; Ok (g a)).
  Proof. intros S mr mt w R O G. specialize (S mr mt w R O G). destruct (comp mr mt w) as [w' [a|e]]; cbn [wbind]; [|exact S].
    destruct S as (S1 & -> & S2). easy. Qed.
  Lemma sem_widen {A} reg reg' objs rfs st (comp : _ -> _ -> wstate -> wstate * res A) spec objs' rfs' st' :
    sem reg reg' objs rfs st comp spec -> objs = objs' -> rfs = rfs' -> st = st' -> sem reg reg' objs' rfs' st' comp spec.
  Proof. now intros S -> -> ->. Qed.
  Lemma eitems_push mr mt e i w : eitems mr mt (push e i) w
    = wbind (eentry mr mt e w) (fun w v => wbind (eitems mr mt i w) (fun w r => (w, Ok (Atom v r)))).
  Proof. now destruct e. Qed.
  Lemma irefs_push e i : irefs (push e i) = erefs e ++ irefs i.  Proof. now destruct e. Qed.
  Lemma iobjs_push e i : iobjs (push e i) = eobjs e ++ iobjs i.  Proof. now destruct e. Qed.
  Lemma isteps_push e i : isteps (push e i) = esteps e ++ isteps i.  Proof. now destruct e. Qed.
  Lemma wfi_push e i : wfe e -> wfi i -> wfi (push e i).  Proof. destruct e; cbn; auto. Qed.
  Lemma iwidth_push e i : iwidth (push e i) = S (iwidth i).  Proof. now destruct e. Qed.
  Lemma fnodes_node n l : fnodes (Atom (RNode n) l) = n :: fnodes l.  Proof. reflexivity. Qed.
  Lemma fnodes_obj o l : fnodes (Atom (RObj o) l) = fnodes l.  Proof. reflexivity. Qed.
  Lemma fnodes_nest t i l : fnodes (Nest t i l) = fnodes i ++ fnodes l.
  Proof. unfold fnodes. cbn [atoms]. now rewrite flat_map_app. Qed.
  Lemma occ_cons m n l : occ m (n :: l) = one n m + occ m l.
  Proof. unfold occ, one. cbn. destruct (Nat.eq_dec n m); lia. Qed.

  Lemma push_ok (g : nat -> dstate -> res dstate) (l : forest ref) j X E s aout reg mref mret X1 e s1 reg1 mref1 mret1 spec :
    list_spec g l j ->
    (forall n, n < j -> X n = true -> pending n = true -> finished s reg mret n) ->
    Inv X1 (fun m => E m + occ m (fnodes l)) s1 (aout ++ fentry e) (reg ++ reg1) mref1 mret1 -> wfe e ->
    moves X X1 s s1 reg reg1 mref mref1 mret mret1 j ->
    (forall p, In p (erefs e) -> mref1 p = true) ->
    (forall f, occ f (esteps e) + pend X1 f = pend X f) ->
    sem reg (reg ++ reg1) (eobjs e) (erefs e) (esteps e) (fun mr mt => eentry mr mt e) spec ->
    exists s' X' i reg2 mref' mret',
        deconstruct_list g l s1 = Ok s' /\ Inv X' E s' (aout ++ fitems i) (reg ++ reg2) mref' mret' /\ wfi i /\ iwidth i = S (width l)
        /\ moves X X' s s' reg reg2 mref mref' mret mret' j
        /\ (forall p, In p (irefs i) -> mref' p = true)
        /\ (forall f, occ f (isteps i) + pend X' f = pend X f)
        /\ sem reg (reg ++ reg2) (iobjs i) (irefs i) (isteps i) (fun mr mt => eitems mr mt i) (do v <- spec; do r <- traverse rval l; Ok (Atom v r)).
  Proof. intros IH F I1 W1 M1 R1 P1 S1.
    destruct (IH X1 E s1 _ _ _ _ I1 (still_finished (fun n => n < j) M1 F))
      as (s2 & X2 & i & reg2 & mref2 & mret2 & E2 & I2 & W2 & Wd & M2 & R2 & P2 & S2).
    exists s2, X2, (push e i), (reg1 ++ reg2), mref2, mret2. split; [exact E2|].
    split. { rewrite fitems_push, !app_assoc in *. exact I2. }
    split; [now apply wfi_push|]. split; [now rewrite iwidth_push, Wd|].
    split; [exact (moves_trans M1 M2 (le_n _) (le_n _))|].
    split. { intros p. rewrite irefs_push. intros H. apply in_app_iff in H as [H|H]; [|auto]. now apply M2, R1. }
    split. { intros f. rewrite isteps_push, occ_app. specialize (P1 f). specialize (P2 f). lia. }
    rewrite iobjs_push, irefs_push, isteps_push, app_assoc.
    eapply sem_eq; [|intros; symmetry; apply eitems_push|reflexivity].
    eapply (sem_bind reg2 (fun v mr mt w => wbind (eitems mr mt i w) (fun w r => (w, Ok (Atom v r)))) (fun v => do r <- traverse rval l; Ok (Atom v r))); [exact S1|].
    intros v _. apply sem_map. exact S2. Qed.
  Lemma list_ok g (l : forest ref) j : j <= length h0 -> (forall n, In n (fnodes l) -> n < j /\ chain_spec g n) -> lists_only l = true ->
    list_spec g l j.
  Proof. intros Hj. induction l as [|[o|n] l IH|t l1 IH1 l2 IH2]; intros C L X E s aout reg mref mret I F.
    - exists (emit s [TTag END]), X, INil, [], mref, mret. rewrite app_nil_r. split; [reflexivity|].
      split; [apply (emit_ok [TTag END]); apply (inv_weaken _ I); intros m; lia|]. split; [exact Logic.I|]. split; [reflexivity|].
      split; [apply (moves_weaken (b := 0)); [now apply moves_refl | lia]|]. split; [easy|]. split; [intros f; cbn; lia|].
      cbn. apply sem_ret.
    - cbn [deconstruct_list width traverse]. rewrite fnodes_obj in *. cbn in L.
      apply (@push_ok g l j X E s aout reg mref mret X (EObj o) (emit s [TObj o]) [] mref mret (oval o) (IH C L) F).
      + rewrite app_nil_r. exact (emit_ok [TObj o] I).
      + exact Logic.I.
      + apply (moves_weaken (b := 0)); [now apply moves_refl | lia].
      + easy.
      + easy.
      + rewrite app_nil_r. apply sem_resolve.
    - cbn [width traverse]. rewrite fnodes_node in *. cbn in L.
      destruct (C n (or_introl eq_refl)) as [Hn Cn].
      change (deconstruct_list g (Atom (RNode n) l) s) with (do nd <- get_node (heap s) n;
        do s <- match position nd with
                | Some pos =>
                    do s <- unsub s n;
                    if has_result nd
                    then match data nd with RObj o => Ok (emit s [TObj o]) | RNode _ => Err InternalBug end
                    else emit_ref s n pos
                | None =>
                    let s := emit s [TTag CHAIN] in
                    do s <- g n s; Ok (emit s [TTag END])
                end;
        deconstruct_list g l s).
      destruct (@atom_ok g n ltac:(lia) Cn X (fun m => E m + occ m (fnodes l)) s aout reg mref mret)
        as (s1 & X1 & e & reg1 & mref1 & mret1 & E1 & I1 & W1 & M1 & R1 & P1 & S1).
      { apply (inv_weaken _ I). intros m. rewrite occ_cons. lia. }
      { intros m Hm. apply F. lia. }
      replace (do nd <- get_node (heap s) n; _) with (do s <- list_atom g n s; deconstruct_list g l s)
        by (unfold list_atom; now destruct (get_node (heap s) n)).
      rewrite E1. cbn [rbind].
      apply (@push_ok g l j X E s aout reg mref mret X1 e s1 reg1 mref1 mret1 (ev n) (IH (fun m Hm => C m (or_intror Hm)) L) F I1 W1 (moves_weaken M1 Hn) R1 P1 S1).
    - cbn [deconstruct_list width traverse]. rewrite fnodes_nest in *. cbn in L.
      apply andb_true_iff in L as [L L2]. apply andb_true_iff in L as [Lt L1]. apply negb_true_iff in Lt. subst t.
      pose proof (emit_ok [TTag LIST] I) as I0.
      assert (LE : forall m, E m + occ m (fnodes l2) + occ m (fnodes l1) <= E m + occ m (fnodes l1 ++ fnodes l2)) by (intros m; rewrite occ_app; lia).
      destruct (IH1 (fun m Hm => C m (in_or_app _ _ _ (or_introl Hm))) L1 X (fun m => E m + occ m (fnodes l2)) _ _ _ _ _
        (inv_weaken (fun m => E m + occ m (fnodes l2) + occ m (fnodes l1)) I0 LE) F)
        as (s1 & X1 & i1 & reg1 & mref1 & mret1 & E1 & I1 & W1 & Wd1 & M1 & R1 & P1 & S1).
      rewrite E1. cbn [rbind].
      destruct (IH2 (fun m Hm => C m (in_or_app _ _ _ (or_intror Hm))) L2 X1 E s1 _ _ _ _ I1 (still_finished (fun n => n < j) M1 F))
        as (s2 & X2 & i2 & reg2 & mref2 & mret2 & E2 & I2 & W2 & Wd2 & M2 & R2 & P2 & S2).
      exists s2, X2, (IList i1 i2), (reg1 ++ reg2), mref2, mret2. split; [exact E2|].
      split. { cbn [fitems]. rewrite app_assoc. replace (aout ++ AT (TTag LIST) :: fitems i1 ++ fitems i2)
          with (((aout ++ map AT [TTag LIST]) ++ fitems i1) ++ fitems i2) by (cbn; now rewrite <- !app_assoc). exact I2. }
      split; [easy|]. split; [cbn; now rewrite Wd2|].
      split; [exact (moves_trans M1 M2 (le_n _) (le_n _))|].
      split. { intros p. cbn [irefs]. intros H. apply in_app_iff in H as [H|H]; [|auto]. now apply M2, R1. }
      split. { intros f. cbn [isteps]. rewrite occ_app. specialize (P1 f). specialize (P2 f). lia. }
      rewrite app_assoc. cbn [iobjs irefs isteps]. 
      eapply sem_eq; [|intros; reflexivity|reflexivity].
      eapply (sem_bind reg2 (fun v mr mt w => wbind (eitems mr mt i2 w) (fun w r => (w, Ok (Nest false v r)))) (fun v => do r <- traverse rval l2; Ok (Nest false v r))); [exact S1|].
      intros v _. apply sem_map. exact S2. Qed.

  (** ** Arguments *)
  Lemma flat_facts (l : forest ref) : is_flat l = true ->
    width l = length (flat_objects l) /\ fnodes l = [] /\ traverse rval l = do vs <- rmap oval (flat_objects l); Ok (fold_right (@Atom V) Nil vs).
  Proof. induction l as [|[o|n] l IH|t l1 _ l2 _]; cbn [is_flat]; intros H; try discriminate; [easy|].
    destruct (IH H) as (A & B & C). split; [cbn; now rewrite A|]. split; [exact B|].
    cbn [traverse rval]. rewrite C. unfold flat_objects. cbn [atoms flat_map app rmap]. destruct (oval o); cbn [rbind]; [|easy].
    now destruct (rmap oval _). Qed.
  Lemma sem_flat reg l : sem reg reg l [] [] (fun mr mt => eargs mr mt (AFlat l)) (do vs <- rmap oval l; Ok (fold_right (@Atom V) Nil vs)).
  Proof. intros mr mt w R O G. cbn. split; [intros f; lia|].
    assert (H : exists vs, rmap resolve l = Ok vs /\ rmap oval l = Ok vs).
    { clear - O resolve_ok. induction l as [|o l IH]; cbn; [now exists []|].
      destruct (O o) as [v E]; [now left|]. destruct IH as (vs & E1 & E2); [intros; apply O; now right|].
      exists (v :: vs). rewrite E, (resolve_ok o E), E1, E2. easy. }
    destruct H as (vs & -> & ->). cbn. easy. Qed.
  Definition args_spec (step : dstate -> res dstate) (l : forest ref) (fl : cargs -> list (@atok V)) (j : nat) : Prop :=
    forall X E s aout reg mref mret,
      Inv X (fun m => E m + occ m (fnodes l)) s aout reg mref mret ->
      (forall n, n < j -> X n = true -> pending n = true -> finished s reg mret n) ->
      exists s' X' a reg2 mref' mret',
        step s = Ok s' /\ Inv X' E s' (aout ++ fl a) (reg ++ reg2) mref' mret' /\ wfa a /\ awidth a = width l
        /\ moves X X' s s' reg reg2 mref mref' mret mret' j
        /\ (forall p, In p (arefs a) -> mref' p = true)
        /\ (forall f, occ f (asteps a) + pend X' f = pend X f)
        /\ sem reg (reg ++ reg2) (aobjs a) (arefs a) (asteps a) (fun mr mt => eargs mr mt a) (traverse rval l).
  Lemma args_ok g (l : forest ref) j : list_spec g l j ->
    args_spec (fun s => if is_flat l
      then Ok (emit s (TInt (Z.of_nat (width l)) :: map (fun o => TObj o) (flat_objects l)))
      else deconstruct_list g l (emit s [TInt (-1)])) l fargs j.
  Proof. intros LS X E s aout reg mref mret I F. destruct (is_flat l) eqn:Fl.
    - destruct (flat_facts l Fl) as (A & B & C). rewrite B in I. rewrite A.
      eexists _, X, (AFlat (flat_objects l)), [], mref, mret. split; [reflexivity|]. rewrite app_nil_r.
      split. { cbn [fargs]. pose proof (emit_ok (int (length (flat_objects l)) :: map (fun o => TObj o) (flat_objects l)) I) as I1.
        cbn [map] in I1. rewrite map_map in I1. apply (inv_weaken _ I1). intros m. lia. }
      split; [exact Logic.I|]. split; [reflexivity|]. split; [apply (moves_weaken (b := 0)); [now apply moves_refl | lia]|].
      split; [easy|]. split; [intros f; cbn; lia|]. rewrite C. apply sem_flat.
    - pose proof (emit_ok [TInt (-1)] I) as I1.
      destruct (LS X E _ _ _ _ _ I1 F) as (s' & X' & i & reg2 & mref' & mret' & E1 & I2 & W & Wd & M & R & P & S).
      exists s', X', (AItems i), reg2, mref', mret'. split; [exact E1|].
      split. { cbn [fargs]. rewrite <- app_assoc in I2. exact I2. }
      split; [exact W|]. split; [exact Wd|]. split; [exact M|]. split; [exact R|]. split; [exact P|]. exact S. Qed.
  Lemma kwargs_ok g (l : forest ref) ks j : list_spec g l j ->
    args_spec (fun s => if is_flat l
      then Ok (emit s (TInt (Z.of_nat (width l)) :: flat_map (fun ko => [TKey (fst ko); TObj (snd ko)]) (combine ks (flat_objects l))))
      else do s <- deconstruct_list g l (emit s [TInt (-1)]); Ok (emit s (map (fun k => TKey k) ks))) l (fkw ks) j.
  Proof. intros LS X E s aout reg mref mret I F. destruct (is_flat l) eqn:Fl.
    - destruct (flat_facts l Fl) as (A & B & C). rewrite B in I. rewrite A.
      eexists _, X, (AFlat (flat_objects l)), [], mref, mret. split; [reflexivity|]. rewrite app_nil_r.
      split. { cbn [fkw]. pose proof (emit_ok (int (length (flat_objects l)) :: flat_map (fun ko => [TKey (fst ko); TObj (snd ko)]) (combine ks (flat_objects l))) I) as I1.
        cbn [map] in I1. replace (map AT (flat_map _ _)) with
          (flat_map (fun ko => [@AT V (TKey (fst ko)); AT (TObj (snd ko))]) (combine ks (flat_objects l))) in I1.
        - apply (inv_weaken _ I1). intros m. lia.
        - generalize (combine ks (flat_objects l)). induction l0 as [|x l0 IH]; cbn; [easy|]. now rewrite IH. }
      split; [exact Logic.I|]. split; [reflexivity|]. split; [apply (moves_weaken (b := 0)); [now apply moves_refl | lia]|].
      split; [easy|]. split; [intros f; cbn; lia|]. rewrite C. apply sem_flat.
    - pose proof (emit_ok [TInt (-1)] I) as I1.
      destruct (LS X E _ _ _ _ _ I1 F) as (s' & X' & i & reg2 & mref' & mret' & E1 & I2 & W & Wd & M & R & P & S).
      exists (emit s' (map (fun k => TKey k) ks)), X', (AItems i), reg2, mref', mret'. split; [now rewrite E1|].
      split. { cbn [fkw]. pose proof (emit_ok (map (fun k => TKey k) ks) I2) as I3. rewrite map_map, <- !app_assoc in I3. exact I3. }
      split; [exact W|]. split; [exact Wd|]. split; [exact M|]. split; [exact R|]. split; [exact P|]. exact S. Qed.

  (** ** The places for the reference id and for the number of results *)
  Definition slots (n : nat) (s : dstate) : res dstate :=
    let s := emit s [TInt 0] in
    do nd <- get_node (heap s) n;
    if 0 <? subscribers nd then
      let p := length (output s) - 1 in
      Ok (DS (update (heap s) n (set_out_pos p)) (output s ++ [TInt 1]) (consumers s ++ [n]))
    else Ok (emit s [TInt 0]).
  Lemma NoDup_snoc {A} (l : list A) x : NoDup l -> ~ In x l -> NoDup (l ++ [x]).
  Proof. intros H N. apply (NoDup_Add (a := x) (l := l)); [|easy]. rewrite <- (app_nil_r l) at 1. apply Add_app. Qed.
  Lemma slots_ok X E s aout reg mref mret id nd : Inv X E s aout reg mref mret -> 0 < length aout -> X id = true ->
    ~ In id (map snd reg) -> nth_error h0 id = Some nd ->
    exists s' mret', slots id s = Ok s'
      /\ Inv X E s' (aout ++ [ASlot (length aout); ARet (length aout)]) (reg ++ [(length aout, id)]) mref mret'
      /\ finished s' (reg ++ [(length aout, id)]) mret' id
      /\ (forall n, finished s reg mret n -> finished s' (reg ++ [(length aout, id)]) mret' n)
      /\ ~ In (length aout) (map fst reg).
  Proof. intros I La HX Hid Hn. set (p := length aout). unfold slots.
    destruct (heap_node id I Hn) as (nd' & Hs & St & Op). unfold get_node. cbn [emit heap]. rewrite Hs. cbn [rbind].
    assert (Np : ~ In p (map fst reg)).
    { intros H. apply in_map_iff in H as ([q m] & Eq & H). cbn [fst] in Eq. destruct (i_reg I q m H) as (_ & H1 & _).
      assert (q < length aout) by (apply nth_error_Some; congruence). unfold p in Eq. lia. }
    assert (Mp : mret p = false) by (destruct (mret p) eqn:Ep; [exfalso; now apply Np, (i_ret I)|easy]).
    assert (Rp : mref p = false) by (destruct (mref p) eqn:Ep; [exfalso; now apply Np, (i_mref I)|easy]).
    assert (Lo : length (output s) = p) by (rewrite (i_out I); apply map_length).
    set (mret' := fun q => if q =? p then 0 <? subscribers nd' else mret q).
    set (s' := if 0 <? subscribers nd' then DS (update (heap s) id (set_out_pos p)) ((output s ++ [TInt 0]) ++ [TInt 1]) (consumers s ++ [id])
               else emit (emit s [TInt 0]) [TInt 0]).
    assert (Mq : forall q n, In (q, n) reg -> mret' q = mret q).
    { intros q n H. unfold mret'. destruct (Nat.eqb_spec q p); [|easy]. subst q. exfalso. apply Np. now apply (in_map fst) in H. }
    assert (Hsub : forall n, sub (heap s') n = sub (heap s) n).
    { intros n. unfold s'. destruct (0 <? subscribers nd'); [|easy]. unfold sub. cbn [heap]. destruct (Nat.eq_dec id n) as [<-|Ne].
      - now rewrite update_same, Hs.
      - now rewrite update_other. }
    assert (Hop : forall n, n <> id -> opos (heap s') n = opos (heap s) n).
    { intros n Ne. unfold s'. destruct (0 <? subscribers nd'); [|easy]. unfold opos. cbn [heap]. now rewrite update_other by auto. }
    exists s', mret'. split. { unfold s'. cbn [emit output consumers]. rewrite app_length, Lo. cbn [length]. replace (p + 1 - 1) with p by lia.
      now destruct (0 <? subscribers nd'). }
    assert (Fin : finished s' (reg ++ [(p, id)]) mret' id).
    { unfold finished. rewrite Hsub. unfold sub. rewrite Hs. destruct (0 <? subscribers nd') eqn:Es.
      - right. exists p. split; [apply in_or_app; right; now left|]. unfold mret'. now rewrite Nat.eqb_refl.
      - left. apply Nat.ltb_ge in Es. lia. }
    split; [|split; [exact Fin|split; [|exact Np]]].
    - destruct I. constructor; auto.
      + unfold s'. destruct (0 <? subscribers nd'); [|assumption]. cbn [heap]. rewrite <- i_strip0. apply update_map. now intros [].
      + intros n. rewrite Hsub. auto.
      + transitivity (output s ++ [TInt 0; if 0 <? subscribers nd' then TInt 1 else TInt 0]).
        { unfold s'. destruct (0 <? subscribers nd'); cbn; now rewrite <- app_assoc. }
        rewrite map_app. cbn [map interp]. rewrite Rp. unfold mret' at 2. rewrite Nat.eqb_refl.
        f_equal. rewrite i_out0. apply map_ext_in. intros [t|q|q] H; cbn; auto.
        apply In_nth_error in H as [i Hi]. pose proof (proj2 (i_slots0 i q) Hi) as ->.
        assert (S q < p) by (apply nth_error_Some; congruence). unfold mret'. destruct (Nat.eqb_spec q p); [lia|easy].
      + intros i q. destruct (Nat.lt_ge_cases i p) as [Hi|Hi]; [rewrite nth_error_app1 by assumption; auto|].
        rewrite nth_error_app2 by assumption. fold p. destruct (i - p) as [|[|[|k]]] eqn:Ei; cbn; split; intros H; try discriminate;
          injection H as H; lia.
      + transitivity (consumers s ++ if 0 <? subscribers nd' then [id] else []).
        { unfold s'. destruct (0 <? subscribers nd'); cbn; now rewrite ?app_nil_r. }
        rewrite filter_app, map_app. f_equal.
        * rewrite i_cons0. f_equal. apply filter_ext_in. intros [q n] H. cbn. symmetry. eauto.
        * cbn. unfold mret'. rewrite Nat.eqb_refl. now destruct (0 <? subscribers nd').
      + rewrite map_app. now apply NoDup_snoc.
      + rewrite map_app. now apply NoDup_snoc.
      + intros q n H. apply in_app_iff in H as [H|[[= <- <-]|[]]].
        * destruct (i_reg0 q n H) as (A & B & C & D & G). rewrite (Mq q n H). repeat split; auto using nth_app_keep.
          intros Hm. rewrite Hop; [auto|]. intros ->. apply Hid. now apply (in_map snd) in H.
        * repeat split; auto.
          -- rewrite nth_error_app2 by (unfold p; lia). unfold p. now rewrite Nat.sub_diag.
          -- rewrite nth_error_app2 by (unfold p; lia). unfold p. now replace (S (length aout) - length aout) with 1 by lia.
          -- unfold mret'. rewrite Nat.eqb_refl. intros Es. unfold s'. rewrite Es. unfold opos. cbn [heap]. now rewrite update_same, Hs.
      + intros n H1 H2. rewrite Hop; [auto|]. congruence.
      + intros q. unfold mret'. rewrite map_app, in_app_iff. destruct (Nat.eqb_spec q p) as [->|Ne]; [intros _; right; now left|]. left. auto.
      + intros q H. rewrite map_app, in_app_iff. left. auto.
    - intros n [Z|(q & H1 & H2)]; [left; now rewrite Hsub|]. right. exists q. rewrite (Mq q n H1). split; [apply in_or_app; now left|assumption]. Qed.
  Lemma sem_call reg p id f d a ks k : ev id = call f d a ks k -> pending id = true -> 0 < p -> ~ In p (map fst reg) ->
    sem reg (reg ++ [(p, id)]) [] [] [f] (fun mr mt => ecall mr mt f d a ks k p) (call f d a ks k).
  Proof. intros Ev Pe Hp Np mr mt w R O (G1 & G2 & G3). unfold DefProofs.ecall. rewrite <- Ev.
    assert (Oc : forall g, occ g (calls w ++ [f]) <= occ g (calls w) + occ g [f]) by (intros g; rewrite occ_app; lia).
    destruct (ev id) as [v|e] eqn:Ee.
    2:{ split; [exact Oc|]. split; [|exists id, e; auto]. exists (filter (fun pn => mt (fst pn)) reg), (filter (fun pn => mt (fst pn)) [(p, id)]).
        split; [apply filter_app | assumption]. }
    destruct (Nat.eqb_spec p 0); [lia|]. cbn [negb]. rewrite andb_true_r.
    split; [destruct (mr p), (mt p); exact Oc|]. split; [reflexivity|].
    assert (Lk : forall q n, In (q, n) reg -> lookup q ((p, v) :: refs w) = lookup q (refs w)).
    { intros q n' H. unfold lookup. cbn [find fst]. destruct (Nat.eqb_spec p q); [|easy]. subst q. exfalso. apply Np. now apply (in_map fst) in H. }
    split; [|split].
    - intros q n' H Hq. apply in_app_iff in H as [H|[[= <- <-]|[]]].
      + destruct (G1 q n' H Hq) as (u & U1 & U2). exists u. split; [|assumption]. rewrite <- U1.
        destruct (mr p), (mt p); cbn [refs]; auto; now apply (Lk q n').
      + exists v. rewrite Hq. split; [|assumption]. unfold lookup. destruct (mt p); cbn; now rewrite Nat.eqb_refl.
    - rewrite filter_app. cbn [filter fst]. destruct (mr p), (mt p); cbn [yields]; rewrite ?app_nil_r; auto; apply Forall2_app; auto.
    - destruct (mr p), (mt p); cbn [yields wmeta]; auto; rewrite G3, flat_map_app; easy. Qed.

  (** ** Chains *)
  Definition head_spec (go : nat -> dstate -> res dstate) (d : ref) (j : nat) : Prop :=
    forall X E s aout reg mref mret,
      Inv X (fun m => E m + occ m (node_of d)) s aout reg mref mret ->
      (forall n, n < j -> X n = true -> pending n = true -> finished s reg mret n) ->
      exists s' X' c reg2 mref' mret',
        match d with RObj o => Ok (emit s [TObj o]) | RNode m => go m s end = Ok s'
        /\ Inv X' E s' (aout ++ fchain c) (reg ++ reg2) mref' mret' /\ wfc c
        /\ moves X X' s s' reg reg2 mref mref' mret mret' j
        /\ (forall p, In p (crefs c) -> mref' p = true)
        /\ (forall f, occ f (csteps c) + pend X' f = pend X f)
        /\ sem reg (reg ++ reg2) (cobjs c) (crefs c) (csteps c) (fun mr mt => echain mr mt c) (rval d).
  Lemma head_ok go d j : (forall m, In m (node_of d) -> m < j /\ chain_spec go m) -> head_spec go d j.
  Proof. intros C X E s aout reg mref mret I F. destruct d as [o|m].
    - exists (emit s [TObj o]), X, (CObj o), [], mref, mret. rewrite app_nil_r. split; [reflexivity|].
      split; [apply (emit_ok [TObj o]); apply (inv_weaken _ I); intros n; lia|]. split; [exact Logic.I|].
      split; [apply (moves_weaken (b := 0)); [now apply moves_refl | lia]|]. split; [easy|]. split; [intros f; cbn; lia|]. apply sem_resolve.
    - destruct (C m) as [Hm Cm]; [now left|].
      assert (I' : Inv X (fun n => E n + one m n) s aout reg mref mret).
      { apply (inv_weaken _ I). intros n. cbn [node_of]. rewrite occ_cons. lia. }
      destruct (Cm X E s aout reg mref mret I') as (s' & X' & c & reg2 & mref' & mret' & E1 & I1 & W & M & _ & R & P & S).
      { intros n Hn. apply F. lia. }
      exists s', X', c, reg2, mref', mret'. split; [exact E1|]. split; [exact I1|]. split; [exact W|]. split; [exact (moves_weaken M Hm)|].
      split; [exact R|]. split; [exact P|]. exact S. Qed.
  Lemma inv_add X E s aout reg mref mret id nd : Inv X E s aout reg mref mret -> nth_error h0 id = Some nd -> has_result nd = false ->
    X id = false -> Inv (add X id) (fun m => E m + occ m (node_refs nd)) s aout reg mref mret.
  Proof. intros [] Hn Hr HX. constructor; auto.
    - intros n. specialize (i_sub0 n). rewrite (@rem_add X id nd n Hn Hr HX) in i_sub0. lia.
    - intros p n H. destruct (i_reg0 p n H) as (A & B & C & D & G). repeat split; auto. unfold add. rewrite G. apply orb_true_r.
    - intros n. unfold add. intros H. apply orb_false_iff in H as [_ H]. auto. Qed.
  Definition args_step g (l : forest ref) (s : dstate) : res dstate :=
    if is_flat l then Ok (emit s (TInt (Z.of_nat (width l)) :: map (fun o => TObj o) (flat_objects l)))
    else deconstruct_list g l (emit s [TInt (-1)]).
  Definition kwargs_step g (l : forest ref) ks (s : dstate) : res dstate :=
    if is_flat l then Ok (emit s (TInt (Z.of_nat (width l)) :: flat_map (fun ko => [TKey (fst ko); TObj (snd ko)]) (combine ks (flat_objects l))))
    else do s <- deconstruct_list g l (emit s [TInt (-1)]); Ok (emit s (map (fun k => TKey k) ks)).
  Lemma node_steps g n s nd f : get_node (heap s) n = Ok nd -> func nd = Some f -> flat_args nd = is_flat (args nd) ->
    flat_kwargs nd = is_flat (kwargs nd) ->
    deconstruct_node g n s = do s <- args_step g (args nd) (emit s [TFun f]); do s <- kwargs_step g (kwargs nd) (keys nd) s; slots n s.
  Proof. intros G F A K. unfold deconstruct_node. rewrite G. cbn [rbind]. rewrite F, A, K. reflexivity. Qed.

  Lemma fresh_in X E s aout reg mref mret id : Inv X E s aout reg mref mret -> X id = false -> ~ In id (map snd reg).
  Proof. intros I HX H. apply in_map_iff in H as ([p n] & <- & H). destruct (i_reg I p n H) as (_ & _ & _ & _ & H1). cbn in HX. congruence. Qed.

  Lemma chain_ok fuel : forall id, id < fuel -> id < length h0 -> chain_spec (deconstruct_chain fuel) id.
  Proof. induction fuel as [|fuel IH]; intros id Hf Hid; [lia|]. intros X E s aout reg mref mret I F.
    destruct (nth_error h0 id) as [nd0|] eqn:Hn0; [|apply nth_error_None in Hn0; lia].
    destruct (unsub_ok E id I Hn0) as (s1 & E1 & I1 & S1 & O1 & nd & Hs & St & Op).
    destruct (strip_fields St) as (Ed & Ef & Ea & Ek & Eka & Efa & Efk).
    assert (M1 : moves X X s s1 reg [] mref mref mret mret 0) by (apply moves_refl; intros m; rewrite S1; lia).
    assert (Hg : get_node (heap s1) id = Ok nd) by (unfold get_node; now rewrite Hs).
    cbn [deconstruct_chain]. rewrite E1. cbn [rbind]. rewrite Hg. cbn [rbind].
    pose proof (nodes_ok id Hn0) as Nk. unfold node_ok in Nk.
    destruct (func nd0) as [f|] eqn:Hf0.
    2:{ assert (HR : has_result nd = true) by (unfold has_result; now rewrite Ef). destruct Nk as (o & Do & Vo).
        assert (Pe : pending id = false) by (unfold pending; rewrite Hn0; unfold has_result; now rewrite Hf0).
        rewrite HR, Ed, Do. exists (emit s1 [TObj o]), X, (CObj o), [], mref, mret. rewrite app_nil_r.
        split; [now destruct (position nd)|]. split; [exact (emit_ok [TObj o] I1)|]. split; [exact Logic.I|].
        split; [exact (moves_weaken M1 (Nat.le_0_l _))|]. split; [congruence|]. split; [easy|]. split; [intros g; cbn; lia|].
        cbn. rewrite <- Vo. apply sem_resolve. }
    assert (HR : has_result nd = false) by (unfold has_result; now rewrite Ef).
    assert (HR0 : has_result nd0 = false) by (unfold has_result; now rewrite Hf0).
    assert (Pe : pending id = true) by (unfold pending; now rewrite Hn0, HR0).
    destruct Nk as (Lt & Fa & Fk & La & Lk & Wk & Ev). rewrite HR.
    destruct (X id) eqn:HX.
    - destruct (F id (le_n id) HX Pe) as [Z|(q & Q1 & Q2)].
      { pose proof (i_sub I id) as Sn. rewrite Z in Sn. unfold one in Sn. destruct (Nat.eq_dec id id); lia. }
      destruct (i_reg I q id Q1) as (Hq & _ & _ & Q & _). specialize (Q Q2).
      assert (Po : position nd = Some q) by (unfold position; rewrite Op, Q; destruct q; [lia|easy]).
      rewrite Po. destruct (emit_ref_ok q I1 Q1 Q2 Hid) as (s2 & mref' & mret' & E2 & I2 & H2 & R2 & R3 & F2).
      exists s2, X, (CRef q), [], mref', mret'. rewrite app_nil_r. split; [exact E2|]. split; [exact I2|]. split; [exact Logic.I|].
      split.
      { replace (@nil (nat * nat)) with (@nil (nat * nat) ++ []) by easy.
        apply (moves_trans (X1 := X) (s1 := s1) (mref1 := mref) (mret1 := mret) (b1 := 0) (b2 := 0)); try lia; [exact M1|].
        unfold moves. rewrite !app_nil_r. repeat split; auto. easy. }
      split; [auto|]. split; [cbn; intros p [<-|[]]; assumption|]. split; [intros g; cbn; lia|]. cbn. now apply sem_lookup.
    - pose proof (i_fresh I id HX Pe) as Fr. assert (Po : position nd = None) by (unfold position; now rewrite Op, Fr). rewrite Po.
      pose proof (inv_add id I1 Hn0 HR0 HX) as I2.
      set (g := deconstruct_chain fuel) in *.
      assert (Cm : forall m, In m (node_refs nd0) -> m < id /\ chain_spec g m).
      { intros m Hm. apply Lt in Hm. split; [assumption|]. apply IH; lia. }
      unfold node_refs in Cm.
      assert (F0 : forall n, n < id -> add X id n = true -> pending n = true -> finished s1 reg mret n).
      { intros n Hn. unfold add. destruct (Nat.eqb_spec n id); [lia|]. cbn [orb]. intros A B. rewrite <- (app_nil_r reg). apply M1, F; auto; lia. }
      destruct (@head_ok g (data nd0) id ltac:(intros m Hm; apply Cm, in_or_app; now left) (add X id)
          (fun m => E m + occ m (fnodes (kwargs nd0)) + occ m (fnodes (args nd0))) s1 aout reg mref mret)
        as (s3 & X3 & c & reg3 & mref3 & mret3 & E3 & I3 & W3 & M3 & R3 & P3 & S3).
      { apply (inv_weaken _ I2). intros m. unfold node_refs. rewrite !occ_app. lia. }
      { exact F0. }
      pose proof (emit_ok [TFun f] I3) as I3'. pose proof (still_finished (fun n => n < id) M3 F0) as F3.
      assert (LA : list_spec g (args nd0) id).
      { apply list_ok; [lia| |assumption]. intros m Hm. apply Cm. apply in_or_app. right. apply in_or_app. now left. }
      assert (LK : list_spec g (kwargs nd0) id).
      { apply list_ok; [lia| |assumption]. intros m Hm. apply Cm. apply in_or_app. right. apply in_or_app. now right. }
      pose proof (args_ok LA) as AO. destruct (AO X3 (fun m => E m + occ m (fnodes (kwargs nd0))) _ _ _ _ _ I3' F3)
        as (s4 & X4 & a & reg4 & mref4 & mret4 & E4 & I4 & W4 & Wd4 & M4 & R4 & P4 & S4).
      pose proof (still_finished (fun n => n < id) M4 F3) as F4.
      pose proof (kwargs_ok (keys nd0) LK) as KO. destruct (KO X4 E _ _ _ _ _ I4 F4)
        as (s5 & X5 & k & reg5 & mref5 & mret5 & E5 & I5 & W5 & Wd5 & M5 & R5 & P5 & S5).
      change (moves X3 X4 s3 s4 (reg ++ reg3) reg4 mref3 mref4 mret3 mret4 id) in M4.
      pose proof (moves_trans (moves_trans M3 M4 (le_n _) (le_n _)) ltac:(rewrite app_assoc; exact M5) (le_n _) (le_n _)) as M35.
      set (reg35 := (reg3 ++ reg4) ++ reg5) in *.
      replace (((reg ++ reg3) ++ reg4) ++ reg5) with (reg ++ reg35) in I5 by (unfold reg35; now rewrite !app_assoc).
      assert (X5id : X5 id = true) by (apply M35; unfold add; now rewrite Nat.eqb_refl).
      assert (Nid : ~ In id (map snd (reg ++ reg35))).
      { rewrite map_app, in_app_iff. intros [H|H]; [now apply (fresh_in id I1)|].
        apply in_map_iff in H as ([p n] & <- & H). apply M35 in H. cbn in H. lia. }
      set (aout5 := (((aout ++ fchain c) ++ map AT [TFun f]) ++ fargs a) ++ fkw (keys nd0) k) in *.
      destruct (slots_ok id I5 ltac:(unfold aout5; rewrite !app_length; cbn; lia) X5id Nid Hn0)
        as (s6 & mret6 & E6 & I6 & Fin & F6 & Np).
      set (p := length aout5) in *.
      assert (Hp : 0 < p) by (unfold p, aout5; rewrite !app_length; cbn; lia).
      exists s6, X5, (CStep c f a (keys nd0) k p), (reg35 ++ [(p, id)]), mref5, mret6.
      split.
      { rewrite Ed. transitivity (do s <- Ok s3; deconstruct_node g id s).
        - destruct (data nd0) as [o|m]; [now injection E3 as <-|]. now rewrite E3.
        - cbn [rbind]. destruct (heap_node id I3 Hn0) as (nd3 & Hs3 & St3 & _).
          destruct (strip_fields St3) as (Ed3 & Ef3 & Ea3 & Ek3 & Eka3 & Efa3 & Efk3).
          rewrite (@node_steps g id s3 nd3 f) by (unfold get_node; rewrite ?Hs3; congruence).
          unfold args_step. rewrite Ea3, E4. cbn [rbind]. unfold kwargs_step. rewrite Eka3, Ek3, E5. cbn [rbind]. exact E6. }
      split. { rewrite app_assoc. replace (aout ++ fchain (CStep c f a (keys nd0) k p)) with (aout5 ++ [ASlot p; ARet p]); [exact I6|].
        unfold aout5. cbn [fchain map]. fold (fkw (keys nd0) k). rewrite <- !app_assoc. reflexivity. }
      split. { cbn [wfc]. repeat split; auto. congruence. }
      split.
      { destruct M35 as (A1 & A2 & A3 & A4 & A5). unfold moves. rewrite app_assoc. repeat split.
        - intros n Hn. apply A1. unfold add. rewrite Hn. apply orb_true_r.
        - intros n Hn. destruct (A2 n Hn) as [H|H]; [|right; now apply F6]. unfold add in H. apply orb_true_iff in H as [H|H]; [|now left].
          apply Nat.eqb_eq in H. subst n. now right.
        - intros n Hn. apply F6, A3. rewrite <- (app_nil_r reg). now apply M1.
        - exact A4.
        - intros q n H. apply in_app_iff in H as [H|[[= <- <-]|[]]]; [apply A5 in H|]; lia. }
      split; [auto|].
      split. { cbn [crefs]. intros q H. apply in_app_iff in H as [H|H]; [apply M5, M4, R3, H|].
        apply in_app_iff in H as [H|H]; [apply M5, R4, H|]. rewrite app_nil_r in H. auto. }
      split. { intros h. cbn [csteps]. rewrite !occ_app, occ_cons. specialize (P3 h). specialize (P4 h). specialize (P5 h).
        rewrite (@pend_add X id nd0 h f Hn0 Hf0 HX). cbn. lia. }
      rewrite Ev. unfold direct. cbn [cobjs crefs csteps].
      replace (reg ++ reg35 ++ [(p, id)]) with ((reg ++ reg3) ++ (reg4 ++ reg5 ++ [(p, id)])) by (unfold reg35; now rewrite <- !app_assoc).
      apply (sem_bind (reg4 ++ reg5 ++ [(p, id)])
        (fun d mr mt w => wbind (eargs mr mt a w) (fun w a => wbind (eargs mr mt k w) (fun w k => ecall mr mt f d a (keys nd0) k p w)))
        (fun d => do a <- traverse rval (args nd0); do k <- traverse rval (kwargs nd0); call f d a (keys nd0) k) S3).
      intros d Hd.
      replace ((reg ++ reg3) ++ reg4 ++ reg5 ++ [(p, id)]) with (((reg ++ reg3) ++ reg4) ++ (reg5 ++ [(p, id)])) by now rewrite <- !app_assoc.
      apply (sem_bind (reg5 ++ [(p, id)])
        (fun a mr mt w => wbind (eargs mr mt k w) (fun w k => ecall mr mt f d a (keys nd0) k p w))
        (fun a => do k <- traverse rval (kwargs nd0); call f d a (keys nd0) k) S4).
      intros va Ha. rewrite app_assoc.
      apply (sem_bind [(p, id)] (fun k mr mt w => ecall mr mt f d va (keys nd0) k p w) (fun k => call f d va (keys nd0) k) S5).
      intros vk Hk. apply sem_call; auto.
      + rewrite Ev. unfold direct. rewrite Hd. cbn [rbind]. rewrite Ha. cbn [rbind]. rewrite Hk. reflexivity.
      + intros H. apply Np. unfold reg35. rewrite !app_assoc. exact H. Qed.
End Driver.
