From Verif Require Import Base CfgSpec CfgModel.

Section Param.
  Context {V : Type} (d : desc V).
  Variable veqb : V -> V -> bool.
  Hypothesis veqb_ok : forall x y, veqb x y = true <-> x = y.
  Variable v0 : V.
  Hypothesis coh : coherent d v0.
  Notation st := (pst V).

  (** The stored value is the current one, or nothing is stored and the current one is the initial one. *)
  Definition stores (s : st) (v : V) : Prop := val s = Some v \/ (val s = None /\ v = v0).
  Definition readable (v : V) : Prop := get_ok d v = true.

  Lemma get_ok_v s v : stores s v -> readable v ->
    exists s', get d s = (Ok v, s') /\ val s' = Some v /\ subs s' = subs s /\ once s' = once s /\ calls s' = calls s
      /\ (src s' = match val s with Some _ => src s | None => Some (match environ d with Ok (Some _) => GOT_FROM_CFG_SOURCE | _ => DEFAULT end) end).
  Proof. intros [E|[E ->]] R; unfold get, base_get; rewrite E.
    - rewrite R. eexists. repeat split; auto.
    - destruct coh as (I & G & _). unfold initial in I. destruct (environ d) as [[v|]|] eqn:En; [injection I as ->| |discriminate].
      + rewrite G. eexists; repeat split.
      + rewrite I, G. eexists; repeat split. Qed.

  Lemma put_accepted s v w : stores s v -> readable v -> acceptable d w = true ->
    exists s', put d veqb w s = (Ok tt, s') /\ val s' = Some (norm d w) /\ src s' = Some SET_BY_USER
      /\ subs s' = subs s
      /\ once s' = (if veqb v (norm d w) then once s else filter (fun e => negb (veqb (fst e) (norm d w))) (once s))
      /\ calls s' = calls s ++ (if veqb v (norm d w) then [] else
           map (fun c => (c, Some (norm d w))) (subs s) ++ map (fun c => (c, Some (norm d w))) (map snd (filter (fun e => veqb (fst e) (norm d w)) (once s)))).
  Proof. intros St R Ac. unfold acceptable in Ac. apply andb_true_iff in Ac as [A1 A2].
    destruct (get_ok_v St R) as (s1 & G & Hv & Hs & Ho & Hc & _).
    unfold put, put_nocallback. rewrite A1, A2. cbn [negb]. rewrite G.
    assert (R2 : readable (norm d w)). { destruct coh as (_ & _ & C). apply C. unfold acceptable. now rewrite A1, A2. }
    unfold check_callbacks.
    destruct (@get_ok_v (set_val (norm d w) s1) (norm d w)) as (s2 & G2 & Hv2 & Hs2 & Ho2 & Hc2 & _); [now left|exact R2|].
    rewrite G2. cbn [subs once calls set_val] in Hs2, Ho2, Hc2.
    destruct (veqb v (norm d w)).
    - eexists. split; [reflexivity|]. cbn. rewrite app_nil_r. repeat split; congruence.
    - eexists. split; [reflexivity|]. cbn. repeat split; try congruence.
      rewrite Hv2, Hc2, Hc, Hs2, Hs, Ho2, Ho. now rewrite app_assoc. Qed.

  Lemma put_rejected s w : acceptable d w = false -> put d veqb w s = (Err ValueError, s).
  Proof. intros Ac. unfold put, put_nocallback, acceptable in *. destruct (put_ok d w); cbn in *; [|reflexivity]. now rewrite Ac. Qed.

  Definition after (v : V) (o : op V) : V :=
    match o with Put w => if acceptable d w then norm d w else v | _ => v end.

  Lemma readable_after v o : readable v -> readable (after v o).
  Proof. destruct o; cbn; auto. destruct (acceptable d v1) eqn:E; auto. intros _. destruct coh as (_ & _ & C). now apply C. Qed.

  Lemma step_stores s v o : stores s v -> readable v -> stores (step d veqb s o) (after v o).
  Proof. intros St R. destruct o as [|w|c|w c]; cbn [step after].
    - destruct (get_ok_v St R) as (s' & -> & Hv & _). now left.
    - destruct (acceptable d w) eqn:E.
      + destruct (put_accepted w St R E) as (s' & -> & Hv & _). now left.
      + rewrite put_rejected by assumption. exact St.
    - exact St.
    - unfold do_once. destruct (get_ok_v St R) as (s' & -> & Hv & _). destruct (veqb _ v); left; exact Hv. Qed.

  Lemma current_cons v o h : current d v (o :: h) = current d (after v o) h.
  Proof. unfold current. cbn [last_put]. destruct (last_put d h); [reflexivity|]. destruct o; cbn; auto. now destruct (acceptable d v1). Qed.

  Lemma run_stores h : forall s v, stores s v -> readable v -> stores (run d veqb h s) (current d v h) /\ readable (current d v h).
  Proof. induction h as [|o h IH]; intros s v St R; [split; assumption|]. rewrite current_cons.
    unfold run. cbn [fold_left]. apply IH; [now apply step_stores|now apply readable_after]. Qed.

  Lemma fresh_stores : stores fresh v0.
  Proof. right. auto. Qed.
  Lemma readable_v0 : readable v0.
  Proof. apply coh. Qed.

  Lemma run_get h : exists s', get d (run d veqb h fresh) = (Ok (current d v0 h), s').
  Proof. destruct (@run_stores h fresh v0 fresh_stores readable_v0) as [S R]. destruct (get_ok_v S R) as (s' & E & _). eauto. Qed.

  (** * The source *)
  Definition src_ok (s : st) (lp : option V) : Prop :=
    (val s = None /\ src s = None /\ lp = None) \/ (val s <> None /\ src s = Some (source_of d lp)).
  Lemma src_after_get s v lp : stores s v -> readable v -> src_ok s lp ->
    forall s', get d s = (Ok v, s') -> src s' = Some (source_of d lp).
  Proof. intros St R So s' G. destruct (get_ok_v St R) as (s2 & G2 & Hv & _ & _ & _ & Hs). rewrite G2 in G. injection G as <-.
    rewrite Hs. destruct So as [(E & _ & ->)|(E & S)]; [rewrite E; reflexivity|]. destruct (val s); [exact S|congruence]. Qed.
  Definition lp_after (lp : option V) (o : op V) : option V :=
    match o with Put w => if acceptable d w then Some (norm d w) else lp | _ => lp end.
  Lemma step_src s v lp o : stores s v -> readable v -> src_ok s lp -> src_ok (step d veqb s o) (lp_after lp o).
  Proof. intros St R So. destruct o as [|w|c|w c]; cbn [step lp_after].
    - destruct (get_ok_v St R) as (s' & G & Hv & _). right. rewrite G. cbn [snd]. split; [congruence|]. eapply src_after_get; eauto.
    - destruct (acceptable d w) eqn:E.
      + destruct (put_accepted w St R E) as (s' & -> & Hv & Hs & _). right. cbn. split; congruence.
      + rewrite put_rejected by assumption. exact So.
    - exact So.
    - unfold do_once. destruct (get_ok_v St R) as (s' & G & Hv & _). rewrite G.
      assert (X := src_after_get St R So G). destruct (veqb _ v); right; cbn; split; congruence. Qed.
  Lemma run_src h : forall s v lp, stores s v -> readable v -> src_ok s lp ->
    src_ok (run d veqb h s) (match last_put d h with Some x => Some x | None => lp end).
  Proof. induction h as [|o h IH]; intros s v lp St R So; [exact So|]. unfold run. cbn [fold_left last_put].
    specialize (IH (step d veqb s o) (after v o) (lp_after lp o) (step_stores o St R) (readable_after o R) (step_src o St R So)).
    unfold run in IH. destruct (last_put d h); [exact IH|]. destruct o; cbn in IH; try exact IH. now destruct (acceptable d v1). Qed.

  Lemma run_source h : exists s', get_value_source d (run d veqb h fresh) = (Ok (source_of d (last_put d h)), s').
  Proof. destruct (@run_stores h fresh v0 fresh_stores readable_v0) as [S R].
    assert (So : src_ok (run d veqb h fresh) (last_put d h)).
    { pose proof (@run_src h fresh v0 None fresh_stores readable_v0 ltac:(left; auto)) as X. now destruct (last_put d h). }
    unfold get_value_source. destruct (src (run d veqb h fresh)) as [x|] eqn:E.
    - destruct So as [(_ & E' & _)|(_ & E')]; [congruence|]. rewrite E' in E. injection E as ->. eauto.
    - destruct (get_ok_v S R) as (s' & G & _). rewrite G. rewrite (src_after_get S R So G). eauto. Qed.

  (** * Notifications *)
  Lemma count_app c (a b : list (nat * option V)) : count c (a ++ b) = count c a + count c b.
  Proof. unfold count. now rewrite filter_app, app_length. Qed.
  Definition nsub (c : nat) (l : list nat) : nat := length (filter (fun x => x =? c) l).
  Lemma count_map c (x : option V) l : count c (map (fun c => (c, x)) l) = nsub c l.
  Proof. unfold count, nsub. induction l as [|a l IH]; cbn; [reflexivity|]. destruct (a =? c); cbn; now rewrite IH. Qed.
  Definition nonce (c : nat) (l : list (V * nat)) : nat := nsub c (map snd l).


  Lemma nsub_snoc c l x : nsub c (l ++ [x]) = nsub c l + (if x =? c then 1 else 0).
  Proof. unfold nsub. rewrite filter_app, app_length. cbn. destruct (x =? c); reflexivity. Qed.
  Lemma nonce_snoc c l v k : nonce c (l ++ [(v, k)]) = nonce c l + (if k =? c then 1 else 0).
  Proof. unfold nonce. rewrite map_app. cbn [map snd]. apply nsub_snoc. Qed.
  Lemma nonce_filter c f l : nonce c l = 0 -> nonce c (filter f l) = 0.
  Proof. unfold nonce, nsub. induction l as [|[v k] l IH]; cbn; [auto|]. destruct (k =? c) eqn:E; cbn; [discriminate|]. intros Z.
    destruct (f (v, k)); cbn; [rewrite E|]; auto. Qed.

  (** A callback not registered is not called, and stays unregistered. *)
  Lemma step_silent c s v o : stores s v -> readable v -> mentions c o = false -> nonce c (once s) = 0 ->
    count c (calls (step d veqb s o)) = count c (calls s) + nsub c (subs s) * (changes d veqb v [o])
    /\ nsub c (subs (step d veqb s o)) = nsub c (subs s) /\ nonce c (once (step d veqb s o)) = 0.
  Proof. intros St R M Z. destruct o as [|w|c'|w c']; cbn [step mentions changes] in *.
    - destruct (get_ok_v St R) as (s' & -> & _ & Hs1 & Ho1 & Hc1 & _). cbn [snd]. rewrite Hs1, Ho1, Hc1. repeat split; auto; lia.
    - destruct (acceptable d w) eqn:E.
      + destruct (put_accepted w St R E) as (s' & -> & _ & _ & Hs & Ho & Hc). cbn [snd]. rewrite Hs, Ho, Hc. rewrite count_app.
        destruct (veqb v (norm d w)); [change (count c []) with 0; repeat split; auto; cbn; lia|].
        rewrite count_app, !count_map. fold (nonce c (filter (fun e => veqb (fst e) (norm d w)) (once s))).
        rewrite nonce_filter by assumption. repeat split; [lia|]. now apply nonce_filter.
      + rewrite put_rejected by assumption. repeat split; auto; cbn; lia.
    - cbn [subs once calls subscribe call]. rewrite nsub_snoc, M, count_app, count_map. unfold nsub at 3. cbn. rewrite M. cbn. repeat split; auto; lia.
    - unfold do_once. destruct (get_ok_v St R) as (s' & -> & _ & Hs & Ho & Hc & _). destruct (veqb _ v); cbn [snd call calls subs once].
      + rewrite Hs, Ho, Hc. rewrite count_app, count_map. unfold nsub at 1. cbn. rewrite M. cbn. repeat split; auto; lia.
      + rewrite Hs, Ho, Hc. rewrite nonce_snoc, M, Z. repeat split; auto; lia. Qed.

  Lemma changes_cons v o h : changes d veqb v (o :: h) = changes d veqb v [o] + changes d veqb (after v o) h.
  Proof. destruct o; cbn [changes after]; auto. destruct (acceptable d v1); cbn; lia. Qed.

  Lemma run_silent c h : forall s v, stores s v -> readable v -> unused c h -> nonce c (once s) = 0 ->
    count c (calls (run d veqb h s)) = count c (calls s) + nsub c (subs s) * changes d veqb v h
    /\ nsub c (subs (run d veqb h s)) = nsub c (subs s) /\ nonce c (once (run d veqb h s)) = 0.
  Proof. induction h as [|o h IH]; intros s v St R U Z; [cbn; repeat split; auto; lia|].
    unfold unused in U. cbn in U. apply andb_true_iff in U as [U1 U2]. apply negb_true_iff in U1.
    destruct (@step_silent c s v o St R U1 Z) as (C & S & O).
    unfold run. cbn [fold_left]. destruct (IH (step d veqb s o) (after v o) (step_stores o St R) (readable_after o R) U2 O) as (C2 & S2 & O2).
    unfold run in *. rewrite changes_cons. rewrite C2, C, S. repeat split; try lia; congruence. Qed.

  Lemma subscriber_count c pre post : unused c pre -> unused c post ->
    count c (calls (run d veqb (pre ++ Subscribe c :: post) fresh)) = 1 + changes d veqb (current d v0 pre) post.
  Proof. intros U1 U2. unfold run. rewrite fold_left_app. cbn [fold_left]. fold (run d veqb pre fresh).
    destruct (@run_silent c pre fresh v0 fresh_stores readable_v0 U1 eq_refl) as (C & S & O).
    destruct (@run_stores pre fresh v0 fresh_stores readable_v0) as [St R].
    set (s := run d veqb pre fresh) in *. cbn in C, S.
    destruct (@run_silent c post (subscribe c s) (current d v0 pre)) as (C2 & _ & _); auto.
    unfold run in C2. cbn [step]. rewrite C2. cbn [calls subscribe call subs]. rewrite nsub_snoc, S, Nat.eqb_refl.
    rewrite count_app, count_map, C. unfold nsub. cbn. rewrite Nat.eqb_refl. cbn. lia. Qed.

  (** * [once] *)
  Lemma step_waiting c t s v o : stores s v -> readable v -> mentions c o = false -> nsub c (subs s) = 0 ->
    nonce c (once s) = 1 -> (forall e, In e (once s) -> snd e = c -> fst e = t) -> veqb t v = false ->
    nsub c (subs (step d veqb s o)) = 0
    /\ if veqb t (after v o)
       then count c (calls (step d veqb s o)) = 1 + count c (calls s) /\ nonce c (once (step d veqb s o)) = 0
            /\ (forall e, In e (calls (step d veqb s o)) -> fst e = c -> In e (calls s) \/ snd e = Some t)
       else count c (calls (step d veqb s o)) = count c (calls s) /\ nonce c (once (step d veqb s o)) = 1
            /\ (forall e, In e (once (step d veqb s o)) -> snd e = c -> fst e = t).
  Proof. intros St R M Z W T N. 
    assert (ND : forall f l, (forall e, In e l -> snd e = c -> fst e = t) -> nonce c (filter f l) = nonce c (filter (fun e => f e && (snd e =? c)) l)).
    { intros f l _. unfold nonce, nsub. induction l as [|[x k] l IH]; cbn; [reflexivity|]. destruct (f (x, k)); cbn; [|exact IH]. destruct (k =? c) eqn:E; cbn; rewrite ?E; cbn; auto. }
    assert (FE : forall b, (forall e, In e (once s) -> snd e = c -> fst e = t) ->
       nonce c (filter (fun e => veqb (fst e) b) (once s)) = (if veqb t b then nonce c (once s) else 0)
       /\ nonce c (filter (fun e => negb (veqb (fst e) b)) (once s)) = (if veqb t b then 0 else nonce c (once s))).
    { intros b. generalize (once s). clear. intros l T. induction l as [|[x k] l IH]; [cbn; now destruct (veqb t b)|].
      destruct IH as [I1 I2]; [intros e I; apply T; now right|]. pose proof (T (x, k) (or_introl eq_refl)) as Tx. cbn in Tx.
      unfold nonce, nsub in *. cbn. destruct (k =? c) eqn:E.
      - apply Nat.eqb_eq in E. rewrite (Tx E). destruct (veqb t b); cbn; rewrite ?E, ?Nat.eqb_refl; cbn; rewrite ?I1, ?I2; split; lia.
      - destruct (veqb x b); cbn; rewrite ?E; split; auto. }
    destruct o as [|w|c'|w c']; cbn [step mentions after] in *.
    - rewrite N. destruct (get_ok_v St R) as (s' & -> & _ & Hs1 & Ho1 & Hc1 & _). cbn [snd]. rewrite Hs1, Ho1, Hc1. auto.
    - destruct (acceptable d w) eqn:E.
      + destruct (put_accepted w St R E) as (s' & -> & _ & _ & Hs & Ho & Hc). cbn [snd]. rewrite Hs. split; [exact Z|].
        destruct (FE (norm d w) T) as [F1 F2].
        destruct (veqb v (norm d w)) eqn:Ev.
        * apply veqb_ok in Ev. rewrite <- Ev, N. rewrite Ho, Hc, app_nil_r. auto.
        * rewrite Ho, Hc. rewrite count_app, count_app, !count_map, Z. fold (nonce c (filter (fun e => veqb (fst e) (norm d w)) (once s))). rewrite F1, F2.
          destruct (veqb t (norm d w)) eqn:Et; [|].
          -- split; [lia|]. split; [reflexivity|]. intros e I Hc'. apply in_app_iff in I as [I|I]; [now left|]. right.
             apply veqb_ok in Et. subst t. apply in_app_iff in I as [I|I]; apply in_map_iff in I as (k & <- & _); reflexivity.
          -- split; [lia|]. split; [exact W|]. intros e [I _]%filter_In. now apply T.
      + rewrite N. rewrite put_rejected by assumption. auto.
    - rewrite N. cbn [subscribe call calls subs once val]. rewrite nsub_snoc, M, Z. split; [reflexivity|].
      rewrite count_app, count_map.
      unfold nsub. cbn. rewrite M. cbn. split; [lia|]. auto.
    - rewrite N. unfold do_once. destruct (get_ok_v St R) as (s' & -> & _ & Hs & Ho & Hc & _). destruct (veqb (norm d w) v); cbn [snd call calls subs once].
      + rewrite Hs, Ho, Hc. split; [exact Z|]. rewrite count_app, count_map. unfold nsub. cbn. rewrite M. cbn. split; [lia|]. auto.
      + rewrite Hs, Ho, Hc. split; [exact Z|]. rewrite nonce_snoc, M. split; [lia|]. split; [lia|].
        intros e I Ec. apply in_app_iff in I as [I|[<-|[]]]; [now apply T|]. cbn in Ec. subst c'. rewrite Nat.eqb_refl in M. discriminate. Qed.

  Lemma reached_cons t v o h : veqb t v = false -> reached d veqb t v (o :: h) = reached d veqb t (after v o) h.
  Proof. intros N. cbn [reached]. rewrite N. cbn [orb]. destruct o as [|w|c|w c]; cbn [after]; auto. now destruct (acceptable d w). Qed.

  Lemma run_waiting c t h : forall s v, stores s v -> readable v -> unused c h -> nsub c (subs s) = 0 ->
    nonce c (once s) = 1 -> (forall e, In e (once s) -> snd e = c -> fst e = t) -> veqb t v = false -> count c (calls s) = 0 ->
    count c (calls (run d veqb h s)) = (if reached d veqb t v h then 1 else 0)
    /\ (forall e, In e (calls (run d veqb h s)) -> fst e = c -> snd e = Some t).
  Proof.
    assert (NIL : forall (l : list (nat * option V)) e, count c l = 0 -> In e l -> fst e = c -> False).
    { intros l e C I E. unfold count in C. apply length_zero_iff_nil in C. assert (In e (filter (fun e => fst e =? c) l)) as X by (apply filter_In; split; [assumption|now apply Nat.eqb_eq]). now rewrite C in X. }
    induction h as [|o h IH]; intros s v St R U Z W T N C.
    { cbn [run fold_left reached]. unfold run. cbn. rewrite N. cbn. split; [exact C|]. intros e I E. exfalso. eauto. }
    unfold unused in U. cbn in U. apply andb_true_iff in U as [U1 U2]. apply negb_true_iff in U1.
    destruct (@step_waiting c t s v o St R U1 Z W T N) as (Z' & X). rewrite reached_cons by assumption.
    unfold run. cbn [fold_left]. fold (run d veqb h (step d veqb s o)).
    pose proof (step_stores o St R) as St'. pose proof (readable_after o R) as R'.
    destruct (veqb t (after v o)) eqn:E.
    - destruct X as (C' & O' & L').
      destruct (@run_silent c h (step d veqb s o) (after v o) St' R' U2 O') as (C2 & _ & _).
      rewrite C2, Z', C', C. split.
      + destruct h; cbn [reached]; rewrite E; reflexivity.
      + assert (G : forall h s v, stores s v -> readable v -> unused c h -> nsub c (subs s) = 0 -> nonce c (once s) = 0 ->
            (forall e, In e (calls s) -> fst e = c -> snd e = Some t) -> forall e, In e (calls (run d veqb h s)) -> fst e = c -> snd e = Some t).
        { clear - NIL veqb_ok coh. induction h as [|o h IH]; intros s v St R U Z O L e I Ee; [now apply L|].
          unfold unused in U. cbn in U. apply andb_true_iff in U as [U1 U2]. apply negb_true_iff in U1.
          destruct (@step_silent c s v o St R U1 O) as (C & S & O2). unfold run in I. cbn [fold_left] in I.
          apply (IH (step d veqb s o) (after v o) (step_stores o St R) (readable_after o R) U2) with (e := e); auto; [congruence|].
          clear e I Ee. intros e I Ee. 
          assert (P : exists l, calls (step d veqb s o) = calls s ++ l).
          { destruct o as [|w|c'|w c']; cbn [step].
            - destruct (get_ok_v St R) as (s' & -> & _ & _ & _ & Hc1 & _). cbn [snd]. rewrite Hc1. exists []. now rewrite app_nil_r.
            - destruct (acceptable d w) eqn:E.
              + destruct (put_accepted w St R E) as (s' & -> & _ & _ & _ & _ & Hc1). cbn [snd]. rewrite Hc1. eauto.
              + rewrite put_rejected by assumption. exists []. now rewrite app_nil_r.
            - cbn. eauto.
            - unfold do_once. destruct (get_ok_v St R) as (s' & -> & _ & _ & _ & Hc & _). destruct (veqb _ v); cbn; rewrite Hc; [eauto|exists []; now rewrite app_nil_r]. }
          destruct P as (l & P). rewrite P in I, C. rewrite count_app, Z in C. apply in_app_iff in I as [I|I]; [now apply L|].
          exfalso. eapply (NIL l e); eauto; lia. }
        eapply G; eauto. intros e I Ee. destruct (L' e I Ee) as [I'|]; [|assumption]. exfalso. eauto.
    - destruct X as (C' & O' & T'). apply IH; auto. congruence. Qed.

  Lemma once_count c w pre post : unused c pre -> unused c post ->
    let s := run d veqb (pre ++ Once w c :: post) fresh in
    count c (calls s) = (if reached d veqb (norm d w) (current d v0 pre) post then 1 else 0)
    /\ (forall e, In e (calls s) -> fst e = c -> snd e = Some (norm d w)).
  Proof. intros U1 U2. cbv zeta. unfold run. rewrite fold_left_app. cbn [fold_left]. fold (run d veqb pre fresh).
    destruct (@run_silent c pre fresh v0 fresh_stores readable_v0 U1 eq_refl) as (C & S & O). cbn in C, S.
    destruct (@run_stores pre fresh v0 fresh_stores readable_v0) as [St R].
    set (s := run d veqb pre fresh) in *. set (v := current d v0 pre) in *.
    pose proof (step_stores (Once w c) St R) as St'. cbn [after] in St'.
    cbn [step]. cbn [step] in St'. unfold do_once in *. destruct (get_ok_v St R) as (s' & G & Hv & Hs & Ho & Hc & _). rewrite G in *.
    destruct (veqb (norm d w) v) eqn:E; cbn [snd] in *.
    - assert (Cc : count c (calls (call [c] s')) = 1). { cbn [call calls]. rewrite count_app, count_map, Hc, C. unfold nsub. cbn. now rewrite Nat.eqb_refl. }
      assert (Sc : nsub c (subs (call [c] s')) = 0) by (cbn [call subs]; now rewrite Hs).
      assert (Oc : nonce c (once (call [c] s')) = 0) by (cbn [call once]; now rewrite Ho).
      destruct (@run_silent c post (call [c] s') v St' R U2 Oc) as (C2 & _ & _). unfold run in C2.
      rewrite C2, Cc, Sc. split; [destruct post; cbn [reached]; rewrite E; reflexivity|].
      (* all calls of c carry the value *)
      apply veqb_ok in E.
      assert (G2 : forall h s v l, stores s v -> readable v -> unused c h -> nsub c (subs s) = 0 -> nonce c (once s) = 0 -> incl l (calls s) -> count c l = count c (calls s) ->
         forall e, In e (calls (fold_left (step d veqb) h s)) -> fst e = c -> In e (calls s)).
      { clear - veqb_ok coh. induction h as [|o h IH]; intros s v l St R U Z O L1 L2 e I Ee; [exact I|].
        unfold unused in U. cbn in U. apply andb_true_iff in U as [U1 U2]. apply negb_true_iff in U1.
        destruct (@step_silent c s v o St R U1 O) as (C & S & O2). cbn [fold_left] in I.
        assert (P : exists l, calls (step d veqb s o) = calls s ++ l).
        { destruct o as [|w|c'|w c']; cbn [step].
            - destruct (get_ok_v St R) as (s' & -> & _ & _ & _ & Hc1 & _). cbn [snd]. rewrite Hc1. exists []. now rewrite app_nil_r.
            - destruct (acceptable d w) eqn:E.
              + destruct (put_accepted w St R E) as (s' & -> & _ & _ & _ & _ & Hc1). cbn [snd]. rewrite Hc1. eauto.
              + rewrite put_rejected by assumption. exists []. now rewrite app_nil_r.
            - cbn. eauto.
            - unfold do_once. destruct (get_ok_v St R) as (s' & -> & _ & _ & _ & Hc & _). destruct (veqb _ v); cbn; rewrite Hc; [eauto|exists []; now rewrite app_nil_r]. }
        destruct P as (l2 & P). pose proof (IH (step d veqb s o) (after v o) (calls (step d veqb s o)) (step_stores o St R) (readable_after o R) U2 ltac:(congruence) O2 ltac:(apply incl_refl) eq_refl e I Ee) as I2.
        rewrite P in I2, C. rewrite count_app, Z in C. apply in_app_iff in I2 as [I2|I2]; [exact I2|].
        exfalso. assert (C0 : count c l2 = 0) by lia. unfold count in C0. apply length_zero_iff_nil in C0.
        assert (X : In e (filter (fun e => fst e =? c) l2)) by (apply filter_In; split; [assumption|now apply Nat.eqb_eq]). now rewrite C0 in X. }
      intros e I Ee. pose proof (G2 post (call [c] s') v (calls (call [c] s')) St' R U2 Sc Oc ltac:(apply incl_refl) eq_refl e I Ee) as I2.
      cbn in I2. apply in_app_iff in I2 as [I2|[<-|[]]].
      + exfalso. rewrite Hc in I2. unfold count in C. apply length_zero_iff_nil in C.
        assert (X : In e (filter (fun e => fst e =? c) (calls s))) by (apply filter_In; split; [assumption|now apply Nat.eqb_eq]). now rewrite C in X.
      + cbn. now rewrite Hv, E.
    - apply run_waiting; cbn [subs once calls]; auto.
      + congruence.
      + rewrite nonce_snoc, Ho, O, Nat.eqb_refl. reflexivity.
      + rewrite Ho. intros e I Ee. apply in_app_iff in I as [I|[<-|[]]]; [|reflexivity]. exfalso.
        unfold nonce, nsub in O. apply length_zero_iff_nil in O. assert (X : In c (filter (fun x => x =? c) (map snd (once s)))).
        { apply filter_In. split; [|apply Nat.eqb_refl]. apply in_map_iff. exists e. auto. } now rewrite O in X.
      + now rewrite Hc. Qed.
End Param.

(** A rejected value that got stored: [get] fails for ever. *)
Section Stuck.
  Context {V : Type} (d : desc V) (veqb : V -> V -> bool).
  Definition stuck (s : pst V) : Prop := exists v, val s = Some v /\ get_ok d v = false.
  Lemma stuck_get s : stuck s -> get d s = (Err ValueError, s).
  Proof. intros (v & E & G). unfold get, base_get. now rewrite E, G. Qed.
  Lemma stuck_step s o : stuck s -> stuck (step d veqb s o).
  Proof. intros S. pose proof (stuck_get S) as G. destruct o as [|w|c|w c]; cbn [step].
    - now rewrite G.
    - unfold put, put_nocallback. rewrite G. destruct (negb (put_ok d w)); [exact S|]. destruct (negb (verify d w)); exact S.
    - exact S.
    - unfold do_once. now rewrite G. Qed.
  Lemma stuck_run h : forall s, stuck s -> stuck (run d veqb h s).
  Proof. induction h as [|o h IH]; intros s S; [exact S|]. unfold run. cbn. apply IH. now apply stuck_step. Qed.
  Lemma put_sticks s v v1 s1 : get d s = (Ok v1, s1) -> put_ok d v = true -> verify d v = true -> get_ok d (norm d v) = false ->
    exists s', put d veqb v s = (Err ValueError, s') /\ stuck s'.
  Proof. intros G P Ve Gk. unfold put, put_nocallback. rewrite P, Ve, G. cbn [negb].
    assert (S : stuck (set_val (norm d v) s1)) by (exists (norm d v); auto).
    unfold check_callbacks. rewrite (stuck_get S). eauto. Qed.
End Stuck.

(** * Contexts *)
Section Context.
  Context {V : Type}.
  Variable descs : nat -> desc V.
  Variable veqb : V -> V -> bool.

  Lemma put_stable d s x s1 o : get d s = (Ok x, s1) -> stable d o ->
    exists s', put d veqb o s = (Ok tt, s') /\ val s' = Some o.
  Proof. intros G (S1 & S2 & S3 & S4). unfold put, put_nocallback. rewrite S1, S2, G, S3. cbn [negb].
    unfold check_callbacks, get at 1, base_get at 1. cbn [val set_val]. rewrite S4.
    destruct (veqb x o); eexists; split; reflexivity. Qed.

  Lemma update_same sto n (s : pst V) : update sto n s n = s.
  Proof. unfold update. now rewrite Nat.eqb_refl. Qed.
  Lemma update_other sto n (s : pst V) m : m <> n -> update sto n s m = sto m.
  Proof. unfold update. intros N. now destruct (Nat.eqb_spec m n). Qed.

  Lemma enter_ok config : forall sto olds sto', NoDup (map fst config) ->
    enter descs veqb config sto = (Ok olds, sto') ->
    map fst olds = map fst config
    /\ (forall n o, In (n, o) olds -> fst (get (descs n) (sto n)) = Ok o)
    /\ (forall m, ~ In m (map fst config) -> sto' m = sto m).
  Proof. induction config as [|[n v] rest IH]; cbn; intros sto olds sto' ND E.
    - injection E as <- <-. repeat split; auto; intros ? ? [].
    - inversion ND as [|? ? NI ND']; subst. destruct (get (descs n) (sto n)) as [[old|e] s] eqn:G; [|discriminate].
      rewrite update_same in E. destruct (put (descs n) veqb v s) as [[u|e] s2] eqn:P; [|discriminate].
      destruct (enter descs veqb rest (update (update sto n s) n s2)) as [[os|e] st2] eqn:R; [|discriminate].
      injection E as <- <-. destruct (IH _ _ _ ND' R) as (I1 & I2 & I3). cbn. rewrite I1. split; [reflexivity|]. split.
      + intros m o [[= <- <-]|I]; [now rewrite G|]. specialize (I2 m o I). rewrite !update_other in I2; auto; intros ->;
          apply NI; rewrite <- I1; apply in_map_iff; exists (n, o); auto.
      + intros m Nm. rewrite I3 by tauto. rewrite !update_other; auto; intros ->; apply Nm; now left. Qed.

  Lemma restore_ok olds : forall sto, NoDup (map fst olds) ->
    (forall n o, In (n, o) olds -> stable (descs n) o /\ exists x, fst (get (descs n) (sto n)) = Ok x) ->
    exists sto', restore descs veqb olds sto = (Ok tt, sto')
      /\ (forall n o, In (n, o) olds -> val (sto' n) = Some o /\ fst (get (descs n) (sto' n)) = Ok o)
      /\ (forall m, ~ In m (map fst olds) -> sto' m = sto m).
  Proof. induction olds as [|[n v] rest IH]; cbn [restore map]; intros sto ND H.
    - eexists. split; [reflexivity|]. split; [intros ? ? []|auto].
    - inversion ND as [|? ? NI ND']; subst. destruct (H n v (or_introl eq_refl)) as (St & x & G).
      destruct (get (descs n) (sto n)) as [r s1] eqn:Gs. cbn in G. subst r.
      destruct (@put_stable _ _ _ _ _ Gs St) as (s' & P & Vs). rewrite P.
      destruct (IH (update sto n s') ND') as (sto' & R & I1 & I2).
      { intros m o I. destruct (H m o (or_intror I)) as (Sm & y & Gm). split; [exact Sm|]. exists y. rewrite update_other; [exact Gm|].
        intros ->. apply NI. apply in_map_iff. exists (n, o). auto. }
      exists sto'. split; [exact R|]. split.
      + intros m o [[= <- <-]|I]; [|now apply I1]. rewrite I2 by exact NI. rewrite update_same. split; [exact Vs|].
        unfold get, base_get. rewrite Vs. destruct St as (_ & _ & _ & ->). reflexivity.
      + intros m Nm. cbn in Nm. rewrite I2 by tauto. apply update_other. intros ->. tauto. Qed.
End Context.
