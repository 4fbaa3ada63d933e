(** Proofs about the partition call queues (C30). *)
From Verif Require Import Base Table ChunkModel ChunkProofs GridModel GridProofs QueueSpec QueueModel.

Section Lists.
  Context {X : Type}.
  Implicit Types l : list (option X).

  Lemma look_app l x p :
    look (l ++ [x]) p = if p <? length l then look l p else if p =? length l then x else None.
  Proof.
    unfold look. destruct (Nat.ltb_spec p (length l)).
    - now rewrite app_nth1.
    - rewrite app_nth2 by lia. destruct (Nat.eqb_spec p (length l)) as [->|].
      + now rewrite Nat.sub_diag.
      + destruct (p - length l) as [|[|k]] eqn:E; [lia| |]; reflexivity.
  Qed.

  Lemma look_out l p : length l <= p -> look l p = None.
  Proof. intros. unfold look. now apply nth_overflow. Qed.

  Lemma look_in l p x : look l p = Some x -> p < length l.
  Proof. intros E. destruct (Nat.lt_ge_cases p (length l)); auto. now rewrite look_out in E. Qed.

  Lemma set_nth_length {Y} n (x : Y) (l : list Y) : length (set_nth n x l) = length l.
  Proof. revert n; induction l; intros [|n]; cbn; auto. Qed.

  Lemma look_set l p q x : p < length l ->
    look (set_nth p x l) q = if q =? p then x else look l q.
  Proof.
    unfold look. revert p q; induction l as [|y l IH]; intros [|p] q Hp; cbn in *; try lia.
    - now destruct q.
    - destruct q; cbn; [reflexivity|]. apply IH. lia.
  Qed.
End Lists.

Section Runs.
  Context {V F : Type}.
  Lemma runs_app {S O : Type} (step : S -> qop V F -> S * O) (s : S) a b :
    runs step s (a ++ b)
    = (final step (final step s a) b, outcomes step s a ++ outcomes step (final step s a) b).
  Proof.
    unfold final, outcomes. revert s; induction a as [|op a IH]; intros s; cbn.
    - now destruct (runs step s b).
    - destruct (step s op) as [s1 o]. rewrite IH. now destruct (runs step s1 a).
  Qed.
  Lemma final_app {S O : Type} (step : S -> qop V F -> S * O) (s : S) a b :
    final step s (a ++ b) = final step (final step s a) b.
  Proof. unfold final at 1. now rewrite runs_app. Qed.
  Lemma outcomes_app {S O : Type} (step : S -> qop V F -> S * O) (s : S) a b :
    outcomes step s (a ++ b) = outcomes step s a ++ outcomes step (final step s a) b.
  Proof. unfold outcomes at 1. now rewrite runs_app. Qed.
  Lemma final_one {S O : Type} (step : S -> qop V F -> S * O) (s : S) op :
    final step s [op] = fst (step s op).
  Proof. unfold final. cbn. now destruct (step s op). Qed.
  Lemma outcomes_one {S O : Type} (step : S -> qop V F -> S * O) (s : S) op :
    outcomes step s [op] = [snd (step s op)].
  Proof. unfold outcomes. cbn. now destruct (step s op). Qed.
End Runs.

Section Py.
  Context {V F : Type}.
  Variable call : F -> V -> res V.
  Notation py := (part V F).

  Lemma run_queue_app q f v : run_queue call (q ++ [f]) v = rbind (run_queue call q v) (call f).
  Proof.
    revert v; induction q as [|g q IH]; intros v; cbn.
    - now destruct (call f v).
    - destruct (call g v); cbn; auto.
  Qed.

  Definition pval (x : py) : res V := run_queue call (p_queue x) (p_data x).

  Lemma py_apply_val {W} (x : py) (k : V -> res W) :
    snd (py_apply call x k) = rbind (pval x) k
    /\ (is_ok (pval x) -> pval (fst (py_apply call x k)) = pval x).
  Proof.
    unfold py_apply, pval. destruct (run_queue call (p_queue x) (p_data x)) eqn:E; cbn.
    - auto.
    - split; auto. intros [y Hy]. discriminate.
  Qed.

  Lemma py_drain_val (x : py) :
    snd (py_drain call x) = rbind (pval x) (fun _ => Ok tt)
    /\ (is_ok (pval x) -> pval (fst (py_drain call x)) = pval x
        /\ Ok (p_data (fst (py_drain call x))) = pval x).
  Proof.
    unfold py_drain. destruct (p_queue x) as [|f q] eqn:E.
    - unfold pval. cbn [fst snd]. rewrite E. cbn. auto.
    - unfold py_apply, pval. rewrite E. destruct (run_queue call (f :: q) (p_data x)); cbn.
      + auto.
      + split; auto. intros [y Hy]. discriminate.
  Qed.

  Lemma py_get_val (x : py) :
    snd (py_get call x) = pval x /\ (is_ok (pval x) -> pval (fst (py_get call x)) = pval x).
  Proof.
    unfold py_get. destruct (py_drain_val x) as [D1 D2].
    destruct (py_drain call x) as [x' r]. cbn in *. rewrite D1.
    destruct (pval x) as [v|e] eqn:E; cbn in *.
    - destruct D2 as [D2 D3]; [now exists v|]. auto.
    - split; auto. intros [y Hy]. discriminate.
  Qed.

  (** While nothing has raised: every partition is the lazy form of its eager value. *)
  Definition agrees (cells : list (option (res V))) (ps : list (option py)) : Prop :=
    length cells = length ps /\
    forall p, look cells p = match look ps p with Some x => Some (pval x) | None => None end.

  (** Always: a partition whose eager value exists has it. *)
  Definition covers (cells : list (option (res V))) (ps : list (option py)) : Prop :=
    length cells = length ps /\
    forall p v, look cells p = Some (Ok v) -> exists x, look ps p = Some x /\ pval x = Ok v.

  Lemma agrees_app cells ps c x :
    agrees cells ps -> c = match x with Some x => Some (pval x) | None => None end ->
    agrees (cells ++ [c]) (ps ++ [x]).
  Proof.
    intros [HL HA] ->. split; [rewrite !app_length; cbn; lia|].
    intros p. rewrite !look_app, HL, HA. now destruct (p <? length ps), (p =? length ps).
  Qed.

  Lemma agrees_set cells ps p x y :
    agrees cells ps -> look ps p = Some x -> pval y = pval x -> agrees cells (set_nth p (Some y) ps).
  Proof.
    intros [HL HA] E Hy. split; [now rewrite set_nth_length|].
    intros q. rewrite look_set by eauto using look_in. rewrite HA.
    destruct (Nat.eqb_spec q p) as [->|]; auto. now rewrite E, Hy.
  Qed.

  Lemma py_step_agrees cells ps op : agrees cells ps ->
    snd (py_step call ps op) = snd (eager_step call false cells op)
    /\ (is_ok (snd (py_step call ps op)) ->
        agrees (fst (eager_step call false cells op)) (fst (py_step call ps op))).
  Proof.
    intros Ha. assert (HA := proj2 Ha). destruct op as [v|p f|p f|p|p|p]; cbn [py_step eager_step].
    - split; [reflexivity|]. intros _. now apply agrees_app.
    - rewrite HA. destruct (look ps p) as [x|] eqn:E; cbn.
      + split; auto. intros _. apply agrees_app; auto. unfold pval; cbn. now rewrite run_queue_app.
      + split; auto. intros [y Hy]. discriminate.
    - rewrite HA. destruct (look ps p) as [x|] eqn:E; cbn.
      + destruct (py_apply_val x (call f)) as [D1 D2]. destruct (py_apply call x (call f)) as [x' r]. cbn in *.
        rewrite <- D1. destruct r as [v|e]; cbn; split; auto.
        * intros _. destruct (pval x) as [w|] eqn:Ex; [|discriminate].
          assert (Hx : pval x' = Ok w) by (apply D2; now exists w).
          apply agrees_app; [|reflexivity]. eapply agrees_set; eauto. congruence.
        * intros [y Hy]. discriminate.
      + split; auto. intros [y Hy]. discriminate.
    - rewrite HA. destruct (look ps p) as [x|] eqn:E; cbn.
      + destruct (py_drain_val x) as [D1 D2]. destruct (py_drain call x) as [x' r]. cbn in *. rewrite D1.
        destruct (pval x) as [w|] eqn:Ex; cbn; split; auto.
        * intros _. eapply agrees_set; eauto. rewrite Ex. apply D2. now exists w.
        * intros [y Hy]. discriminate.
      + split; auto.
    - rewrite HA. destruct (look ps p) as [x|] eqn:E; cbn.
      + destruct (py_get_val x) as [D1 D2]. destruct (py_get call x) as [x' r]. cbn in *. rewrite D1.
        destruct (pval x) as [w|] eqn:Ex; cbn; split; auto.
        * intros _. eapply agrees_set; eauto. rewrite Ex. apply D2. now exists w.
        * intros [y Hy]. discriminate.
      + split; auto.
    - rewrite HA. destruct (look ps p) as [x|] eqn:E; cbn; (split; [auto|]).
      + intros _. now apply agrees_app.
      + intros [y Hy]. discriminate.
  Qed.

  Lemma py_agrees ops : forall cells ps, agrees cells ps ->
    Forall is_ok (outcomes (py_step call) ps ops) ->
    outcomes (py_step call) ps ops = outcomes (eager_step call false) cells ops
    /\ agrees (final (eager_step call false) cells ops) (final (py_step call) ps ops).
  Proof.
    unfold outcomes, final. induction ops as [|op ops IH]; intros cells ps Ha Hok; cbn in *; auto.
    destruct (py_step_agrees op Ha) as [D1 D2].
    destruct (py_step call ps op) as [ps1 o]. destruct (eager_step call false cells op) as [c1 o'].
    cbn in *. subst o'.
    assert (Ho : is_ok o) by (destruct (runs (py_step call) ps1 ops); now inversion Hok).
    assert (Hr : Forall is_ok (snd (runs (py_step call) ps1 ops)))
      by (destruct (runs (py_step call) ps1 ops); now inversion Hok).
    specialize (IH c1 ps1 (D2 Ho) Hr).
    destruct (runs (py_step call) ps1 ops), (runs (eager_step call false) c1 ops). cbn in *.
    destruct IH as [-> ?]. auto.
  Qed.

  Lemma agrees_nil : agrees [] [].
  Proof. split; auto. now intros [|p]. Qed.

  Lemma py_first_failure ops op :
    Forall is_ok (outcomes (py_step call) [] ops) ->
    outcomes (py_step call) [] (ops ++ [op]) = outcomes (eager_step call false) [] (ops ++ [op]).
  Proof.
    intros Hok. destruct (py_agrees ops agrees_nil Hok) as [E Ha].
    rewrite !outcomes_app, E, !outcomes_one. now rewrite (proj1 (py_step_agrees op Ha)).
  Qed.

  Lemma covers_app cells ps c x :
    covers cells ps -> (forall v, c = Some (Ok v) -> exists y, x = Some y /\ pval y = Ok v) ->
    covers (cells ++ [c]) (ps ++ [x]).
  Proof.
    intros [HL HA] Hc. split; [rewrite !app_length; cbn; lia|].
    intros p v. rewrite !look_app, HL. destruct (p <? length ps); auto.
    destruct (p =? length ps); auto. discriminate.
  Qed.

  Lemma covers_set cells ps p x y :
    covers cells ps -> look ps p = Some x -> (is_ok (pval x) -> pval y = pval x) ->
    covers cells (set_nth p (Some y) ps).
  Proof.
    intros [HL HA] E Hy. split; [now rewrite set_nth_length|].
    intros q v Hq. rewrite look_set by eauto using look_in.
    destruct (HA q v Hq) as (z & Ez & Hz).
    destruct (Nat.eqb_spec q p) as [->|]; eauto.
    rewrite E in Ez. injection Ez as <-. exists y. split; auto. rewrite Hy; auto. now exists v.
  Qed.

  Lemma py_step_covers cells ps op : covers cells ps ->
    covers (fst (eager_step call false cells op)) (fst (py_step call ps op)).
  Proof.
    intros Hc. assert (HA := proj2 Hc).
    assert (Hnone : forall p, look ps p = None -> forall v, look cells p <> Some (Ok v)).
    { intros p E v Hv. destruct (HA p v Hv) as (x & Ex & _). congruence. }
    destruct op as [v|p f|p f|p|p|p]; cbn [py_step eager_step].
    - apply covers_app; auto. intros w [= <-]. eexists; split; [reflexivity|reflexivity].
    - assert (G : forall w r, look cells p = Some r -> rbind r (call f) = Ok w ->
                  exists x, look ps p = Some x /\ pval (add_to_apply_calls x f) = Ok w).
      { intros w [u|e] Er; [|discriminate]. cbn. intros Ew. destruct (HA _ _ Er) as (x & Ex & Hx).
        exists x. split; auto. unfold pval; cbn. rewrite run_queue_app. fold (pval x). now rewrite Hx. }
      destruct (look cells p) as [r|] eqn:Er; cbn; destruct (look ps p) as [x|] eqn:Ex; cbn;
        apply covers_app; auto; try discriminate; intros w [= Ew];
        destruct (G w r eq_refl Ew) as (y & [= ->] & Hy); eauto.
    - assert (G : forall w r, look cells p = Some r -> rbind r (call f) = Ok w ->
                  exists x, look ps p = Some x /\ snd (py_apply call x (call f)) = Ok w).
      { intros w [u|e] Er; [|discriminate]. cbn. intros Ew. destruct (HA _ _ Er) as (x & Ex & Hx).
        exists x. split; auto. rewrite (proj1 (py_apply_val x (call f))). now rewrite Hx. }
      assert (Gs : forall x, look ps p = Some x -> covers cells (set_nth p (Some (fst (py_apply call x (call f)))) ps)).
      { intros x Ex. eapply covers_set; eauto. apply py_apply_val. }
      destruct (look ps p) as [x|] eqn:Ex; cbn.
      + specialize (Gs x eq_refl). destruct (py_apply call x (call f)) as [x' r'] eqn:Ea. cbn in Gs.
        destruct (look cells p) as [r|] eqn:Er; cbn.
        * destruct (rbind r (call f)) as [w|e] eqn:Ew; cbn.
          -- destruct (G w r eq_refl Ew) as (y & [= <-] & Hy). rewrite Ea in Hy. cbn in Hy. subst r'. cbn.
             apply covers_app; auto. intros u [= <-]. eexists; split; reflexivity.
          -- destruct r'; cbn; apply covers_app; auto; discriminate.
        * destruct r'; cbn; apply covers_app; auto; discriminate.
      + destruct (look cells p) as [r|] eqn:Er; cbn.
        * destruct (rbind r (call f)) as [w|e] eqn:Ew; cbn.
          -- destruct (G w r eq_refl Ew) as (y & [=] & _).
          -- apply covers_app; auto; discriminate.
        * apply covers_app; auto; discriminate.
    - destruct (look ps p) as [x|] eqn:Ex; cbn.
      + assert (Gs : covers cells (set_nth p (Some (fst (py_drain call x))) ps)).
        { eapply covers_set; eauto. intros Hk. now apply py_drain_val. }
        destruct (py_drain call x) as [x' r']. cbn in *. now destruct (look cells p).
      + now destruct (look cells p).
    - destruct (look ps p) as [x|] eqn:Ex; cbn.
      + assert (Gs : covers cells (set_nth p (Some (fst (py_get call x))) ps)).
        { eapply covers_set; eauto. intros Hk. now apply py_get_val. }
        destruct (py_get call x) as [x' r']. cbn in *. now destruct (look cells p).
      + now destruct (look cells p).
    - destruct (look cells p) as [r|] eqn:Er; cbn; destruct (look ps p) as [x|] eqn:Ex; cbn;
        apply covers_app; auto; try discriminate; intros w [= ->]; destruct (HA _ _ Er) as (y & Ey & Hy);
        rewrite Ex in Ey; [injection Ey as <-; eauto | discriminate].
  Qed.

  Lemma py_covers ops : forall cells ps, covers cells ps ->
    covers (final (eager_step call false) cells ops) (final (py_step call) ps ops).
  Proof.
    induction ops as [|op ops IH]; intros cells ps Hc; [exact Hc|].
    change (op :: ops) with ([op] ++ ops). rewrite !final_app, !final_one. apply IH.
    now apply py_step_covers.
  Qed.

  Lemma py_sound ops p v :
    look (final (eager_step call false) [] ops) p = Some (Ok v) ->
    outcomes (py_step call) [] (ops ++ [QGet p]) = outcomes (py_step call) [] ops ++ [Ok (Some v)].
  Proof.
    intros E. rewrite outcomes_app, outcomes_one. do 2 f_equal.
    assert (Hc : covers (final (eager_step call false) [] ops) (final (py_step call) [] ops)).
    { apply py_covers. split; auto. now intros [|q] w. }
    destruct (proj2 Hc p v E) as (x & Ex & Hx). cbn [py_step]. rewrite Ex.
    destruct (py_get_val x) as [D1 _]. destruct (py_get call x) as [x' r]. cbn in *. now rewrite D1, Hx.
  Qed.

  (* ---------------- futures ---------------- *)
  Notation rp := (part (res V) F).

  Lemma worker_call_eq retry f v : worker_call call retry f v = call f v.
  Proof. unfold worker_call. destruct (call f v) as [w|[]] eqn:E; auto. now destruct retry. Qed.
  Lemma worker_queue_eq retry q v : worker_queue call retry q v = run_queue call q v.
  Proof. revert v; induction q as [|f q IH]; intros v; cbn; auto.
    rewrite worker_call_eq. destruct (call f v); cbn; auto. Qed.

  Definition rval (x : rp) : res V := rbind (p_data x) (run_queue call (p_queue x)).

  Lemma rbind_ext {X Y} (r : res X) (f g : X -> res Y) : (forall x, f x = g x) -> rbind r f = rbind r g.
  Proof. intros E. destruct r; cbn; auto. Qed.

  Lemma remote_apply_val retry (x : rp) f : rval (remote_apply call retry x f) = rbind (rval x) (call f).
  Proof.
    unfold remote_apply, rval.
    destruct (1 <? length (p_queue x ++ [f])) eqn:E; cbn [p_data p_queue].
    - destruct (p_data x) as [v|e]; cbn; auto. rewrite worker_queue_eq, run_queue_app.
      destruct (run_queue call (p_queue x) v) as [w|]; cbn; [now destruct (call f w) | reflexivity].
    - rewrite app_length in E. apply Nat.ltb_ge in E. cbn in E.
      destruct (p_queue x); [|cbn in E; lia]. destruct (p_data x) as [v|e]; cbn; auto.
      rewrite worker_call_eq. now destruct (call f v).
  Qed.

  Lemma remote_drain_val retry (x : rp) :
    rval (remote_drain call retry x) = rval x /\ p_data (remote_drain call retry x) = rval x.
  Proof.
    unfold remote_drain, rval. destruct (p_queue x) as [|f [|g q]] eqn:E.
    - rewrite E. destruct (p_data x); auto.
    - destruct (p_data x) as [v|e]; cbn [rbind p_data p_queue]; auto.
      rewrite worker_call_eq. cbn. now destruct (call f v).
    - destruct (p_data x) as [v|e]; cbn [rbind p_data p_queue]; auto.
      rewrite worker_queue_eq. now destruct (run_queue call (f :: g :: q) v).
  Qed.

  Definition ragrees (cells : list (option (res V))) (ps : list (option rp)) : Prop :=
    length cells = length ps /\
    forall p, look cells p = match look ps p with Some x => Some (rval x) | None => None end.

  Lemma ragrees_app cells ps c x :
    ragrees cells ps -> c = match x with Some x => Some (rval x) | None => None end ->
    ragrees (cells ++ [c]) (ps ++ [x]).
  Proof.
    intros [HL HA] ->. split; [rewrite !app_length; cbn; lia|].
    intros p. rewrite !look_app, HL, HA. now destruct (p <? length ps), (p =? length ps).
  Qed.

  Lemma ragrees_set cells ps p x y :
    ragrees cells ps -> look ps p = Some x -> rval y = rval x -> ragrees cells (set_nth p (Some y) ps).
  Proof.
    intros [HL HA] E Hy. split; [now rewrite set_nth_length|].
    intros q. rewrite look_set by eauto using look_in. rewrite HA.
    destruct (Nat.eqb_spec q p) as [->|]; auto. now rewrite E, Hy.
  Qed.

  Lemma remote_step_agrees retry cells ps op : ragrees cells ps ->
    snd (remote_step call retry ps op) = snd (eager_step call true cells op)
    /\ ragrees (fst (eager_step call true cells op)) (fst (remote_step call retry ps op)).
  Proof.
    intros Ha. assert (HA := proj2 Ha). destruct op as [v|p f|p f|p|p|p]; cbn [remote_step eager_step].
    - split; [reflexivity|]. now apply ragrees_app.
    - rewrite HA. destruct (look ps p) as [x|] eqn:E; cbn; (split; [auto|]); apply ragrees_app; auto.
      unfold rval; cbn. destruct (p_data x) as [v|]; cbn; auto. now rewrite run_queue_app.
    - rewrite HA. destruct (look ps p) as [x|] eqn:E; cbn.
      + assert (G := remote_apply_val retry x f).
        destruct (rbind (rval x) (call f)) eqn:Er; cbn; (split; [auto|]); apply ragrees_app; auto; now rewrite G.
      + split; auto. now apply ragrees_app.
    - rewrite HA. destruct (look ps p) as [x|] eqn:E; cbn; (split; [auto|]); auto.
      eapply ragrees_set; eauto. apply remote_drain_val.
    - rewrite HA. destruct (look ps p) as [x|] eqn:E; cbn; (split; [|]); auto.
      + now rewrite (proj2 (remote_drain_val retry x)).
      + eapply ragrees_set; eauto. apply remote_drain_val.
    - rewrite HA. destruct (look ps p) as [x|] eqn:E; cbn; (split; [auto|]); now apply ragrees_app.
  Qed.

  Lemma remote_agrees retry ops : forall cells ps, ragrees cells ps ->
    outcomes (remote_step call retry) ps ops = outcomes (eager_step call true) cells ops
    /\ ragrees (final (eager_step call true) cells ops) (final (remote_step call retry) ps ops).
  Proof.
    unfold outcomes, final. induction ops as [|op ops IH]; intros cells ps Ha; cbn in *; auto.
    destruct (remote_step_agrees retry op Ha) as [D1 D2].
    destruct (remote_step call retry ps op) as [ps1 o]. destruct (eager_step call true cells op) as [c1 o'].
    cbn in *. subst o'. specialize (IH c1 ps1 D2).
    destruct (runs (remote_step call retry) ps1 ops), (runs (eager_step call true) c1 ops). cbn in *.
    destruct IH as [-> ?]. auto.
  Qed.

  Lemma remote_eager retry ops :
    outcomes (remote_step call retry) [] ops = outcomes (eager_step call true) [] ops.
  Proof. apply remote_agrees. split; auto. now intros [|p]. Qed.

  (** Eager values never change. *)
  Lemma eager_keeps late op cells p r :
    look cells p = Some r -> look (fst (eager_step call late cells op)) p = Some r.
  Proof.
    intros E. assert (Hp := look_in _ _ E).
    assert (G : forall c, look (cells ++ [c]) p = Some r).
    { intros c. rewrite look_app. destruct (Nat.ltb_spec p (length cells)); [auto|lia]. }
    destruct op as [v|q f|q f|q|q|q]; cbn [eager_step fst]; auto;
      destruct (look cells q) as [r'|]; cbn [fst]; auto.
    destruct (rbind r' (call f)); cbn [fst]; auto. now destruct late; cbn [fst].
  Qed.
  Lemma eager_keeps_all late ops : forall cells p r,
    look cells p = Some r -> look (final (eager_step call late) cells ops) p = Some r.
  Proof.
    induction ops as [|op ops IH]; intros cells p r E; [exact E|].
    change (op :: ops) with ([op] ++ ops). rewrite final_app, final_one. apply IH. now apply eager_keeps.
  Qed.
End Py.
