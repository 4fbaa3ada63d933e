(** The driver between executions, and one execution. *)
From Verif Require Import Base DefSpec DefModel DefProofs DefProofs2 DefProofs3.

Section World.
  Context {V : Type}.
  Variable call : nat -> V -> forest V -> list nat -> forest V -> res V.
  Variables vlen vwid : V -> nat.
  Notation world := (@world V).
  Notation exec := (exec call vlen vwid).

  (** [evs] are the values of the nodes when executed where they were created, [svs] what the objects stand for. *)
  Definition evf (evs : list (res V)) (n : nat) : res V := nth n evs (Err InternalBug).
  Definition ovf (svs : list (res V)) (o : obj V) : res V := match o with OVal v => Ok v | ORef r => nth r svs (Err InternalBug) end.
  Definition ranged (k : nat) (o : obj V) : Prop := match o with OVal _ => True | ORef r => r < k end.
  Definition all_ok (evs : list (res V)) : Prop := forall r, In r evs -> exists v, r = Ok v.
  Definition meta_right (H : Prop) (m : res (list nat)) (off : nat) (r : res V) : Prop :=
    (forall l, m = Ok l -> exists v, r = Ok v /\ nth_error l off = Some (vlen v) /\ nth_error l (S off) = Some (vwid v))
    /\ (H -> exists l, m = Ok l).
  Record WInv (w : world) (evs svs : list (res V)) (X : nat -> bool) (D B : nat -> nat) : Prop := {
    w_len : length evs = length (nodes w);
    w_objs : length svs = length (objects w);
    w_res : forall r v, nth_error (objects w) r = Some (Ok v) -> nth_error svs r = Some (Ok v);
    w_nodes : forall n nd, nth_error (nodes w) n = Some nd ->
      node_ok call (evf evs) (ovf svs) n nd /\ node_all (ranged (length svs)) nd
      /\ (func nd = None -> meta_right (all_ok evs) (nmeta nd) (moffset nd) (evf evs n));
    w_sub : forall n, D n + rem (nodes w) X n <= sub (nodes w) n;
    w_X : forall n, X n = true -> pending (nodes w) n = true -> sub (nodes w) n = 0;
    w_fresh : forall n, X n = false -> pending (nodes w) n = true -> opos (nodes w) n = None;
    w_calls : forall f, occ f (called w) + pend (nodes w) X f <= B f;
    w_health : all_ok evs -> all_ok (objects w) }.

  Lemma ovf_app svs x o : ranged (length svs) o -> ovf (svs ++ x) o = ovf svs o.
  Proof. destruct o as [v|r]; cbn; [easy|]. intros H. now rewrite app_nth1. Qed.
  Lemma ranged_app (svs x : list (res V)) o : ranged (length svs) o -> ranged (length (svs ++ x)) o.
  Proof. destruct o as [v|r]; cbn; [easy|]. rewrite app_length. lia. Qed.
  Lemma node_all_mono (P Q : obj V -> Prop) nd : (forall o, P o -> Q o) -> node_all P nd -> node_all Q nd.
  Proof. intros H (A & B & C). assert (R : forall r, ref_all P r -> ref_all Q r) by (intros [o|m]; cbn; auto).
    repeat split; auto; eapply Forall_impl; eauto. Qed.
  Lemma traverse_ext {A B} (f g : A -> res B) l : (forall a, In a (atoms l) -> f a = g a) -> traverse f l = traverse g l.
  Proof. induction l as [|a l IH|t l1 IH1 l2 IH2]; cbn; intros H; [easy| |].
    - rewrite (H a) by now left. rewrite IH; [easy|]. auto.
    - rewrite IH1 by (intros; apply H, in_or_app; now left). rewrite IH2 by (intros; apply H, in_or_app; now right). easy. Qed.
  Lemma node_ok_ext ev ev' ov ov' n nd : (forall m, m <= n -> ev m = ev' m) ->
    node_all (fun o => ov o = ov' o) nd -> node_ok call ev ov n nd -> node_ok call ev' ov' n nd.
  Proof. intros He (Hd & Ha & Hk). unfold node_ok. destruct (func nd) as [f|].
    - intros (A & B & C & D & E & F & G). repeat split; auto. rewrite <- He by lia. rewrite G.
      assert (Rv : forall r, In r (data nd :: atoms (args nd) ++ atoms (kwargs nd)) -> rval ev ov r = rval ev' ov' r).
      { intros r Hr. destruct r as [o|m]; cbn.
        - destruct Hr as [Hr|Hr]; [now rewrite Hr in Hd|]. rewrite Forall_forall in Ha, Hk. apply in_app_iff in Hr as [Hr|Hr]; [now apply Ha in Hr | now apply Hk in Hr].
        - apply He. apply Nat.lt_le_incl, A. unfold node_refs, fnodes. rewrite !in_app_iff, !in_flat_map. destruct Hr as [Hr|Hr].
          + left. rewrite Hr. now left.
          + right. apply in_app_iff in Hr as [Hr|Hr]; [left|right]; exists (RNode m); split; auto; now left. }
      rewrite (Rv (data nd)) by now left.
      rewrite (traverse_ext (rval ev ov) (rval ev' ov') (args nd)) by (intros; apply Rv; right; apply in_or_app; now left).
      rewrite (traverse_ext (rval ev ov) (rval ev' ov') (kwargs nd)) by (intros; apply Rv; right; apply in_or_app; now right).
      reflexivity.
    - intros (o & E & F). exists o. split; [assumption|]. rewrite E in Hd. cbn in Hd. rewrite <- Hd, F. now apply He. Qed.
  Lemma meta_right_app evs x m off r : meta_right (all_ok evs) m off r -> meta_right (all_ok (evs ++ x)) m off r.
  Proof. intros [A B]. split; [exact A|]. intros H. apply B. intros y Hy. apply H, in_or_app. now left. Qed.

  Lemma NoDup_map_filter {A B} (f : A -> B) (p : A -> bool) l : NoDup (map f l) -> NoDup (map f (filter p l)).
  Proof. induction l as [|x l IH]; cbn; [auto|]. intros N. apply NoDup_cons_iff in N as [N1 N2]. destruct (p x); cbn; [|auto].
    constructor; [|auto]. intros H. apply N1. apply in_map_iff in H as (y & <- & H). apply filter_In in H as [H _]. now apply in_map. Qed.
  Lemma some_inj {A} (a b : A) : Some a = Some b -> a = b.
  Proof. congruence. Qed.
  Lemma later_strip (h h' : list (node V)) : map strip h' = map strip h -> later h h'.
  Proof. intros E. split; [apply (f_equal (@length _)) in E; now rewrite !map_length in E|]. intros n nd' Hn.
    assert (X : nth_error (map strip h') n = nth_error (map strip h) n) by now rewrite E. rewrite !nth_error_map, Hn in X.
    destruct (nth_error h n) as [nd|]; [|easy]. exists nd. split; [easy|]. left. now apply some_inj in X. Qed.
  Lemma strip_rem (h h' : list (node V)) X n : map strip h' = map strip h -> rem h' X n = rem h X n.
  Proof. intros E. apply Nat.le_antisymm; apply later_rem, later_strip; congruence. Qed.
  Lemma strip_pend (h h' : list (node V)) X n : map strip h' = map strip h -> pend h' X n = pend h X n.
  Proof. intros E. apply Nat.le_antisymm; apply later_pend, later_strip; congruence. Qed.
  Lemma strip_pending (h h' : list (node V)) n : map strip h' = map strip h -> pending h' n = pending h n.
  Proof. intros E. assert (X : nth_error (map strip h') n = nth_error (map strip h) n) by now rewrite E. rewrite !nth_error_map in X.
    unfold pending, has_result. destruct (nth_error h' n) as [a|], (nth_error h n) as [b|]; cbn in X; try easy.
    apply some_inj in X. destruct (strip_fields X) as (_ & -> & _). reflexivity. Qed.
  Lemma strip_meta (a b : node V) : strip a = strip b -> nmeta a = nmeta b /\ moffset a = moffset b.
  Proof. destruct a, b. unfold strip. cbn. intros [= ? ? ? ? ? ? ? ? ?]. now subst. Qed.
  Lemma strip_node_ok ev ov n (a b : node V) : strip a = strip b -> node_ok call ev ov n b -> node_ok call ev ov n a.
  Proof. intros S. destruct (strip_fields S) as (A & B & C & D & E & F & G). unfold node_ok, node_refs. now rewrite A, B, C, D, E, F, G. Qed.
  Lemma strip_node_all P (a b : node V) : strip a = strip b -> node_all P b -> node_all P a.
  Proof. intros S. destruct (strip_fields S) as (A & B & C & D & E & F & G). unfold node_all. now rewrite A, C, E. Qed.

  Lemma resolve_right w evs svs X D B : WInv w evs svs X D B -> forall o v, resolve (objects w) o = Ok v -> ovf svs o = Ok v.
  Proof. intros I [v'|r] v; cbn; [easy|]. intros H.
    destruct (nth_error (objects w) r) as [x|] eqn:E.
    - rewrite (nth_error_nth _ _ _ E) in H. subst x. apply (w_res I) in E. now apply nth_error_nth.
    - apply nth_error_None in E. rewrite nth_overflow in H by assumption. discriminate. Qed.
  Lemma resolve_healthy w evs svs X D B o : WInv w evs svs X D B -> all_ok evs -> ranged (length svs) o -> exists v, resolve (objects w) o = Ok v.
  Proof. intros I H. destruct o as [v|r]; cbn; [eauto|]. intros R. apply (w_health I H). apply nth_In. now rewrite <- (w_objs I). Qed.

  (** *** The direct path *)
  Lemma fast_ok w evs svs X D B n nd f o : WInv w evs svs X D B -> nth_error (nodes w) n = Some nd -> func nd = Some f -> X n = false ->
    data nd = RObj o -> is_flat (args nd) = true -> is_flat (kwargs nd) = true ->
    forall res cs, (res, cs) = match (do d <- resolve (objects w) o;
                       do a <- rmap (resolve (objects w)) (flat_objects (args nd));
                       do k <- rmap (resolve (objects w)) (flat_objects (kwargs nd)); Ok (d, a, k)) with
                              | Ok (d, a, k) => (call f d (fold_right (@Atom V) Nil a) (keys nd) (fold_right (@Atom V) Nil k), [f])
                              | Err e => (Err e, [])
                              end ->
    (forall v, res = Ok v -> evf evs n = Ok v) /\ (all_ok evs -> res = evf evs n) /\ (cs = [f] \/ cs = []).
  Proof. intros I Hn Hf HX Hd Fa Fk res cs E.
    destruct (w_nodes I n Hn) as (Nk & Na & _). unfold node_ok in Nk. rewrite Hf in Nk. destruct Nk as (_ & _ & _ & _ & _ & _ & Ev).
    destruct (flat_facts (evf evs) (ovf svs) (args nd) Fa) as (_ & _ & Ta). destruct (flat_facts (evf evs) (ovf svs) (kwargs nd) Fk) as (_ & _ & Tk).
    rewrite Ta, Tk, Hd in Ev. cbn [rval] in Ev.
    assert (RM : forall l vs, rmap (resolve (objects w)) l = Ok vs -> rmap (ovf svs) l = Ok vs).
    { induction l as [|x l IH]; intros vs; cbn; [easy|]. destruct (resolve (objects w) x) as [v|] eqn:R; [|easy]. cbn.
      rewrite (resolve_right I x R). destruct (rmap _ l) as [us|]; [|easy]. rewrite (IH us eq_refl). easy. }
    assert (HM : forall l, all_ok evs -> Forall (ranged (length svs)) l -> exists vs, rmap (resolve (objects w)) l = Ok vs).
    { intros l H. induction 1 as [|x l Hx Hl [vs IH]]; cbn; [now exists []|]. destruct (resolve_healthy x I H Hx) as [v ->]. rewrite IH. cbn. eauto. }
    destruct Na as (Nd & Naa & Nak). rewrite Hd in Nd. cbn in Nd. apply flat_all in Naa. apply flat_all in Nak.
    destruct (resolve (objects w) o) as [d|e] eqn:Ro; cbn [rbind] in E.
    2:{ injection E as -> ->. split; [easy|]. split; [|now right]. intros H. destruct (resolve_healthy o I H Nd) as [v Rv]. congruence. }
    destruct (rmap _ (flat_objects (args nd))) as [a|e] eqn:Ra; cbn [rbind] in E.
    2:{ injection E as -> ->. split; [easy|]. split; [|now right]. intros H. destruct (HM _ H Naa). congruence. }
    destruct (rmap _ (flat_objects (kwargs nd))) as [k|e] eqn:Rk; cbn [rbind] in E.
    2:{ injection E as -> ->. split; [easy|]. split; [|now right]. intros H. destruct (HM _ H Nak). congruence. }
    injection E as -> ->. rewrite Ev, (resolve_right I o Ro), (RM _ _ Ra), (RM _ _ Rk). cbn [direct rbind]. auto. Qed.

  (** Installing results. *)
  Lemma installed w evs svs X D B h1 X1 cs results m called1 :
    WInv w evs svs X D B ->
    map strip h1 = map strip (nodes w) -> NoDup cs -> (forall n, In n cs -> n < length (nodes w)) ->
    Forall2 (fun n r => forall v, r = Ok v -> evf evs n = Ok v) cs results ->
    (forall l, m = Ok l -> exists vs, Forall2 (fun n v => evf evs n = Ok v) cs vs /\ l = flat_map (fun v => [vlen v; vwid v]) vs) ->
    (all_ok evs -> (exists l, m = Ok l) /\ all_ok results) ->
    let h2 := set_results h1 cs (length (objects w)) m 0 in
    (forall n, D n + rem h2 X1 n <= sub h1 n) ->
    (forall n, X1 n = true -> pending h2 n = true -> sub h1 n = 0) ->
    (forall n, X1 n = false -> pending h2 n = true -> opos h1 n = None) ->
    (forall f, occ f called1 + pend h2 X1 f <= B f) ->
    WInv (World h2 (objects w ++ results) called1) evs (svs ++ map (evf evs) cs) X1 D B.
  Proof. intros I St ND Hcs Rs Ms Hl h2 Hs HX1 HF HC.
    assert (Lr : length results = length cs) by (symmetry; exact (Forall2_length Rs)).
    assert (Lh : length h1 = length (nodes w)) by (apply (f_equal (@length _)) in St; now rewrite !map_length in St).
    assert (In_cs : forall n, In n cs -> exists k nd0, nth_error cs k = Some n /\ nth_error h1 n = Some nd0
        /\ nth_error h2 n = Some (set_result (length (objects w) + k) m (2 * k) nd0)).
    { intros n H. specialize (Hcs n H). apply In_nth_error in H as [k Hk]. destruct (nth_error h1 n) as [nd0|] eqn:E; [|apply nth_error_None in E; lia].
      exists k, nd0. split; [assumption|]. split; [reflexivity|]. unfold h2. rewrite (set_results_nth h1 m ND _ _ _ Hk), E. easy. }
    assert (Out_cs : forall n, ~ In n cs -> nth_error h2 n = nth_error h1 n) by (intros n H; now apply set_results_other).
    assert (Hpend : forall n, pending h2 n = true -> ~ In n cs).
    { intros n Hp H. destruct (In_cs n H) as (k & nd0 & _ & _ & E). unfold pending in Hp. rewrite E in Hp. cbn in Hp. discriminate. }
    assert (Sub : forall n, sub h2 n = sub h1 n).
    { intros n. destruct (in_dec Nat.eq_dec n cs) as [H|H]; unfold sub; [|now rewrite Out_cs].
      destruct (In_cs n H) as (k & nd0 & _ & -> & ->). reflexivity. }
    constructor; cbn [nodes objects called].
    - unfold h2. rewrite set_results_length, Lh. apply (w_len I).
    - rewrite !app_length, map_length, (w_objs I), Lr. reflexivity.
    - intros r v H. destruct (Nat.lt_ge_cases r (length (objects w))) as [L|L].
      + rewrite nth_error_app1 in H by assumption. rewrite nth_error_app1 by (rewrite (w_objs I); assumption). now apply (w_res I).
      + rewrite nth_error_app2 in H by assumption. rewrite nth_error_app2 by (rewrite (w_objs I); assumption). rewrite (w_objs I).
        rewrite nth_error_map. revert H. generalize (r - length (objects w)). clear - Rs. intros k. revert k.
        induction Rs as [|n x cs rs Hx Rs IH]; intros [|k]; cbn; try easy; [|apply IH]. intros [= ->]. f_equal. now apply Hx.
    - intros n nd Hn. destruct (in_dec Nat.eq_dec n cs) as [H|H].
      + destruct (In_cs n H) as (k & nd0 & Hk & _ & E). rewrite E in Hn. injection Hn as <-.
        assert (Lk : k < length cs) by (apply nth_error_Some; congruence).
        split; [|split].
        * unfold node_ok. cbn [set_result func data]. eexists. split; [reflexivity|]. cbn [ovf]. rewrite <- (w_objs I).
          rewrite app_nth2 by lia. replace (length svs + k - length svs) with k by lia.
          apply nth_error_nth. rewrite nth_error_map, Hk. reflexivity.
        * split; [|split; constructor]. cbn. rewrite app_length, map_length, <- (w_objs I). lia.
        * intros _. cbn [set_result nmeta moffset]. split; [|intros A; now apply Hl].
          intros l El. destruct (Ms l El) as (vs & F & ->). clear - F Hk. revert k Hk. induction F as [|x v cs vs Hx F IH]; intros [|k] Hk; cbn in Hk; try discriminate.
          -- injection Hk as ->. exists v. cbn. auto.
          -- destruct (IH k Hk) as (u & U1 & U2 & U3). exists u. split; [assumption|]. replace (S k + (S k + 0)) with (S (S (k + (k + 0)))) by lia. cbn [flat_map app nth_error]. split; [exact U2|exact U3].
      + rewrite Out_cs in Hn by assumption.
        assert (E : nth_error (map strip h1) n = nth_error (map strip (nodes w)) n) by now rewrite St. rewrite !nth_error_map, Hn in E.
        destruct (nth_error (nodes w) n) as [nd0|] eqn:Hn0; [|easy]. apply some_inj in E. destruct (w_nodes I n Hn0) as (A & A1 & C).
        split; [|split].
        * apply (strip_node_ok _ _ _ E). apply (@node_ok_ext (evf evs) (evf evs) (ovf svs)); auto. eapply node_all_mono; [|exact A1].
          intros o Ho. symmetry. now apply ovf_app.
        * apply (strip_node_all E). eapply node_all_mono; [|exact A1]. intros o. apply ranged_app.
        * destruct (strip_fields E) as (_ & -> & _). destruct (strip_meta E) as [-> ->]. exact C.
    - intros n. rewrite Sub. apply Hs.
    - intros n H1 H2. rewrite Sub. auto.
    - intros n H1 H2. unfold opos. rewrite Out_cs by auto. apply (HF n H1 H2).
    - exact HC.
    - intros A r H. apply in_app_iff in H as [H|H]; [now apply (w_health I A)|]. now apply (Hl A). Qed.

  Lemma exec_ok w evs svs X D B n nd : WInv w evs svs X D B -> nth_error (nodes w) n = Some nd -> (has_result nd = false -> X n = false) ->
    exists w' o m off svs' X', exec w n = Ok (w', (RObj o, m, off)) /\ WInv w' evs (svs ++ svs') X' D B
      /\ ovf (svs ++ svs') o = evf evs n /\ ranged (length (svs ++ svs')) o /\ meta_right (all_ok evs) m off (evf evs n)
      /\ length (nodes w') = length (nodes w).
  Proof. intros I Hn HX. unfold exec, get_node. rewrite Hn. cbn [rbind].
    destruct (w_nodes I n Hn) as (Nk & Na & Nm). unfold node_ok in Nk. destruct (func nd) as [f|] eqn:Hf.
    2:{ destruct Nk as (o & Do & Vo). rewrite Do. exists w, o, (nmeta nd), (moffset nd), [], X. rewrite app_nil_r.
        split; [easy|]. split; [exact I|]. split; [exact Vo|]. split; [|split; [now apply Nm|easy]]. destruct Na as [Na _]. now rewrite Do in Na. }
    assert (HR : has_result nd = false) by (unfold has_result; now rewrite Hf). specialize (HX HR).
    assert (Pe : pending (nodes w) n = true) by (unfold pending; now rewrite Hn, HR).
    assert (Ln : n < length (nodes w)) by (apply nth_error_Some; congruence).
    destruct Nk as (_ & Fa & Fk & _).
    assert (Slow : exists w' o m off svs' X', (
            let h := update (nodes w) n (fun nd => set_subscribers (S (S (subscribers nd))) nd) in
            do s <- deconstruct_chain (S (length h)) n (DS h [] []);
            let '(results, m, cs) := run_chain call vlen vwid (objects w) (output s) (length (consumers s)) in
            let w := World (set_results (heap s) (consumers s) (length (objects w)) m 0) (objects w ++ results) (called w ++ cs) in
            do nd <- get_node (nodes w) n;
            Ok (w, (data nd, nmeta nd, moffset nd))) = Ok (w', (RObj o, m, off)) /\ WInv w' evs (svs ++ svs') X' D B
      /\ ovf (svs ++ svs') o = evf evs n /\ ranged (length (svs ++ svs')) o /\ meta_right (all_ok evs) m off (evf evs n)
      /\ length (nodes w') = length (nodes w)).
    { cbv zeta. set (h := update (nodes w) n _).
      assert (St : map strip h = map strip (nodes w)) by (apply update_map; now intros []).
      assert (Lh : length h = length (nodes w)) by apply update_length.
      assert (Sub : forall m, sub h m = sub (nodes w) m + 2 * one n m).
      { intros m. unfold sub, h, one. destruct (Nat.eq_dec n m) as [<-|Ne]; [rewrite update_same, Hn; cbn; lia|]. rewrite update_other by assumption. lia. }
      assert (Op : forall m, opos h m = opos (nodes w) m).
      { intros m. unfold opos, h. destruct (Nat.eq_dec n m) as [<-|Ne]; [rewrite update_same, Hn; easy|]. now rewrite update_other. }
      assert (Hk : forall m x, nth_error h m = Some x -> node_ok call (evf evs) (ovf svs) m x).
      { intros m x Hm. assert (E : nth_error (map strip h) m = nth_error (map strip (nodes w)) m) by now rewrite St.
        rewrite !nth_error_map, Hm in E. destruct (nth_error (nodes w) m) as [y|] eqn:Hy; [|easy]. apply some_inj in E.
        apply (strip_node_ok _ _ _ E). now apply (w_nodes I). }
      set (no := fun _ : nat => false).
      assert (I0 : Inv h X (fun m => (D m + one n m) + one n m) (DS h [] []) [] [] no no).
      { constructor; cbn [heap output consumers]; auto; try easy.
        - intros m. rewrite Sub, (strip_rem _ _ X m St). pose proof (w_sub I m). lia.
        - now intros [|i].
        - constructor.
        - constructor.
        - intros m H1 H2. rewrite Op. apply (w_fresh I); [assumption|]. now rewrite <- (strip_pending _ _ m St). }
      assert (F0 : forall m, X m = true -> pending h m = true -> finished (DS h [] []) [] no m).
      { intros m H1 H2. left. cbn [heap]. rewrite Sub. rewrite (strip_pending _ _ m St) in H2. rewrite (w_X I m H1 H2). unfold one.
        destruct (Nat.eq_dec n m); [congruence|lia]. }
      destruct (chain_ok call vlen vwid (objects w) (evf evs) (ovf svs) (resolve_right I) Hk (fuel := S (length h)) (id := n) ltac:(lia) ltac:(lia)
         (fun m => D m + one n m) I0 (fun m _ => F0 m)) as (s & X' & c & reg & mref & mret & E1 & I1 & W & M & Xn & R & P & Sm).
      rewrite E1. cbn [rbind]. cbn [app] in I1, M, Sm.
      rewrite (i_out I1), (i_cons I1).
      destruct (@run_ok V call vlen vwid (objects w) h (evf evs) mref mret c reg W R (ex_intro _ n Sm)) as (results & m & cs & E2 & Rs & Ms & Cs & Hl).
      rewrite E2. set (cons := map snd (filter (fun pn => mret (fst pn)) reg)) in *.
      assert (Hcons : forall q k, In (q, k) reg -> mret q = true -> In k cons).
      { intros q k H1 H2. unfold cons. apply in_map_iff. exists (q, k). split; [easy|]. apply filter_In. auto. }
      assert (Hroot : In n cons).
      { specialize (Xn ltac:(now rewrite (strip_pending _ _ n St))). destruct M as (_ & M2 & _). destruct (M2 n Xn) as [H|[H|(q & H1 & H2)]]; [congruence| |eauto].
        pose proof (i_sub I1 n) as Sn. rewrite H in Sn. unfold one in Sn. destruct (Nat.eq_dec n n); lia. }
      assert (Lr : later h (set_results (heap s) cons (length (objects w)) m 0)).
      { split; [rewrite set_results_length; pose proof (i_strip I1) as E; apply (f_equal (@length _)) in E; now rewrite !map_length in E|].
        intros k x Hx. destruct (in_dec Nat.eq_dec k cons) as [H|H].
        - assert (NDc : NoDup cons) by (apply NoDup_map_filter, (i_nodup I1)).
          apply In_nth_error in H as [j Hj]. rewrite (set_results_nth (heap s) m NDc _ _ _ Hj) in Hx.
          destruct (nth_error (heap s) k) as [y|] eqn:Hy; [|easy]. apply some_inj in Hx. subst x.
          destruct (nth_error h k) as [z|] eqn:Hz; [exists z; split; [easy|now right]|].
          exfalso. apply nth_error_None in Hz. assert (k < length (heap s)) by (apply nth_error_Some; congruence).
          pose proof (i_strip I1) as E. apply (f_equal (@length _)) in E. rewrite !map_length in E. lia.
        - rewrite set_results_other in Hx by assumption. destruct (later_strip _ _ (i_strip I1)) as [_ L]. now apply L. }
      assert (NDc : NoDup cons) by (apply NoDup_map_filter, (i_nodup I1)).
      assert (St1 : map strip (heap s) = map strip (nodes w)) by (rewrite (i_strip I1); exact St).
      assert (Lc : forall k, In k cons -> k < length (nodes w)).
      { intros k H. unfold cons in H. apply in_map_iff in H as ([q x] & <- & H). apply filter_In in H as [H _]. destruct M as (_ & _ & _ & _ & M5). apply M5 in H. cbn. lia. }
      assert (Pd : forall k, pending (set_results (heap s) cons (length (objects w)) m 0) k = true -> ~ In k cons /\ pending h k = true).
      { intros k Hp. split.
        - intros H. apply In_nth_error in H as [j Hj]. unfold pending in Hp. rewrite (set_results_nth (heap s) m NDc _ _ _ Hj) in Hp.
          destruct (nth_error (heap s) k); easy.
        - unfold pending in *. destruct (nth_error (set_results _ _ _ _ _) k) as [x|] eqn:E; [|easy]. destruct Lr as [_ Lr].
          destruct (Lr k x E) as (y & -> & [Z|Z]); [|unfold has_result in Hp; now rewrite Z in Hp].
          destruct (strip_fields Z) as (_ & Z' & _). unfold has_result in *. now rewrite <- Z'. }
      assert (WI : WInv (World (set_results (heap s) cons (length (objects w)) m 0) (objects w ++ results) (called w ++ cs)) evs
                     (svs ++ map (evf evs) cons) X' D B).
      { apply (@installed w evs svs X D B (heap s) X' cons results m (called w ++ cs) I St1 NDc Lc Rs Ms).
        - intros A. apply Hl.
          + intros o Ho. apply (resolve_healthy o I A).
            destruct (@chain_all V (ranged (length svs)) (S (length h)) n (DS h [] []) s) as [_ T]; [|exact E1|].
            { split; cbn; [|constructor]. apply Forall_forall. intros x Hx. apply In_nth_error in Hx as [k Hx].
              destruct (later_strip _ _ St) as [_ L]. destruct (L k x Hx) as (y & Hy & _).
              assert (E : nth_error (map strip h) k = nth_error (map strip (nodes w)) k) by now rewrite St.
              rewrite !nth_error_map, Hx, Hy in E. apply some_inj in E. apply (strip_node_all E). now apply (w_nodes I k). }
            rewrite (i_out I1) in T. rewrite Forall_forall in T. exact (T _ Ho).
          + intros k Hp. apply A. unfold evf. apply nth_In. rewrite (w_len I). unfold pending in Hp.
            destruct (nth_error h k) eqn:E; [|easy]. rewrite <- Lh. apply nth_error_Some. congruence.
        - intros k. pose proof (i_sub I1 k) as Q1. cbv beta in Q1. pose proof (later_rem X' k Lr) as Q2. cbv zeta. lia.
        - intros k H1 H2. destruct (Pd k H2) as [N1 N2]. destruct M as (_ & M2 & M3 & _).
          assert (Fk' : finished s reg mret k) by (destruct (M2 k H1) as [H|H]; [apply M3, F0; auto|assumption]).
          destruct Fk' as [Z|(q & Q1 & Q2)]; [assumption|]. exfalso. eauto.
        - intros k H1 H2. destruct (Pd k H2) as [N1 N2]. now apply (i_fresh I1).
        - intros g. rewrite occ_app. pose proof (Cs g). pose proof (P g). pose proof (later_pend X' g Lr). pose proof (w_calls I g).
          rewrite (strip_pend _ _ X g St) in *. lia. }
      apply In_nth_error in Hroot as [j Hj]. 
      assert (Hh : exists y, nth_error (heap s) n = Some y).
      { destruct (nth_error (heap s) n) eqn:E; [eauto|]. apply nth_error_None in E. apply (f_equal (@length _)) in St1. rewrite !map_length in St1. lia. }
      destruct Hh as [y Hy]. cbn [nodes].
      pose proof (set_results_nth (heap s) m NDc (length (objects w)) 0 _ Hj) as Hr. rewrite Hy in Hr. cbn [option_map] in Hr.
      unfold get_node. rewrite Hr. cbn [rbind set_result data nmeta moffset].
      do 6 eexists. split; [reflexivity|]. split; [exact WI|].
      destruct (w_nodes WI n Hr) as (Ok1 & Ok2 & Ok3). split; [|split; [|split]].
      - destruct Ok1 as (o & Eo & Vo). cbn in Eo. injection Eo as <-. exact Vo.
      - exact (proj1 Ok2).
      - now apply Ok3.
      - cbn [nodes]. rewrite set_results_length. apply (f_equal (@length _)) in St1. now rewrite !map_length in St1. }
    destruct (data nd) as [o|md] eqn:Hd; [|exact Slow]. destruct (flat_args nd && flat_kwargs nd) eqn:Fl; [|exact Slow].
    apply andb_true_iff in Fl as [F1 F2]. rewrite Fa in F1. rewrite Fk in F2. clear Slow.
    destruct (match (do d <- resolve (objects w) o; _) with Ok _ => _ | Err _ => _ end) as [res cs] eqn:Eq. 
    destruct (fast_ok n I Hn Hf HX Hd F1 F2 (eq_sym Eq)) as (V1 & V2 & V3).
    set (m := do v <- res; Ok [vlen v; vwid v]).
    assert (Lr : later (nodes w) (set_results (nodes w) [n] (length (objects w)) m 0)).
    { cbn [set_results]. split; [apply update_length|]. intros k x Hx. destruct (Nat.eq_dec n k) as [<-|Ne].
      - rewrite update_same, Hn in Hx. apply some_inj in Hx. subst x. exists nd. auto.
      - rewrite update_other in Hx by assumption. eauto. }
    assert (Pn : pending (set_results (nodes w) [n] (length (objects w)) m 0) n = false).
    { cbn [set_results]. unfold pending. now rewrite update_same, Hn. }
    assert (WI : WInv (World (set_results (nodes w) [n] (length (objects w)) m 0) (objects w ++ [res]) (called w ++ cs)) evs
                     (svs ++ map (evf evs) [n]) X D B).
    { assert (Pd : forall k, pending (set_results (nodes w) [n] (length (objects w)) m 0) k = true -> pending (nodes w) k = true).
      { intros k Hp. destruct (Nat.eq_dec n k) as [<-|Ne]; [congruence|]. cbn [set_results] in Hp. unfold pending in *. now rewrite update_other in Hp. }
      apply (@installed w evs svs X D B (nodes w) X [n] [res] m (called w ++ cs) I eq_refl).
      - repeat constructor. easy.
      - intros k [<-|[]]. exact Ln.
      - repeat constructor. exact V1.
      - intros l. unfold m. destruct res as [v|]; cbn; [|easy]. intros [= <-]. exists [v]. split; [|easy]. repeat constructor. now apply V1.
      - intros A. specialize (V2 A). assert (exists v, res = Ok v) as [v ->].
        { rewrite V2. apply A. unfold evf. apply nth_In. now rewrite (w_len I). }
        split; [cbn; eauto|]. intros r [<-|[]]. eauto.
      - intros k. pose proof (w_sub I k). pose proof (later_rem X k Lr). lia.
      - intros k H1 H2. apply (w_X I); auto.
      - intros k H1 H2. apply (w_fresh I); auto.
      - intros g. rewrite occ_app. pose proof (w_calls I g). pose proof (@later_pend_root _ _ _ X n nd g f Lr Hn Hf HX Pn).
        assert (occ g cs <= one f g) by (destruct V3 as [->| ->]; unfold occ, one; cbn [count_occ]; destruct (Nat.eq_dec f g); lia). lia. }
    do 6 eexists. split; [reflexivity|]. split; [exact WI|].
    assert (Hr : nth_error (nodes (World (set_results (nodes w) [n] (length (objects w)) m 0) (objects w ++ [res]) (called w ++ cs))) n
                 = Some (set_result (length (objects w)) m 0 nd)) by (cbn [nodes set_results]; now rewrite update_same, Hn).
    destruct (w_nodes WI n Hr) as (Ok1 & Ok2 & Ok3). split; [|split; [|split]].
    - destruct Ok1 as (o' & Eo & Vo). cbn in Eo. injection Eo as <-. exact Vo.
    - exact (proj1 Ok2).
    - now apply Ok3.
    - cbn [nodes set_results]. apply update_length. Qed.
End World.
