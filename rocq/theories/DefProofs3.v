(** One execution: the objects of a task, what its run gives and how the results are handed out. *)
From Verif Require Import Base DefSpec DefModel DefProofs DefProofs2.

(** ** The objects in the flat list of a task are objects of nodes *)
Section Objects.
  Context {V : Type}.
  Variable P : obj V -> Prop.
  Definition ref_all (r : ref V) : Prop := match r with RObj o => P o | RNode _ => True end.
  Definition node_all (nd : node V) : Prop := ref_all (data nd) /\ Forall ref_all (atoms (args nd)) /\ Forall ref_all (atoms (kwargs nd)).
  Definition tok_all (t : token (obj V)) : Prop := match t with TObj o => P o | _ => True end.
  Definition state_all (s : dstate V) : Prop := Forall node_all (heap s) /\ Forall tok_all (output s).
  Definition keeps (go : nat -> dstate V -> res (dstate V)) : Prop := forall n s s', state_all s -> go n s = Ok s' -> state_all s'.

  Lemma Forall_update {A} (Q : A -> Prop) (l : list A) i f : Forall Q l -> (forall x, Q x -> Q (f x)) -> Forall Q (update l i f).
  Proof. intros H Hf. revert i. induction H as [|x l Hx H IH]; intros i; [constructor|]. destruct i; cbn; constructor; auto. Qed.
  Lemma emit_all s t : state_all s -> Forall tok_all t -> state_all (emit s t).
  Proof. intros [A B] C. split; [exact A|]. apply Forall_app. auto. Qed.
  Lemma unsub_all s n s' : state_all s -> unsub s n = Ok s' -> state_all s'.
  Proof. intros [A B]. unfold unsub, unsubscribe, get_node. destruct (nth_error (heap s) n) as [nd|]; [|easy]. cbn.
    destruct (subscribers nd); [easy|]. cbn. intros [= <-]. split; [|exact B]. apply Forall_update; [exact A|]. auto. Qed.
  Lemma emit_ref_all s n p s' : state_all s -> emit_ref s n p = Ok s' -> state_all s'.
  Proof. intros H. unfold emit_ref, get_node. cbn [set_output emit heap]. destruct (nth_error (heap s) n) as [nd|]; [|easy]. cbn [rbind].
    assert (S1 : state_all (set_output (emit s [TTag REF; TInt (Z.of_nat p)]) p (TInt (Z.of_nat p)))).
    { destruct (emit_all (s := s) (t := [TTag REF; TInt (Z.of_nat p)]) H ltac:(repeat constructor)) as [A B]. split; [exact A|].
      apply Forall_update; [exact B|]. easy. }
    destruct (subscribers nd =? 0); [|intros [= <-]; exact S1].
    destruct (remove_first n (consumers _)) as [c|]; [|easy]. cbn [rbind]. intros [= <-]. destruct S1 as [A B]. split; [exact A|].
    apply Forall_update; [exact B|]. easy. Qed.
  Lemma get_all s n nd : state_all s -> get_node (heap s) n = Ok nd -> node_all nd.
  Proof. intros [A _]. unfold get_node. destruct (nth_error (heap s) n) as [x|] eqn:E; [|easy]. intros [= <-].
    eapply Forall_forall; [exact A|]. eapply nth_error_In. exact E. Qed.
  Lemma list_all go l : keeps go -> Forall ref_all (atoms l) -> forall s s', state_all s -> deconstruct_list go l s = Ok s' -> state_all s'.
  Proof. intros K. induction l as [|[o|n] l IH|t l1 IH1 l2 IH2]; cbn [atoms deconstruct_list]; intros F s s' H.
    - intros [= <-]. apply emit_all; [assumption|]. repeat constructor.
    - inversion F; subst. intros D. eapply IH; [assumption| |exact D]. apply emit_all; [assumption|]. repeat constructor. assumption.
    - inversion F; subst. destruct (get_node (heap s) n) as [nd|] eqn:G; [|easy]. cbn [rbind]. pose proof (get_all n H G) as Nd.
      destruct (position nd) as [p|].
      + destruct (unsub s n) as [s1|] eqn:U; [|easy]. cbn [rbind]. pose proof (unsub_all n H U) as H1.
        destruct (has_result nd).
        * destruct (data nd) as [o|] eqn:D; [|easy]. cbn [rbind]. intros D'. eapply IH; [assumption| |exact D'].
          apply emit_all; [assumption|]. repeat constructor. destruct Nd as [Nd _]. now rewrite D in Nd.
        * destruct (emit_ref s1 n p) as [s2|] eqn:R; [|easy]. cbn [rbind]. intros D'. eapply IH; [assumption| |exact D']. eapply emit_ref_all; eauto.
      + destruct (go n (emit s [TTag CHAIN])) as [s1|] eqn:U; [|easy]. cbn [rbind]. intros D'. eapply IH; [assumption| |exact D'].
        apply emit_all; [|repeat constructor]. eapply K; [|exact U]. apply emit_all; [assumption|repeat constructor].
    - apply Forall_app in F as [F1 F2]. destruct (deconstruct_list go l1 _) as [s1|] eqn:D; [|easy]. cbn [rbind]. intros D2.
      eapply IH2; [assumption| |exact D2]. eapply IH1; [assumption| |exact D]. apply emit_all; [assumption|repeat constructor]. Qed.
  Lemma flat_all l : Forall ref_all (atoms l) -> Forall P (flat_objects l).
  Proof. unfold flat_objects. induction 1 as [|[o|n] r H _ IH]; cbn; auto. Qed.
  Lemma node_step_all go n s s' : keeps go -> state_all s -> deconstruct_node go n s = Ok s' -> state_all s'.
  Proof. intros K H. unfold deconstruct_node. destruct (get_node (heap s) n) as [nd|] eqn:G; [|easy]. cbn [rbind].
    destruct (get_all n H G) as (_ & Na & Nk). destruct (func nd) as [f|]; [|easy].
    assert (H0 : state_all (emit s [TFun f])) by (apply emit_all; [assumption|repeat constructor]).
    destruct (if flat_args nd then _ else _) as [s1|] eqn:E1; [|easy]. cbn [rbind].
    assert (H1 : state_all s1).
    { destruct (flat_args nd); [injection E1 as <-|].
      - apply emit_all; [assumption|]. constructor; [easy|]. apply Forall_map. apply flat_all in Na. exact Na.
      - eapply list_all; [exact K|exact Na| |exact E1]. apply emit_all; [assumption|repeat constructor]. }
    destruct (if flat_kwargs nd then _ else _) as [s2|] eqn:E2; [|easy]. cbn [rbind].
    assert (H2 : state_all s2).
    { destruct (flat_kwargs nd); [injection E2 as <-|].
      - apply emit_all; [assumption|]. constructor; [easy|]. apply flat_all in Nk. apply Forall_forall. intros t Ht.
        apply in_flat_map in Ht as ([k o] & Hc & Ht). apply in_combine_r in Hc. rewrite Forall_forall in Nk. apply Nk in Hc.
        destruct Ht as [<-|[<-|[]]]; easy.
      - destruct (deconstruct_list go (kwargs nd) _) as [s3|] eqn:E3; [|easy]. injection E2 as <-. apply emit_all.
        + eapply list_all; [exact K|exact Nk| |exact E3]. apply emit_all; [assumption|repeat constructor].
        + apply Forall_map. apply Forall_forall. easy. }
    cbv zeta. destruct (get_node (heap (emit s2 [TInt 0])) n) as [nd2|]; [|easy]. cbn [rbind].
    destruct (0 <? subscribers nd2); cbv zeta; intros EE; injection EE as <-.
    - destruct H2 as [A B]. split; cbn [heap output emit]; [apply Forall_update; [exact A|auto]|]. repeat (apply Forall_app; split); [exact B|repeat constructor..].
    - apply emit_all; [|repeat constructor]. apply emit_all; [assumption|repeat constructor]. Qed.
  Lemma chain_all fuel : keeps (deconstruct_chain fuel).
  Proof. induction fuel as [|fuel IH]; intros n s s' H; cbn [deconstruct_chain]; [easy|].
    destruct (unsub s n) as [s1|] eqn:U; [|easy]. cbn [rbind]. pose proof (unsub_all n H U) as H1.
    destruct (get_node (heap s1) n) as [nd|] eqn:G; [|easy]. cbn [rbind]. destruct (get_all n H1 G) as (Nd & _).
    assert (Body : match data nd with
            | RObj o =>
                let s := emit s1 [TObj o] in
                if has_result nd then Ok s else deconstruct_node (deconstruct_chain fuel) n s
            | RNode m => do s <- deconstruct_chain fuel m s1; deconstruct_node (deconstruct_chain fuel) n s
            end = Ok s' -> state_all s').
    { destruct (data nd) as [o|m].
      - cbv zeta. assert (state_all (emit s1 [TObj o])) by (apply emit_all; [assumption|repeat constructor; assumption]).
        destruct (has_result nd); [now intros [= <-]|]. eapply node_step_all; eauto.
      - destruct (deconstruct_chain fuel m s1) as [s2|] eqn:D; [|easy]. cbn [rbind]. eapply node_step_all; eauto. }
    destruct (position nd) as [p|]; [|exact Body]. destruct (has_result nd); [exact Body|]. now apply emit_ref_all. Qed.
End Objects.

(** ** The run of a task *)
Section Run.
  Context {V : Type}.
  Variable call : nat -> V -> forest V -> list nat -> forest V -> res V.
  Variables vlen vwid : V -> nat.
  Variable store : list (res V).
  Lemma fchain_step c f a ks k p : @fchain V (CStep c f a ks k p) = fchain c ++ AT (TFun f) :: fargs a ++ fkw ks k ++ [ASlot p; ARet p].
  Proof. reflexivity. Qed.
  Lemma tree_objects : (forall c : chain, wfc c -> forall o, In o (cobjs c) -> In (@AT V (TObj o)) (fchain c))
    /\ (forall a : cargs, (wfa a -> forall o, In o (aobjs a) -> In (@AT V (TObj o)) (fargs a))
                          /\ forall ks, wfa a -> awidth a = length ks -> forall o, In o (aobjs a) -> In (@AT V (TObj o)) (fkw ks a))
    /\ (forall i : items, wfi i -> forall o, In o (iobjs i) -> In (@AT V (TObj o)) (fitems i)).
  Proof. apply tree_ind.
    - intros o _ o' [->|[]]. now left.
    - easy.
    - intros c Hc f a [Ha _] ks k [_ Hk] p (A & B & C & D) o H. rewrite fchain_step. change (cobjs (CStep c f a ks k p)) with (cobjs c ++ aobjs a ++ aobjs k ++ []) in H. apply in_app_iff in H as [H|H]; [apply in_or_app; left; auto|].
      apply in_or_app. right. right. apply in_app_iff in H as [H|H]; [apply in_or_app; left; auto|].
      apply in_or_app. right. rewrite app_nil_r in H. apply in_or_app. left. auto.
    - intros l. split.
      + intros _ o H. right. apply in_map_iff. now exists o.
      + intros ks _ E o H. right. apply in_flat_map. apply In_nth_error in H as [i Hi].
        destruct (nth_error ks i) as [k|] eqn:Ek.
        * exists (k, o). split; [|right; now left]. apply (nth_error_In _ i). clear - Hi Ek. revert ks l Hi Ek. induction i; intros [|k' ks] [|o' l]; cbn; try easy.
          -- now intros [= ->] [= ->].
          -- eauto.
        * apply nth_error_None in Ek. cbn [aobjs awidth] in *. assert (i < length l) by (apply nth_error_Some; congruence). lia.
    - intros i Hi. split.
      + intros W o H. right. auto.
      + intros ks W E o H. right. apply in_or_app. left. auto.
    - easy.
    - intros o i Hi W o' [->|H]; [now left|]. right. auto.
    - intros p i Hi W o' H. right. right. auto.
    - intros c Hc i Hi [A B] o H. right. apply in_app_iff in H as [H|H]; apply in_or_app; [left; auto|]. right. right. auto.
    - intros i1 H1 i2 H2 [A B] o H. right. apply in_app_iff in H as [H|H]; apply in_or_app; auto. Qed.

  Lemma resolves_ok ts u : rmap (resolves store) ts = Ok u -> forall o, In (TObj o) ts -> exists v, resolve store o = Ok v.
  Proof. revert u. induction ts as [|t ts IH]; intros u; cbn; [easy|]. destruct (resolves store t) as [x|] eqn:R; [|easy]. cbn.
    destruct (rmap (resolves store) ts) as [us|]; [|easy]. intros _ o [->|H]; [|eauto].
    cbn in R. destruct (resolve store o) as [v|]; [now exists v|easy]. Qed.
  Lemma resolves_all ts : (forall o, In (TObj o) ts -> exists v, resolve store o = Ok v) -> exists u, rmap (resolves store) ts = Ok u.
  Proof. induction ts as [|t ts IH]; cbn; intros H; [now exists []|]. destruct IH as [us ->]; [auto|].
    assert (R : resolves store t = Ok tt) by (destruct t as [| |o| |]; try easy; cbn; destruct (H o) as [v ->]; auto).
    rewrite R. cbn. now eexists. Qed.

  Lemma Forall2_length {A B} (R : A -> B -> Prop) l l' : Forall2 R l l' -> length l = length l'.
  Proof. induction 1; cbn; auto. Qed.
  (** What a task gives, for the consumers of its results. *)
  Lemma run_ok h0 ev mref mret c reg :
    wfc c -> (forall p, In p (crefs c) -> mref p = true) -> (exists n0, 
    sem vlen vwid store h0 ev [] reg (cobjs c) (crefs c) (csteps c) (fun mr mt => echain call vlen vwid store mr mt c) (ev n0)) ->
    let cs := map snd (filter (fun pn => mret (fst pn)) reg) in
    let ts := map (interp mref mret) (fchain c) in
    exists results m called, run_chain call vlen vwid store ts (length cs) = (results, m, called)
      /\ Forall2 (fun n r => forall v, r = Ok v -> ev n = Ok v) cs results
      /\ (forall l, m = Ok l -> exists vs, Forall2 (fun n v => ev n = Ok v) cs vs /\ l = flat_map (fun v => [vlen v; vwid v]) vs)
      /\ (forall f, occ f called <= occ f (csteps c))
      /\ ((forall o, In (TObj o) ts -> exists v, resolve store o = Ok v) -> (forall n, pending h0 n = true -> exists v, ev n = Ok v) ->
          (exists l, m = Ok l) /\ (forall r, In r results -> exists v, r = Ok v)).
  Proof. intros W R [n0 S] cs ts. unfold run_chain.
    destruct (rmap (resolves store) ts) as [u|e] eqn:Er.
    2:{ exists (repeat (Err e) (length cs)), (Err e), []. split; [easy|]. split.
        { clearbody cs. clear. induction cs; cbn; constructor; auto; easy. }
        split; [easy|]. split; [intros; cbn; lia|].
        intros O _. destruct (resolves_all ts O) as [u Eu]. congruence. }
    assert (O : forall o, In o (cobjs c) -> exists v, resolve store o = Ok v).
    { intros o H. apply (resolves_ok ts Er). unfold ts. apply in_map_iff. exists (AT (TObj o)). split; [reflexivity|].
      now apply (proj1 tree_objects). }
    unfold ts at 1. rewrite construct_tree by assumption.
    assert (G : good vlen vwid ev mref mret [] (WS [] [] [] [])) by (repeat split; [easy|constructor]).
    specialize (S mref mret (WS [] [] [] []) R O G). cbv beta in S. destruct (echain _ _ _ _ _ _ _ _) as [w r] eqn:Ec.
    destruct S as [Cl S]. cbn [wbind].
    assert (Cl' : forall f, occ f (calls w) <= occ f (csteps c)) by (intros f; specialize (Cl f); cbn in Cl; lia).
    destruct r as [v|e]; cbn [wbind].
    - destruct S as (_ & _ & Y & M). do 3 eexists. split; [reflexivity|].
      assert (Y' : Forall2 (fun n v => ev n = Ok v) cs (yields w)).
      { unfold cs. clear - Y. induction Y; cbn; constructor; auto. }
      split; [|split; [|split; [exact Cl'|]]].
      + clear - Y'. induction Y'; cbn; constructor; auto. congruence.
      + intros l [= <-]. exists (yields w). auto.
      + intros _ _. split; [eauto|]. intros r H. apply in_map_iff in H as (x & <- & _). eauto.
    - destruct S as ((l1 & l2 & Ef & Y) & n & e' & Pe & Ee). do 3 eexists. split; [reflexivity|]. split; [|split; [|split; [exact Cl'|]]].
      + assert (Ecs : cs = map snd l1 ++ map snd l2) by (unfold cs; now rewrite Ef, map_app).
        rewrite Ecs, app_length, !map_length, (Forall2_length Y).
        replace (length (yields w) + length l2 - length (yields w)) with (length l2) by lia. apply Forall2_app.
        * clear - Y. induction Y; cbn; constructor; auto. intros v [= <-]. assumption.
        * clear. induction l2; cbn; constructor; auto. easy.
      + easy.
      + intros _ H. destruct (H n Pe). congruence. Qed.
End Run.

(** ** Handing out the results *)
Section Results.
  Context {V : Type}.
  Lemma set_results_other (h : list (node V)) cs m : forall r off n, ~ In n cs -> nth_error (set_results h cs r m off) n = nth_error h n.
  Proof. revert h. induction cs as [|c cs IH]; intros h r off n H; cbn; [easy|]. rewrite IH by (cbn in H; tauto).
    apply update_other. cbn in H. tauto. Qed.
  Lemma set_results_length (h : list (node V)) cs m : forall r off, length (set_results h cs r m off) = length h.
  Proof. revert h. induction cs as [|c cs IH]; intros h r off; cbn; [easy|]. rewrite IH. apply update_length. Qed.
  Lemma set_results_nth (h : list (node V)) cs m : NoDup cs -> forall r off k n, nth_error cs k = Some n ->
    nth_error (set_results h cs r m off) n = option_map (set_result (r + k) m (off + 2 * k)) (nth_error h n).
  Proof. revert h. induction cs as [|c cs IH]; intros h N r off k n H; [now destruct k|]. apply NoDup_cons_iff in N as [N1 N2].
    destruct k as [|k]; cbn [nth_error set_results] in *.
    - injection H as ->. rewrite set_results_other by assumption. rewrite update_same. now rewrite Nat.mul_0_r, !Nat.add_0_r.
    - rewrite (IH _ N2 _ _ k n H). rewrite update_other by (intros ->; apply N1; now apply nth_error_In in H).
      f_equal. f_equal; lia. Qed.

  (** Nodes only get results. *)
  Definition later (h h' : list (node V)) : Prop :=
    length h' = length h /\ forall n nd', nth_error h' n = Some nd' -> exists nd, nth_error h n = Some nd /\ (strip nd' = strip nd \/ func nd' = None).
  Lemma sum_le (g g' : nat -> nat) l : (forall m, In m l -> g m <= g' m) -> list_sum (map g l) <= list_sum (map g' l).
  Proof. induction l as [|x l IH]; intros H; [cbn; lia|]. cbn [map]. rewrite !sum_cons. specialize (H x (or_introl eq_refl)) as Hx.
    specialize (IH (fun m Hm => H m (or_intror Hm))). lia. Qed.
  Lemma later_rem h h' X n : later h h' -> rem h' X n <= rem h X n.
  Proof. intros [L H]. unfold rem. rewrite L. apply sum_le. intros m _. unfold pending.
    destruct (nth_error h' m) as [nd'|] eqn:E; [|destruct (negb (X m)); cbn; lia]. destruct (H m nd' E) as (nd & -> & [S|S]).
    - unfold node_refs. destruct (strip_fields S) as (-> & Ef & -> & _ & -> & _). unfold has_result. rewrite Ef. destruct (func nd), (X m); cbn; lia.
    - unfold has_result. rewrite S. cbn. lia. Qed.
  Lemma later_pend h h' X f : later h h' -> pend h' X f <= pend h X f.
  Proof. intros [L H]. unfold pend. rewrite L. apply sum_le. intros m _. destruct (X m); cbn [negb]; [lia|].
    destruct (nth_error h' m) as [nd'|] eqn:E; [|lia]. destruct (H m nd' E) as (nd & -> & [S|S]).
    - destruct (strip_fields S) as (_ & -> & _). lia.
    - rewrite S. lia. Qed.
  Lemma later_pend_root h h' X n nd f g : later h h' -> nth_error h n = Some nd -> func nd = Some g -> X n = false ->
    pending h' n = false -> one g f + pend h' X f <= pend h X f.
  Proof. intros La Hn Hf HX Pe. rewrite (@pend_add _ h X n nd f g Hn Hf HX).
    apply Nat.add_le_mono_l. transitivity (pend h' (add X n) f); [|now apply later_pend].
    unfold pend. apply sum_le. intros m _. unfold add. destruct (Nat.eqb_spec m n) as [->|]; cbn [orb]; [|lia].
    destruct (X n); cbn [negb]; [lia|]. unfold pending, has_result in Pe. destruct (nth_error h' n) as [x|]; [|lia].
    destruct (func x); [discriminate|lia]. Qed.
End Results.
