(** Whole histories. *)
From Verif Require Import Base DefSpec DefModel DefProofs DefProofs2 DefProofs3 DefProofs4.

Section History.
  Context {V : Type}.
  Variable call : nat -> V -> forest V -> list nat -> forest V -> res V.
  Variables vlen vwid : V -> nat.
  Notation WInv := (WInv call vlen vwid).
  Notation meta_right := (meta_right vlen vwid).
  Notation world := (@world V).

  Lemma winv_weaken w evs svs X D D' B : WInv w evs svs X D B -> (forall n, D' n <= D n) -> WInv w evs svs X D' B.
  Proof. intros [] H. constructor; auto. intros n. specialize (w_sub n). specialize (H n). lia. Qed.

  (** ** Subscriptions *)
  Lemma subscribe_ok w evs svs X D B n : WInv w evs svs X D B -> n < length (nodes w) -> (X n = true -> pending (nodes w) n = false) ->
    WInv (with_nodes w (subscribe (nodes w) n)) evs svs X (fun m => D m + one n m) B
    /\ map strip (subscribe (nodes w) n) = map strip (nodes w).
  Proof. intros I Hn Hx. unfold subscribe. set (h := update (nodes w) n _).
    assert (St : map strip h = map strip (nodes w)) by (apply update_map; now intros []). split; [|exact St].
    assert (E : exists nd, nth_error (nodes w) n = Some nd) by (destruct (nth_error (nodes w) n) eqn:E; [eauto|apply nth_error_None in E; lia]).
    destruct E as [nd End].
    assert (Sub : forall m, sub h m = sub (nodes w) m + one n m).
    { intros m. unfold sub, h, one. destruct (Nat.eq_dec n m) as [<-|Ne]; [rewrite update_same, End; cbn; lia|]. rewrite update_other by assumption. lia. }
    assert (Op : forall m, opos h m = opos (nodes w) m).
    { intros m. unfold opos, h. destruct (Nat.eq_dec n m) as [<-|Ne]; [rewrite update_same, End; easy|]. now rewrite update_other. }
    destruct I. constructor; cbn [with_nodes nodes objects called]; auto.
    - now rewrite (f_equal (@length _) St), !map_length || (rewrite w_len; symmetry; apply update_length).
    - intros m x Hm. assert (Em : nth_error (map strip h) m = nth_error (map strip (nodes w)) m) by now rewrite St.
      rewrite !nth_error_map, Hm in Em. destruct (nth_error (nodes w) m) as [y|] eqn:Hy; [|easy]. apply some_inj in Em.
      destruct (w_nodes m y Hy) as (A & A1 & C). split; [exact (strip_node_ok call _ _ _ Em A)|]. split; [exact (strip_node_all Em A1)|].
      destruct (strip_fields Em) as (_ & -> & _). destruct (strip_meta Em) as [-> ->]. exact C.
    - intros m. rewrite Sub, (strip_rem _ _ X m St). specialize (w_sub m). lia.
    - intros m H1 H2. rewrite (strip_pending _ _ m St) in H2. rewrite Sub, (w_X m H1 H2). unfold one. destruct (Nat.eq_dec n m) as [->|]; [|easy].
      rewrite (Hx H1) in H2. discriminate.
    - intros m H1 H2. rewrite (strip_pending _ _ m St) in H2. rewrite Op. auto.
    - intros f. rewrite (strip_pend _ _ X f St). auto. Qed.
  Lemma occ_cons' m n l : occ m (n :: l) = one n m + occ m l.
  Proof. unfold occ, one. cbn. destruct (Nat.eq_dec n m); lia. Qed.
  Lemma subscribe_list l : forall w evs svs X D B, WInv w evs svs X D B ->
    (forall n, In n l -> n < length (nodes w) /\ (X n = true -> pending (nodes w) n = false)) ->
    WInv (with_nodes w (fold_left (@subscribe V) l (nodes w))) evs svs X (fun m => D m + occ m l) B
    /\ map strip (fold_left (@subscribe V) l (nodes w)) = map strip (nodes w).
  Proof. induction l as [|n l IH]; intros w evs svs X D B I H.
    - cbn. split; [|easy]. destruct w. cbn. apply (winv_weaken _ I). intros n. lia.
    - destruct (H n (or_introl eq_refl)) as [H1 H2]. destruct (subscribe_ok I H1 H2) as [I1 St1]. cbn [fold_left].
      destruct (IH _ _ _ _ _ _ I1) as [I2 St2].
      { cbn [with_nodes nodes]. intros m Hm. destruct (H m (or_intror Hm)) as [H3 H4]. split.
        - apply (f_equal (@length _)) in St1. rewrite !map_length in St1. lia.
        - rewrite (strip_pending _ _ m St1). exact H4. }
      cbn [with_nodes nodes] in *. split; [|congruence]. apply (winv_weaken _ I2). intros m. rewrite occ_cons'. lia. Qed.

  (** ** A new node *)
  Lemma nth_snoc_lt {A} (l : list A) x m : m < length l -> nth_error (l ++ [x]) m = nth_error l m.
  Proof. intros H. now apply nth_error_app1. Qed.
  Lemma rem_snoc (h : list (node V)) nd X X' n : (forall m, m < length h -> X' m = X m) -> X' (length h) = false -> has_result nd = false ->
    rem (h ++ [nd]) X' n = rem h X n + occ n (node_refs nd).
  Proof. intros H1 H2 H3. unfold rem. rewrite app_length. cbn [length]. rewrite Nat.add_1_r, seq_S, map_app. cbn [Nat.add map].
    unfold list_sum. rewrite fold_right_app. cbn [fold_right]. unfold pending at 1. rewrite nth_error_app2, Nat.sub_diag by lia. cbn [nth_error].
    rewrite H3, H2. cbn [negb andb]. rewrite Nat.add_0_r.
    assert (G : forall (l : list nat) b, fold_right Nat.add b l = fold_right Nat.add 0 l + b) by (induction l; intros b; cbn; [lia|rewrite IHl; lia]).
    rewrite G. f_equal. f_equal. apply map_ext_in. intros m Hm. apply in_seq in Hm. unfold pending. rewrite nth_snoc_lt, H1 by lia. reflexivity. Qed.
  Lemma pend_snoc (h : list (node V)) nd X X' f g : (forall m, m < length h -> X' m = X m) -> X' (length h) = false -> func nd = Some g ->
    pend (h ++ [nd]) X' f = pend h X f + one g f.
  Proof. intros H1 H2 H3. unfold pend. rewrite app_length. cbn [length]. rewrite Nat.add_1_r, seq_S, map_app. cbn [Nat.add map].
    unfold list_sum. rewrite fold_right_app. cbn [fold_right]. rewrite nth_error_app2, Nat.sub_diag by lia. cbn [nth_error].
    rewrite H3, H2. cbn [negb]. rewrite Nat.add_0_r.
    assert (G : forall (l : list nat) b, fold_right Nat.add b l = fold_right Nat.add 0 l + b) by (induction l; intros b; cbn; [lia|rewrite IHl; lia]).
    rewrite G. f_equal. f_equal. apply map_ext_in. intros m Hm. apply in_seq in Hm. rewrite nth_snoc_lt, H1 by lia. reflexivity. Qed.
  Lemma fold_subscribe_app (l l' : list nat) (h : list (node V)) : fold_left (@subscribe V) l' (fold_left (@subscribe V) l h) = fold_left (@subscribe V) (l ++ l') h.
  Proof. symmetry. apply fold_left_app. Qed.

  Lemma new_node_ok w evs svs X D B d f a ks k v :
    WInv w evs svs X D B ->
    (forall r, In r (d :: atoms a ++ atoms k) -> match r with
        | RObj o => ranged (length svs) o
        | RNode n => n < length (nodes w) /\ (X n = true -> pending (nodes w) n = false) end) ->
    lists_only a = true -> lists_only k = true -> width k = length ks ->
    v = direct call f (rval (evf evs) (ovf svs) d) (traverse (rval (evf evs) (ovf svs)) a) ks (traverse (rval (evf evs) (ovf svs)) k) ->
    exists X', WInv (with_nodes w (new_node (nodes w) d f a ks k)) (evs ++ [v]) svs X' D (fun g => B g + one f g)
      /\ length (new_node (nodes w) d f a ks k) = S (length (nodes w)) /\ X' (length (nodes w)) = false.
  Proof. intros I Hr La Lk Wk Hv. set (N := length (nodes w)).
    set (nd := Node d (Some f) a ks k (is_flat a) (is_flat k) 0 None (Err InternalBug) 0).
    assert (En : new_node (nodes w) d f a ks k = fold_left (@subscribe V) (node_refs nd) (nodes w) ++ [nd]).
    { unfold new_node, subscribe_all, node_refs, fnodes. cbn [data args kwargs nd]. rewrite !fold_subscribe_app. now rewrite <- ?app_assoc. }
    rewrite En.
    assert (Hl : forall n, In n (node_refs nd) -> n < N /\ (X n = true -> pending (nodes w) n = false)).
    { intros n Hn. unfold node_refs, fnodes in Hn. cbn [data args kwargs nd] in Hn.
      assert (G : In (RNode n) (d :: atoms a ++ atoms k)).
      { apply in_app_iff in Hn as [Hn|Hn]; [left; destruct d; [easy|]; cbn in Hn; destruct Hn as [->|[]]; easy|]. right. apply in_app_iff.
        apply in_app_iff in Hn as [Hn|Hn]; [left|right]; apply in_flat_map in Hn as ([o|m] & H1 & H2); try easy; cbn in H2; destruct H2 as [->|[]]; easy. }
      exact (Hr _ G). }
    destruct (subscribe_list (node_refs nd) I Hl) as [I1 St]. set (h1 := fold_left _ _ _) in *.
    assert (L1 : length h1 = N) by (apply (f_equal (@length _)) in St; now rewrite !map_length in St).
    set (X' := fun m => X m && negb (m =? N)).
    assert (X1 : forall m, m < length h1 -> X' m = X m) by (intros m Hm; unfold X'; destruct (Nat.eqb_spec m N); [lia|apply andb_true_r]).
    assert (X2 : X' (length h1) = false) by (unfold X'; rewrite L1, Nat.eqb_refl; apply andb_false_r).
    exists X'. rewrite L1 in X2.
    assert (XN : X' N = false) by exact X2. split; [|split; [rewrite app_length, L1; cbn; lia|exact XN]].
    assert (N0 : nth_error h1 N = None) by (apply nth_error_None; lia).
    assert (Sn : forall m, m <> N -> nth_error (h1 ++ [nd]) m = nth_error h1 m).
    { intros m Hm. destruct (Nat.lt_ge_cases m (length h1)); [now apply nth_snoc_lt|].
      rewrite nth_error_app2 by lia. destruct (m - length h1) as [|j] eqn:Ej; [lia|]. cbn. destruct j; symmetry; apply nth_error_None; lia. }
    assert (SN : nth_error (h1 ++ [nd]) N = Some nd) by (rewrite nth_error_app2, L1, Nat.sub_diag by lia; reflexivity).
    assert (EV : forall m, m < N -> evf (evs ++ [v]) m = evf evs m).
    { intros m Hm. unfold evf. rewrite app_nth1; [easy|]. rewrite (w_len I). exact Hm. }
    destruct I1. cbn [with_nodes nodes objects called] in *. constructor; cbn [with_nodes nodes objects called]; auto.
    - rewrite !app_length, w_len, L1. reflexivity.
    - intros m x Hm. destruct (Nat.eq_dec m N) as [->|Ne].
      + rewrite SN in Hm. apply some_inj in Hm. subst x. split; [|split; [|easy]].
        * unfold node_ok. cbn [func nd]. split; [intros q Hq; now apply Hl|]. cbn [flat_args flat_kwargs args kwargs data keys nd].
          repeat split; auto.
          assert (RV : forall r, In r (d :: atoms a ++ atoms k) -> rval (evf (evs ++ [v])) (ovf svs) r = rval (evf evs) (ovf svs) r).
          { intros [o|n] Hn; [easy|]. cbn. apply EV. now apply (Hr (RNode n)). }
          rewrite (RV d) by now left.
          rewrite (traverse_ext (rval (evf (evs ++ [v])) (ovf svs)) (rval (evf evs) (ovf svs)) a) by (intros; apply RV; right; apply in_or_app; now left).
          rewrite (traverse_ext (rval (evf (evs ++ [v])) (ovf svs)) (rval (evf evs) (ovf svs)) k) by (intros; apply RV; right; apply in_or_app; now right).
          rewrite <- Hv. unfold evf. rewrite app_nth2 by (rewrite (DefProofs4.w_len I); unfold N; lia). rewrite (DefProofs4.w_len I). unfold N. now rewrite Nat.sub_diag.
        * unfold node_all. cbn [data args kwargs nd].
          assert (RA : forall r, In r (d :: atoms a ++ atoms k) -> ref_all (ranged (length svs)) r) by (intros [o|n] Hn; [exact (Hr _ Hn)|easy]).
          split; [apply RA; now left|]. split; apply Forall_forall; intros r Hn; apply RA; right; apply in_or_app; auto.
      + rewrite Sn in Hm by assumption. assert (m < N) by (rewrite <- L1; apply nth_error_Some; congruence).
        destruct (w_nodes m x Hm) as (A & A1 & C). split; [|split; [exact A1|]].
        * apply (@node_ok_ext V call (evf evs) (evf (evs ++ [v])) (ovf svs) (ovf svs)); auto; [intros q Hq; symmetry; apply EV; lia|].
          eapply node_all_mono; [|exact A1]. auto.
        * intros Hf. rewrite EV by assumption. apply meta_right_app. auto.
    - intros m. rewrite (@rem_snoc h1 nd X X' m) by (auto; now rewrite L1). specialize (w_sub m).
      assert (sub (h1 ++ [nd]) m = sub h1 m).
      { unfold sub. destruct (Nat.eq_dec m N) as [->|Ne]; [now rewrite SN, N0|now rewrite Sn]. }
      lia.
    - intros m H1 H2. assert (m <> N) by (intros ->; congruence). unfold pending in H2. rewrite Sn in H2 by assumption. unfold sub. rewrite Sn by assumption.
      apply w_X; [|exact H2]. unfold X' in H1. now apply andb_true_iff in H1.
    - intros m H1 H2. unfold opos. destruct (Nat.eq_dec m N) as [->|Ne]; [now rewrite SN|]. unfold pending in H2. rewrite Sn in H2 by assumption. rewrite Sn by assumption.
      apply w_fresh; [|exact H2]. unfold X' in H1. apply Nat.eqb_neq in Ne. rewrite Ne in H1. now rewrite andb_true_r in H1.
    - intros g. rewrite (@pend_snoc h1 nd X X' g f) by (auto; now rewrite L1). specialize (w_calls g). lia.
    - intros A. apply w_health. intros r H. apply A, in_or_app. now left. Qed.

  (** ** Partitions *)
  Definition part_ok (evs svs : list (res V)) (p : @part V) (r : res V) : Prop :=
    match data_ref p with RObj o => ranged (length svs) o | RNode n => n < length evs end
    /\ rval (evf evs) (ovf svs) (data_ref p) = r
    /\ match lens p with
       | Known (Some l) (Some k) => exists v, r = Ok v /\ l = vlen v /\ k = vwid v
       | Known None None => True
       | Known _ _ => False
       | Meta m off => meta_right (all_ok evs) m off r
       end.
  Inductive orel {A B} (R : A -> B -> Prop) : option A -> option B -> Prop :=
    | orel_none : orel R None None
    | orel_some a b : R a b -> orel R (Some a) (Some b).
  Definition pnodes (ps : list (option (@part V))) : list nat :=
    flat_map (fun po => match po with Some p => node_of (data_ref p) | None => [] end) ps.
  Record SInv (s : @state V) (sp : list (option (res V))) (evs svs : list (res V)) (X : nat -> bool) (B : nat -> nat) : Prop := {
    s_world : WInv (wrld s) evs svs X (fun n => occ n (pnodes (parts s))) B;
    s_parts : Forall2 (orel (part_ok evs svs)) (parts s) sp }.

  Lemma part_ok_app evs svs x y p r : part_ok evs svs p r -> part_ok (evs ++ x) (svs ++ y) p r.
  Proof. intros (A & B & C). split; [|split].
    - destruct (data_ref p); [now apply ranged_app|]. rewrite app_length. lia.
    - rewrite <- B. destruct (data_ref p) as [o|n]; cbn; [now apply ovf_app|]. unfold evf. now rewrite app_nth1.
    - destruct (lens p) as [[l|] [k|]|m off]; auto. now apply meta_right_app. Qed.
  Lemma parts_app evs svs x y ps sp : Forall2 (orel (part_ok evs svs)) ps sp -> Forall2 (orel (part_ok (evs ++ x) (svs ++ y))) ps sp.
  Proof. induction 1 as [|p r ps sp H _ IH]; constructor; auto. destruct H; constructor. now apply part_ok_app. Qed.
  Lemma orel_alive {A B} (R : A -> B -> Prop) ps sp : Forall2 (orel R) ps sp -> forall i, alive ps i = alive sp i.
  Proof. induction 1 as [|p r ps sp H _ IH]; intros [|i]; try easy; [|apply IH]. unfold alive. cbn. now destruct H. Qed.
  Lemma valid_ext l l' (o : @op V) : (forall i, l i = l' i) -> valid l o = valid l' o.
  Proof. intros E. destruct o; cbn; auto.
    assert (G : forall (x : list (@given V)), forallb (given_ok l) x = forallb (given_ok l') x).
    { induction x as [|[v|j] x IH]; cbn; [easy|..]; now rewrite IH, ?E. }
    now rewrite E, !G. Qed.
  Lemma orel_at {A B} (R : A -> B -> Prop) ps sp i : Forall2 (orel R) ps sp -> alive sp i = true ->
    exists p r, nth_error ps i = Some (Some p) /\ nth_error sp i = Some (Some r) /\ R p r.
  Proof. intros F. revert i. induction F as [|p r ps sp H _ IH]; intros [|i]; try easy; [|apply IH]. unfold alive. cbn.
    destruct H as [|a b H]; [easy|]. intros _. exists a, b. auto. Qed.
  Lemma at_some {A} (l : list (option A)) i x : nth_error l i = Some (Some x) -> at_ l i = Some x.
  Proof. unfold at_. now intros ->. Qed.

  Lemma pnodes_in ps i p n : nth_error ps i = Some (Some p) -> data_ref p = RNode n -> 0 < occ n (pnodes ps).
  Proof. intros H E. unfold occ. apply count_occ_In. apply in_flat_map. exists (Some p). split; [now apply nth_error_In in H|]. rewrite E. now left. Qed.
  Lemma live_node s sp evs svs X B i p n : SInv s sp evs svs X B -> nth_error (parts s) i = Some (Some p) -> data_ref p = RNode n ->
    X n = true -> pending (nodes (wrld s)) n = false.
  Proof. intros [I _] H E HX. destruct (pending (nodes (wrld s)) n) eqn:Pe; [|easy]. pose proof (w_X I n HX Pe) as Z. pose proof (w_sub I n) as S.
    cbv beta in S. pose proof (@pnodes_in _ _ _ _ H E). lia. Qed.
  Lemma pnodes_update ps i p q n : nth_error ps i = Some (Some p) ->
    occ n (pnodes (update ps i (fun _ => Some q))) + occ n (node_of (data_ref p)) = occ n (pnodes ps) + occ n (node_of (data_ref q)).
  Proof. revert i. induction ps as [|x ps IH]; intros [|i]; cbn [nth_error update]; try easy.
    - intros [= ->]. unfold pnodes. cbn [flat_map]. rewrite !occ_app. lia.
    - intros H. specialize (IH i H). unfold pnodes in *. cbn [flat_map]. rewrite !occ_app. lia. Qed.
  Lemma pnodes_forget ps i p n : nth_error ps i = Some (Some p) ->
    occ n (pnodes (forget ps i)) + occ n (node_of (data_ref p)) = occ n (pnodes ps).
  Proof. revert i. induction ps as [|x ps IH]; intros [|i]; cbn [nth_error forget]; try easy.
    - intros [= ->]. unfold pnodes. cbn [flat_map]. rewrite !occ_app. cbn. lia.
    - intros H. specialize (IH i H). unfold pnodes in *. cbn [flat_map]. rewrite !occ_app. lia. Qed.
  Lemma pnodes_snoc ps p n : occ n (pnodes (ps ++ [Some p])) = occ n (pnodes ps) + occ n (node_of (data_ref p)).
  Proof. unfold pnodes. rewrite flat_map_app, occ_app. cbn [flat_map]. now rewrite app_nil_r. Qed.
  Lemma Forall2_update {A B} (R : A -> B -> Prop) ps sp i q r : Forall2 (orel R) ps sp -> nth_error sp i = Some (Some r) -> R q r ->
    Forall2 (orel R) (update ps i (fun _ => Some q)) sp.
  Proof. intros F. revert i. induction F as [|x y ps sp H F IH]; intros [|i] E HR; cbn in *; try easy.
    - injection E as ->. constructor; [now constructor|assumption].
    - constructor; auto. Qed.
  Lemma Forall2_forget {A B} (R : A -> B -> Prop) ps sp i : Forall2 (orel R) ps sp -> Forall2 (orel R) (forget ps i) (forget sp i).
  Proof. intros F. revert i. induction F as [|x y ps sp H F IH]; intros [|i]; cbn; constructor; auto. constructor. Qed.

  (** *** Draining *)
  Lemma drain_ok s sp evs svs X B i p r : SInv s sp evs svs X B -> nth_error (parts s) i = Some (Some p) -> nth_error sp i = Some (Some r) ->
    part_ok evs svs p r ->
    exists s' p' o svs' X', drain call vlen vwid s i p = Ok (s', p') /\ SInv s' sp evs (svs ++ svs') X' B
      /\ data_ref p' = RObj o /\ part_ok evs (svs ++ svs') p' r /\ (p' = p \/ exists m off, lens p' = Meta m off).
  Proof. intros S Hp Hs Pk. unfold drain. destruct (data_ref p) as [o|n] eqn:Ed.
    - exists s, p, o, [], X. rewrite app_nil_r. auto 10.
    - destruct Pk as (P1 & P2 & P3). rewrite Ed in P1, P2. cbn in P2. pose proof (@live_node s sp evs svs X B i p n S Hp Ed) as Lv. destruct S as [I F].
      destruct (nth_error (nodes (wrld s)) n) as [nd|] eqn:Hn; [|apply nth_error_None in Hn; rewrite (w_len I) in P1; lia].
      destruct (@exec_ok V call vlen vwid (wrld s) evs svs X _ B n nd I Hn) as (w' & o & m & off & svs' & X' & E & I' & Vo & Ro & Mo & _).
      { intros HR. destruct (X n); [|easy]. specialize (Lv eq_refl). unfold pending in Lv. rewrite Hn, HR in Lv. discriminate. }
      rewrite E. cbn [rbind]. do 2 eexists. exists o, svs', X'. split; [reflexivity|].
      assert (Pk' : part_ok evs (svs ++ svs') (Part (RObj o) (Meta m off)) r).
      { split; [exact Ro|]. split; [cbn; congruence|]. cbn. now rewrite <- P2. }
      split; [constructor; cbn [wrld parts]|].
      + apply (winv_weaken _ I'). intros k. pose proof (@pnodes_update (parts s) i p (Part (RObj o) (Meta m off)) k Hp) as U.
        change (node_of (data_ref (Part (RObj o) (Meta m off)))) with (@nil nat) in U. change (occ k []) with 0 in U. lia.
      + apply Forall2_update with (r := r); auto. rewrite <- (app_nil_r evs). now apply parts_app.
      + split; [reflexivity|]. split; [exact Pk'|]. right. cbn. eauto. Qed.

  (** *** The things given to a call *)
  Lemma given_ref_ok s sp evs svs X B (a : forest (@given V)) : SInv s sp evs svs X B ->
    forallb (given_ok (alive sp)) (atoms a) = true -> lists_only a = true ->
    exists a', traverse (given_ref s) a = Ok a' /\ traverse (rval (evf evs) (ovf svs)) a' = traverse (given_value sp) a
      /\ lists_only a' = true /\ width a' = width a
      /\ forall r, In r (atoms a') -> match r with
        | RObj o => ranged (length svs) o
        | RNode n => n < length (nodes (wrld s)) /\ (X n = true -> pending (nodes (wrld s)) n = false) end.
  Proof. intros S. induction a as [|g a IH|t a1 IH1 a2 IH2]; cbn [atoms lists_only]; intros G L.
    - exists Nil. repeat split; easy.
    - cbn in G. apply andb_true_iff in G as [G1 G2]. destruct (IH G2 L) as (a' & E & Ev & L' & W' & R').
      assert (Hg : exists r, given_ref s g = Ok r /\ rval (evf evs) (ovf svs) r = given_value sp g /\ match r with
        | RObj o => ranged (length svs) o
        | RNode n => n < length (nodes (wrld s)) /\ (X n = true -> pending (nodes (wrld s)) n = false) end).
      { destruct g as [v|i]; cbn in G1.
        - exists (RObj (OVal v)). repeat split.
        - destruct (orel_at i (s_parts S) G1) as (p & r & Hp & Hs & (P1 & P2 & P3)). exists (data_ref p). cbn [given_ref given_value].
          unfold part_at, value_of. rewrite (at_some _ _ Hp), (at_some _ _ Hs). split; [reflexivity|]. split; [exact P2|].
          destruct (data_ref p) as [o|n] eqn:Ed; [exact P1|]. split; [now rewrite <- (w_len (s_world S))|]. exact (@live_node s sp evs svs X B i p n S Hp Ed). }
      destruct Hg as (r & E1 & E2 & R1). exists (Atom r a'). cbn [traverse]. rewrite E1, E, E2, Ev. cbn [rbind].
      repeat split; auto; [cbn; now rewrite W'|]. intros x [<-|Hx]; [exact R1|exact (R' x Hx)].
    - apply andb_true_iff in L as [L L2]. apply andb_true_iff in L as [Lt L1]. rewrite forallb_app in G. apply andb_true_iff in G as [G1 G2].
      destruct (IH1 G1 L1) as (b1 & E1 & Ev1 & M1 & W1 & R1). destruct (IH2 G2 L2) as (b2 & E2 & Ev2 & M2 & W2 & R2).
      exists (Nest t b1 b2). cbn [traverse]. rewrite E1, E2, Ev1, Ev2. cbn [rbind lists_only width]. repeat split; auto.
      + now rewrite Lt, M1, M2.
      + intros x Hx. cbn [atoms] in Hx. apply in_app_iff in Hx as [Hx|Hx]; [exact (R1 x Hx)|exact (R2 x Hx)]. Qed.

  (** *** Steps *)
  Definition asks (f : nat) (o : @op V) : nat := asked f [o].
  Definition step_good (o : @op V) (s : @state V) (sp : list (option (res V))) (evs svs : list (res V)) (B : nat -> nat) : Prop :=
    exists s' bs evs' svs' X', step call vlen vwid s o = Ok (s', bs)
      /\ SInv s' (fst (spec_step call vlen vwid sp o)) (evs ++ evs') (svs ++ svs') X' (fun f => B f + asks f o)
      /\ Forall2 never_wrong bs (snd (spec_step call vlen vwid sp o))
      /\ (all_ok (evs ++ evs') -> bs = snd (spec_step call vlen vwid sp o))
      /\ (forall r, In r evs' -> In (Some r) (fst (spec_step call vlen vwid sp o))).
  Lemma winv_budget w evs svs X D B B' : WInv w evs svs X D B -> (forall n, B n <= B' n) -> WInv w evs svs X D B'.
  Proof. intros [] H. constructor; auto. intros n. specialize (w_calls n). specialize (H n). lia. Qed.
  Lemma sinv_budget s sp evs svs X B B' : SInv s sp evs svs X B -> (forall n, B n <= B' n) -> SInv s sp evs svs X B'.
  Proof. intros [I F] H. constructor; [now apply (winv_budget B' I) | assumption]. Qed.
  Lemma no_call f (o : @op V) : match o with Call _ _ _ _ _ _ => False | _ => True end -> asks f o = 0.
  Proof. now destruct o. Qed.
  Lemma resolve_spec w evs svs X D B o r : WInv w evs svs X D B -> ovf svs o = r -> ranged (length svs) o ->
    (forall v, resolve (objects w) o = Ok v -> r = Ok v) /\ (all_ok evs -> resolve (objects w) o = r).
  Proof. intros I E R. pose proof (resolve_right I o) as G. split; [intros v H; rewrite <- E; now apply G|].
    intros A. destruct (resolve_healthy o I A R) as [v Hv]. rewrite Hv. rewrite <- E. symmetry. now apply G. Qed.
  Lemma meta_shape (H : Prop) m off r : meta_right H m off r ->
    let x := do l <- m; match nth_error l off, nth_error l (S off) with Some a, Some b => Ok (a, b) | _, _ => Err IndexError end in
    (forall q, x = Ok q -> (do v <- r; Ok (vlen v, vwid v)) = Ok q) /\ (H -> x = do v <- r; Ok (vlen v, vwid v)).
  Proof. intros [A B]. destruct m as [l|e]; cbn [rbind]; cbv zeta.
    - destruct (A l eq_refl) as (v & -> & -> & ->). cbn. auto.
    - split; [easy|]. intros h. destruct (B h). discriminate. Qed.

  Lemma step_ok s sp evs svs X B (o : @op V) : SInv s sp evs svs X B -> no_tuples o -> step_good o s sp evs svs B.
  Proof. intros S NT. unfold step_good, step, spec_step.
    rewrite (valid_ext (alive (parts s)) (alive sp) o (orel_alive (s_parts S))).
    destruct (valid (alive sp) o) eqn:Va.
    2:{ exists s, [], [], [], X. rewrite !app_nil_r. split; [easy|]. split; [apply (sinv_budget _ S); intros; lia|]. split; [constructor|]. split; easy. }
    destruct o as [v|lazily i f a ks k|i|i|i|i|i]; cbn [valid] in Va.
    - (* Put *)
      eexists _, _, [], [Ok v], X. split; [reflexivity|]. cbn [fst snd]. rewrite app_nil_r. destruct S as [I F].
      split; [|split; [constructor|split; easy]].
      pose proof (w_objs I) as Lo. constructor; cbn [wrld parts].
      + destruct I. constructor; cbn [nodes objects called]; auto.
        * rewrite !app_length, w_objs. reflexivity.
        * intros r u H. destruct (Nat.lt_ge_cases r (length (objects (wrld s)))) as [L|L].
          -- rewrite nth_error_app1 in H by assumption. rewrite nth_error_app1 by (rewrite w_objs; assumption). auto.
          -- rewrite nth_error_app2 in * by (try rewrite w_objs; assumption). now rewrite w_objs.
        * intros n nd Hn. destruct (w_nodes n nd Hn) as (A & A1 & C). split; [|split; [|exact C]].
          -- apply (@node_ok_ext V call (evf evs) (evf evs) (ovf svs)); auto. eapply node_all_mono; [|exact A1]. intros o Ho. symmetry. now apply ovf_app.
          -- eapply node_all_mono; [|exact A1]. intros o. now apply ranged_app.
        * intros n. rewrite pnodes_snoc. cbn [data_ref node_of]. change (occ n []) with 0. rewrite Nat.add_0_r. auto.
        * intros f. specialize (w_calls f). cbn. lia.
        * intros A r H. apply in_app_iff in H as [H|[<-|[]]]; [|eauto]. now apply w_health.
      + apply Forall2_app; [rewrite <- (app_nil_r evs); now apply parts_app|]. repeat constructor.
        * cbn. rewrite app_length, Lo. cbn. lia.
        * cbn. rewrite <- Lo, app_nth2, Nat.sub_diag by lia. reflexivity.
        * cbn. eauto.
    - (* Call *)
      apply andb_true_iff in Va as [Va Vw]. apply andb_true_iff in Va as [Va Vk]. apply andb_true_iff in Va as [Vi Vaa]. apply Nat.eqb_eq in Vw.
      destruct NT as [La Lk].
      destruct (given_ref_ok a S Vaa La) as (a' & Ea & Eva & La' & _ & Ra). destruct (given_ref_ok k S Vk Lk) as (k' & Ek & Evk & Lk' & Wk & Rk).
      destruct (orel_at i (s_parts S) Vi) as (p & r & Hp & Hs & (P1 & P2 & P3)).
      unfold part_at. rewrite (at_some _ _ Hp). cbn [rbind]. rewrite Ea. cbn [rbind]. rewrite Ek. cbn [rbind].
      unfold value_of. rewrite (at_some _ _ Hs). cbn [fst snd].
      set (v := direct call f r (traverse (given_value sp) a) ks (traverse (given_value sp) k)).
      pose proof (fun n => @live_node s sp evs svs X B i p n S Hp) as Lv. destruct S as [I F].
      destruct (@new_node_ok (wrld s) evs svs X _ B (data_ref p) f a' ks k' v I) as (X' & I' & Ln & Xn); auto; try lia.
      { intros x [<-|Hx]; [|apply in_app_iff in Hx as [Hx|Hx]; [exact (Ra x Hx)|exact (Rk x Hx)]]. destruct (data_ref p) as [o|n] eqn:Ed; [exact P1|].
        split; [now rewrite <- (w_len I)|]. now apply Lv. }
      { unfold v. now rewrite P2, Eva, Evk. }
      set (w1 := with_nodes (wrld s) (new_node (nodes (wrld s)) (data_ref p) f a' ks k')) in *.
      set (N := length (nodes (wrld s))) in *.
      assert (EvN : evf (evs ++ [v]) N = v).
      { unfold evf. rewrite app_nth2 by (rewrite (w_len I); unfold N; lia). rewrite (w_len I). unfold N. now rewrite Nat.sub_diag. }
      assert (Bu : forall g, B g + one f g <= B g + asks g (Call lazily i f a ks k)).
      { intros g. unfold asks, asked, one. cbn [filter]. destruct (Nat.eq_dec f g) as [->|]; [rewrite Nat.eqb_refl; cbn; lia|lia]. }
      apply (winv_budget _ I') in Bu. clear I'.
      destruct lazily.
      + unfold new_part. cbn [node_of fold_left].
        destruct (subscribe_ok (n := N) Bu) as [I2 St]; [cbn [w1 with_nodes nodes]; lia|intros H; congruence|].
        eexists _, _, [v], [], X'. rewrite app_nil_r. split; [reflexivity|]. split; [constructor; cbn [wrld parts]|].
        * apply (winv_weaken _ I2). intros n. rewrite pnodes_snoc. cbn [data_ref node_of]. rewrite occ_cons'. change (occ n []) with 0. lia.
        * apply Forall2_app; [rewrite <- (app_nil_r svs); now apply parts_app|]. repeat constructor; cbn [data_ref lens rval]; auto.
          rewrite app_length, (w_len I). cbn. unfold N. lia.
        * split; [constructor|]. split; [easy|]. intros x [<-|[]]. apply in_or_app. right. now left.
      + assert (Hn : exists nd, nth_error (nodes w1) N = Some nd).
        { destruct (nth_error (nodes w1) N) eqn:E; [eauto|]. apply nth_error_None in E. cbn [w1 with_nodes nodes] in E. lia. }
        destruct Hn as [nd Hn].
        destruct (@exec_ok V call vlen vwid w1 (evs ++ [v]) svs X' _ _ N nd Bu Hn (fun _ => Xn)) as (w' & o & m & off & svs' & X2 & E & I2 & Vo & Ro & Mo & _).
        rewrite E. cbn [rbind new_part node_of fold_left].
        eexists _, _, [v], svs', X2. split; [reflexivity|]. split; [constructor; cbn [wrld parts]|].
        * replace (with_nodes w' (nodes w')) with w' by now destruct w'. apply (winv_weaken _ I2). intros n. rewrite pnodes_snoc. cbn [data_ref node_of].
          change (occ n []) with 0. lia.
        * apply Forall2_app; [now apply parts_app|]. repeat constructor; cbn [data_ref lens rval]; auto; try congruence.
          -- rewrite EvN in Mo. exact (proj1 Mo).
          -- exact (proj2 Mo).
        * split; [constructor|]. split; [easy|]. intros x [<-|[]]. apply in_or_app. right. now left.
    - (* Drain *)
      destruct (orel_at i (s_parts S) Va) as (p & r & Hp & Hs & Pk). unfold part_at. rewrite (at_some _ _ Hp). cbn [rbind].
      destruct (drain_ok i S Hp Hs Pk) as (s' & p' & o & svs' & X' & E & S' & _). rewrite E. cbn [rbind fst snd].
      exists s', [], [], svs', X'. rewrite app_nil_r. split; [easy|]. split; [apply (sinv_budget _ S'); intros; lia|]. split; [constructor|easy].
    - (* Copy *)
      destruct (orel_at i (s_parts S) Va) as (p & r & Hp & Hs & Pk). unfold part_at. rewrite (at_some _ _ Hp). cbn [rbind].
      unfold value_of. rewrite (at_some _ _ Hs). cbn [fst snd]. unfold new_part.
      eexists _, _, [], [], X. rewrite !app_nil_r. split; [reflexivity|]. split; [|split; [constructor|split; easy]].
      pose proof (fun n => @live_node s sp evs svs X B i p n S Hp) as Lv. destruct S as [I F].
      destruct (subscribe_list (node_of (data_ref p)) I) as [I2 _].
      { intros n Hn. destruct Pk as (P1 & _). destruct (data_ref p) as [o|n'] eqn:Ed; [easy|]. cbn in Hn. destruct Hn as [<-|[]].
        split; [now rewrite <- (w_len I)|]. now apply Lv. }
      constructor; cbn [wrld parts].
      + apply winv_budget with (B := B); [|intros; lia]. apply (winv_weaken _ I2). intros n. rewrite pnodes_snoc. cbn [data_ref]. lia.
      + apply Forall2_app; [assumption|]. repeat constructor; apply Pk.
    - (* Del *)
      destruct (orel_at i (s_parts S) Va) as (p & r & Hp & Hs & Pk). unfold part_at. rewrite (at_some _ _ Hp). cbn [rbind].
      assert (Hd : exists h, match data_ref p with RNode n => unsubscribe (nodes (wrld s)) n | RObj _ => Ok (nodes (wrld s)) end = Ok h
        /\ WInv (with_nodes (wrld s) h) evs svs X (fun n => occ n (pnodes (forget (parts s) i))) B).
      { destruct S as [I F]. destruct (data_ref p) as [o|n] eqn:Ed.
        - exists (nodes (wrld s)). split; [reflexivity|]. replace (with_nodes (wrld s) (nodes (wrld s))) with (wrld s) by now destruct (wrld s).
          apply (winv_weaken _ I). intros n. pose proof (@pnodes_forget _ _ _ n Hp). lia.
        - destruct Pk as (P1 & _). rewrite Ed in P1. rewrite (w_len I) in P1. destruct (nth_error (nodes (wrld s)) n) as [nd|] eqn:Hn; [|apply nth_error_None in Hn; lia].
          unfold unsubscribe, get_node. rewrite Hn. cbn [rbind]. pose proof (w_sub I n) as Sn. cbv beta in Sn.
          pose proof (@pnodes_in _ _ _ _ Hp Ed) as Pn. unfold sub in Sn. rewrite Hn in Sn.
          destruct (subscribers nd) as [|c] eqn:Ec; [lia|]. eexists. split; [reflexivity|].
          set (h := update (nodes (wrld s)) n (set_subscribers c)).
          assert (St : map strip h = map strip (nodes (wrld s))) by (apply update_map; now intros []).
          assert (Sub : forall m, sub h m = sub (nodes (wrld s)) m - one n m).
          { intros m. unfold sub, h, one. destruct (Nat.eq_dec n m) as [<-|Ne]; [rewrite update_same, Hn; cbn; lia|]. rewrite update_other by assumption. lia. }
          assert (Op : forall m, opos h m = opos (nodes (wrld s)) m).
          { intros m. unfold opos, h. destruct (Nat.eq_dec n m) as [<-|Ne]; [rewrite update_same, Hn; easy|]. now rewrite update_other. }
          destruct I. constructor; cbn [with_nodes nodes objects called]; auto.
          + rewrite w_len. symmetry. apply update_length.
          + intros m x Hm. assert (Em : nth_error (map strip h) m = nth_error (map strip (nodes (wrld s))) m) by now rewrite St.
            rewrite !nth_error_map, Hm in Em. destruct (nth_error (nodes (wrld s)) m) as [y|] eqn:Hy; [|easy]. apply some_inj in Em.
            destruct (w_nodes m y Hy) as (A & A1 & C). split; [exact (strip_node_ok call _ _ _ Em A)|]. split; [exact (strip_node_all Em A1)|].
            destruct (strip_fields Em) as (_ & -> & _). destruct (strip_meta Em) as [-> ->]. exact C.
          + intros m. rewrite Sub, (strip_rem _ _ X m St). specialize (w_sub m). pose proof (@pnodes_forget _ _ _ m Hp) as Fg.
            rewrite Ed in Fg. cbn [node_of] in Fg. rewrite occ_cons' in Fg. change (occ m []) with 0 in Fg. lia.
          + intros m H1 H2. rewrite (strip_pending _ _ m St) in H2. rewrite Sub, (w_X m H1 H2). easy.
          + intros m H1 H2. rewrite (strip_pending _ _ m St) in H2. rewrite Op. auto.
          + intros f. rewrite (strip_pend _ _ X f St). auto. }
      destruct Hd as (h & -> & I'). cbn [rbind fst snd]. eexists _, _, [], [], X. rewrite !app_nil_r. split; [reflexivity|].
      split; [|split; [constructor|split; easy]]. constructor; cbn [wrld parts].
      + apply winv_budget with (B := B); [exact I'|intros; lia].
      + apply Forall2_forget, (s_parts S).
    - (* Get *)
      destruct (orel_at i (s_parts S) Va) as (p & r & Hp & Hs & Pk). unfold part_at. rewrite (at_some _ _ Hp). cbn [rbind].
      unfold value_of. rewrite (at_some _ _ Hs).
      destruct (drain_ok i S Hp Hs Pk) as (s' & p' & o & svs' & X' & E & S' & Ed & (Q1 & Q2 & _) & _). rewrite E. cbn [rbind fst snd]. rewrite Ed in *.
      exists s', [Value (resolve (objects (wrld s')) o)], [], svs', X'. rewrite app_nil_r. split; [easy|]. split; [apply (sinv_budget _ S'); intros; lia|].
      destruct (@resolve_spec _ _ _ _ _ _ o r (s_world S') Q2 Q1) as [G1 G2].
      split; [repeat constructor; exact G1|]. split; [|easy]. intros A. now rewrite G2.
    - (* Shape *)
      destruct (orel_at i (s_parts S) Va) as (p & r & Hp & Hs & Pk). unfold part_at. rewrite (at_some _ _ Hp). cbn [rbind].
      unfold value_of. rewrite (at_some _ _ Hs). cbn [fst snd].
      assert (Sh : exists s' x svs' X', shape call vlen vwid s i p = Ok (s', x) /\ SInv s' sp evs (svs ++ svs') X' B
          /\ (forall q, x = Ok q -> (do v <- r; Ok (vlen v, vwid v)) = Ok q) /\ (all_ok evs -> x = do v <- r; Ok (vlen v, vwid v))).
      { unfold shape. destruct (lens p) as [[l|] [k|]|m off] eqn:El.
        - destruct Pk as (_ & _ & Pk). rewrite El in Pk. destruct Pk as (v & -> & -> & ->). do 2 eexists. exists [], X. rewrite app_nil_r.
          split; [reflexivity|]. cbn. auto.
        - destruct Pk as (_ & _ & Pk). now rewrite El in Pk.
        - destruct Pk as (_ & _ & Pk). now rewrite El in Pk.
        - destruct (drain_ok i S Hp Hs Pk) as (s' & p' & o & svs' & X' & E & S' & Ed & (Q1 & Q2 & Q3) & Hp'). rewrite E. cbn [rbind].
          destruct (lens p') as [[l|] [k|]|m off] eqn:El'; try easy.
          1: { destruct Hp' as [->|(m & off & G)]; congruence. }
          + rewrite Ed in *. do 2 eexists. exists svs', X'. split; [reflexivity|]. split; [exact S'|].
            destruct (@resolve_spec _ _ _ _ _ _ o r (s_world S') Q2 Q1) as [G1 G2]. split.
            * intros q. destruct (resolve (objects (wrld s')) o) as [v|] eqn:R; [|easy]. rewrite (G1 v eq_refl). easy.
            * intros A. now rewrite (G2 A).
          + do 2 eexists. exists svs', X'. split; [reflexivity|]. split; [exact S'|]. now apply meta_shape.
        - destruct Pk as (_ & _ & Pk). rewrite El in Pk. do 2 eexists. exists [], X. rewrite app_nil_r. split; [reflexivity|]. split; [exact S|]. now apply meta_shape. }
      destruct Sh as (s' & x & svs' & X' & E & S' & G1 & G2). rewrite E. cbn [rbind fst snd].
      exists s', [Lengths x], [], svs', X'. rewrite app_nil_r. split; [easy|]. split; [apply (sinv_budget _ S'); intros; lia|].
      split; [repeat constructor; exact G1|]. split; [|easy]. intros A. now rewrite G2. Qed.

  Lemma asked_cons f (o : @op V) h : asked f (o :: h) = asks f o + asked f h.
  Proof. unfold asks, asked. cbn [filter]. destruct o; cbn; auto. destruct (f0 =? f); easy. Qed.
  Lemma run_good h : forall s sp evs svs X B, SInv s sp evs svs X B -> Forall no_tuples h ->
    exists s' bs evs' svs' sp' X', run call vlen vwid s h = Ok (s', bs) /\ SInv s' sp' (evs ++ evs') (svs ++ svs') X' (fun f => B f + asked f h)
      /\ Forall2 never_wrong bs (spec_run call vlen vwid sp h)
      /\ (all_ok evs -> all_succeed call vlen vwid sp h -> bs = spec_run call vlen vwid sp h).
  Proof. induction h as [|o h IH]; intros s sp evs svs X B S NT; cbn [run spec_run all_succeed].
    - exists s, [], [], [], sp, X. rewrite !app_nil_r. split; [easy|]. split; [apply (sinv_budget _ S); intros; lia|]. split; [constructor|easy].
    - inversion NT; subst. destruct (step_ok o S H1) as (s1 & b1 & e1 & v1 & X1 & E1 & S1 & N1 & A1 & R1).
      rewrite E1. cbn [rbind]. destruct (spec_step call vlen vwid sp o) as [sp1 c1]. cbn [fst snd] in *.
      destruct (IH _ _ _ _ _ _ S1 H2) as (s2 & b2 & e2 & v2 & sp2 & X2 & E2 & S2 & N2 & A2). rewrite E2. cbn [rbind].
      exists s2, (b1 ++ b2), (e1 ++ e2), (v1 ++ v2), sp2, X2. rewrite !app_assoc. split; [easy|].
      split; [apply (sinv_budget _ S2); intros f; rewrite asked_cons; lia|]. split; [now apply Forall2_app|].
      intros A [B1 B2]. assert (A' : all_ok (evs ++ e1)).
      { intros r Hr. apply in_app_iff in Hr as [Hr|Hr]; [now apply A|]. apply B1. now apply R1. }
      rewrite (A1 A'), (A2 A' B2). reflexivity. Qed.
  Lemma start_inv : SInv start [] [] [] (fun _ => false) (fun _ => 0).
  Proof. constructor; [|constructor]. constructor; cbn; try easy; try (intros; now destruct n); try (intros; destruct r; easy). Qed.
End History.
