(** Mixed-backend calls. *)
From Coq Require Import ZArith.
From Verif Require Import Base CastSpec CastModel CastProofs CastProofs2 CastProofs3.

Section Choice.
  Context {Q B : Type}.
  Variable beqb : B -> B -> bool.
  Hypothesis beqb_ok : forall x y, beqb x y = true <-> x = y.
  Variable backend_of : Q -> B.
  Variable stay_cost : Q -> option Z.
  Variable move_to_cost : Q -> B -> option Z.
  Variable move_to_me_cost : B -> Q -> option Z.
  Variable max_cost : B -> Z.
  Notation calculate := (calculate beqb backend_of stay_cost move_to_cost move_to_me_cost max_cost).
  Notation total_cost := (total_cost beqb backend_of stay_cost move_to_cost move_to_me_cost).
  Notation costs_ok := (costs_ok backend_of stay_cost move_to_cost move_to_me_cost).

  (** C35: the chosen backend is the first cheapest among the candidates within their maximum cost; only if
      no candidate is within it, the first cheapest of all.  A cost outside 0..1000 is an error.  One operand
      keeps its backend; none is an error. *)
  Theorem C35_cheapest : forall switchable preop all qs,
    let cands := firsts beqb (map backend_of qs ++ if preop && all then switchable else []) in
    let cost := fun b => total_cost b qs in
    (2 <= length qs -> Forall (costs_ok cands) qs ->
      exists b, calculate switchable preop all qs = Ok b
        /\ ((exists c, In c cands /\ (cost c <= max_cost c)%Z) -> first_cheapest cost (fun c => (cost c <= max_cost c)%Z) cands b)
        /\ (~ (exists c, In c cands /\ (cost c <= max_cost c)%Z) -> first_cheapest cost (fun _ => True) cands b))
    /\ (2 <= length qs -> ~ Forall (costs_ok cands) qs -> exists e, calculate switchable preop all qs = Err e)
    /\ (forall q, qs = [q] -> calculate switchable preop all qs = Ok (backend_of q))
    /\ (qs = [] -> calculate switchable preop all qs = Err ValueError).
  Proof. intros switchable preop all qs cands cost. split; [|split; [|split]].
    - intros Hl Hv. destruct (proj1 (@calculate_ok Q B beqb beqb_ok backend_of stay_cost move_to_cost move_to_me_cost max_cost switchable preop all qs Hl) Hv) as (b & E & C).
      exists b. split; [exact E|]. split.
      + intros (c & Hc & Hle). destruct C as [C|[C _]]; [exact C|]. specialize (C c Hc). unfold cost in Hle. lia.
      + intros N. destruct C as [C|[_ C]]; [|exact C]. exfalso. apply N. exists b. destruct C as (Hb & pre & post & Hk & _).
        split; [|exact Hb]. unfold cands. unfold candidates in Hk. rewrite Hk. auto using in_or_app, in_eq.
    - intros Hl Hv. exact (proj2 (@calculate_ok Q B beqb beqb_ok backend_of stay_cost move_to_cost move_to_me_cost max_cost switchable preop all qs Hl) Hv).
    - intros q ->. reflexivity.
    - intros ->. reflexivity. Qed.

  (** The candidates: no repetition, and exactly the operands' backends and (when asked for) the switchable ones. *)
  Theorem C35_candidates : forall l : list B, NoDup (firsts beqb l) /\ forall b, In b (firsts beqb l) <-> In b l.
  Proof. intros l. split; [apply (@firsts_NoDup B beqb beqb_ok)|intros b; apply (@firsts_In B beqb beqb_ok)]. Qed.

  (** With no cost information the first operand's backend wins. *)
  Theorem C35_ties : forall preop all switchable q qs,
    (forall q, stay_cost q = None) -> (forall q b, move_to_cost q b = None) -> (forall q b, move_to_me_cost b q = None) ->
    (forall b, (0 <= max_cost b)%Z) -> calculate switchable preop all (q :: qs) = Ok (backend_of q).
  Proof. intros preop all switchable q qs S0 M0 E0 Mx. destruct qs as [|q2 qs]; [reflexivity|].
    assert (Z0 : forall b l, total_cost b l = 0%Z).
    { intros b. induction l as [|x l IH]; [reflexivity|]. cbn. fold (total_cost b l). rewrite IH. unfold contribution. rewrite S0, M0, E0. now destruct (beqb _ _). }
    destruct (C35_cheapest switchable preop all (q :: q2 :: qs)) as [C _].
    destruct C as (b & E & C1 & _); [cbn; lia| |].
    - apply Forall_forall. intros x _. split; [now rewrite S0|]. intros b _ _. now rewrite M0, E0.
    - rewrite E. f_equal. destruct C1 as (_ & pre & post & Hk & F1 & _).
      + exists (backend_of q). split; [left; reflexivity|]. rewrite Z0. apply Mx.
      + cbn [map app firsts] in Hk. destruct pre as [|c pre]; [now injection Hk|]. exfalso. specialize (F1 c (or_introl eq_refl)).
        rewrite !Z0 in F1. specialize (F1 (Mx c)). lia. Qed.

  (** C35, single operand at a switch point: it stays unless some backend saves cost, and then goes to the
      first of those that save most. *)
  Theorem C35_auto_switch : forall switchable q,
    let cost := fun b => or_zero (switch_cost beqb backend_of stay_cost move_to_cost move_to_me_cost q b) in
    let r := auto_switch beqb backend_of stay_cost move_to_cost move_to_me_cost switchable q in
    ((forall b, In b switchable -> (0 <= cost b)%Z) -> r = backend_of q)
    /\ ((exists b, In b switchable /\ (cost b < 0)%Z) -> first_cheapest cost (fun b => (cost b < 0)%Z) switchable r).
  Proof. intros switchable q cost r.
    destruct (@auto_loop_ok Q B beqb beqb_ok backend_of stay_cost move_to_cost move_to_me_cost max_cost q switchable [] (backend_of q) None) as [[E N]|F]; [split; [reflexivity|easy]| |]; cbn [app] in *.
    - split; [intros _; exact E|]. intros (b & Hb & Hg). exfalso. exact (N b Hb Hg).
    - split; [|intros _; exact F]. intros Hn. exfalso. destruct F as (Hg & pre & post & Hk & _). specialize (Hn r).
      assert (In r switchable) by (rewrite Hk; unfold r, auto_switch; auto using in_or_app, in_eq). specialize (Hn H). unfold gains, dcost in Hg.
      unfold cost, r, switch_cost, auto_switch in Hn. unfold delta in Hg. lia. Qed.
End Choice.
Print Assumptions C35_cheapest.
Print Assumptions C35_candidates.
Print Assumptions C35_ties.
Print Assumptions C35_auto_switch.

Section Calls.
  Context {B D : Type}.
  Variable beqb : B -> B -> bool.
  Hypothesis beqb_ok : forall x y, beqb x y = true <-> x = y.
  Notation qc := (qc B D).
  Notation obj := (obj B D).
  Notation heap := (@heap B D).
  Notation atom := (atom qc).
  Notation tree := (tree qc).
  Variable choose : list qc -> res B.
  Variable choose_one : qc -> B.
  Variable choose_none : B -> B.
  Notation prepare := (prepare beqb choose choose_one choose_none).
  Notation call := (call beqb choose choose_one choose_none).
  (** all values in the arguments, in order *)
  Notation values args kwargs := (flat_map leaves args ++ flat_map leaves kwargs).

  (** The objects the caller passes exist, and no query compiler is passed directly. *)
  Definition well_formed (h : heap) (ats : list atom) : Prop :=
    (forall o, In (AObj o) ats -> o < length (objs h)) /\ (forall q, ~ In (AQC q) ats).
  Definition all_tuple_free (args kwargs : list tree) : Prop := forallb tuple_free args = true /\ forallb tuple_free kwargs = true.

  Lemma in_objs_of (h : heap) ats o x : In (AObj o) ats -> lookup h o = Some x -> In x (objs_of h ats).
  Proof. intros Ho Hx. unfold objs_of. apply in_flat_map. exists (AObj o). split; [exact Ho|]. cbn. rewrite Hx. now left. Qed.


  Lemma copy_case args kwargs h (p : @prepared B D) : all_tuple_free args kwargs ->
    (forallb tuple_free args = true -> forallb tuple_free kwargs = true ->
         leaves (p_args p) = fst (fold_leaves (cast beqb false true (p_backend p)) (flat_map leaves args) (h, []))
         /\ leaves (p_kwargs p) = fst (fold_leaves (cast beqb false true (p_backend p)) (flat_map leaves kwargs)
                                         (snd (fold_leaves (cast beqb false true (p_backend p)) (flat_map leaves args) (h, []))))) ->
    leaves (p_args p) ++ leaves (p_kwargs p) = fst (fold_leaves (cast beqb false true (p_backend p)) (values args kwargs) (h, [])).
  Proof. intros [T1 T2] F. destruct (F T1 T2) as [-> ->]. now rewrite fold_leaves_app. Qed.

  (** C47: every operand reaches the implementation, in its place, on the one backend and with its data. *)
  Theorem C47_operands_partial : forall cfg args kwargs h p,
    prepare cfg args kwargs h = Ok p -> well_formed h (values args kwargs) ->
    cast_in_place cfg = true \/ all_tuple_free args kwargs ->
    Forall2 (fun a a' => match a with
                         | AObj o => exists o' x x', a' = AObj o' /\ lookup h o = Some x /\ lookup (p_heap p) o' = Some x'
                                       /\ qback (oqc x') = p_backend p /\ qdata (oqc x') = qdata (oqc x)
                         | _ => a' = a
                         end) (values args kwargs) (leaves (p_args p) ++ leaves (p_kwargs p)).
  Proof. intros cfg args kwargs h p Hp [Wv Wr] Hc.
    assert (Self : forall (R : atom -> atom -> Prop) l, (forall a, In a l -> R a a) -> Forall2 R l l).
    { intros R l Hl. induction l; constructor; auto using in_eq, in_cons. }
    assert (Ex : forall o, In (AObj o) (values args kwargs) -> exists x, lookup h o = Some x).
    { intros o Ho. specialize (Wv o Ho). unfold lookup. destruct (nth_error (objs h) o) eqn:E; [eauto|]. apply nth_error_None in E. lia. }
    destruct (@prepare_inv _ _ beqb beqb_ok choose choose_one choose_none cfg args kwargs h) as [[_ E]|(_ & P & _)]; [congruence|].
    destruct (P p Hp) as (C & _). clear P. destruct C as [A1 A2 _ _ Eh _ Hb|track Hi A1 A2 _ _ Eh|Hn H2 Eh Hl].
    - rewrite A1, A2. cbn [leaves]. rewrite Eh. apply Self. intros [o|q|n] Ha; try reflexivity. destruct (Ex o Ha) as [x Hx].
      exists o, x, x. repeat split; auto. apply (Hb Wr). now apply in_objs_of with (o := o).
    - rewrite A1, A2. cbn [leaves]. apply Self. intros [o|q|n] Ha; try reflexivity. destruct (Ex o Ha) as [x Hx].
      destruct (@cast_inplace_ok _ _ beqb beqb_ok (p_backend p) track (values args kwargs) h []) as (_ & _ & G & _).
      unfold arg_leaves in Eh. rewrite <- Eh in G. cbn [fst] in G. destruct (G o x Hx) as (x' & L' & Dt & Bk & _). exists o, x, x'. auto 10.
    - destruct Hc as [Hc|Hc]; [congruence|]. rewrite (copy_case h p Hc Hl).
      destruct (@cast_copy_ok _ _ beqb beqb_ok (p_backend p) (values args kwargs) h [] Wv) as (news & new & Eo & Et & F & _).
      unfold arg_leaves in Eh. rewrite <- Eh in *. cbn [fst snd] in *.
      cbn [app] in Et. rewrite <- Et in F.
      assert (Keep : forall o x, lookup h o = Some x -> lookup (p_heap p) o = Some x).
      { intros o x Hx. unfold lookup. rewrite Eo, nth_error_app1 by (eapply lookup_lt; eauto). exact Hx. }
      clear - F Ex Keep. induction F as [|a a' l l' Ha F IH]; constructor.
      + destruct Ha as [[-> Hb]|(o & x & o' & q & -> & -> & _ & Hx & _ & Hx' & Hb & Hd)].
        * destruct a as [o|q|n]; try reflexivity. destruct (Ex o (or_introl eq_refl)) as [x Hx]. exists o, x, x.
          repeat split; auto. eapply Hb; eauto.
        * exists o', x, (mkobj q false). auto 10.
      + apply IH. intros o Ho. apply Ex. now right. Qed.

  (** C47: preparing a call never changes the data of any of the caller's objects; and with in-place casting
      switched off and two or more operands it changes no object of the caller at all. *)
  Theorem C47_caller_objects : forall cfg args kwargs h p o x,
    prepare cfg args kwargs h = Ok p -> well_formed h (values args kwargs) -> lookup h o = Some x ->
    (exists x', lookup (p_heap p) o = Some x' /\ qdata (oqc x') = qdata (oqc x))
    /\ (cast_in_place cfg = false -> 2 <= length (objs_of h (values args kwargs)) -> lookup (p_heap p) o = Some x)
    /\ (~ In (AObj o) (values args kwargs) -> lookup (p_heap p) o = Some x).
  Proof. intros cfg args kwargs h p o x Hp [Wv Wr] Hx.
    destruct (@prepare_inv _ _ beqb beqb_ok choose choose_one choose_none cfg args kwargs h) as [[_ E]|(_ & P & _)]; [congruence|].
    destruct (P p Hp) as (C & _). clear P. destruct C as [A1 A2 _ _ Eh _ Hb|track Hi A1 A2 _ _ Eh|Hn H2 Eh Hl].
    - rewrite Eh. eauto.
    - destruct (@cast_inplace_ok _ _ beqb beqb_ok (p_backend p) track (values args kwargs) h []) as (_ & _ & G & _).
      unfold arg_leaves in *. rewrite <- Eh in G. cbn [fst] in G. destruct (G o x Hx) as (x' & L' & Dt & Bk & Sm). split; [eauto|]. split.
      + intros Hc H2'. rewrite (no_raw_qcs h Wr), map_length in Hi. destruct Hi; [congruence|lia].
      + intros Hno. rewrite L'. f_equal. auto.
    - destruct (@cast_copy_ok _ _ beqb beqb_ok (p_backend p) (values args kwargs) h [] Wv) as (news & new & Eo & Et & F & _).
      unfold arg_leaves in Eh. rewrite <- Eh in *. cbn [fst snd] in *.
      assert (Keep : lookup (p_heap p) o = Some x).
      { unfold lookup. rewrite Eo, nth_error_app1 by (eapply lookup_lt; eauto). exact Hx. }
      eauto. Qed.

  Definition pinned_operand (h : heap) (ats : list atom) (o : nat) (x : obj) : Prop := In (AObj o) ats /\ lookup h o = Some x /\ opin x = true.
  Lemma pinned_in h ats x : In x (objs_of h ats) -> opin x = true -> exists o, pinned_operand h ats o x.
  Proof. unfold objs_of. rewrite in_flat_map. intros (a & Ha & Hx) Hp. destruct a as [o|q|n]; cbn in Hx; try easy.
    destruct (lookup h o) as [y|] eqn:E; [|easy]. destruct Hx as [->|[]]. exists o. now repeat split. Qed.

  (** C47: operands pinned to different backends are refused and nothing changes; a pinned operand without
      conflict decides the backend, whatever the costs; the result is to be pinned iff an operand was. *)
  Theorem C47_pins : forall cfg impl args kwargs h,
    let ats := values args kwargs in
    ((exists o x o' x', pinned_operand h ats o x /\ pinned_operand h ats o' x' /\ qback (oqc x) <> qback (oqc x')) ->
       prepare cfg args kwargs h = Err ValueError /\ call cfg impl args kwargs h = (Err ValueError, h))
    /\ ((forall o x o' x', pinned_operand h ats o x -> pinned_operand h ats o' x' -> qback (oqc x) = qback (oqc x')) ->
         forall o x, pinned_operand h ats o x -> exists p, prepare cfg args kwargs h = Ok p /\ p_backend p = qback (oqc x) /\ p_pin p = true)
    /\ (forall p, prepare cfg args kwargs h = Ok p -> (forall o x, ~ pinned_operand h ats o x) -> p_pin p = false).
  Proof. intros cfg impl args kwargs h ats.
    pose proof (@registered_ok _ _ beqb beqb_ok h ats) as R.
    pose proof (@prepare_inv _ _ beqb beqb_ok choose choose_one choose_none cfg args kwargs h) as P. cbv zeta in P. unfold arg_leaves in P. fold ats in P.
    split; [|split].
    - intros (o & x & o' & x' & (H1 & H2 & H3) & (H4 & H5 & H6) & Ne).
      assert (E : prepare cfg args kwargs h = Err ValueError).
      { destruct P as [[_ E]|(Rf & _)]; [exact E|]. destruct R as [[Rt _]|(_ & _ & _ & _ & Rp)]; [congruence|].
        exfalso. assert (I1 := @in_objs_of h ats _ _ H1 H2). assert (I2 := @in_objs_of h ats _ _ H4 H5). destruct (rpin _) as [b|].
        - destruct Rp as [_ Rp]. apply Ne. now rewrite (Rp x), (Rp x').
        - specialize (Rp x I1). congruence. }
      split; [exact E|]. unfold CastModel.call. now rewrite E.
    - intros Hn o x (H1 & H2 & H3). assert (I1 := @in_objs_of h ats _ _ H1 H2). destruct R as [[_ (y & z & Hy & Hz & Py & Pz & Ne)]|(Rf & _ & _ & _ & Rp)].
      + exfalso. destruct (@pinned_in h ats _ Hy Py) as [oy ?]. destruct (@pinned_in h ats _ Hz Pz) as [oz ?]. apply Ne. eapply Hn; eauto.
      + destruct P as [[Rt _]|(_ & P1 & P2)]; [congruence|]. destruct (rpin _) as [b|].
        * destruct (P2 b eq_refl) as [p Hp]. exists p. destruct (P1 p Hp) as (_ & Q1 & Q2 & _). split; [exact Hp|]. split; [|exact Q1].
          rewrite (Q2 b eq_refl). symmetry. now apply Rp.
        * specialize (Rp x I1). congruence.
    - intros p Hp Hn. destruct P as [[_ E]|(Rf & P1 & _)]; [congruence|]. destruct (P1 p Hp) as (_ & -> & _).
      destruct R as [[Rt _]|(_ & _ & _ & _ & Rp)]; [congruence|]. destruct (rpin _) as [b|]; [|reflexivity].
      destruct Rp as [(y & Hy & Py & _) _]. destruct (@pinned_in h ats _ Hy Py) as [oy Ho]. exfalso. eapply Hn; eauto. Qed.

  (** C47: without pins, when the operands live on two or more backends the chooser (C35) decides, and its
      failure is the call's failure. *)
  Theorem C47_choice : forall cfg args kwargs h p,
    let ats := values args kwargs in
    prepare cfg args kwargs h = Ok p -> well_formed h ats -> (forall o x, ~ pinned_operand h ats o x) ->
    (exists x y, In x (objs_of h ats) /\ In y (objs_of h ats) /\ qback (oqc x) <> qback (oqc y)) ->
    choose (map (@oqc B D) (objs_of h ats)) = Ok (p_backend p).
  Proof. intros cfg args kwargs h p ats Hp [Wv Wr] Hn (x & y & Ix & Iy & Ne).
    pose proof (@registered_ok _ _ beqb beqb_ok h ats) as R.
    pose proof (@prepare_inv _ _ beqb beqb_ok choose choose_one choose_none cfg args kwargs h) as P. cbv zeta in P. unfold arg_leaves in P. fold ats in P.
    destruct P as [[_ E]|(Rf & P1 & _)]; [congruence|]. destruct (P1 p Hp) as (_ & _ & _ & Q). clear P1.
    destruct R as [[Rt _]|(_ & Rq & Rb & Rn & Rp)]; [congruence|]. rewrite <- (no_raw_qcs h Wr), <- Rq.
    assert (L2 : 2 <= length (rbacks (registered beqb h ats))).
    { assert (I1 : In (qback (oqc x)) (rbacks (registered beqb h ats))) by (apply Rb; eauto).
      assert (I2 : In (qback (oqc y)) (rbacks (registered beqb h ats))) by (apply Rb; eauto).
      destruct (rbacks _) as [|a [|c l]]; cbn in *; try lia; try easy. exfalso. intuition congruence. }
    apply Q.
    - destruct (rpin _) as [b|]; [|reflexivity]. destruct Rp as [(z & Hz & Pz & _) _]. destruct (@pinned_in h ats _ Hz Pz) as [oz Ho]. exfalso. eapply Hn; eauto.
    - rewrite Rq, (no_raw_qcs h Wr), map_length. destruct (objs_of h ats) as [|a [|c l]]; cbn in *; try lia; try easy. exfalso. intuition congruence.
    - exact L2. Qed.

  (** What a call does once prepared and once the implementation has returned. *)
  Lemma call_ok cfg impl args kwargs h p r h1 : prepare cfg args kwargs h = Ok p ->
    impl (p_backend p) (p_args p) (p_kwargs p) (p_heap p) = (r, h1) ->
    call cfg impl args kwargs h =
      match r with
      | Err e => (Err e, h1)
      | Ok o => (Ok o, let h2 := copy_back cfg (p_trackers p) h1 in
          match o with
          | Some o => match lookup h2 o with Some x => if p_pin p then update h2 o (mkobj (oqc x) true) else h2 | None => h2 end
          | None => h2
          end)
      end.
  Proof. intros Hp Hi. unfold CastModel.call. rewrite Hp, Hi. reflexivity. Qed.
  Lemma pin_step (h2 : heap) o pin q : 
    let h3 := match o with
          | Some o => match lookup h2 o with Some x => if pin : bool then update h2 o (mkobj (oqc x) true) else h2 | None => h2 end
          | None => h2
          end in
    lookup h3 q = match lookup h2 q with
                  | Some y => Some (if pin && match o with Some o => q =? o | None => false end then mkobj (oqc y) true else y)
                  | None => None
                  end.
  Proof. cbv zeta. destruct o as [o|].
    - destruct (lookup h2 o) as [x|] eqn:E.
      + destruct pin; cbn [andb]; [|now destruct (lookup h2 q)]. rewrite lookup_update. destruct (Nat.eqb_spec q o) as [->|Ne].
        * apply lookup_lt in E as L. destruct (Nat.ltb_spec o (length (objs h2))); [|lia]. now rewrite E.
        * now destruct (lookup h2 q).
      + destruct (lookup h2 q) as [y|] eqn:Eq; [|reflexivity]. destruct (Nat.eqb_spec q o) as [->|Ne]; [congruence|]. now rewrite andb_false_r.
    - destruct (lookup h2 q); [|reflexivity]. now rewrite andb_false_r. Qed.

  (** C47: what the caller's objects are after a call, when the implementation has left the objects [h1].
      In place (or with fewer than two operands): exactly what the implementation left, except that the
      result is pinned when an operand was.  An implementation error passes through. *)
  Theorem C47_updates_in_place : forall cfg impl args kwargs h p r h1,
    prepare cfg args kwargs h = Ok p -> impl (p_backend p) (p_args p) (p_kwargs p) (p_heap p) = (r, h1) ->
    well_formed h (values args kwargs) ->
    cast_in_place cfg = true \/ length (objs_of h (values args kwargs)) < 2 ->
    fst (call cfg impl args kwargs h) = r
    /\ forall o, lookup (snd (call cfg impl args kwargs h)) o
         = match lookup h1 o with
           | Some y => Some (match r with
                             | Ok (Some res) => if p_pin p && (o =? res) then mkobj (oqc y) true else y
                             | _ => y
                             end)
           | None => None
           end.
  Proof. intros cfg impl args kwargs h p r h1 Hp Hi [Wv Wr] Hc. rewrite (call_ok cfg impl args kwargs h Hp Hi).
    destruct r as [o|e]; [|split; [reflexivity|]; intros q; cbn; now destruct (lookup h1 q)].
    split; [reflexivity|]. cbn [snd]. cbv zeta. intros q. rewrite pin_step.
    assert (F : Forall (fun t : nat * qc * nat => fst (fst t) = snd t) (p_trackers p)).
    { destruct (@prepare_inv _ _ beqb beqb_ok choose choose_one choose_none cfg args kwargs h) as [[_ E]|(_ & P & _)]; [congruence|].
      destruct (P p Hp) as (C & _). clear P. destruct C as [_ _ _ _ _ Et _|track _ A1 A2 _ _ Eh|Hn H2 Eh Hl].
      - rewrite Et. constructor.
      - destruct (@cast_inplace_ok _ _ beqb beqb_ok (p_backend p) track (values args kwargs) h []) as (_ & _ & _ & new & Et & Fn).
        unfold arg_leaves in Eh. rewrite <- Eh in Et. cbn in Et. now rewrite Et.
      - destruct Hc as [Hc|Hc]; [congruence|]. unfold arg_leaves in H2. rewrite (no_raw_qcs h Wr), map_length in H2. lia. }
    rewrite (copy_back_self cfg F h1 q). destruct (lookup h1 q); [|reflexivity]. destruct o; cbn [andb]; [reflexivity|now rewrite andb_false_r]. Qed.

  Definition ids (ats : list atom) : list nat := flat_map (fun a => match a with AObj o => [o] | _ => [] end) ats.
  Lemma needs_NoDup h b ats : NoDup (ids ats) -> NoDup (flat_map (needs beqb h b) ats) /\ incl (flat_map (needs beqb h b) ats) (ids ats).
  Proof. induction ats as [|a ats IH]; intros Nd; [split; [constructor|easy]|]. unfold ids in *. cbn [flat_map] in *.
    destruct a as [o|q|n]; [|cbn [needs app] in *; auto|cbn [needs app] in *; auto].
    cbn [app] in Nd. inversion Nd as [|? ? Hn Nd']; subst. destruct (IH Nd') as [I1 I2]. cbn [needs].
    destruct (lookup h o) as [x|]; [destruct (beqb _ _)|]; cbn [app]; (split; [try constructor; auto|]).
    - now apply incl_tl. 
    - intros z [->|Hz]; [now left|right; auto].
    - now apply incl_tl. Qed.

  (** ... and otherwise, for operands that are distinct objects: an operand the implementation updated in
      place (its query compiler was replaced) is updated for the caller too; every other object of the
      caller is as the implementation left it.  A result other than an error pins as before. *)
  Theorem C47_updates_copied : forall cfg impl args kwargs h p res h1,
    let ats := values args kwargs in
    prepare cfg args kwargs h = Ok p -> impl (p_backend p) (p_args p) (p_kwargs p) (p_heap p) = (Ok res, h1) ->
    well_formed h ats -> all_tuple_free args kwargs ->
    cast_in_place cfg = false -> 2 <= length (objs_of h ats) ->
    NoDup (ids ats) -> length (objs (p_heap p)) <= length (objs h1) ->
    fst (call cfg impl args kwargs h) = Ok res
    /\ Forall2 (fun a a' => forall o, a = AObj o ->
          exists o' given left_o left_o' after,
            a' = AObj o' /\ lookup (p_heap p) o' = Some given
            /\ lookup h1 o = Some left_o /\ lookup h1 o' = Some left_o'
            /\ lookup (snd (call cfg impl args kwargs h)) o = Some after
            /\ oqc after = (if qid (oqc left_o') =? qid (oqc given) then oqc left_o else oqc left_o')
            /\ opin after = (opin left_o || p_pin p && match res with Some o' => o =? o' | None => false end))
         ats (leaves (p_args p) ++ leaves (p_kwargs p))
    /\ (forall o x, ~ In (AObj o) ats -> lookup h1 o = Some x ->
          lookup (snd (call cfg impl args kwargs h)) o
          = Some (if p_pin p && match res with Some o' => o =? o' | None => false end then mkobj (oqc x) true else x)).
  Proof. intros cfg impl args kwargs h p res h1 ats Hp Hi [Wv Wr] Tf Hc H2 Nd Hlen. rewrite (call_ok cfg impl args kwargs h Hp Hi).
    cbn [fst snd]. cbv zeta. split; [reflexivity|].
    set (pb := match res with Some o' => fun o => o =? o' | None => fun _ => false end).
    assert (Epb : forall o, match res with Some o' => o =? o' | None => false end = pb o) by (intros; unfold pb; now destruct res).
    set (h3 := match res with Some o => _ | None => _ end).
    assert (L3 : forall q y, lookup (copy_back cfg (p_trackers p) h1) q = Some y -> lookup h3 q = Some (if p_pin p && pb q then mkobj (oqc y) true else y)).
    { intros q y Hq. unfold h3. rewrite pin_step, Hq, Epb. reflexivity. }
    clearbody h3.
    assert (Len : forall o, o < length (objs (p_heap p)) -> exists x, lookup h1 o = Some x).
    { intros o Ho. unfold lookup. destruct (nth_error (objs h1) o) eqn:E; [eauto|]. apply nth_error_None in E. lia. }
    destruct (@prepare_inv _ _ beqb beqb_ok choose choose_one choose_none cfg args kwargs h) as [[_ E]|(_ & P & _)]; [congruence|].
    destruct (P p Hp) as (C & _). clear P. destruct C as [A1 A2 _ _ Eh Et _|track Hi' A1 A2 _ _ Eh|Hn H2' Eh Hl].
    - rewrite Et in *. split.
      + rewrite A1, A2. cbn [leaves]. fold ats. assert (V : forall o, In (AObj o) ats -> o < length (objs h)) by exact Wv. clear - V Len L3 Eh Epb. induction ats as [|a l IH]; constructor.
        * intros o ->. specialize (V o (or_introl eq_refl)). rewrite Eh in *. destruct (Len o V) as [x Hx]. 
          assert (exists g, lookup h o = Some g) as [g Hg] by (unfold lookup; destruct (nth_error (objs h) o) eqn:E; [eauto|apply nth_error_None in E; lia]).
          exists o, g, x, x, (if p_pin p && pb o then mkobj (oqc x) true else x). rewrite Epb. repeat split; auto.
          -- destruct (p_pin p && pb o), (qid (oqc x) =? qid (oqc g)); reflexivity.
          -- destruct (p_pin p && pb o); cbn; [now rewrite orb_true_r|now rewrite orb_false_r].
        * apply IH. intros o Ho. apply V. now right.
      + intros o x Ho Hx. rewrite Epb. now apply L3.
    - exfalso. unfold arg_leaves in Hi'. fold ats in Hi'. rewrite (no_raw_qcs h Wr), map_length in Hi'. destruct Hi'; [congruence|lia].
    - rewrite (copy_case h p Tf Hl). fold ats.
      destruct (@cast_copy_ok _ _ beqb beqb_ok (p_backend p) ats h [] Wv) as (news & new & Eo & Et & F & Nm & Sq & Ln & Lk).
      unfold arg_leaves in Eh. fold ats in Eh. rewrite <- Eh in *. cbn [fst snd app] in *. rewrite Et in *.
      destruct (@needs_NoDup h (p_backend p) ats Nd) as [Nd' Inc]. rewrite <- Nm in Nd', Inc.
      assert (V : forall o, In (AObj o) ats -> o < length (objs h)) by exact Wv.
      assert (Hnew : forall o q o', In (o, q, o') new -> length (objs h) <= o' < length (objs (p_heap p))).
      { intros o q o' Hin. assert (Hs : In o' (map snd new)) by (apply in_map_iff; exists (o, q, o'); auto).
        rewrite Sq in Hs. apply in_seq in Hs. rewrite Eo, app_length. lia. }
      assert (Ids : forall o, In o (ids ats) <-> In (AObj o) ats).
      { intros o. unfold ids. rewrite in_flat_map. split; [intros ([o'|q|n] & Ha & Hb); cbn in Hb; try easy; destruct Hb as [->|[]]; assumption|].
        intros Ho. exists (AObj o). split; [assumption|now left]. }
      assert (Nat_o' : forall o, length (objs h) <= o -> ~ In o (map (fun t => fst (fst t)) new)).
      { intros o Ho Hin. apply Inc, Ids, V in Hin. lia. }
      split.
      + assert (G : forall l l', Forall2 (recast h (p_heap p) (p_backend p) new) l l' -> incl l ats ->
          NoDup (ids l) -> (forall a, In a l -> forall o, a = AObj o -> forall x, lookup h o = Some x -> qback (oqc x) = p_backend p -> ~ In o (map (fun t => fst (fst t)) new)) ->
          Forall2 (fun a a' => forall o, a = AObj o -> exists o' given left_o left_o' after,
            a' = AObj o' /\ lookup (p_heap p) o' = Some given /\ lookup h1 o = Some left_o /\ lookup h1 o' = Some left_o' /\ lookup h3 o = Some after
            /\ oqc after = (if qid (oqc left_o') =? qid (oqc given) then oqc left_o else oqc left_o')
            /\ opin after = (opin left_o || p_pin p && match res with Some o' => o =? o' | None => false end)) l l').
        { intros l l' Fl. induction Fl as [|a a' l l' Ha Fl IH]; intros Il Ndl Hu; constructor; [|apply IH; [intros z Hz; apply Il; now right| |intros; eapply Hu; eauto; now right]].
          - intros o ->. rewrite Epb. assert (Ho : o < length (objs h)) by (apply V, Il; now left).
            assert (exists g, lookup h o = Some g) as [g Hg] by (unfold lookup; destruct (nth_error (objs h) o) eqn:E; [eauto|apply nth_error_None in E; lia]).
            assert (Ho' : o < length (objs (p_heap p))) by (rewrite Eo, app_length; lia).
            destruct (Len o Ho') as [x Hx].
            destruct Ha as [[-> Hb]|(o2 & g2 & o' & q & [= <-] & -> & Hin & Hg2 & Hne & Hx' & _)].
            + specialize (Hb o g eq_refl Hg). specialize (Hu _ (or_introl eq_refl) o eq_refl g Hg Hb).
              assert (Hk : lookup (p_heap p) o = Some g) by (unfold lookup; rewrite Eo, nth_error_app1 by assumption; exact Hg).
              assert (Hcb : lookup (copy_back cfg new h1) o = Some x) by (rewrite copy_back_other by assumption; exact Hx).
              exists o, g, x, x, (if p_pin p && pb o then mkobj (oqc x) true else x). repeat split; auto.
              * destruct (p_pin p && pb o), (qid (oqc x) =? qid (oqc g)); reflexivity.
              * destruct (p_pin p && pb o); cbn; [now rewrite orb_true_r|now rewrite orb_false_r].
            + destruct (Hnew _ _ _ Hin) as [B1 B2]. destruct (Len o' B2) as [x' Hx1].
              pose proof (@copy_back_tracked _ _ cfg new o q o' h1 x' x Hc Nd' Hin (Nat_o' o' B1) Hx1 Hx) as Hcb.
              exists o', (mkobj q false), x, x', (if p_pin p && pb o then mkobj (oqc (if qid (oqc x') =? qid q then x else mkobj (oqc x') (opin x))) true else (if qid (oqc x') =? qid q then x else mkobj (oqc x') (opin x))).
              cbn [oqc]. repeat split; auto.
              * destruct (p_pin p && pb o), (qid (oqc x') =? qid q); reflexivity.
              * destruct (p_pin p && pb o), (qid (oqc x') =? qid q); cbn; auto using orb_true_r, orb_false_r; try (now rewrite orb_true_r); now rewrite orb_false_r.
          - unfold ids in *. cbn [flat_map] in Ndl. destruct a; cbn [app] in Ndl; [now inversion Ndl|assumption|assumption]. }
        apply G; [exact F|apply incl_refl|exact Nd|].
        intros a Ha o -> x Hx Hb Hin. rewrite Nm in Hin. apply in_flat_map in Hin as (a' & Ha' & Hin). destruct a' as [o2|q|n]; cbn in Hin; try easy.
        destruct (lookup h o2) as [x2|] eqn:E2; [|easy]. destruct (beqb (qback (oqc x2)) (p_backend p)) eqn:Eb; [easy|]. destruct Hin as [->|[]].
        rewrite Hx in E2. injection E2 as <-. apply beqb_ok in Hb. congruence.
      + intros o x Ho Hx. rewrite Epb. apply L3. rewrite copy_back_other; [exact Hx|]. intros Hin. apply Inc, Ids in Hin. auto. Qed.
End Calls.
Print Assumptions C47_operands_partial.
Print Assumptions C47_caller_objects.
Print Assumptions C47_pins.
Print Assumptions C47_choice.
Print Assumptions C47_updates_in_place.
Print Assumptions C47_updates_copied.

Section Examples.
  (** Backends and tables are numbers; objects 0 and 1 live on backends 1 and 2. *)
  Let h0 : @heap nat nat := mkheap [mkobj (mkqc 0 1 100) false; mkobj (mkqc 1 2 200) false] 2.
  Let copying := mkconfig false false 1.
  Let first (l : list (qc nat nat)) : res nat := match l with [] => Err ValueError | q :: _ => Ok (qback q) end.
  Notation prep := (prepare Nat.eqb first (fun q => qback q) (fun b => b)).
  Notation run := (call Nat.eqb first (fun q => qback q) (fun b => b)).

  (** Finding F23: frames inside a tuple argument, as in pd.concat((df1, df2)), are not cast when in-place
      casting is off: the implementation gets operands on two backends. *)
  Theorem C47_nested_tuple_refuted :
    exists p o x, prep copying [TTup [Leaf (AObj 0); Leaf (AObj 1)]] [] h0 = Ok p
      /\ In (AObj o) (leaves (p_args p)) /\ lookup (p_heap p) o = Some x /\ qback (oqc x) <> p_backend p.
  Proof. vm_compute. do 3 eexists. split; [reflexivity|]. split; [right; left; reflexivity|]. split; [reflexivity|]. discriminate. Qed.

  (** Finding F26: with in-place casting off, a list passed by the caller afterwards holds other objects. *)
  Theorem C47_caller_list_refuted :
    exists p, prep copying [TMut [Leaf (AObj 0); Leaf (AObj 1)]] [] h0 = Ok p
      /\ p_held_args p <> TTup [TMut [Leaf (AObj 0); Leaf (AObj 1)]].
  Proof. vm_compute. eexists. split; [reflexivity|]. discriminate. Qed.

  (** Non-vacuity: mixed backends, an update of the cast copy reaches the caller, and pins decide. *)
  Example calls_reachable :
    well_formed h0 (flat_map leaves [Leaf (AObj 0); TMut [Leaf (AObj 1)]] ++ flat_map leaves [])
    /\ all_tuple_free [Leaf (AObj 0); TMut [@Leaf (qc nat nat) (AObj 1)]] []
    /\ option_map (@p_backend nat nat) (match prep copying [Leaf (AObj 0); TMut [Leaf (AObj 1)]] [] h0 with Ok p => Some p | Err _ => None end) = Some 1.
  Proof. split; [|split; [split; reflexivity|reflexivity]]. split.
    - cbn. intros o [[= <-]|[[= <-]|[]]]; lia.
    - cbn. intros q [H|[H|[]]]; discriminate. Qed.
  (** the implementation replaces the query compiler of the second operand's copy (object 2) *)
  Example update_reaches_caller :
    snd (run copying (fun b a k h => (Ok None, update h 2 (mkobj (mkqc 9 1 777) false))) [Leaf (AObj 0); Leaf (AObj 1)] [] h0)
    = mkheap [mkobj (mkqc 0 1 100) false; mkobj (mkqc 9 1 777) false; mkobj (mkqc 9 1 777) false] 3.
  Proof. reflexivity. Qed.
  Example pinned_decides :
    match prep copying [Leaf (AObj 0); Leaf (AObj 1)] [] (update h0 1 (mkobj (mkqc 1 2 200) true)) with
    | Ok p => p_backend p = 2 /\ p_pin p = true | Err _ => False end.
  Proof. split; reflexivity. Qed.
  Example conflict_refused :
    run copying (fun b a k h => (Ok None, h)) [Leaf (AObj 0); Leaf (AObj 1)] [] (mkheap [mkobj (mkqc 0 1 100) true; mkobj (mkqc 1 2 200) true] 2)
    = (Err ValueError, mkheap [mkobj (mkqc 0 1 100) true; mkobj (mkqc 1 2 200) true] 2).
  Proof. reflexivity. Qed.

  (** Costs: operands on 1 and 2; moving to 2 is cheaper. *)
  Example cheapest_example :
    calculate Nat.eqb (fun q => q) (fun _ => Some 0%Z) (fun q b => Some (if b =? 2 then 10%Z else 500%Z)) (fun _ _ => None) (fun _ => 1000%Z) [] false false [1; 2] = Ok 2.
  Proof. reflexivity. Qed.
  Example costs_example :
    Forall (costs_ok (fun q : nat => q) (fun _ => Some 0%Z) (fun q b => Some (if b =? 2 then 10%Z else 500%Z)) (fun _ _ => None) [1; 2]) [1; 2].
  Proof. repeat constructor; cbn; try lia; intros; destruct (b =? 2); cbn; lia. Qed.
  Example auto_example :
    auto_switch Nat.eqb (fun q : nat => q) (fun _ => Some 800%Z) (fun _ _ => Some 100%Z) (fun b _ => Some (if b =? 3 then 10%Z else 20%Z)) [1; 2; 3] 1 = 3.
  Proof. reflexivity. Qed.
End Examples.

Print Assumptions C47_nested_tuple_refuted.
Print Assumptions C47_caller_list_refuted.
