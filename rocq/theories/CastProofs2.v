From Coq Require Import ZArith.
From Verif Require Import Base CastSpec CastModel CastProofs.

Lemma tree_ind2 {Q} (P : tree Q -> Prop) :
  (forall a, P (Leaf a)) -> (forall l, Forall P l -> P (TMut l)) -> (forall l, Forall P l -> P (TTup l)) -> forall t, P t.
Proof. intros H1 H2 H3. fix IH 1. intros [a|l|l]; [apply H1|apply H2|apply H3];
  (induction l as [|t l IHl]; constructor; [apply IH|exact IHl]). Qed.

Section Visit.
  Context {Q St : Type}.
  Variable fn : atom Q -> St -> atom Q * St.
  Notation visit := (visit fn).
  Notation elems := (elems fn visit).

  Fixpoint fold_leaves (l : list (atom Q)) (s : St) : list (atom Q) * St :=
    match l with
    | [] => ([], s)
    | a :: rest => let '(a', s1) := fn a s in let '(l', s2) := fold_leaves rest s1 in (a' :: l', s2)
    end.
  Lemma fold_leaves_app l m s : fold_leaves (l ++ m) s
    = (fst (fold_leaves l s) ++ fst (fold_leaves m (snd (fold_leaves l s))), snd (fold_leaves m (snd (fold_leaves l s)))).
  Proof. revert s; induction l as [|a l IH]; intros s; cbn; [now destruct (fold_leaves m s)|].
    destruct (fn a s) as [a' s1]. rewrite IH. destruct (fold_leaves l s1) as [l' s2]. reflexivity. Qed.

  Definition is_leaf (t : tree Q) := match t with Leaf _ => true | _ => false end.

  Lemma elems_state l : Forall (fun t => forall s, is_leaf t = false -> snd (visit t s) = snd (fold_leaves (leaves t) s)) l ->
    forall s, snd (elems l s) = snd (fold_leaves (flat_map leaves l) s).
  Proof. induction 1 as [|t l Ht _ IH]; intros s; [reflexivity|]. cbn [CastModel.elems flat_map]. rewrite fold_leaves_app. cbn [snd].
    destruct t as [a|k|k].
    - cbn [leaves fold_leaves]. destruct (fn a s) as [a' s1]. cbn [snd]. specialize (IH s1). destruct (elems l s1) as [[st hd] s2]. exact IH.
    - specialize (Ht s eq_refl). destruct (visit (TMut k) s) as [[r h] s1]. cbn [snd] in Ht. rewrite <- Ht. specialize (IH s1). destruct (elems l s1) as [[st hd] s2]. exact IH.
    - specialize (Ht s eq_refl). destruct (visit (TTup k) s) as [[r h] s1]. cbn [snd] in Ht. rewrite <- Ht. specialize (IH s1). destruct (elems l s1) as [[st hd] s2]. exact IH. Qed.
  Lemma visit_state_all t : forall s, is_leaf t = false -> snd (visit t s) = snd (fold_leaves (leaves t) s).
  Proof. induction t as [a|l IH|l IH] using tree_ind2; intros s E; [discriminate| |]; cbn [CastModel.visit leaves]; rewrite <- (elems_state IH);
    destruct (elems l s) as [[st hd] s1]; reflexivity. Qed.
  Lemma elems_state_all l s : snd (elems l s) = snd (fold_leaves (flat_map leaves l) s).
  Proof. apply elems_state. apply Forall_forall. intros t _ s'. apply visit_state_all. Qed.

  Lemma elems_leaves l : forallb tuple_free l = true ->
    Forall (fun t => tuple_free t = true -> forall s, is_leaf t = false ->
              leaves (snd (fst (visit t s))) = fst (fold_leaves (leaves t) s)) l ->
    forall s, flat_map leaves (fst (fst (elems l s))) = fst (fold_leaves (flat_map leaves l) s).
  Proof. intros Tf F. revert Tf. induction F as [|t l Ht _ IH]; intros Tf s; [reflexivity|]. cbn [forallb] in Tf. apply andb_true_iff in Tf as [Tt Tl].
    cbn [CastModel.elems flat_map]. rewrite fold_leaves_app. cbn [fst].
    destruct t as [a|k|k]; [| |discriminate].
    - cbn [leaves fold_leaves]. destruct (fn a s) as [a' s1]. cbn [fst snd]. specialize (IH Tl s1). destruct (elems l s1) as [[st hd] s2]. cbn in *. now rewrite IH.
    - specialize (Ht Tt s eq_refl). pose proof (@visit_state_all (TMut k) s eq_refl) as Hs. destruct (visit (TMut k) s) as [[r h] s1]. cbn [fst snd] in *.
      rewrite <- Ht, <- Hs. specialize (IH Tl s1). destruct (elems l s1) as [[st hd] s2]. cbn in *. now rewrite IH. Qed.
  Lemma visit_held_leaves t : tuple_free t = true -> forall s, is_leaf t = false ->
              leaves (snd (fst (visit t s))) = fst (fold_leaves (leaves t) s).
  Proof. induction t as [a|l IH|l IH] using tree_ind2; intros Tf s E; [discriminate| |discriminate].
    cbn [CastModel.visit leaves]. rewrite <- (elems_leaves Tf IH). destruct (elems l s) as [[st hd] s1]. reflexivity. Qed.
  Lemma elems_leaves_all l s : forallb tuple_free l = true ->
    flat_map leaves (fst (fst (elems l s))) = fst (fold_leaves (flat_map leaves l) s).
  Proof. intros Tf. apply elems_leaves; [assumption|]. apply Forall_forall. intros t _ Ht s'. now apply visit_held_leaves. Qed.

  Lemma elems_id l : (forall a s, fst (fn a s) = a) -> Forall (fun t => forall s, fst (visit t s) = (t, t)) l ->
    forall s, fst (elems l s) = (l, l).
  Proof. intros Fi F. induction F as [|t l Ht _ IH]; intros s; [reflexivity|]. cbn [CastModel.elems].
    destruct t as [a|k|k].
    - specialize (Fi a s). destruct (fn a s) as [a' s1]. cbn in Fi. subst a'. specialize (IH s1). destruct (elems l s1) as [[st hd] s2]. cbn in *. now injection IH as -> ->.
    - specialize (Ht s). destruct (visit (TMut k) s) as [[r h] s1]. cbn in Ht. injection Ht as -> ->. specialize (IH s1). destruct (elems l s1) as [[st hd] s2]. cbn in *. now injection IH as -> ->.
    - specialize (Ht s). destruct (visit (TTup k) s) as [[r h] s1]. cbn in Ht. injection Ht as -> ->. specialize (IH s1). destruct (elems l s1) as [[st hd] s2]. cbn in *. now injection IH as -> ->. Qed.
  Lemma visit_id t : (forall a s, fst (fn a s) = a) -> forall s, fst (visit t s) = (t, t).
  Proof. intros Fi. induction t as [a|l IH|l IH] using tree_ind2; intros s; [reflexivity| |]; cbn [CastModel.visit];
    pose proof (elems_id Fi IH s) as E; destruct (elems l s) as [[st hd] s1]; cbn in E; injection E as -> ->; reflexivity. Qed.

  (** The two trees the caster visits. *)
  Lemma visit_args l s : exists st hd, visit (TTup l) s = (TTup st, TTup hd, snd (fold_leaves (flat_map leaves l) s))
    /\ (forallb tuple_free l = true -> flat_map leaves st = fst (fold_leaves (flat_map leaves l) s))
    /\ ((forall a s, fst (fn a s) = a) -> st = l /\ hd = l).
  Proof. cbn [CastModel.visit]. pose proof (elems_state_all l s) as E. pose proof (@elems_leaves_all l s) as L.
    pose proof (fun Fi => @visit_id (TTup l) Fi s) as V. cbn [CastModel.visit] in V.
    destruct (elems l s) as [[st hd] s1]. cbn in *. exists st, hd. rewrite E. split; [reflexivity|]. split; [exact L|].
    intros Fi. specialize (V Fi). now injection V as -> ->. Qed.
  Lemma visit_kwargs l s : exists st hd, visit (TMut l) s = (TMut st, TMut hd, snd (fold_leaves (flat_map leaves l) s))
    /\ (forallb tuple_free l = true -> flat_map leaves st = fst (fold_leaves (flat_map leaves l) s))
    /\ ((forall a s, fst (fn a s) = a) -> st = l /\ hd = l).
  Proof. cbn [CastModel.visit]. pose proof (elems_state_all l s) as E. pose proof (@elems_leaves_all l s) as L.
    pose proof (fun Fi => @visit_id (TMut l) Fi s) as V. cbn [CastModel.visit] in V.
    destruct (elems l s) as [[st hd] s1]. cbn in *. exists st, st. rewrite E. split; [reflexivity|]. split; [exact L|].
    intros Fi. specialize (V Fi). injection V as ->. auto. Qed.
End Visit.

Section Caster.
  Context {B D : Type}.
  Variable beqb : B -> B -> bool.
  Hypothesis beqb_ok : forall x y, beqb x y = true <-> x = y.
  Notation qc := (qc B D).
  Notation obj := (obj B D).
  Notation heap := (@heap B D).
  Notation atom := (atom qc).

  Lemma lookup_lt (h : heap) o x : lookup h o = Some x -> o < length (objs h).
  Proof. intros E. apply nth_error_Some. unfold lookup in E. congruence. Qed.
  Lemma lookup_update (h : heap) o x p : lookup (update h o x) p = if p =? o then (if p <? length (objs h) then Some x else None) else lookup h p.
  Proof. unfold lookup, update. cbn [objs]. destruct (Nat.lt_ge_cases p (length (objs h))) as [Lt|Ge].
    - erewrite map_nth_error; [|rewrite (nth_error_nth' _ 0) by (now rewrite seq_length); rewrite seq_nth by assumption; reflexivity].
      cbn. destruct (Nat.eqb_spec p o), (Nat.ltb_spec p (length (objs h))); try lia; [reflexivity|]. symmetry. now apply nth_error_nth'.
    - rewrite (proj2 (nth_error_None _ p)) by (rewrite map_length, seq_length; lia). rewrite (proj2 (nth_error_None (objs h) p)) by lia.
      destruct (Nat.ltb_spec p (length (objs h))); [lia|]. now destruct (p =? o). Qed.
  Lemma update_length (h : heap) o x : length (objs (update h o x)) = length (objs h).
  Proof. unfold update. cbn. now rewrite map_length, seq_length. Qed.
  Lemma update_same (h : heap) o x : lookup h o = Some x -> objs (update h o x) = objs h.
  Proof. intros E. apply (nth_ext _ _ x x); [apply update_length|]. intros n Hn. rewrite update_length in Hn.
    assert (G : lookup (update h o x) n = lookup h n).
    { rewrite lookup_update. destruct (Nat.eqb_spec n o); [subst|reflexivity]. destruct (Nat.ltb_spec o (length (objs h))); [|lia]. now rewrite E. }
    unfold lookup in G. rewrite (nth_error_nth' _ x) in G by now rewrite update_length. rewrite (nth_error_nth' _ x) in G by assumption. now injection G. Qed.

  (** * Registration *)
  Definition obj_at (h : heap) (a : atom) : list obj := match a with AObj o => match lookup h o with Some x => [x] | None => [] end | _ => [] end.
  Definition objs_of (h : heap) (ats : list atom) : list obj := flat_map (obj_at h) ats.
  Definition qc_at (h : heap) (a : atom) : list qc := match a with AQC q => [q] | a => map (@oqc _ _) (obj_at h a) end.
  Definition conflict (l : list obj) : Prop := exists x y, In x l /\ In y l /\ opin x = true /\ opin y = true /\ qback (oqc x) <> qback (oqc y).
  Definition reg_ok (h : heap) (pre : list atom) (r : @reg B D) : Prop :=
    (rfail r = true /\ conflict (objs_of h pre))
    \/ (rfail r = false /\ rqcs r = flat_map (qc_at h) pre
        /\ (forall b, In b (rbacks r) <-> exists x, In x (objs_of h pre) /\ qback (oqc x) = b) /\ NoDup (rbacks r)
        /\ match rpin r with
           | None => forall x, In x (objs_of h pre) -> opin x = false
           | Some p => (exists x, In x (objs_of h pre) /\ opin x = true /\ qback (oqc x) = p)
                       /\ forall x, In x (objs_of h pre) -> opin x = true -> qback (oqc x) = p
           end).
  Lemma objs_of_app h l m : objs_of h (l ++ m) = objs_of h l ++ objs_of h m.
  Proof. apply flat_map_app. Qed.
  Lemma register_step h pre a r : reg_ok h pre r -> reg_ok h (pre ++ [a]) (snd (register beqb h a r)).
  Proof. intros [[Hf Hc]|(Hf & Hq & Hb & Nd & Hp)]; unfold register; rewrite Hf; cbn [snd].
    - left. split; [assumption|]. destruct Hc as (x & y & Hx & Hy & R). exists x, y. rewrite objs_of_app. auto using in_or_app.
    - destruct a as [o|q|n].
      + destruct (lookup h o) as [x|] eqn:Ex.
        * assert (Oa : objs_of h (pre ++ [AObj o]) = objs_of h pre ++ [x]) by (rewrite objs_of_app; cbn; now rewrite Ex).
          assert (Qa : flat_map (qc_at h) (pre ++ [AObj o]) = flat_map (qc_at h) pre ++ [oqc x]) by (rewrite flat_map_app; cbn; now rewrite Ex).
          assert (Bk : let backs := if existsb (beqb (qback (oqc x))) (rbacks r) then rbacks r else qback (oqc x) :: rbacks r in
             (forall b, In b backs <-> exists y, In y (objs_of h pre ++ [x]) /\ qback (oqc y) = b) /\ NoDup backs).
          { cbv zeta. destruct (existsb (beqb (qback (oqc x))) (rbacks r)) eqn:Ee.
            - split; [|assumption]. intros b. rewrite Hb. split; [intros (y & Hy & E); exists y; auto using in_or_app|].
              intros (y & Hy & E). apply in_app_iff in Hy as [Hy|[<-|[]]]; [eauto|]. apply existsb_exists in Ee as (b' & Hb' & Eb). apply beqb_ok in Eb.
              apply Hb. now rewrite <- E, Eb.
            - split.
              + intros b. cbn [In]. rewrite Hb. split.
                * intros [<-|(y & Hy & E)]; [exists x|exists y]; auto using in_or_app, in_eq.
                * intros (y & Hy & E). apply in_app_iff in Hy as [Hy|[<-|[]]]; [right; eauto|now left].
              + constructor; [|assumption]. intros Hi. apply not_true_iff_false in Ee. apply Ee. apply existsb_exists. eexists. split; [eassumption|]. now apply beqb_ok. }
          cbv zeta in Bk. destruct Bk as [Bk1 Bk2]. destruct (rpin r) as [p|] eqn:Ep.
          -- destruct Hp as [(x0 & Hx0 & P0 & B0) Hp].
             destruct (opin x && negb (beqb (qback (oqc x)) p)) eqn:Ec.
             ++ left. cbn. split; [reflexivity|]. apply andb_true_iff in Ec as [Px Nx]. apply negb_true_iff in Nx. exists x, x0. rewrite Oa.
                repeat split; auto using in_or_app, in_eq. intros E. rewrite B0 in E. apply beqb_ok in E. congruence.
             ++ right. cbn [rfail rqcs rbacks rpin]. rewrite Oa, Qa, Hq. split; [reflexivity|]. split; [reflexivity|]. split; [exact Bk1|]. split; [exact Bk2|].
                split; [exists x0; auto using in_or_app|]. intros y Hy Py. apply in_app_iff in Hy as [Hy|[<-|[]]]; [auto|].
                rewrite Py in Ec. cbn in Ec. apply negb_false_iff in Ec. now apply beqb_ok.
          -- right. cbn [rfail rqcs rbacks rpin]. rewrite Oa, Qa, Hq. split; [reflexivity|]. split; [reflexivity|]. split; [exact Bk1|]. split; [exact Bk2|].
             destruct (opin x) eqn:Px.
             ++ split; [exists x; auto using in_or_app, in_eq|]. intros y Hy Py. apply in_app_iff in Hy as [Hy|[<-|[]]]; [rewrite Hp in Py by assumption; discriminate|reflexivity].
             ++ intros y Hy. apply in_app_iff in Hy as [Hy|[<-|[]]]; auto.
        * right. unfold objs_of. rewrite !flat_map_app. cbn. rewrite Ex. cbn. rewrite !app_nil_r. auto.
      + right. unfold objs_of. rewrite !flat_map_app. cbn. rewrite app_nil_r, Hq. auto.
      + right. unfold objs_of. rewrite !flat_map_app. cbn. rewrite !app_nil_r. auto. Qed.
  Lemma register_id (h : heap) a r : fst (register beqb h a r) = a. Proof. reflexivity. Qed.
  Lemma fold_register h ats : forall pre r, reg_ok h pre r -> reg_ok h (pre ++ ats) (snd (fold_leaves (register beqb h) ats r)).
  Proof. induction ats as [|a ats IH]; intros pre r Hr; cbn [fold_leaves]; [now rewrite app_nil_r|].
    pose proof (register_step a Hr) as Hs. destruct (register beqb h a r) as [a' s1]. cbn [snd] in Hs. specialize (IH _ _ Hs). rewrite <- app_assoc in IH.
    cbn [app] in IH. destruct (fold_leaves (register beqb h) ats s1) as [l' s2]. exact IH. Qed.

  (** * Casting *)
  Notation tracker := (nat * qc * nat)%type.

  Lemma cast_inplace_ok b track : forall ats (h : heap) trs,
    fst (fold_leaves (cast beqb true track b) ats (h, trs)) = ats
    /\ let h' := fst (snd (fold_leaves (cast beqb true track b) ats (h, trs))) in
       let trs' := snd (snd (fold_leaves (cast beqb true track b) ats (h, trs))) in
       length (objs h') = length (objs h)
       /\ (forall o x, lookup h o = Some x -> exists x', lookup h' o = Some x' /\ qdata (oqc x') = qdata (oqc x)
              /\ (In (AObj o) ats -> qback (oqc x') = b)
              /\ (~ In (AObj o) ats \/ qback (oqc x) = b -> x' = x))
       /\ exists new, trs' = trs ++ new /\ Forall (fun t => fst (fst t) = snd t) new.
  Proof. induction ats as [|a ats IH]; intros h trs; cbn [fold_leaves].
    - cbn. split; [reflexivity|]. split; [reflexivity|]. split; [|exists []; rewrite app_nil_r; auto]. intros o x E. exists x. repeat split; auto. easy.
    - assert (Skip : cast beqb true track b a (h, trs) = (a, (h, trs)) ->
         (forall o, a = AObj o -> forall x, lookup h o = Some x -> qback (oqc x) = b) ->
         let r := (let '(a', s1) := cast beqb true track b a (h, trs) in let '(l', s2) := fold_leaves (cast beqb true track b) ats s1 in (a' :: l', s2)) in
         fst r = a :: ats /\ length (objs (fst (snd r))) = length (objs h)
         /\ (forall o x, lookup h o = Some x -> exists x', lookup (fst (snd r)) o = Some x' /\ qdata (oqc x') = qdata (oqc x)
              /\ (In (AObj o) (a :: ats) -> qback (oqc x') = b)
              /\ (~ In (AObj o) (a :: ats) \/ qback (oqc x) = b -> x' = x))
         /\ exists new, snd (snd r) = trs ++ new /\ Forall (fun t => fst (fst t) = snd t) new).
      { intros -> Hb. cbv zeta. destruct (IH h trs) as (I1 & I2 & I3 & I4). destruct (fold_leaves (cast beqb true track b) ats (h, trs)) as [l' s2]. cbn [fst snd] in *. subst l'.
        split; [reflexivity|]. split; [assumption|]. split; [|assumption]. intros o x Hx. destruct (I3 o x Hx) as (x' & E & Ed & Eb & Es).
        exists x'. split; [assumption|]. split; [assumption|]. split.
        - intros [->|Hi]; [|auto]. rewrite Es; [|right]; eapply Hb; eauto.
        - intros [Hn|Hn]; apply Es; [left; contradict Hn; now right|now right]. }
      destruct a as [o|q|n]; [|apply Skip; easy|apply Skip; easy].
      unfold cast at 1 3 5 7. destruct (lookup h o) as [x|] eqn:Ex.
      2:{ assert (Cs : cast beqb true track b (AObj o) (h, trs) = (AObj o, (h, trs))) by (cbn; now rewrite Ex).
          specialize (Skip Cs). rewrite Cs in Skip. apply Skip. intros o' [= <-] x E. congruence. }
      destruct (beqb (qback (oqc x)) b) eqn:Eb.
      { assert (Cs : cast beqb true track b (AObj o) (h, trs) = (AObj o, (h, trs))) by (cbn; now rewrite Ex, Eb).
        specialize (Skip Cs). rewrite Cs in Skip. apply Skip. intros o' [= <-] y E. rewrite Ex in E. injection E as <-. now apply beqb_ok. }
      clear Skip. cbn [moved]. set (x1 := mkobj (mkqc (fresh h) b (qdata (oqc x))) false). set (h1 := update (mkheap (objs h) (S (fresh h))) o x1).
      set (trs1 := if track then trs ++ [(o, oqc x1, o)] else trs).
      destruct (IH h1 trs1) as (I1 & I2 & I3 & new & I4 & I5). destruct (fold_leaves (cast beqb true track b) ats (h1, trs1)) as [l' s2]. cbn [fst snd] in *. subst l'.
      split; [reflexivity|]. split; [rewrite I2; unfold h1; now rewrite update_length|]. pose proof (lookup_lt _ _ Ex) as Lo. split.
      + intros p y Hy. assert (L1 : lookup h1 p = if p =? o then Some x1 else lookup h p).
        { unfold h1. rewrite lookup_update. cbn [objs]. destruct (Nat.eqb_spec p o); [|reflexivity]. subst. destruct (Nat.ltb_spec o (length (objs h))); [reflexivity|lia]. }
        destruct (Nat.eqb_spec p o) as [->|Np].
        * rewrite Ex in Hy. injection Hy as <-. destruct (I3 o x1 L1) as (x' & E & Ed & Ebk & Es). exists x'. split; [assumption|]. split; [exact Ed|]. split.
          -- intros _. rewrite Es; [reflexivity|]. now right.
          -- intros [Hn|Hn]; [exfalso; apply Hn; now left|]. apply beqb_ok in Hn. congruence.
        * rewrite Hy in L1. destruct (I3 p y L1) as (x' & E & Ed & Ebk & Es). exists x'. split; [assumption|]. split; [assumption|]. split.
          -- intros [[= Hp]|Hi]; [congruence|auto].
          -- intros [Hn|Hn]; apply Es; [left; contradict Hn; now right|now right].
      + unfold trs1 in I4. destruct track; [|eauto]. exists ((o, oqc x1, o) :: new). rewrite I4, <- app_assoc. split; [reflexivity|]. now constructor. Qed.

  (** What a leaf becomes when casts make new objects. *)
  Definition recast (h h' : heap) (b : B) (new : list tracker) (a a' : atom) : Prop :=
    (a' = a /\ forall o x, a = AObj o -> lookup h o = Some x -> qback (oqc x) = b)
    \/ exists o x o' q, a = AObj o /\ a' = AObj o' /\ In (o, q, o') new /\ lookup h o = Some x /\ qback (oqc x) <> b
          /\ lookup h' o' = Some (mkobj q false) /\ qback q = b /\ qdata q = qdata (oqc x).
  Definition needs (h : heap) (b : B) (a : atom) : list nat :=
    match a with AObj o => match lookup h o with Some x => if beqb (qback (oqc x)) b then [] else [o] | None => [] end | _ => [] end.

  Definition valid (h : heap) (ats : list atom) : Prop := forall o, In (AObj o) ats -> o < length (objs h).

  Lemma cast_copy_ok b : forall ats (h : heap) trs, valid h ats ->
    let r := fold_leaves (cast beqb false true b) ats (h, trs) in
    exists news new, objs (fst (snd r)) = objs h ++ news /\ snd (snd r) = trs ++ new
      /\ Forall2 (recast h (fst (snd r)) b new) ats (fst r)
      /\ map (fun t => fst (fst t)) new = flat_map (needs h b) ats
      /\ map snd new = seq (length (objs h)) (length new)
      /\ length news = length new
      /\ Forall (fun t => lookup (fst (snd r)) (snd t) = Some (mkobj (snd (fst t)) false)) new.
  Proof. induction ats as [|a ats IH]; intros h trs Hv; cbv zeta; cbn [fold_leaves].
    - exists [], []. cbn. rewrite !app_nil_r. repeat split; constructor.
    - assert (Hv' : valid h ats) by (intros o Ho; apply Hv; now right).
      assert (Skip : cast beqb false true b a (h, trs) = (a, (h, trs)) -> needs h b a = [] ->
         (forall o, a = AObj o -> forall x, lookup h o = Some x -> qback (oqc x) = b) ->
         let r := (let '(a', s1) := cast beqb false true b a (h, trs) in let '(l', s2) := fold_leaves (cast beqb false true b) ats s1 in (a' :: l', s2)) in
         exists news new, objs (fst (snd r)) = objs h ++ news /\ snd (snd r) = trs ++ new
          /\ Forall2 (recast h (fst (snd r)) b new) (a :: ats) (fst r)
          /\ map (fun t => fst (fst t)) new = flat_map (needs h b) (a :: ats)
          /\ map snd new = seq (length (objs h)) (length new)
          /\ length news = length new
          /\ Forall (fun t => lookup (fst (snd r)) (snd t) = Some (mkobj (snd (fst t)) false)) new).
      { intros -> Hn Hb. cbv zeta. destruct (IH h trs Hv') as (news & new & I1 & I2 & I3 & I4 & I5 & I6 & I7).
        destruct (fold_leaves (cast beqb false true b) ats (h, trs)) as [l' s2]. cbn [fst snd] in *.
        exists news, new. cbn [flat_map]. rewrite Hn. repeat split; auto. constructor; [|assumption]. left. split; [reflexivity|]. intros o x Ea. now apply Hb. }
      destruct a as [o|q|n]; [|apply Skip; easy|apply Skip; easy].
      assert (Lo : o < length (objs h)) by (apply Hv; now left).
      destruct (lookup h o) as [x|] eqn:Ex; [|unfold lookup in Ex; apply nth_error_None in Ex; lia].
      destruct (beqb (qback (oqc x)) b) eqn:Eb.
      { assert (Cs : cast beqb false true b (AObj o) (h, trs) = (AObj o, (h, trs))) by (cbn; now rewrite Ex, Eb).
        apply Skip; [exact Cs|cbn; now rewrite Ex, Eb|]. intros o' [= <-] y E. rewrite Ex in E. injection E as <-. now apply beqb_ok. }
      clear Skip. set (x1 := mkobj (mkqc (fresh h) b (qdata (oqc x))) false).
      set (h1 := mkheap (objs h ++ [x1]) (S (fresh h))). set (trs1 := trs ++ [(o, oqc x1, length (objs h))]).
      assert (Cs : cast beqb false true b (AObj o) (h, trs) = (AObj (length (objs h)), (h1, trs1))) by (cbn; rewrite Ex, Eb; reflexivity).
      rewrite Cs. clear Cs.
      assert (Hv1 : valid h1 ats) by (intros p Hp; unfold h1; cbn; rewrite app_length; specialize (Hv' p Hp); lia).
      destruct (IH h1 trs1 Hv1) as (news & new & I1 & I2 & I3 & I4 & I5 & I6 & I7).
      destruct (fold_leaves (cast beqb false true b) ats (h1, trs1)) as [l' [h2 trs2]]. cbn [fst snd] in *.
      unfold h1 in I1. cbn [objs] in I1. rewrite <- app_assoc in I1. cbn [app] in I1.
      assert (Same : forall p, p < length (objs h) -> lookup h1 p = lookup h p).
      { intros p Hp. unfold lookup, h1. cbn [objs]. now rewrite nth_error_app1. }
      assert (New1 : lookup h2 (length (objs h)) = Some x1).
      { unfold lookup. rewrite I1, nth_error_app2, Nat.sub_diag by lia. reflexivity. }
      assert (Nd : forall l, valid h l -> flat_map (needs h1 b) l = flat_map (needs h b) l).
      { induction l as [|c l IHl]; intros Hl; [reflexivity|]. cbn [flat_map]. rewrite IHl by (intros p Hp; apply Hl; now right). f_equal.
        destruct c as [p| |]; try reflexivity. cbn. rewrite Same; [reflexivity|]. apply Hl. now left. }
      exists (x1 :: news), ((o, oqc x1, length (objs h)) :: new). split; [exact I1|].
      split; [rewrite I2; unfold trs1; now rewrite <- app_assoc|]. split.
      { constructor.
        - right. exists o, x, (length (objs h)), (oqc x1). split; [reflexivity|]. split; [reflexivity|]. split; [now left|]. split; [assumption|].
          split; [intros E; apply beqb_ok in E; congruence|]. split; [exact New1|]. now split.
        - clear -I3 Same Hv'. induction I3 as [|c c' l l' Hc _ IHf]; constructor.
          + destruct Hc as [[E1 E2]|(p & y & p' & q & E1 & E2 & Hi & E3 & E4 & E5 & E6 & E7)].
            * left. split; [assumption|]. intros p y Ep Ey. apply (E2 p y Ep). rewrite Same; [assumption|]. apply Hv'. subst c. now left.
            * right. exists p, y, p', q. rewrite Same in E3 by (apply Hv'; subst c; now left). repeat split; auto. now right.
          + apply IHf. intros p Hp. apply Hv'. now right. }
      split; [cbn [map fst flat_map]; rewrite I4, Nd by assumption; cbn; rewrite Ex, Eb; reflexivity|].
      split; [cbn [map length seq snd]; f_equal; rewrite I5; unfold h1; cbn [objs]; rewrite app_length; f_equal; cbn; lia|].
      split; [cbn; now rewrite I6|]. constructor; [exact New1|exact I7]. Qed.

  (** * Copying back *)
  Lemma copy_into_length (h : heap) s d : length (objs (copy_into h s d)) = length (objs h).
  Proof. unfold copy_into. destruct (lookup h s); [|reflexivity]. destruct (lookup h d); [|reflexivity]. apply update_length. Qed.
  Lemma copy_into_other (h : heap) s d p : p <> d -> lookup (copy_into h s d) p = lookup h p.
  Proof. intros N. unfold copy_into. destruct (lookup h s); [|reflexivity]. destruct (lookup h d); [|reflexivity]. rewrite lookup_update. destruct (Nat.eqb_spec p d); [easy|reflexivity]. Qed.
  Lemma copy_into_self (h : heap) d p : lookup (copy_into h d d) p = lookup h p.
  Proof. unfold copy_into. destruct (lookup h d) as [x|] eqn:E; [|reflexivity]. destruct x as [q pn]. cbn [oqc opin]. unfold lookup. now rewrite (update_same _ _ E). Qed.

  Lemma copy_back_self cfg trs : Forall (fun t : tracker => fst (fst t) = snd t) trs -> forall (h : heap) p, lookup (copy_back cfg trs h) p = lookup h p.
  Proof. unfold copy_back. induction 1 as [|[[o q] o'] trs E _ IH]; intros h p; [reflexivity|]. cbn in E. subst o'. cbn [fold_left]. rewrite IH.
    destruct (lookup h o) as [x|]; [|reflexivity]. destruct (cast_in_place cfg || negb (qid (oqc x) =? qid q)); [apply copy_into_self|reflexivity]. Qed.
  Lemma copy_back_other cfg (trs : list tracker) p : ~ In p (map (fun t => fst (fst t)) trs) -> forall (h : heap), lookup (copy_back cfg trs h) p = lookup h p.
  Proof. unfold copy_back. induction trs as [|[[o q] o'] trs IH]; intros N h; [reflexivity|]. cbn [fold_left]. cbn in N. rewrite IH by tauto.
    destruct (lookup h o') as [x|]; [|reflexivity]. destruct (cast_in_place cfg || negb (qid (oqc x) =? qid q)); [|reflexivity]. apply copy_into_other. intros ->. tauto. Qed.
  (** The object of a tracker that is the only one for its original. *)
  Lemma copy_back_tracked cfg (trs : list tracker) o q o' (h : heap) x y : cast_in_place cfg = false ->
    NoDup (map (fun t => fst (fst t)) trs) -> In (o, q, o') trs -> ~ In o' (map (fun t => fst (fst t)) trs) ->
    lookup h o' = Some x -> lookup h o = Some y ->
    lookup (copy_back cfg trs h) o = Some (if qid (oqc x) =? qid q then y else mkobj (oqc x) (opin y)).
  Proof. intros Hc. revert h. induction trs as [|[[p r] p'] trs IH]; intros h Nd Hi Hn Hx Hy; [easy|]. cbn [map fst] in *.
    inversion Nd as [|? ? Np Nd']; subst. unfold copy_back. cbn [fold_left]. fold (copy_back cfg trs).
    destruct Hi as [[= -> -> ->]|Hi].
    - change (fold_left _ trs ?hh) with (copy_back cfg trs hh). rewrite copy_back_other by assumption. rewrite Hx, Hc. cbn [orb].
      destruct (Nat.eqb_spec (qid (oqc x)) (qid q)); cbn [negb]; [assumption|].
      unfold copy_into. rewrite Hx, Hy, lookup_update, Nat.eqb_refl. pose proof (lookup_lt _ _ Hy). destruct (Nat.ltb_spec o (length (objs h))); [reflexivity|lia].
    - change (fold_left _ trs ?hh) with (copy_back cfg trs hh). apply IH; auto.
      + intros X. apply Hn. now right.
      + destruct (lookup h p') as [z|]; [|assumption]. destruct (cast_in_place cfg || negb (qid (oqc z) =? qid r)); [|assumption]. rewrite copy_into_other; [assumption|]. intros ->. apply Hn. now left.
      + assert (o <> p) by (intros ->; apply Np; apply in_map_iff; exists (p, q, o'); auto).
        destruct (lookup h p') as [z|]; [|assumption]. destruct (cast_in_place cfg || negb (qid (oqc z) =? qid r)); [|assumption]. now rewrite copy_into_other. Qed.
End Caster.
