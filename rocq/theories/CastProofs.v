From Coq Require Import ZArith.
From Verif Require Import Base CastSpec CastModel.

Section Calculator.
  Context {Q B : Type}.
  Variable beqb : B -> B -> bool.
  Hypothesis beqb_ok : forall x y, beqb x y = true <-> x = y.
  Variable backend_of : Q -> B.
  Variable stay_cost : Q -> option Z.
  Variable move_to_cost : Q -> B -> option Z.
  Variable move_to_me_cost : B -> Q -> option Z.
  Variable max_cost : B -> Z.
  Notation contribution := (contribution beqb backend_of stay_cost move_to_cost move_to_me_cost).
  Notation total_cost := (total_cost beqb backend_of stay_cost move_to_cost move_to_me_cost).

  Lemma beqb_refl x : beqb x x = true. Proof. now apply beqb_ok. Qed.
  Lemma beqb_neq x y : beqb x y = false <-> x <> y.
  Proof. rewrite <- beqb_ok. destruct (beqb x y); split; congruence. Qed.
  Lemma beqb_dec (x y : B) : {x = y} + {x <> y}.
  Proof. destruct (beqb x y) eqn:E; [left; now apply beqb_ok|right; now apply beqb_neq]. Qed.

  (** * The candidates *)
  Lemma firsts_In l x : In x (firsts beqb l) <-> In x l.
  Proof using beqb_ok. clear -beqb_ok. induction l as [|y l IH]; cbn; [easy|]. rewrite filter_In, IH. split; [tauto|].
    intros [->|Hx]; [now left|]. destruct (beqb y x) eqn:E; [left; now apply beqb_ok|right; auto]. Qed.
  Lemma NoDup_filter' {X} (p : X -> bool) l : NoDup l -> NoDup (filter p l).
  Proof. induction 1; cbn; [constructor|]. destruct (p x); [|auto]. constructor; auto. rewrite filter_In. tauto. Qed.
  Lemma firsts_NoDup l : NoDup (firsts beqb l).
  Proof. induction l as [|y l IH]; cbn; constructor; [|now apply NoDup_filter'].
    rewrite filter_In. intros [_ E]. rewrite beqb_refl in E. discriminate. Qed.
  Lemma existsb_map_fst (data : list (B * Z)) b : existsb (fun e => beqb (fst e) b) data = existsb (fun x => beqb x b) (map fst data).
  Proof. induction data; cbn; congruence. Qed.
  Lemma filter_filter {X} (p q : X -> bool) l : filter p (filter q l) = filter (fun x => q x && p x) l.
  Proof. induction l as [|x l IH]; cbn; [reflexivity|]. destruct (q x); cbn; [destruct (p x)|]; congruence. Qed.
  Lemma existsb_app' {X} (p : X -> bool) l m : existsb p (l ++ m) = existsb p l || existsb p m.
  Proof. apply existsb_app. Qed.

  Lemma init_data_ok bs : forall data,
    init_data beqb bs data = data ++ map (fun b => (b, 0%Z)) (filter (fun b => negb (existsb (fun x => beqb x b) (map fst data))) (firsts beqb bs)).
  Proof. unfold init_data. induction bs as [|b bs IH]; intros data; cbn [fold_left firsts]; [now rewrite app_nil_r|].
    rewrite IH. clear IH. rewrite existsb_map_fst. cbn [filter]. destruct (existsb (fun x => beqb x b) (map fst data)) eqn:E; cbn [negb].
    - rewrite filter_filter. do 2 f_equal. apply filter_ext. intros x. destruct (beqb b x) eqn:Ex; cbn; [|reflexivity].
      apply beqb_ok in Ex. subst x. now rewrite E.
    - rewrite <- app_assoc. cbn [app map]. do 3 f_equal. rewrite filter_filter. apply filter_ext. intros x.
      rewrite map_app, existsb_app'. cbn. rewrite orb_false_r, negb_orb. apply andb_comm. Qed.

  Lemma firsts_app l m : firsts beqb (l ++ m) = firsts beqb l ++ filter (fun b => negb (existsb (fun x => beqb x b) (firsts beqb l))) (firsts beqb m).
  Proof. induction l as [|x l IH]; cbn [app firsts existsb].
    - cbn. induction (firsts beqb m); cbn; congruence.
    - rewrite IH, filter_app, filter_filter. cbn. f_equal. f_equal. apply filter_ext. intros y. rewrite negb_orb, andb_comm. destruct (beqb x y) eqn:E; cbn; [reflexivity|].
      f_equal. rewrite <- Bool.not_true_iff_false in E. 
      assert (G : forall k, existsb (fun x0 => beqb x0 y) k = existsb (fun x0 => beqb x0 y) (filter (fun y0 => negb (beqb x y0)) k)).
      { induction k as [|z k IHk]; cbn; [reflexivity|]. destruct (beqb x z) eqn:Ez; cbn; rewrite <- IHk; [|reflexivity].
        destruct (beqb z y) eqn:Ezy; [|reflexivity]. apply beqb_ok in Ez, Ezy. subst. now rewrite beqb_refl in E. }
      apply G. Qed.

  Definition candidates (switchable : list B) (preop consider_all : bool) (qs : list Q) : list B :=
    firsts beqb (map backend_of qs ++ if preop && consider_all then switchable else []).
  Lemma new_calculator_ok switchable preop all qs :
    new_calculator beqb backend_of switchable preop all qs = map (fun b => (b, 0%Z)) (candidates switchable preop all qs).
  Proof. unfold new_calculator, candidates. rewrite (init_data_ok (map backend_of qs)). cbn [map existsb negb app].
    assert (F : forall l : list B, filter (fun _ => true) l = l) by (induction l; cbn; congruence). rewrite F.
    destruct (preop && all); [|now rewrite app_nil_r].
    rewrite init_data_ok, firsts_app, map_app. now rewrite map_map, map_id. Qed.

  (** * The costs *)
  Definition add_at (b : B) (c : Z) (f : B -> Z) : B -> Z := fun x => (if beqb x b then f x + c else f x)%Z.
  Definition tab (keys : list B) (f : B -> Z) : list (B * Z) := map (fun b => (b, f b)) keys.
  Lemma tab_fst keys f : map fst (tab keys f) = keys.
  Proof. unfold tab. now rewrite map_map, map_id. Qed.
  Lemma tab_ext keys f g : (forall b, In b keys -> f b = g b) -> tab keys f = tab keys g.
  Proof. intros E. unfold tab. apply map_ext_in. intros b Hb. now rewrite E. Qed.

  Lemma add_opt_ok keys f b c : valid_cost c -> add_opt beqb (tab keys f) b c = Ok (tab keys (add_at b (or_zero c) f)).
  Proof. unfold add_opt, add_cost. destruct c as [c|]; cbn [valid_cost or_zero]; intros V.
    - destruct (Z.ltb_spec c 0), (Z.ltb_spec 1000 c); try lia. cbn. f_equal. unfold tab. rewrite map_map. apply map_ext. intros x. unfold add_at. cbn. destruct (beqb x b); reflexivity.
    - f_equal. apply tab_ext. intros x _. unfold add_at. destruct (beqb x b); lia. Qed.
  Lemma add_opt_inv keys f b c data : add_opt beqb (tab keys f) b c = Ok data -> valid_cost c.
  Proof. unfold add_opt, add_cost. destruct c as [c|]; cbn; [|easy]. destruct (Z.ltb_spec c 0), (Z.ltb_spec 1000 c); cbn; try discriminate. lia. Qed.

  Definition move_opt (q : Q) (b : B) : option Z := match move_to_cost q b with Some c => Some c | None => move_to_me_cost b q end.
  Lemma move_step q b data :
    (match move_to_cost q b with Some c => add_cost beqb data b c | None => add_opt beqb data b (move_to_me_cost b q) end)
    = add_opt beqb data b (move_opt q b).
  Proof. unfold move_opt. destruct (move_to_cost q b); reflexivity. Qed.

  Definition moves_valid (q : Q) (targets : list B) := forall b, In b targets -> b <> backend_of q -> valid_cost (move_opt q b).
  Definition moves (q : Q) (targets : list B) (f : B -> Z) : B -> Z := fun b =>
    (if existsb (fun t => beqb t b) targets && negb (beqb b (backend_of q)) then f b + or_zero (move_opt q b) else f b)%Z.

  Lemma move_costs_ok keys q : forall targets f, NoDup targets ->
    (moves_valid q targets -> move_costs beqb backend_of move_to_cost move_to_me_cost q targets (tab keys f) = Ok (tab keys (moves q targets f)))
    /\ (forall data, move_costs beqb backend_of move_to_cost move_to_me_cost q targets (tab keys f) = Ok data -> moves_valid q targets).
  Proof. induction targets as [|t targets IH]; intros f Nd; cbn [move_costs]; [split; [intros _; reflexivity|intros data _ b []]|].
    inversion Nd as [|? ? Nt Nd']; subst. rewrite move_step.
    destruct (beqb t (backend_of q)) eqn:Et.
    - cbn [rbind]. destruct (IH f Nd') as [I1 I2]. split.
      + intros V. rewrite I1 by (intros b Hb; apply V; now right). f_equal. apply tab_ext. intros b _. unfold moves. cbn.
        destruct (beqb t b) eqn:Eb; [|reflexivity]. apply beqb_ok in Eb. subst b. rewrite Et. cbn. now rewrite andb_false_r.
      + intros data Hd b [<-|Hb] Nb; [now apply beqb_ok in Et|]. eapply I2; eauto.
    - destruct (IH (add_at t (or_zero (move_opt q t)) f) Nd') as [I1 I2]. split.
      + intros V. rewrite add_opt_ok by (apply V; [now left|now apply beqb_neq]). cbn [rbind]. rewrite I1 by (intros b Hb; apply V; now right).
        f_equal. apply tab_ext. intros b _. unfold moves, add_at. cbn. destruct (beqb t b) eqn:Eb.
        * apply beqb_ok in Eb. subst b. rewrite Et, beqb_refl. cbn.
          assert (X : existsb (fun t0 => beqb t0 t) targets = false).
          { apply not_true_iff_false. intros X. apply existsb_exists in X as (y & Hy & Ey). apply beqb_ok in Ey. now subst y. }
          now rewrite X.
        * destruct (beqb b t) eqn:Eb2; [apply beqb_ok in Eb2; subst; now rewrite beqb_refl in Eb|]. reflexivity.
      + intros data Hd. destruct (add_opt beqb (tab keys f) t (move_opt q t)) as [d1|] eqn:E1; [|discriminate]. cbn [rbind] in Hd.
        pose proof (add_opt_inv _ _ _ _ E1) as V1. rewrite add_opt_ok in E1 by assumption. injection E1 as <-.
        intros b [<-|Hb] Nb; [assumption|]. eapply I2; eauto. Qed.

  Definition costs_valid (keys : list B) (q : Q) := valid_cost (stay_cost q) /\ moves_valid q keys.

  Lemma contribution_step keys q f : (forall b, In b keys -> 
    moves q keys (add_at (backend_of q) (or_zero (stay_cost q)) f) b = (f b + contribution b q)%Z).
  Proof. intros b Hb. unfold moves, add_at, CastSpec.contribution, move_opt.
    assert (X : existsb (fun t => beqb t b) keys = true) by (apply existsb_exists; exists b; split; auto using beqb_refl). rewrite X. cbn.
    destruct (beqb b (backend_of q)); cbn; [reflexivity|]. destruct (move_to_cost q b); reflexivity. Qed.

  Lemma all_costs_ok keys : NoDup keys -> forall qs f,
    (Forall (costs_valid keys) qs -> all_costs beqb backend_of stay_cost move_to_cost move_to_me_cost qs (tab keys f) = Ok (tab keys (fun b => (f b + total_cost b qs)%Z)))
    /\ (forall data, all_costs beqb backend_of stay_cost move_to_cost move_to_me_cost qs (tab keys f) = Ok data -> Forall (costs_valid keys) qs).
  Proof. intros Nd. induction qs as [|q qs IH]; intros f; cbn [all_costs].
    - split; [|constructor]. intros _. f_equal. apply tab_ext. intros; cbn; lia.
    - split.
      + intros V. inversion V as [|? ? [V1 V2] V3]; subst. rewrite add_opt_ok by assumption. cbn [rbind]. rewrite tab_fst.
        rewrite (proj1 (move_costs_ok keys q _ Nd)) by assumption. cbn [rbind].
        rewrite (tab_ext _ _ _ (contribution_step keys q f)). rewrite (proj1 (IH _)) by assumption. f_equal. apply tab_ext. intros b _. unfold CastSpec.total_cost. cbn [fold_right]. lia.
      + intros data Hd. destruct (add_opt beqb (tab keys f) (backend_of q) (stay_cost q)) as [d1|] eqn:E1; [|discriminate]. cbn [rbind] in Hd.
        pose proof (add_opt_inv _ _ _ _ E1) as V1. rewrite add_opt_ok in E1 by assumption. injection E1 as <-. rewrite tab_fst in Hd.
        destruct (move_costs _ _ _ _ q keys _) as [d2|] eqn:E2; [|discriminate]. cbn [rbind] in Hd.
        pose proof (proj2 (move_costs_ok keys q _ Nd) _ E2) as V2. rewrite (proj1 (move_costs_ok keys q _ Nd)) in E2 by assumption. injection E2 as <-.
        rewrite (tab_ext _ _ _ (contribution_step keys q f)) in Hd. constructor; [split; assumption|]. eapply (proj2 (IH _)); eauto. Qed.

  (** * The choice *)
  Definition eligible (skip : bool) (f : B -> Z) (b : B) : Prop := skip = true -> (f b <= max_cost b)%Z.
  Lemma skip_false skip f b : skip && (max_cost b <? f b)%Z = false <-> eligible skip f b.
  Proof. unfold eligible. destruct skip; cbn; [|easy]. destruct (Z.ltb_spec (max_cost b) (f b)); split; intros; try easy; try lia; specialize (H eq_refl); lia. Qed.

  Lemma min_backend_some skip f : forall keys pre m, first_cheapest f (eligible skip f) pre m ->
    exists b, min_backend max_cost skip (tab keys f) (Some (m, f m)) = Some (b, f b) /\ first_cheapest f (eligible skip f) (pre ++ keys) b.
  Proof. induction keys as [|k keys IH]; intros pre m Hm; [exists m; rewrite app_nil_r; auto|].
    cbn [tab map min_backend]. fold (tab keys f). destruct Hm as (Em & p1 & p2 & -> & Hp1 & Hp2).
    destruct (skip && (max_cost k <? f k)%Z) eqn:Es.
    - destruct (IH ((p1 ++ m :: p2) ++ [k]) m) as (b & E & Hb).
      { split; [assumption|]. exists p1, (p2 ++ [k]). split; [now rewrite <- app_assoc|]. split; [assumption|].
        intros c Hc Ec. apply in_app_iff in Hc as [Hc|[<-|[]]]; [auto|]. apply skip_false in Ec. congruence. }
      exists b. split; [exact E|]. now rewrite <- app_assoc in Hb.
    - apply skip_false in Es. destruct (Z.ltb_spec (f k) (f m)).
      + destruct (IH ((p1 ++ m :: p2) ++ [k]) k) as (b & E & Hb).
        { split; [assumption|]. exists (p1 ++ m :: p2), []. split; [reflexivity|]. split; [|easy].
          intros c Hc Ec. apply in_app_iff in Hc as [Hc|[<-|Hc]]; [specialize (Hp1 c Hc Ec); lia|lia|specialize (Hp2 c Hc Ec); lia]. }
        exists b. split; [exact E|]. now rewrite <- app_assoc in Hb.
      + destruct (IH ((p1 ++ m :: p2) ++ [k]) m) as (b & E & Hb).
        { split; [assumption|]. exists p1, (p2 ++ [k]). split; [now rewrite <- app_assoc|]. split; [assumption|].
          intros c Hc Ec. apply in_app_iff in Hc as [Hc|[<-|[]]]; [auto|lia]. }
        exists b. split; [exact E|]. now rewrite <- app_assoc in Hb. Qed.

  Lemma min_backend_none skip f : forall keys pre, (forall c, In c pre -> ~ eligible skip f c) ->
    match min_backend max_cost skip (tab keys f) None with
    | Some (b, c) => c = f b /\ first_cheapest f (eligible skip f) (pre ++ keys) b
    | None => forall c, In c (pre ++ keys) -> ~ eligible skip f c
    end.
  Proof. induction keys as [|k keys IH]; intros pre Hp; [cbn; now rewrite app_nil_r|]. cbn [tab map min_backend]. fold (tab keys f).
    destruct (skip && (max_cost k <? f k)%Z) eqn:Es.
    - specialize (IH (pre ++ [k])). rewrite <- app_assoc in IH. apply IH. intros c Hc. apply in_app_iff in Hc as [Hc|[<-|[]]]; [auto|].
      intros Ec. apply skip_false in Ec. congruence.
    - apply skip_false in Es. destruct (@min_backend_some skip f keys (pre ++ [k]) k) as (b & -> & Hb).
      { split; [assumption|]. exists pre, []. split; [reflexivity|]. split; [|easy]. intros c Hc Ec. exfalso. exact (Hp c Hc Ec). }
      split; [reflexivity|]. now rewrite <- app_assoc in Hb. Qed.

  Lemma calculate_ok switchable preop all qs : 2 <= length qs ->
    let keys := candidates switchable preop all qs in
    let cost := fun b => total_cost b qs in
    (Forall (costs_valid keys) qs ->
      exists b, calculate beqb backend_of stay_cost move_to_cost move_to_me_cost max_cost switchable preop all qs = Ok b
        /\ (first_cheapest cost (fun c => (cost c <= max_cost c)%Z) keys b
            \/ (forall c, In c keys -> (max_cost c < cost c)%Z) /\ first_cheapest cost (fun _ => True) keys b))
    /\ (~ Forall (costs_valid keys) qs ->
          exists e, calculate beqb backend_of stay_cost move_to_cost move_to_me_cost max_cost switchable preop all qs = Err e).
  Proof. intros Hl keys cost. assert (Nd : NoDup keys) by apply firsts_NoDup.
    assert (Kn : keys <> []).
    { destruct qs as [|q qs]; [cbn in Hl; lia|]. discriminate. }
    assert (Hq : calculate beqb backend_of stay_cost move_to_cost move_to_me_cost max_cost switchable preop all qs
      = do data <- all_costs beqb backend_of stay_cost move_to_cost move_to_me_cost qs (tab keys (fun _ => 0%Z));
        match min_backend max_cost true data None with
        | Some (b, _) => Ok b
        | None => match min_backend max_cost false data None with Some (b, _) => Ok b | None => Err ValueError end
        end).
    { unfold calculate. rewrite new_calculator_ok. destruct qs as [|q1 [|q2 qs]]; cbn in Hl; try lia. reflexivity. }
    rewrite Hq. destruct (all_costs_ok Nd qs (fun _ => 0%Z)) as [A1 A2]. split.
    - intros V. rewrite A1 by assumption. cbn [rbind]. rewrite (@tab_ext keys _ cost) by (intros; reflexivity).
      pose proof (@min_backend_none true cost keys [] ltac:(easy)) as M1. pose proof (@min_backend_none false cost keys [] ltac:(easy)) as M2.
      cbn [app] in *. destruct (min_backend max_cost true (tab keys cost) None) as [[b c]|].
      + exists b. split; [reflexivity|]. left. destruct M1 as [_ (E & p1 & p2 & Hk & F1 & F2)]. split; [now apply E|].
        exists p1, p2. split; [assumption|]. split; intros; [apply F1|apply F2]; auto; intros _; assumption.
      + destruct (min_backend max_cost false (tab keys cost) None) as [[b c]|].
        * exists b. split; [reflexivity|]. right. split.
          -- intros c' Hc'. specialize (M1 c' Hc'). destruct (Z.ltb_spec (max_cost c') (cost c')); [assumption|]. exfalso. apply M1. now intros _.
          -- destruct M2 as [_ (E & p1 & p2 & Hk & F1 & F2)]. split; [trivial|]. exists p1, p2. split; [assumption|].
             split; intros; [apply F1|apply F2]; auto; intros X; discriminate.
        * exfalso. destruct keys as [|k ks]; [easy|]. apply (M2 k); [now left|]. intros X; discriminate.
    - intros Nv. destruct (all_costs _ _ _ _ _ qs _) as [d|e] eqn:E; [exfalso; apply Nv; eapply A2; eauto|]. cbn. eauto. Qed.

  (** * The automatic switch *)
  Definition delta (q : Q) (b : B) : option Z :=
    if beqb b (backend_of q) then None
    else match move_to_cost q b, stay_cost q, move_to_me_cost b q with
         | Some mv, Some st, Some ex => Some (if (1000 <=? st)%Z then (ex - st)%Z else (mv + ex - st)%Z)
         | _, _, _ => None
         end.
  Definition dcost (q : Q) (b : B) : Z := or_zero (delta q b).
  Definition gains (q : Q) (b : B) : Prop := (dcost q b < 0)%Z.
  Lemma auto_loop_ok q : forall targets pre best least,
    match least with
    | None => best = backend_of q /\ forall c, In c pre -> ~ gains q c
    | Some m => m = dcost q best /\ first_cheapest (dcost q) (gains q) pre best
    end ->
    let r := auto_switch_loop beqb backend_of stay_cost move_to_cost move_to_me_cost q targets best least in
    (r = backend_of q /\ forall c, In c (pre ++ targets) -> ~ gains q c) \/ first_cheapest (dcost q) (gains q) (pre ++ targets) r.
  Proof. induction targets as [|b targets IH]; intros pre best least Inv; cbv zeta.
    - cbn. rewrite app_nil_r. destruct least as [m|]; [right; apply Inv|left; exact Inv].
    - assert (Skip : ~ gains q b ->
        (auto_switch_loop beqb backend_of stay_cost move_to_cost move_to_me_cost q targets best least = backend_of q /\ (forall c, In c (pre ++ b :: targets) -> ~ gains q c))
        \/ first_cheapest (dcost q) (gains q) (pre ++ b :: targets) (auto_switch_loop beqb backend_of stay_cost move_to_cost move_to_me_cost q targets best least)).
      { intros Hg. specialize (IH (pre ++ [b]) best least). rewrite <- app_assoc in IH. apply IH. destruct least as [m|].
        - destruct Inv as [Em (Gb & p1 & p2 & -> & F1 & F2)]. split; [assumption|]. split; [assumption|]. exists p1, (p2 ++ [b]).
          split; [now rewrite <- app_assoc|]. split; [assumption|]. intros c Hc Gc. apply in_app_iff in Hc as [Hc|[<-|[]]]; [auto|contradiction].
        - destruct Inv as [Eb Hp]. split; [assumption|]. intros c Hc. apply in_app_iff in Hc as [Hc|[<-|[]]]; auto. }
      assert (Skip2 : gains q b -> (match least with None => True | Some m => (m <= dcost q b)%Z end) -> least <> None ->
        (auto_switch_loop beqb backend_of stay_cost move_to_cost move_to_me_cost q targets best least = backend_of q /\ (forall c, In c (pre ++ b :: targets) -> ~ gains q c))
        \/ first_cheapest (dcost q) (gains q) (pre ++ b :: targets) (auto_switch_loop beqb backend_of stay_cost move_to_cost move_to_me_cost q targets best least)).
      { intros Hg Hle Hn. destruct least as [m|]; [|easy]. specialize (IH (pre ++ [b]) best (Some m)). rewrite <- app_assoc in IH. apply IH.
        destruct Inv as [Em (Gb & p1 & p2 & -> & F1 & F2)]. split; [assumption|]. split; [assumption|]. exists p1, (p2 ++ [b]).
        split; [now rewrite <- app_assoc|]. split; [assumption|]. intros c Hc Gc. apply in_app_iff in Hc as [Hc|[<-|[]]]; [auto|lia]. }
      assert (Take : gains q b -> (match least with None => True | Some m => (dcost q b < m)%Z end) ->
        (auto_switch_loop beqb backend_of stay_cost move_to_cost move_to_me_cost q targets b (Some (dcost q b)) = backend_of q /\ (forall c, In c (pre ++ b :: targets) -> ~ gains q c))
        \/ first_cheapest (dcost q) (gains q) (pre ++ b :: targets) (auto_switch_loop beqb backend_of stay_cost move_to_cost move_to_me_cost q targets b (Some (dcost q b)))).
      { intros Hg Hlt. specialize (IH (pre ++ [b]) b (Some (dcost q b))). rewrite <- app_assoc in IH. apply IH. split; [reflexivity|].
        split; [assumption|]. exists pre, []. split; [reflexivity|]. split; [|easy]. intros c Hc Gc. destruct least as [m|].
        - destruct Inv as [Em (Gb & p1 & p2 & -> & F1 & F2)]. subst m. apply in_app_iff in Hc as [Hc|[<-|Hc]]; [specialize (F1 c Hc Gc); lia|lia|specialize (F2 c Hc Gc); lia].
        - exfalso. exact (proj2 Inv c Hc Gc). }
      assert (Dd : dcost q b = or_zero (delta q b)) by reflexivity. unfold delta in Dd. assert (Gd : gains q b <-> (dcost q b < 0)%Z) by reflexivity.
      cbn [auto_switch_loop].
      destruct (beqb b (backend_of q)); [apply Skip; rewrite Gd, Dd; cbn; lia|].
      destruct (move_to_cost q b) as [mv|]; [|apply Skip; rewrite Gd, Dd; cbn; lia].
      destruct (stay_cost q) as [st|]; [|apply Skip; rewrite Gd, Dd; cbn; lia].
      destruct (move_to_me_cost b q) as [ex|]; [|apply Skip; rewrite Gd, Dd; cbn; lia]. cbn [or_zero] in Dd. cbv zeta.
      rewrite <- Dd.
      destruct (Z.ltb_spec (dcost q b) 0) as [Lt|Ge]; cbn [andb].
      + destruct least as [m|]; [destruct (Z.ltb_spec (dcost q b) m)|]; [apply Take; auto; lia|apply Skip2; auto; discriminate|apply Take; auto].
      + apply Skip. rewrite Gd. lia. Qed.
End Calculator.
