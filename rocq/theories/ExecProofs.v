From Verif Require Import Base ExecModel.

Lemma exec_eqb_ok x y : exec_eqb x y = true <-> x = y.
Proof. destruct x, y. unfold exec_eqb. cbn. rewrite andb_true_iff, !Nat.eqb_eq. split; [intros [-> ->]; auto|now intros [= -> ->]]. Qed.

(** The registry is a partial bijection. *)
Definition bij (t : list (nat * (nat * nat))) : Prop := NoDup (map fst t) /\ NoDup (map snd t).
Lemma b2e_in t b x : b2e t b = Some x -> In (b, x) t.
Proof. unfold b2e. destruct (find _ t) as [[b' x']|] eqn:E; [|discriminate]. intros [= <-]. apply find_some in E as [I E]. cbn in *. apply Nat.eqb_eq in E. now subst. Qed.
Lemma e2b_in t b x : e2b t x = Some b -> In (b, x) t.
Proof. unfold e2b. destruct (find _ t) as [[b' x']|] eqn:E; [|discriminate]. intros [= <-]. apply find_some in E as [I E]. cbn in *. apply exec_eqb_ok in E. now subst. Qed.
Lemma in_b2e t b x : NoDup (map fst t) -> In (b, x) t -> b2e t b = Some x.
Proof. unfold b2e. induction t as [|[b' x'] t IH]; cbn; intros ND []; inversion ND; subst.
  - injection H as -> ->. now rewrite Nat.eqb_refl.
  - destruct (Nat.eqb_spec b' b) as [->|]; [|auto]. exfalso. apply H2. apply in_map_iff. exists (b, x). auto. Qed.
Lemma in_e2b t b x : NoDup (map snd t) -> In (b, x) t -> e2b t x = Some b.
Proof. unfold e2b. induction t as [|[b' x'] t IH]; cbn; intros ND []; inversion ND; subst.
  - injection H as -> ->. now rewrite (proj2 (exec_eqb_ok x x) eq_refl).
  - destruct (exec_eqb x' x) eqn:E; [|auto]. apply exec_eqb_ok in E. subst. exfalso. apply H2. apply in_map_iff. exists (b, x). auto. Qed.
Lemma e2b_b2e t b x : bij t -> e2b t x = Some b -> b2e t b = Some x.
Proof. intros [N _] E. apply in_b2e; auto. now apply e2b_in. Qed.
Lemma b2e_e2b t b x : bij t -> b2e t b = Some x -> e2b t x = Some b.
Proof. intros [_ N] E. apply in_e2b; auto. now apply b2e_in. Qed.

Lemma NoDup_snoc A (l : list A) x : NoDup l -> ~ In x l -> NoDup (l ++ [x]).
Proof. induction l as [|y l IH]; cbn; intros N I; [constructor; [intros []|constructor]|]. inversion N; subst. constructor; [|apply IH; auto].
  rewrite in_app_iff. cbn. intros [?|[->|[]]]; auto. Qed.

Section Exec.
  Variable en : env.
  (** The environment is usable: not both kinds of variables set; a backend named there is registered
      with execution [x0] and stays active. *)
  Variable x0 : nat * nat.
  Hypothesis usable : from_config en (Some 0) = Ok (Some 0).

  Lemma cfg_ok v : from_config en v = Ok v.
  Proof. unfold from_config in *. destruct (env_b en), (env_e en), (env_s en); try discriminate; reflexivity. Qed.

  Definition env_live (s : est) : Prop :=
    forall b, env_b en = Some b -> b2e (table s) b = Some x0 /\ existsb (Nat.eqb b) (choices s) = true.
  Definition e_init : res nat :=
    match env_e en, env_b en with Some e, _ => Ok e | None, Some _ => Ok (snd x0) | None, None => def_e en end.
  Definition s_init : nat :=
    match env_s en, env_b en with Some f, _ => f | None, Some _ => fst x0 | None, None => def_s en end.
  (** the engine (storage format) in force *)
  Definition e_now (s : est) : res nat := match e_val s with Some e => Ok e | None => e_init end.
  Definition s_now (s : est) : nat := match s_val s with Some f => f | None => s_init end.

  Definition inv (s : est) : Prop :=
    bij (table s) /\ env_live s
    /\ match b_val s, env_b en with
       | Some b, _ | None, Some b => exists e, e_now s = Ok e /\ b2e (table s) b = Some (s_now s, e)
       | None, None => True
       end.

  Lemma engine_get_eq s : env_live s ->
    engine_get en s = match e_now s with Ok e => (Ok e, match e_val s with Some _ => s | None => set_e e s end) | Err x => (Err x, s) end.
  Proof. intros Lv. unfold engine_get, e_now. destruct (e_val s); [reflexivity|]. rewrite !cfg_ok. cbn [rbind]. unfold e_init.
    destruct (env_e en); [reflexivity|]. destruct (env_b en) as [b|] eqn:E; [|now destruct (def_e en)].
    destruct (Lv b E) as [B C]. unfold get_execution_for_backend. rewrite C, B. reflexivity. Qed.
  Lemma sf_get_eq s : env_live s ->
    sf_get en s = (Ok (s_now s), match s_val s with Some _ => s | None => set_s (s_now s) s end).
  Proof. intros Lv. unfold sf_get, s_now. destruct (s_val s); [reflexivity|]. rewrite !cfg_ok. cbn [rbind]. unfold s_init.
    destruct (env_s en); [reflexivity|]. destruct (env_b en) as [b|] eqn:E; [|reflexivity].
    destruct (Lv b E) as [B C]. unfold get_execution_for_backend. rewrite C, B. reflexivity. Qed.

  (** what reading does to the state: the same tables, the same values in force *)
  Definition same (s s' : est) : Prop :=
    table s' = table s /\ choices s' = choices s /\ e_now s' = e_now s /\ s_now s' = s_now s /\ b_val s' = b_val s.
  Lemma same_inv s s' : same s s' -> inv s -> inv s'.
  Proof. intros (T & C & E & F & B) (I1 & I2 & I3). unfold inv, env_live in *. rewrite T, C, E, F, B. auto. Qed.
  Lemma engine_same s : env_live s -> same s (snd (engine_get en s)).
  Proof. intros Lv. rewrite engine_get_eq by assumption. destruct (e_now s) eqn:E; cbn; [|repeat split].
    destruct (e_val s) eqn:Ev; repeat split; cbn. unfold e_now in *. cbn. now rewrite Ev in E |- *. Qed.
  Lemma sf_same s : env_live s -> same s (snd (sf_get en s)).
  Proof. intros Lv. rewrite sf_get_eq by assumption. cbn. destruct (s_val s) eqn:Ev; repeat split; cbn. Qed.
  Lemma same_live s s' : same s s' -> env_live s -> env_live s'.
  Proof. intros (T & C & _) Lv. unfold env_live. now rewrite T, C. Qed.

  Lemma e_now_set e s : e_now (set_e e s) = Ok e. Proof. reflexivity. Qed.
  Lemma s_now_set e s : s_now (set_s e s) = e. Proof. reflexivity. Qed.

  Lemma backend_get_inv s : inv s -> inv (snd (backend_get en s)) /\
    forall b, fst (backend_get en s) = Ok b -> exists e, e_now s = Ok e /\ b2e (table s) b = Some (s_now s, e).
  Proof. intros I. pose proof I as (I1 & Lv & I3). unfold backend_get. destruct (b_val s) as [b|] eqn:Eb.
    { split; [exact I|]. intros ? [= <-]. exact I3. }
    rewrite cfg_ok. destruct (env_b en) as [b|] eqn:En; cbn [fst snd].
    { split; [|intros ? [= <-]; exact I3]. unfold inv, set_b, env_live, e_now, s_now in *. cbn. auto. }
    rewrite sf_get_eq by assumption. set (s1 := match s_val s with Some _ => s | None => set_s (s_now s) s end).
    assert (S1 : same s s1) by (pose proof (sf_same Lv) as X; now rewrite sf_get_eq in X by assumption).
    pose proof (same_live S1 Lv) as Lv1. pose proof (engine_same Lv1) as S2. destruct (engine_get en s1) as [r s2] eqn:G. cbn in S2.
    assert (I' : inv s2) by (eapply same_inv; [exact S2|]; eapply same_inv; eauto).
    destruct S1 as (T1 & C1 & E1 & F1 & B1). destruct S2 as (T2 & C2 & E2 & F2 & B2).
    rewrite engine_get_eq in G by assumption. rewrite E1 in G.
    destruct (e_now s) as [e|x] eqn:En2; injection G as <- Hs2; [|split; [exact I'|discriminate]].
    unfold get_backend_for_execution. destruct (e2b (table s2) (s_now s, e)) as [b|] eqn:Eq; [|split; [exact I'|discriminate]]. cbn [fst snd].
    destruct I' as (J1 & J2 & _). apply e2b_b2e in Eq; [|exact J1].
    split; [|intros ? [= <-]; exists e; rewrite <- T1, <- T2; auto].
    unfold inv. cbn [b_val set_b table]. split; [exact J1|]. split; [exact J2|]. exists e. unfold e_now, s_now in *. cbn. rewrite E2, F2, E1, F1. auto. Qed.

  Lemma set_execution_inv s e f b : inv s -> b2e (table s) b = Some (f, e) ->
    inv (snd (set_execution en (Some e) (Some f) s)).
  Proof. intros I Hb. pose proof I as (I1 & Lv & _). unfold set_execution, put_nocb.
    rewrite engine_get_eq by assumption. destruct (e_now s) as [e'|x]; [|exact I].
    set (s1 := match e_val s with Some _ => s | None => set_e e' s end).
    assert (Lv1 : env_live (set_e e s1)) by (unfold s1; destruct (e_val s); exact Lv).
    rewrite sf_get_eq by assumption.
    set (s2 := match s_val (set_e e s1) with Some _ => set_e e s1 | None => set_s (s_now (set_e e s1)) (set_e e s1) end).
    set (s3 := set_s f s2).
    assert (T3 : table s3 = table s) by (unfold s3, s2, s1; destruct (e_val s); cbn; destruct (s_val s); reflexivity).
    assert (E3 : e_val s3 = Some e) by (unfold s3, s2; cbn; destruct (s_val s1); reflexivity).
    assert (F3 : s_val s3 = Some f) by reflexivity.
    assert (Lv3 : env_live s3) by (unfold s3, s2; cbn; destruct (s_val s1); exact Lv1).
    assert (B3 : b_val s3 = b_val s) by (unfold s3, s2, s1; destruct (e_val s); cbn; destruct (s_val s); reflexivity).
    clearbody s3. clear s1 s2 Lv1.
    (* the backend read cannot fail here, and keeps everything *)
    assert (G : exists b' s4, backend_get en s3 = (Ok b', s4) /\ table s4 = table s /\ e_val s4 = Some e /\ s_val s4 = Some f /\ env_live s4 /\ b_val s4 = Some b').
    { unfold backend_get. destruct (b_val s3) as [b'|] eqn:Eb; [exists b', s3; auto 10|]. rewrite cfg_ok.
      destruct (env_b en) as [b'|]; [exists b', (set_b b' s3); cbn; auto 10|].
      rewrite sf_get_eq by assumption. rewrite F3. rewrite engine_get_eq by assumption. unfold e_now, s_now. rewrite E3, F3.
      unfold get_backend_for_execution. rewrite T3, (@b2e_e2b _ _ _ I1 Hb). exists b, (set_b b s3). cbn. auto 10. }
    destruct G as (b' & s4 & -> & T4 & E4 & F4 & Lv4 & B4).
    rewrite engine_get_eq by assumption. unfold e_now. rewrite E4. rewrite sf_get_eq by assumption. unfold s_now. rewrite F4.
    unfold get_backend_for_execution. rewrite T4, (@b2e_e2b _ _ _ I1 Hb). unfold backend_get. rewrite B4. cbn [snd].
    split; [cbn; now rewrite T4|]. split; [exact Lv4|]. cbn [b_val set_b table]. exists e. unfold e_now, s_now. cbn. rewrite E4, F4, T4. auto. Qed.

  Lemma backend_put_inv s b : inv s -> inv (snd (backend_put en b s)).
  Proof. intros I. unfold backend_put, get_execution_for_backend. destruct (negb _); [exact I|].
    destruct (b2e (table s) b) as [[f e]|] eqn:E; [|exact I]. eapply set_execution_inv; eauto. Qed.

  (** [SetActive] must keep the backend named in the environment. *)
  Definition keeps_env (o : eop) : Prop :=
    match o with SetActive bs => forall b, env_b en = Some b -> In b bs | _ => True end.

  Lemma b2e_snoc t b x b' : existsb (fun r : nat * (nat * nat) => fst r =? b) t = false ->
    forall y, b2e t b' = Some y -> b2e (t ++ [(b, x)]) b' = Some y.
  Proof. intros N y. unfold b2e. induction t as [|[c z] t IH]; cbn in *; [discriminate|]. apply orb_false_iff in N as [N1 N2].
    destruct (c =? b'); [auto|]. now apply IH. Qed.

  Lemma estep_inv s o : inv s -> keeps_env o -> inv (estep en s o).
  Proof. intros I K. pose proof I as (I1 & Lv & I3). destruct o as [| | |e|f|b|b x|bs|b]; cbn [estep].
    - eapply same_inv; [now apply engine_same|exact I].
    - eapply same_inv; [now apply sf_same|exact I].
    - now apply backend_get_inv.
    - unfold engine_put. pose proof (sf_same Lv) as S. destruct (sf_get en s) as [[f|x] s1]; cbn [snd] in *; [|eapply same_inv; eauto].
      assert (J : inv s1) by (eapply same_inv; eauto). destruct (get_backend_for_execution (f, e) s1); [|exact J]. now apply backend_put_inv.
    - unfold sf_put. pose proof (engine_same Lv) as S. destruct (engine_get en s) as [[e|x] s1]; cbn [snd] in *; [|eapply same_inv; eauto].
      assert (J : inv s1) by (eapply same_inv; eauto). destruct (get_backend_for_execution (f, e) s1); [|exact J]. now apply backend_put_inv.
    - now apply backend_put_inv.
    - unfold register. set (cs := if existsb (Nat.eqb b) (choices s) then choices s else choices s ++ [b]).
      assert (CS : forall c, existsb (Nat.eqb c) (choices s) = true -> existsb (Nat.eqb c) cs = true).
      { intros c Hc. unfold cs. destruct (existsb (Nat.eqb b) (choices s)); [exact Hc|]. now rewrite existsb_app, Hc. }
      cbn [table choices e_val s_val b_val].
      assert (J : inv (mkest (e_val s) (s_val s) (b_val s) (table s) cs)).
      { split; [exact I1|]. split; [|exact I3]. intros c Ec. cbn. destruct (Lv c Ec). auto. }
      destruct (existsb (fun r => fst r =? b) (table s)) eqn:Nb; [exact J|].
      destruct (existsb (fun r => exec_eqb (snd r) x) (table s)) eqn:Nx; [exact J|]. cbn [snd].
      split; [|split]; cbn [table choices b_val].
      + destruct I1 as [D1 D2]. split; rewrite map_app; cbn [map fst snd]; apply NoDup_snoc; auto; intros Hin; apply in_map_iff in Hin as ([b' x'] & Hq & Hin); cbn in Hq; subst.
        * apply Bool.not_true_iff_false in Nb. apply Nb. apply existsb_exists. exists (b, x'). split; [exact Hin|apply Nat.eqb_refl].
        * apply Bool.not_true_iff_false in Nx. apply Nx. apply existsb_exists. exists (b', x). split; [exact Hin|now apply exec_eqb_ok].
      + intros c Ec. destruct (Lv c Ec) as [X Y]. split; [now apply b2e_snoc|auto].
      + unfold e_now, s_now in *. cbn [e_val s_val]. destruct (b_val s) as [b'|]; [|destruct (env_b en) as [b'|]; [|exact Logic.I]];
          destruct I3 as (e & X & Y); exists e; (split; [exact X|now apply b2e_snoc]).
    - unfold set_active. destruct (forallb _ bs); [|exact I]. cbn [snd]. split; [exact I1|]. split; [|exact I3].
      intros c Ec. cbn. destruct (Lv c Ec) as [X Y]. split; [exact X|]. apply existsb_exists. exists c. split; [now apply K|apply Nat.eqb_refl].
    - unfold activate. destruct (existsb _ (table s)); [|exact I]. cbn [snd]. split; [exact I1|]. split; [|exact I3].
      intros c Ec. cbn. destruct (Lv c Ec) as [X Y]. split; [exact X|]. now rewrite existsb_app, Y. Qed.
End Exec.
