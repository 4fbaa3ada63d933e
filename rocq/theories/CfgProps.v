(** Theorems about the configuration variables. *)
From Coq Require Import String ZArith.
From Verif Require Import Base CfgSpec CfgModel CfgProofs ExecModel ExecProofs TextModel.
Local Open Scope nat_scope.

(** * C27: reads see the last write *)
Section C27.
  Context {V : Type} (d : desc V) (veqb : V -> V -> bool).
  Hypothesis veqb_ok : forall x y, veqb x y = true <-> x = y.

  (** Partial: for the variables whose own checks are coherent (all but NPartitions and CpuCount, see
      [C27_npartitions_refuted]).  After any history of gets, puts, subscriptions and once-subscriptions, a read returns the
      last accepted value in canonical form, otherwise the environment or default value [v0]. *)
  Theorem C27_read_last_write_partial v0 history : coherent d v0 ->
    fst (get d (run d veqb history fresh)) = Ok (current d v0 history).
  Proof. intros C. destruct (@run_get _ d veqb v0 C history) as (s' & ->). reflexivity. Qed.

  (** ... and the reported source says which of the three it was. *)
  Theorem C27_source v0 history : coherent d v0 ->
    fst (get_value_source d (run d veqb history fresh)) = Ok (source_of d (last_put d history)).
  Proof. intros C. destruct (@run_source _ d veqb v0 C history) as (s' & ->). reflexivity. Qed.

  (** A value the variable does not accept is refused and changes nothing. *)
  Theorem C27_rejected s v : acceptable d v = false -> put d veqb v s = (Err ValueError, s).
  Proof. apply put_rejected. Qed.

  (** A malformed environment value is reported by every read and every write; nothing is stored. *)
  Theorem C27_malformed_environment e history : environ d = Err e ->
    fst (get d (run d veqb history fresh)) = Err e
    /\ forall v, acceptable d v = true -> fst (put d veqb v (run d veqb history fresh)) = Err e.
  Proof.
    intros E. assert (X : forall h s, val s = None -> val (run d veqb h s) = None).
    { induction h as [|o h IH]; intros s N; [exact N|]. unfold run in *. cbn [fold_left]. apply IH.
      assert (G : get d s = (Err e, s)) by (unfold get, base_get; now rewrite N, E).
      destruct o as [|w|c|w c]; cbn [step].
      - now rewrite G.
      - unfold put, put_nocallback. rewrite G. destruct (negb (put_ok d w)); [exact N|]. destruct (negb (verify d w)); exact N.
      - exact N.
      - unfold do_once. now rewrite G. }
    specialize (X history fresh eq_refl).
    assert (G : get d (run d veqb history fresh) = (Err e, run d veqb history fresh)) by (unfold get, base_get; now rewrite X, E).
    split; [now rewrite G|]. intros v A. apply andb_true_iff in A as [A1 A2]. unfold put, put_nocallback. rewrite A1, A2, G. reflexivity.
  Qed.
End C27.
Print Assumptions C27_read_last_write_partial.
Print Assumptions C27_source.
Print Assumptions C27_rejected.
Print Assumptions C27_malformed_environment.

(** * C28: notifications *)
Section C28.
  Context {V : Type} (d : desc V) (veqb : V -> V -> bool).
  Hypothesis veqb_ok : forall x y, veqb x y = true <-> x = y.

  (** A subscriber is called once at subscription and then once per change of the value,
      whatever other calls happen before and after. *)
  Theorem C28_subscriber v0 c before after : coherent d v0 -> unused c before -> unused c after ->
    count c (calls (run d veqb (before ++ Subscribe c :: after) fresh))
    = 1 + changes d veqb (current d v0 before) after.
  Proof. intros C. now apply subscriber_count. Qed.

  (** A once-callback is called exactly once if its value is current at registration or becomes so
      later, never otherwise, and at the time of the call that value is the current one. *)
  Theorem C28_once v0 c w before after : coherent d v0 -> unused c before -> unused c after ->
    let s := run d veqb (before ++ Once w c :: after) fresh in
    count c (calls s) = (if reached d veqb (norm d w) (current d v0 before) after then 1 else 0)
    /\ (forall e, In e (calls s) -> fst e = c -> snd e = Some (norm d w)).
  Proof. intros C. now apply once_count. Qed.
End C28.
Print Assumptions C28_subscriber.
Print Assumptions C28_once.

(** * C29: contexts *)
Section C29.
  Context {V : Type} (descs : nat -> desc V) (veqb : V -> V -> bool).

  (** If the context is entered, then after the block - whatever the body did, whether or not it
      raised - every mentioned variable reads as on entry, every other one is as the body left it,
      and the body's outcome is passed on.  Missing from the English property (and false): failing
      entry, and values the variable itself would not accept.  See [C29_failed_entry_refuted] and
      [C29_none_default_refuted]. *)
  Theorem C29_context_partial config body sto olds sto1 result sto2 :
    NoDup (map fst config) ->
    enter descs veqb config sto = (Ok olds, sto1) ->
    body sto1 = (result, sto2) ->
    (forall n v, In (n, v) config -> exists x, fst (get (descs n) (sto2 n)) = Ok x) ->
    (forall n v o, In (n, v) config -> fst (get (descs n) (sto n)) = Ok o -> stable (descs n) o) ->
    exists sto3, with_context descs veqb config body sto = (result, sto3)
      /\ (forall n v, In (n, v) config -> fst (get (descs n) (sto3 n)) = fst (get (descs n) (sto n)))
      /\ (forall m, ~ In m (map fst config) -> sto3 m = sto2 m).
  Proof.
    intros ND E B R S. destruct (enter_ok _ _ _ _ ND E) as (E1 & E2 & E3).
    assert (M : forall n o, In (n, o) olds -> exists v, In (n, v) config).
    { intros n o I. assert (X : In n (map fst config)) by (rewrite <- E1; apply in_map_iff; exists (n, o); auto).
      apply in_map_iff in X as ([n' v] & <- & X). exists v. exact X. }
    destruct (@restore_ok _ descs veqb olds sto2) as (sto3 & R1 & R2 & R3).
    - now rewrite E1.
    - intros n o I. destruct (M n o I) as [v Iv]. split; [|eauto]. eapply S; eauto.
    - exists sto3. unfold with_context. rewrite E, B, R1. split; [reflexivity|]. split.
      + intros n v I. assert (X : In n (map fst olds)) by (rewrite E1; apply in_map_iff; exists (n, v); auto).
        apply in_map_iff in X as ([n' o] & Hn & X). cbn in Hn. subst n'. destruct (R2 _ _ X) as [_ ->]. symmetry. now apply E2.
      + intros m N. apply R3. now rewrite E1.
  Qed.

  (** A context that cannot be entered does not run its body, and its exception is the user's. *)
  Theorem C29_failed_entry config body sto e sto1 : enter descs veqb config sto = (Err e, sto1) ->
    with_context descs veqb config body sto = (Err e, sto1).
  Proof. intros E. unfold with_context. now rewrite E. Qed.
End C29.
Print Assumptions C29_context_partial.
Print Assumptions C29_failed_entry.

(** * C43: the same text in the environment and in [put] *)
(** For string and integer variables a text means the same, whichever way it is given. *)
Theorem C43_text_partial ty t : ty <> TBool -> from_put ty t = from_environment ty t.
Proof. apply text_meaning. Qed.
Print Assumptions C43_text_partial.

(** * C44: Backend agrees with Engine and StorageFormat *)
(** In a process whose environment does not set both MODIN_BACKEND and MODIN_ENGINE or
    MODIN_STORAGE_FORMAT, and whose environment backend (if any) stays active, after any history of
    reads, writes (including failing ones), registrations and activations: whenever the three
    variables can all be read, the backend is the one registered for exactly that pair. *)
Theorem C44_backend_agrees en history b f e :
  from_config en (Some 0) = Ok (Some 0) ->
  (forall b, env_b en = Some b -> In b [0;1;2;3;4]) ->
  Forall (keeps_env en) history ->
  let s0 := erun en history builtin in
  let '(rb, s1) := backend_get en s0 in
  let '(rf, s2) := sf_get en s1 in
  let '(re, s3) := engine_get en s2 in
  rb = Ok b -> rf = Ok f -> re = Ok e -> b2e (table s3) b = Some (f, e).
Proof.
  intros U L K s0.
  set (x0 := match env_b en with Some b => match b2e (table builtin) b with Some x => x | None => (0, 0) end | None => (0, 0) end).
  assert (I0 : inv en x0 builtin).
  { assert (Bj : bij (table builtin)) by (split; repeat constructor; cbn; intuition congruence).
    assert (Lv : env_live en x0 builtin).
    { intros c Ec. unfold x0. rewrite Ec. destruct (L c Ec) as [<-|[<-|[<-|[<-|[<-|[]]]]]]; split; reflexivity. }
    split; [exact Bj|]. split; [exact Lv|]. cbn [b_val builtin]. destruct (env_b en) as [c|] eqn:Ec; [|exact Logic.I].
    destruct (Lv c Ec) as [Hb _]. exists (snd x0). rewrite Hb. unfold e_now, s_now, e_init, s_init. cbn [e_val s_val builtin]. rewrite Ec.
    unfold from_config in U. rewrite Ec in U. destruct (env_e en); [discriminate|]. destruct (env_s en); [discriminate|]. split; [reflexivity|].
    now destruct x0. }
  assert (I : inv en x0 s0).
  { unfold s0, erun. revert K I0. generalize builtin. induction history as [|o h IH]; intros s K I0; [exact I0|].
    cbn [fold_left]. inversion K; subst. apply IH; [assumption|]. apply estep_inv; assumption. }
  clearbody s0. clear I0 L K.
  destruct (@backend_get_inv en x0 U s0 I) as [I1 G]. destruct (backend_get en s0) as [rb s1] eqn:Gb. cbn [fst snd] in *.
  pose proof I1 as (J1 & Lv & J3).
  assert (B1 : forall b, rb = Ok b -> b_val s1 = Some b).
  { intros b' ->. revert Gb. unfold backend_get. destruct (b_val s0) eqn:Eb; [now intros [= -> <-]|]. destruct (from_config en (env_b en)) as [[b2|]|]; [now intros [= -> <-]| |discriminate].
    destruct (sf_get en s0) as [[f'|] s']; [|discriminate]. destruct (engine_get en s') as [[e'|] s'']; [|discriminate].
    destruct (get_backend_for_execution _ s''); [now intros [= -> <-]|discriminate]. }
  pose proof (@sf_same en x0 U s1 Lv) as S2. rewrite (@sf_get_eq en x0 U s1 Lv) in *. cbn [snd] in S2.
  set (s2 := match s_val s1 with Some _ => s1 | None => set_s (s_now en x0 s1) s1 end) in *.
  pose proof (same_live S2 Lv) as Lv2. pose proof (@engine_same en x0 U s2 Lv2) as S3. rewrite (@engine_get_eq en x0 U s2 Lv2) in *.
  destruct S2 as (T2 & _ & E2 & F2 & _). destruct (e_now en x0 s2) as [e'|] eqn:En; cbn [snd] in S3; [|discriminate].
  destruct S3 as (T3 & _). intros Hb [= <-] [= <-]. rewrite (B1 _ Hb) in J3. destruct J3 as (e2 & Q1 & Q2).
  rewrite T3, T2. rewrite <- E2 in Q1. congruence.
Qed.
Print Assumptions C44_backend_agrees.

(** * What does not hold *)
Section Refuted.
  (** envvars.py [NPartitions] 837-883 (and [CpuCount] 803-815): integers, [put] unchecked, [get]
      demands > 0; default 4. *)
  Definition npartitions : desc Z := mkdesc (fun _ => true) (fun v => v) (fun _ => true) (fun v => (0 <? v)%Z) (Ok None) (Ok 4%Z).

  (** [NPartitions.put(0)] raises, but the 0 stays: from then on, whatever is called, every read
      raises and so does every later [put], even of a good value. *)
  Theorem C27_npartitions_refuted : exists v, fst (put npartitions Z.eqb v fresh) = Err ValueError
    /\ forall history, let s := run npartitions Z.eqb history (snd (put npartitions Z.eqb v fresh)) in
       fst (get npartitions s) = Err ValueError
       /\ forall w, fst (put npartitions Z.eqb w s) = Err ValueError.
  Proof.
    exists 0%Z. split; [reflexivity|]. intros history.
    assert (S : stuck npartitions (snd (put npartitions Z.eqb 0%Z fresh))) by (exists 0%Z; split; reflexivity).
    apply (stuck_run (d := npartitions) Z.eqb history) in S. cbv zeta. set (s := run _ _ _ _) in *. clearbody s.
    pose proof (stuck_get S) as G. split; [now rewrite G|]. intros w. unfold put, put_nocallback. cbn [put_ok verify npartitions negb norm]. now rewrite G.
  Qed.

  (** two plain integer variables accepting only values below 10 *)
  Definition small (n : nat) : desc Z := mkdesc (fun v => (v <? 10)%Z) (fun v => v) (fun _ => true) (fun _ => true) (Ok None) (Ok 1%Z).
  (** [with context(A=5, B=99)]: entering fails at B, and A is left at 5. *)
  Theorem C29_failed_entry_refuted : exists (config : list (nat * Z)) (sto : nat -> pst Z),
    let r := with_context small Z.eqb config (fun s => (Ok tt, s)) sto in
    fst r = Err ValueError /\ fst (get (small 0) (sto 0)) = Ok 1%Z /\ fst (get (small 0) (snd r 0)) = Ok 5%Z.
  Proof. exists [(0, 5%Z); (1, 99%Z)], (fun _ => fresh). repeat split; reflexivity. Qed.

  (** A variable of integer type whose default is None (envvars.py [GpuCount] 818-822, [Memory]
      825-834): None is not something [verify] accepts. *)
  Definition none_default (n : nat) : desc (option Z) :=
    mkdesc (fun v => match v with Some _ => true | None => false end) (fun v => v) (fun _ => true) (fun _ => true) (Ok None) (Ok None).
  Definition oeqb (a b : option Z) : bool :=
    match a, b with Some x, Some y => Z.eqb x y | None, None => true | _, _ => false end.
  (** [with context(GpuCount=2): pass] raises on leaving and leaves the variable at 2. *)
  Theorem C29_none_default_refuted : exists (config : list (nat * option Z)) (sto : nat -> pst (option Z)),
    let r := with_context none_default oeqb config (fun s => (Ok tt, s)) sto in
    fst r = Err ValueError /\ fst (get (none_default 0) (sto 0)) = Ok None
    /\ fst (get (none_default 0) (snd r 0)) = Ok (Some 2%Z).
  Proof. exists [(0, Some 2%Z)], (fun _ => fresh). repeat split; reflexivity. Qed.

  (** A boolean variable: the text "false" means False in the environment but True in [put]. *)
  Theorem C43_bool_text_refuted : exists t,
    from_environment TBool t = Some (PBool false) /\ from_put TBool t = Some (PBool true).
  Proof. exists (chars "false"%string). split; reflexivity. Qed.

  (** [modin.set_execution(engine="Native")] alone, from the default execution: it raises because
      (Pandas, Native) is no backend, but the engine has already changed, so that Engine and Backend
      disagree afterwards. *)
  Theorem C44_set_execution_refuted : exists en e,
    let s := snd (backend_get en builtin) in
    let r := set_execution en (Some e) None s in
    fst r = Err ValueError
    /\ fst (backend_get en (snd r)) = Ok 0 /\ b2e (table (snd r)) 0 = Some (0, 0)
    /\ fst (engine_get en (snd r)) = Ok 4.
  Proof. exists (mkenv None None None (Ok 0) 0), 4. repeat split; reflexivity. Qed.
End Refuted.

(** * Non-trivial instances of the hypotheses *)
Section Examples.
  (** An integer variable read from the environment as 3; negative values refused; put stores |v|
      (so that normalisation is visible). *)
  Definition dz : desc Z := mkdesc (fun v => negb (v =? 13)%Z) Z.abs (fun v => (-20 <? v)%Z) (fun v => (0 <=? v)%Z) (Ok (Some 3%Z)) (Ok 7%Z).
  Lemma dz_coherent : coherent dz 3%Z.
  Proof. split; [reflexivity|]. split; [reflexivity|]. intros v _. cbn. apply Z.leb_le. apply Z.abs_nonneg. Qed.
  Definition hist : list (op Z) := [Get; Put (-5)%Z; Subscribe 1; Put 13%Z; Once 8%Z 2; Put 5%Z; Put 8%Z; Put (-30)%Z; Put 2%Z; Put 8%Z].
  Example read_hist : fst (get dz (run dz Z.eqb hist fresh)) = Ok 8%Z /\ current dz 3%Z hist = 8%Z.
  Proof. split; reflexivity. Qed.
  Example calls_hist : calls (run dz Z.eqb hist fresh) = [(1, Some 5%Z); (1, Some 8%Z); (2, Some 8%Z); (1, Some 2%Z); (1, Some 8%Z)].
  Proof. reflexivity. Qed.
  Example unused_hist : unused (V := Z) 1 [Get; Put (-5)%Z] /\ unused (V := Z) 1 [Put 13%Z; Once 8%Z 2; Put 5%Z].
  Proof. split; reflexivity. Qed.
  (** A context over two variables whose body changes both and then raises. *)
  Definition descs2 (n : nat) : desc Z := dz.
  Definition rude (sto : nat -> pst Z) : res unit * (nat -> pst Z) :=
    (Err KeyError, update (update sto 0 (snd (put dz Z.eqb 9%Z (sto 0)))) 2 (snd (put dz Z.eqb 6%Z (sto 2)))).
  Example context_ex : let r := with_context descs2 Z.eqb [(0, 4%Z); (1, 5%Z)] rude (fun _ => fresh) in
    fst r = Err KeyError /\ map (fun n => fst (get dz (snd r n))) [0; 1; 2] = [Ok 3%Z; Ok 3%Z; Ok 6%Z].
  Proof. split; reflexivity. Qed.
  Example stable_ex : stable dz 3%Z. Proof. repeat split; reflexivity. Qed.
  (** Texts. *)
  Example text_ex : from_put TInt (chars " 12 "%string) = Some (PInt 12) /\ from_put TStr (chars " rAy "%string) = Some (PText (chars "Ray"%string)).
  Proof. split; reflexivity. Qed.
  (** Environment MODIN_BACKEND=1; then Backend 4 is put, a backend 7 for (5, 6) is registered, Engine 9 fails. *)
  Definition en1 := mkenv None None (Some 1) (Err AssertionError) 0.
  Definition h1 := [EngineGet; Register 7 (5, 6); EnginePut 9; BackendPut 4; SfPut 0; BackendPut 7; SetActive [1; 7]; BackendPut 2].
  Example keeps_ex : Forall (keeps_env en1) h1.
  Proof. unfold h1. repeat (apply Forall_cons; [cbn; trivial; try (intros ? [= <-]; tauto)|]). apply Forall_nil. Qed.
  Example backend_ex : let s := erun en1 h1 builtin in
    fst (backend_get en1 s) = Ok 7 /\ fst (sf_get en1 s) = Ok 5 /\ fst (engine_get en1 s) = Ok 6.
  Proof. repeat split; reflexivity. Qed.
End Examples.

Print Assumptions C27_npartitions_refuted.
Print Assumptions C29_failed_entry_refuted.
Print Assumptions C29_none_default_refuted.
Print Assumptions C43_bool_text_refuted.
Print Assumptions C44_set_execution_refuted.
