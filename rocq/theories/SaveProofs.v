(** to_sql: invariant over interleavings. *)
From Coq Require Import Permutation.
From Verif Require Import Base Table ChunkSpec GridSpec WriteSpec WriteModel WriteProofs SaveSpec SaveModel.

Lemma upd_nth {X} i (x : X) l j y : i < length l -> nth_error (upd i x l) j = Some y ->
  (j = i /\ y = x) \/ (j <> i /\ nth_error l j = Some y).
Proof. intros Hi E. destruct (Nat.eq_dec j i) as [->|N].
  - rewrite upd_same in E by easy. injection E as <-. now left.
  - rewrite upd_other in E by easy. now right. Qed.

Lemma NoDup_join {X} (a b : list X) : NoDup a -> NoDup b -> (forall x, In x a -> In x b -> False) -> NoDup (a ++ b).
Proof. intros Na Nb D. induction Na as [|x a Nx Na IH]; [exact Nb|]. cbn. constructor.
  - intros I. apply in_app_or in I as [I|I]; [easy|]. eapply D; [now left|exact I].
  - apply IH. intros y Hy. apply D. now right. Qed.

Section Sql.
  Context {L H A R : Type}.
  Variable record : list H -> list H -> L -> list A -> R.
  Variable accepts : list H -> list H -> bool.
  Variable valid : list H -> list R -> bool.
  Notation dframe := (df L H A).
  Notation records := (records record).
  Notation pandas_to_sql := (pandas_to_sql record accepts valid).

  Variable pieces : list dframe.
  Variables (cs : list H) (old : list R).
  Hypothesis acc : forall d, In d pieces -> accepts cs (dcols d) = true.
  Definition some_rows (order : list nat) : list R :=
    flat_map (fun i => match nth_error pieces i with Some d => records cs d | None => [] end) order.
  Let all_rows : list R := concat (map (records cs) pieces).
  (** rows may be left out and moved around *)
  Hypothesis val : forall rows rest, Permutation (rows ++ rest) (old ++ all_rows) -> valid cs rows = true.

  Definition committed (p : sphase) : bool := match p with SCommitted _ | SDone => true | _ => false end.
  Definition sinv1 (s : sstate H R) : Prop :=
    length (stasks s) = length pieces /\
    exists order, NoDup order /\ stable s = Some (cs, old ++ some_rows order)
      /\ forall i, In i order <-> exists p, nth_error (stasks s) i = Some p /\ committed p = true.

  Lemma some_rows_app a b : some_rows (a ++ b) = some_rows a ++ some_rows b.
  Proof. apply flat_map_app. Qed.
  Lemma some_rows_perm a b : Permutation a b -> Permutation (some_rows a) (some_rows b).
  Proof. apply Permutation_flat_map. Qed.
  Lemma some_rows_all : some_rows (seq 0 (length pieces)) = all_rows.
  Proof. unfold some_rows, all_rows. rewrite flat_map_concat_map. f_equal.
    assert (X : forall k (l : list dframe), (forall j, nth_error l j = nth_error pieces (k + j)) ->
      map (fun i => match nth_error pieces i with Some d => records cs d | None => [] end) (seq k (length l)) = map (records cs) l).
    { intros k l. revert k. induction l as [|d l IH]; intros k E; [reflexivity|]. cbn [length seq map].
      rewrite <- (Nat.add_0_r k) at 1. rewrite <- (E 0). cbn [nth_error]. f_equal. apply IH.
      intros j. specialize (E (S j)). cbn in E. rewrite E. f_equal. lia. }
    apply X. reflexivity. Qed.

  (** a duplicate-free order below n extends to a permutation of all *)
  Lemma complete_order (order : list nat) n : NoDup order -> (forall i, In i order -> i < n) ->
    exists rest, Permutation (order ++ rest) (seq 0 n).
  Proof. intros N Hlt. exists (filter (fun i => negb (existsb (Nat.eqb i) order)) (seq 0 n)).
    apply NoDup_Permutation.
    - apply NoDup_join; [exact N|apply NoDup_filter, seq_NoDup|].
      intros x Hx Hf. apply filter_In in Hf as [_ Hf]. apply Bool.negb_true_iff in Hf.
      assert (T : existsb (Nat.eqb x) order = true) by (apply existsb_exists; exists x; split; [easy|apply Nat.eqb_refl]). congruence.
    - apply seq_NoDup.
    - intros x. rewrite in_app_iff, filter_In, in_seq. split.
      + intros [Hx|[Hx _]]; [specialize (Hlt _ Hx); lia|exact Hx].
      + intros Hx. destruct (existsb (Nat.eqb x) order) eqn:E.
        * left. apply existsb_exists in E as (y & Hy & E). apply Nat.eqb_eq in E. now subst.
        * right. split; [exact Hx|reflexivity]. Qed.

  Lemma order_rest (s : sstate H R) order : length (stasks s) = length pieces -> NoDup order ->
    (forall i, In i order <-> exists p, nth_error (stasks s) i = Some p /\ committed p = true) ->
    exists rest, Permutation (some_rows order ++ some_rows rest) all_rows
      /\ Permutation (order ++ rest) (seq 0 (length pieces)).
  Proof. intros Hl N Hin. destruct (@complete_order order (length pieces) N) as [rest P].
    { intros i Hi. apply Hin in Hi as (p & E & _). rewrite <- Hl. eapply nth_error_lt; eauto. }
    exists rest. split; [|exact P]. rewrite <- some_rows_app, <- some_rows_all. now apply some_rows_perm. Qed.

  (** the append of a task that has not committed succeeds *)
  Lemma commit_ok (s : sstate H R) i d r order : length (stasks s) = length pieces -> NoDup order ->
    stable s = Some (cs, old ++ some_rows order) ->
    (forall i, In i order <-> exists p, nth_error (stasks s) i = Some p /\ committed p = true) ->
    nth_error pieces i = Some d -> nth_error (stasks s) i = Some (SStart r) ->
    pandas_to_sql AppendRows d (stable s) = Ok (Some (cs, old ++ some_rows (order ++ [i]))) /\ ~ In i order.
  Proof. intros Hl N Es Hin Ed Et.
    assert (Ni : ~ In i order). { intros Hi. apply Hin in Hi as (p & E & C). rewrite Et in E. injection E as <-. discriminate. }
    split; [|exact Ni]. rewrite Es. unfold SaveModel.pandas_to_sql. cbn [fst snd].
    rewrite acc by (eapply nth_error_In; eauto). cbn [rbind fst snd].
    assert (E1 : (old ++ some_rows order) ++ records cs d = old ++ some_rows (order ++ [i])).
    { rewrite some_rows_app, <- app_assoc. do 2 f_equal. unfold some_rows. cbn. rewrite Ed. now rewrite app_nil_r. }
    rewrite E1.
    assert (N2 : NoDup (order ++ [i])).
    { apply NoDup_join; [exact N|constructor; [easy|constructor]|]. intros x Hx [->|[]]. easy. }
    destruct (@complete_order (order ++ [i]) (length pieces) N2) as [rest P].
    { intros j Hj. apply in_app_or in Hj as [Hj|[<-|[]]].
      - apply Hin in Hj as (p & E & _). rewrite <- Hl. eapply nth_error_lt; eauto.
      - eapply nth_error_lt; eauto. }
    rewrite (val (old ++ some_rows (order ++ [i])) (some_rows rest)); [reflexivity|].
    rewrite <- app_assoc, <- some_rows_app, <- some_rows_all. apply Permutation_app_head. now apply some_rows_perm. Qed.

  Lemma sinv_step i s s' : sinv1 s -> sql_step record accepts valid pieces i s s' -> sinv1 s'.
  Proof. intros (Hl & order & N & Es & Hin) St. inversion St; subst.
    - destruct (@commit_ok s i d r order) as [E Ni]; try assumption. rewrite E in H2. injection H2 as <-.
      assert (Li : i < length (stasks s)) by (eapply nth_error_lt; eauto).
      split; [cbn; now rewrite upd_length|]. exists (order ++ [i]). split; [|split; [reflexivity|]]; cbn [stasks].
      + apply NoDup_join; [exact N|constructor; [easy|constructor]|]. intros x Hx [->|[]]. easy.
      + intros j. rewrite in_app_iff. cbn [In]. split.
        * intros [Hj|[<-|[]]].
          -- assert (j <> i) by (intros ->; easy). apply Hin in Hj. rewrite upd_other by easy. exact Hj.
          -- rewrite upd_same by easy. exists (SCommitted r). easy.
        * intros (p & Ep & C). apply upd_nth in Ep as [[-> ->]|[Nj Ep]]; [auto| |easy]. left. apply Hin. eauto.
    - destruct (@commit_ok s i d r order) as [E Ni]; try assumption. rewrite E in H2. discriminate.
    - assert (Li : i < length (stasks s)) by (eapply nth_error_lt; eauto).
      split; [cbn; now rewrite upd_length|]. exists order. split; [exact N|]. split; [exact Es|]. cbn [stasks]. intros j. rewrite Hin. split.
      + intros (p & Ep & C). destruct (Nat.eq_dec j i) as [->|Nj].
        * rewrite upd_same by easy. exists SDone. easy.
        * rewrite upd_other by easy. eauto.
      + intros (p & Ep & C). apply upd_nth in Ep as [[-> ->]|[Nj Ep]]; [| |easy]; eauto. Qed.

  Lemma sinv_crash i (s s' : sstate H R) : sinv1 s -> sql_crash_before i s s' -> sinv1 s'.
  Proof. intros (Hl & order & N & Es & Hin) St.
    assert (X : exists p q, nth_error (stasks s) i = Some p /\ committed p = false /\ committed q = false
                  /\ s' = mks (stable s) (upd i q (stasks s))).
    { inversion St; subst; eexists _, _; repeat split; eauto. }
    destruct X as (p & q & Ep & Cp & Cq & ->).
    assert (Li : i < length (stasks s)) by (eapply nth_error_lt; eauto).
    split; [cbn; now rewrite upd_length|]. exists order. split; [exact N|]. split; [exact Es|]. cbn [stasks]. intros j. rewrite Hin. split.
    - intros (p' & Ep' & C). destruct (Nat.eq_dec j i) as [->|Nj].
      + rewrite Ep in Ep'. injection Ep' as <-. congruence.
      + rewrite upd_other by easy. eauto.
    - intros (p' & Ep' & C). apply upd_nth in Ep' as [[-> ->]|[Nj Ep']]; [congruence|eauto|easy]. Qed.

  Lemma sinv_reach s0 s : sinv1 s0 -> reaches (sql_run_early record accepts valid pieces) s0 s -> sinv1 s.
  Proof. intros I R0. induction R0 as [|a b R0 IH [i [St|St]]]; [exact I| |].
    - eapply sinv_step; eauto.
    - eapply sinv_crash; eauto. Qed.

  Lemma sinv_rows s : sinv1 s -> exists rows rest, stable s = Some (cs, old ++ rows) /\ Permutation (rows ++ rest) all_rows
      /\ (sql_returned s -> rest = []).
  Proof. intros (Hl & order & N & Es & Hin). destruct (@order_rest s order Hl N Hin) as (rest & P & P2).
    exists (some_rows order), (some_rows rest). split; [exact Es|]. split; [exact P|].
    intros Rt. destruct rest as [|k rest]; [reflexivity|]. exfalso.
    assert (Hk : In k (order ++ k :: rest)) by (apply in_or_app; right; now left).
    assert (Nk : ~ In k order).
    { assert (ND : NoDup (order ++ k :: rest)) by (eapply Permutation_NoDup; [symmetry; exact P2|apply seq_NoDup]).
      apply NoDup_remove_2 in ND. intros X. apply ND. apply in_or_app. now left. }
    apply Nk. apply Hin. apply (Permutation_in _ P2) in Hk. apply in_seq in Hk.
    destruct (nth_error (stasks s) k) as [p|] eqn:E.
    - exists p. split; [reflexivity|]. unfold sql_returned in Rt. rewrite Forall_forall in Rt.
      apply nth_error_In in E. rewrite (Rt _ E). reflexivity.
    - apply nth_error_None in E. lia. Qed.

  Lemma sql_can_go_on s : sinv1 s -> ~ sql_raised s -> ~ sql_returned s ->
    exists s', sql_run record accepts valid pieces s s'.
  Proof. intros (Hl & order & N & Es & Hin) Nr Nt.
    assert (X : exists p, In p (stasks s) /\ p <> SDone).
    { unfold sql_returned in Nt. rewrite <- Exists_Forall_neg in Nt.
      - apply Exists_exists in Nt. exact Nt.
      - intros [| | |]; (now left) || (right; discriminate). }
    destruct X as (p & Hp & Np). apply In_nth_error in Hp as [i Ei].
    destruct p as [r|r| |]; [| |easy|].
    - destruct (nth_error pieces i) as [d|] eqn:Ed.
      + destruct (@commit_ok s i d r order) as [E _]; try assumption. eexists. exists i. eapply q_commit; eauto.
      + apply nth_error_None in Ed. apply nth_error_lt in Ei. lia.
    - eexists. exists i. eapply q_return; eauto.
    - exfalso. apply Nr. apply Exists_exists. exists SFailed. split; [|easy]. eapply nth_error_In; eauto. Qed.

  Lemma sql_never_fails_alone s s' : sinv1 s -> ~ sql_raised s -> sql_run record accepts valid pieces s s' -> ~ sql_raised s'.
  Proof. intros (Hl & order & N & Es & Hin) Nr [i St].
    assert (X : exists q, s' = mks (stable s') (upd i q (stasks s)) /\ q <> SFailed /\ i < length (stasks s)).
    { inversion St; subst.
      - eexists. split; [reflexivity|]. split; [discriminate|]. eapply nth_error_lt; eauto.
      - destruct (@commit_ok s i d r order) as [E _]; try assumption. congruence.
      - eexists. split; [reflexivity|]. split; [discriminate|]. eapply nth_error_lt; eauto. }
    destruct X as (q & Eq & Nq & Li). intros Hf. apply Nr. unfold sql_raised in *. rewrite Eq in Hf. cbn [stasks] in Hf.
    apply Exists_exists in Hf as (p & Hp & ->). apply In_nth_error in Hp as [j Ej].
    apply upd_nth in Ej as [[_ Ej]|[_ Ej]]; [congruence| |easy]. apply Exists_exists. exists SFailed. split; [|easy]. eapply nth_error_In; eauto. Qed.

  (** Every run ends. *)
  Definition sweight (p : sphase) : nat :=
    match p with SStart r => 3 * r + 2 | SCommitted r => 3 * r + 1 | SDone | SFailed => 0 end.
  Lemma sweight_upd ts : forall i p q, nth_error ts i = Some p -> sweight q < sweight p ->
    list_sum (map sweight (upd i q ts)) < list_sum (map sweight ts).
  Proof. assert (C : forall a l, list_sum (a :: l) = a + list_sum l) by reflexivity.
    induction ts as [|t ts IH]; intros [|i] p q E Hw; cbn [nth_error] in E; try easy; unfold upd in *; cbn [firstn skipn app map]; rewrite !C.
    - injection E as ->. lia.
    - specialize (IH i p q E Hw). cbn [skipn] in IH. lia. Qed.
  Lemma sql_runs_end s : Acc (fun b a => sql_run_any record accepts valid pieces a b) s.
  Proof. remember (list_sum (map sweight (stasks s))) as m eqn:E. revert s E.
    induction m as [m IH] using (well_founded_induction lt_wf). intros s ->.
    constructor. intros y [i [St|[St|St]]]; (eapply IH; [|reflexivity]); inversion St; subst; cbn [stasks];
      (eapply sweight_upd; [eassumption|]); cbn [sweight]; lia. Qed.
End Sql.
