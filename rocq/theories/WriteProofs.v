(** The tasks of to_csv write one after the other, whatever the schedule. *)
From Coq Require Import String Ascii.
From Verif Require Import Base Table ChunkSpec GridSpec GridModel WriteSpec WriteModel.

Section Upd.
  Context {X : Type}.
  Implicit Types (l : list X).
  Lemma upd_length i x l : i < length l -> length (upd i x l) = length l.
  Proof. intros Hi. unfold upd. rewrite app_length. cbn [length]. rewrite firstn_length, skipn_length. lia. Qed.
  Lemma upd_same i x l : i < length l -> nth_error (upd i x l) i = Some x.
  Proof. intros Hi. unfold upd. rewrite nth_error_app2; rewrite firstn_length, Nat.min_l by lia; [|lia].
    now rewrite Nat.sub_diag. Qed.
  Lemma nth_error_skipn n l k : nth_error (skipn n l) k = nth_error l (n + k).
  Proof. revert l; induction n; intros [|y l]; cbn; auto. now destruct k. Qed.
  Lemma nth_error_firstn_lt n l k : k < n -> nth_error (firstn n l) k = nth_error l k.
  Proof. revert n k; induction l as [|y l IH]; intros [|n] [|k] Hk; cbn; auto; try lia. apply IH; lia. Qed.
  Lemma upd_other i x l j : i < length l -> j <> i -> nth_error (upd i x l) j = nth_error l j.
  Proof. intros Hi Hj. unfold upd. destruct (Nat.lt_ge_cases j i).
    - rewrite nth_error_app1 by (rewrite firstn_length; lia). now apply nth_error_firstn_lt.
    - rewrite nth_error_app2; rewrite firstn_length, Nat.min_l by lia; [|lia].
      replace (j - i) with (S (j - S i)) by lia. cbn [nth_error]. rewrite nth_error_skipn. f_equal. lia. Qed.
  Lemma nth_error_lt i x l : nth_error l i = Some x -> i < length l.
  Proof. intros E. apply nth_error_Some. congruence. Qed.
End Upd.

Lemma upd_mid {X} (a b : list X) x y : upd (length a) x (a ++ y :: b) = a ++ x :: b.
Proof. unfold upd. rewrite firstn_app, firstn_all, Nat.sub_diag. cbn [firstn].
  rewrite app_nil_r. f_equal. f_equal. rewrite skipn_app, skipn_all2 by lia.
  replace (S (length a) - length a) with 1 by lia. reflexivity. Qed.

Section Csv.
  Context {L H A C : Type}.
  Variable render : bool -> df L H A -> list C.
  Variables (mode : string) (header : bool) (pieces : list (df L H A)).
  Variables (old : option (list C)) (base : list C).
  Hypothesis open0 : open_file mode old = Ok base.
  Hypothesis no_x : has "x" mode = false.
  Notation n := (length pieces).
  Notation step := (task_step render mode header pieces).

  Definition content (i : nat) (d : df L H A) : list C := render (task_header header i) d.
  Fixpoint contents (i : nat) (ps : list (df L H A)) : list (list C) :=
    match ps with [] => [] | d :: r => content i d :: contents (S i) r end.
  Notation cs := (contents 0 pieces).

  Lemma contents_length i ps : length (contents i ps) = length ps.
  Proof. revert i; induction ps; intros; cbn; auto. Qed.
  Lemma contents_nth i ps j d : nth_error ps j = Some d -> nth_error (contents i ps) j = Some (content (i + j) d).
  Proof. revert i j; induction ps as [|e ps IH]; intros i [|j] E; cbn in *; try easy.
    - injection E as ->. now rewrite Nat.add_0_r.
    - rewrite (IH (S i) _ E). f_equal. f_equal. lia. Qed.

  (** The file once the first [k] tasks are done. *)
  Definition upto (k : nat) : option (list C) :=
    match k with 0 => old | _ => Some (base ++ concat (firstn k cs)) end.

  Lemma upto_S k c : nth_error cs k = Some c -> upto (S k) = Some (base ++ concat (firstn k cs) ++ c).
  Proof. intros E. unfold upto. f_equal. f_equal.
    assert (Hs : firstn (S k) cs = firstn k cs ++ [c]).
    { clear -E. revert k E; generalize cs as l. induction l as [|y l IH]; intros [|k] E; try easy; cbn in *.
      - now injection E as ->.
      - now rewrite (IH _ E). }
    rewrite Hs, concat_app. cbn. now rewrite app_nil_r. Qed.

  (** Opening the file in the mode of task [k] keeps what the earlier tasks wrote. *)
  Lemma has_replace a b (Hab : Ascii.eqb a b = false) s : has a (replace_char a b s) = false.
  Proof. induction s as [|x s IH]; cbn; auto. rewrite IH, orb_false_r.
    destruct (Ascii.eqb a x) eqn:E; auto. Qed.
  Lemma has_replace_other a b c s : Ascii.eqb c a = false -> Ascii.eqb c b = false -> has c (replace_char a b s) = has c s.
  Proof. intros Ea Eb. induction s as [|x s IH]; cbn; auto. rewrite IH. f_equal.
    destruct (Ascii.eqb a x) eqn:E; auto. apply Ascii.eqb_eq in E as <-. now rewrite Ea, Eb. Qed.
  Lemma has_replace_new a b s : has a s = true -> has b (replace_char a b s) = true.
  Proof. induction s as [|x s IH]; cbn; try easy. rewrite !orb_true_iff. intros [E|E].
    - left. rewrite E. apply Ascii.eqb_refl.
    - right; auto. Qed.

  Lemma mode_cases : mode_kinds mode = ["w"%char] \/ mode_kinds mode = ["a"%char].
  Proof. unfold open_file in open0.
    unfold mode_kinds in *. cbn [filter] in *. rewrite no_x in *.
    destruct (has "r" mode), (has "w" mode), (has "a" mode); cbn in *; try discriminate; auto. Qed.

  Lemma open_later k : open_file (task_mode mode (S k)) (upto (S k)) = Ok (base ++ concat (firstn (S k) cs)).
  Proof. assert (Hm : mode_kinds (task_mode mode (S k)) = ["a"%char]).
    { unfold task_mode. cbn [Nat.eqb negb]. destruct mode_cases as [E|E].
      - unfold mode_kinds in E |- *. cbn [filter] in *. rewrite no_x in E.
        destruct (has "w" mode) eqn:Ew; destruct (has "r" mode) eqn:Er; destruct (has "a" mode) eqn:Ea; cbn in E; try discriminate.
        rewrite (has_replace_other "w" "a" "r"), (has_replace_other "w" "a" "x"), (has_replace "w" "a"), (has_replace_new "w" "a"), Er, no_x by (reflexivity || exact Ew).
        reflexivity.
      - assert (Ew : has "w" mode = false).
        { unfold mode_kinds in E. cbn [filter] in E. destruct (has "r" mode), (has "w" mode); cbn in E; easy. }
        rewrite Ew. exact E. }
    unfold open_file. rewrite Hm. reflexivity. Qed.

  Lemma open_now k : open_file (task_mode mode k) (upto k) = Ok (base ++ concat (firstn k cs)).
  Proof. destruct k as [|k]; [|apply open_later]. cbn. rewrite app_nil_r. exact open0. Qed.

  (** What holds after any number of steps when [k] tasks are done. *)
  Definition later_ok (j : nat) (p : phase C) : Prop :=
    match p with
    | Start | Failed => True
    | Rendered c => nth_error cs j = Some c
    | _ => False
    end.
  Definition current_ok (k : nat) (p : phase C) (file : option (list C)) : Prop :=
    match p with
    | Start => file = upto k
    | Rendered c | Turn c => nth_error cs k = Some c /\ file = upto k
    | Writing r => exists q, nth_error cs k = Some (q ++ r) /\ file = Some (base ++ concat (firstn k cs) ++ q)
    | Written => file = upto (S k)
    | Done => False
    | Failed => file = upto k \/ exists q r, nth_error cs k = Some (q ++ r) /\ file = Some (base ++ concat (firstn k cs) ++ q)
    end.
  Record inv (k : nat) (w : wstate C) : Prop := mkinv {
    inv_n : length (wtasks w) = n;
    inv_k : k <= n;
    inv_ev : wevents w = repeat true (S k) ++ repeat false (n - k);
    inv_done : forall j, j < k -> nth_error (wtasks w) j = Some Done;
    inv_cur : forall p, nth_error (wtasks w) k = Some p -> current_ok k p (wfile w);
    inv_end : k = n -> wfile w = upto k;
    inv_later : forall j p, k < j -> nth_error (wtasks w) j = Some p -> later_ok j p }.

  Lemma start_ok : exists w, csv_start old pieces = Ok w /\ inv 0 w.
  Proof. unfold csv_start, send, new_signals. rewrite repeat_length.
    replace (n + 1) with (S n) by lia. cbn [Nat.ltb Nat.leb firstn app rbind].
    eexists. split; [reflexivity|]. constructor; cbn [wtasks wevents wfile].
    - apply repeat_length.
    - lia.
    - rewrite Nat.sub_0_r. reflexivity.
    - lia.
    - intros p E. apply nth_error_In, repeat_spec in E. now subst p.
    - intros _. reflexivity.
    - intros j p _ E. apply nth_error_In, repeat_spec in E. now subst p. Qed.

  (** A step of task [i] that changes only that task's phase, and keeps the file when [i] is not the current one. *)
  Lemma inv_upd k w i p p' file : inv k w -> nth_error (wtasks w) i = Some p -> p <> Done ->
    (i = k -> current_ok k p' file) -> (k < i -> later_ok i p' /\ file = wfile w) ->
    inv k (mkw file (wevents w) (upd i p' (wtasks w))).
  Proof. intros [In Ik Iev Id Ic Ie Il] E Hp Hc Hl.
    pose proof (nth_error_lt _ _ E) as Hi.
    assert (Hki : k <= i). { destruct (Nat.lt_ge_cases i k) as [X|X]; auto. rewrite (Id _ X) in E. congruence. }
    constructor; cbn [wtasks wevents wfile]; auto.
    - now rewrite upd_length.
    - intros j Hj. rewrite upd_other by lia. auto.
    - intros q Eq. destruct (Nat.eq_dec k i) as [->|Hne].
      + rewrite upd_same in Eq by auto. injection Eq as <-. auto.
      + rewrite upd_other in Eq by lia. destruct Hl as [_ ->]; [lia|]. auto.
    - intros ->. lia.
    - intros j q Hj Eq. destruct (Nat.eq_dec j i) as [->|Hne].
      + rewrite upd_same in Eq by auto. injection Eq as <-. destruct Hl; auto.
      + rewrite upd_other in Eq by lia. eauto. Qed.

  Lemma signalled_ev k w i : inv k w -> signalled i (wevents w) = true -> i <= k.
  Proof. intros I. rewrite (inv_ev I). unfold signalled. intros E.
    destruct (Nat.lt_ge_cases k i); [|lia]. rewrite app_nth2 in E by (rewrite repeat_length; lia).
    rewrite repeat_length in E.
    destruct (nth_in_or_default (i - S k) (repeat false (n - k)) false) as [X|X].
    - apply repeat_spec in X. congruence.
    - congruence. Qed.

  Lemma signalled_now k w : inv k w -> signalled k (wevents w) = true.
  Proof. intros I. rewrite (inv_ev I). unfold signalled. rewrite app_nth1 by (rewrite repeat_length; lia).
    destruct (nth_in_or_default k (repeat true (S k)) false) as [X|X].
    - now apply repeat_spec in X.
    - exfalso. clear -X. revert X. induction k; cbn; auto. congruence. Qed.

  Lemma send_next k w : inv k w -> k < n ->
    send (S k) (wevents w) = Ok (repeat true (S (S k)) ++ repeat false (n - S k)).
  Proof. intros I Hk. unfold send. rewrite (inv_ev I), app_length, !repeat_length.
    destruct (Nat.ltb_spec (S k) (S k + (n - k))); [|lia]. f_equal.
    replace (n - k) with (S (n - S k)) by lia.
    transitivity (upd (S k) true (repeat true (S k) ++ false :: repeat false (n - S k))); [reflexivity|].
    rewrite <- (repeat_length true (S k)) at 1. rewrite upd_mid.
    replace (repeat true (S (S k))) with (repeat true (S k) ++ [true]).
    - rewrite <- app_assoc. reflexivity.
    - clear. induction (S k) as [|m IH]; cbn; auto. f_equal. exact IH. Qed.

  Lemma step_ok k w i w' : inv k w -> step i w w' -> exists k', inv k' w'.
  Proof. intros I St. pose proof (inv_k I) as Ik.
    assert (Hki : forall p, nth_error (wtasks w) i = Some p -> p <> Done -> k <= i).
    { intros p E Hp. destruct (Nat.lt_ge_cases i k) as [X|X]; auto. rewrite (inv_done I X) in E. congruence. }
    inversion St; subst; clear St.
    - exists k. eapply inv_upd; [exact I|eassumption|discriminate| |].
      + intros ->. pose proof (inv_cur I H1) as Hc. cbn in *. split; [|exact Hc].
        now rewrite (contents_nth 0 _ _ H0).
      + intros _. split; [|reflexivity]. cbn. now rewrite (contents_nth 0 _ _ H0).
    - exists k. pose proof (signalled_ev i I H1).
      eapply inv_upd; [exact I|eassumption|discriminate| |lia].
      intros ->. exact (inv_cur I H0).
    - destruct (Nat.eq_dec i k) as [->|Hne].
      + exists k. eapply inv_upd; [exact I|eassumption|discriminate| |lia].
        intros _. pose proof (inv_cur I H0) as [Hc Hf]. exists []. split; [exact Hc|].
        rewrite Hf, open_now in H1. injection H1 as <-. now rewrite app_nil_r.
      + pose proof (Hki _ H0 ltac:(discriminate)). exfalso.
        exact (inv_later I (j:=i) ltac:(lia) H0).
    - destruct (Nat.eq_dec i k) as [->|Hne].
      + exfalso. pose proof (inv_cur I H0) as [Hc Hf]. rewrite Hf, open_now in H1. discriminate.
      + pose proof (Hki _ H0 ltac:(discriminate)). exfalso. exact (inv_later I (j:=i) ltac:(lia) H0).
    - destruct (Nat.eq_dec i k) as [->|Hne].
      + exists k. eapply inv_upd; [exact I|eassumption|discriminate| |lia].
        intros _. pose proof (inv_cur I H0) as (q & Hc & Hf). exists (q ++ [x]). rewrite <- app_assoc. split; [exact Hc|].
        rewrite Hf in H1. injection H1 as <-. now rewrite <- !app_assoc.
      + pose proof (Hki _ H0 ltac:(discriminate)). exfalso. exact (inv_later I (j:=i) ltac:(lia) H0).
    - destruct (Nat.eq_dec i k) as [->|Hne].
      + exists k. eapply inv_upd; [exact I|eassumption|discriminate| |lia].
        intros _. pose proof (inv_cur I H0) as (q & Hc & Hf). rewrite app_nil_r in Hc. unfold current_ok.
        now rewrite Hf, (upto_S _ Hc).
      + pose proof (Hki _ H0 ltac:(discriminate)). exfalso. exact (inv_later I (j:=i) ltac:(lia) H0).
    - destruct (Nat.eq_dec i k) as [->|Hne].
      + exists (S k). pose proof (nth_error_lt _ _ H0) as Hk. rewrite (inv_n I) in Hk.
        rewrite (send_next I Hk) in H1. injection H1 as <-.
        pose proof (inv_cur I H0) as Hf. cbn in Hf.
        assert (Hl : k < length (wtasks w)) by (rewrite (inv_n I); lia).
        constructor; cbn [wtasks wevents wfile].
        * rewrite upd_length by auto. exact (inv_n I).
        * lia.
        * reflexivity.
        * intros j Hj. destruct (Nat.eq_dec j k) as [->|]; [now apply upd_same|].
          rewrite upd_other by lia. apply (inv_done I). lia.
        * intros p Ep. rewrite upd_other in Ep by lia. pose proof (inv_later I (j:=S k) ltac:(lia) Ep) as Hp.
          destruct p; cbn in *; try easy. now left.
        * intros _. exact Hf.
        * intros j p Hj Ep. rewrite upd_other in Ep by lia. apply (inv_later I (j:=j)); [lia|exact Ep].
      + pose proof (Hki _ H0 ltac:(discriminate)). exfalso. exact (inv_later I (j:=i) ltac:(lia) H0).
    - destruct (Nat.eq_dec i k) as [->|Hne].
      + exfalso. pose proof (nth_error_lt _ _ H0) as Hk. rewrite (inv_n I) in Hk. rewrite (send_next I Hk) in H1. discriminate.
      + pose proof (Hki _ H0 ltac:(discriminate)). exfalso. exact (inv_later I (j:=i) ltac:(lia) H0). Qed.

  Lemma crash_ok k w i w' : inv k w -> crash_step i w w' -> inv k w'.
  Proof. intros I St. inversion St; subst; clear St.
    eapply inv_upd; [exact I|eassumption|assumption| |].
    - intros ->. pose proof (inv_cur I H0) as Hc. destruct p; cbn in *; try easy; auto.
      + left. apply Hc.
      + left. apply Hc.
      + right. destruct Hc as (q & Hc & Hf). eauto.
      + destruct (nth_error cs k) as [c|] eqn:E.
        * right. exists c, []. rewrite app_nil_r. split; auto. rewrite Hc. now apply upto_S.
        * apply nth_error_None in E. rewrite contents_length in E.
          pose proof (nth_error_lt _ _ H0) as X. rewrite (inv_n I) in X. lia.
    - intros _. split; [exact Logic.I|reflexivity]. Qed.

  Lemma reach_ok w0 w : csv_start old pieces = Ok w0 -> reaches (any_step render mode header pieces) w0 w ->
    exists k, inv k w.
  Proof. intros E R. destruct start_ok as (w1 & E1 & I). rewrite E in E1. injection E1 as <-.
    induction R as [|t u R IH St]; [eauto|]. destruct (IH) as [k Ik].
    destruct St as [[i St]|[i St]]; [eapply step_ok; eauto|]. exists k. eapply crash_ok; eauto. Qed.

  (** ** Consequences *)
  Lemma all_written k w : inv k w -> csv_returned w -> n <> 0 -> wfile w = Some (base ++ concat cs).
  Proof. intros I R Hn. unfold csv_returned in R. rewrite Forall_forall in R.
    destruct (Nat.eq_dec k n) as [->|Hk].
    - rewrite (inv_end I eq_refl). destruct n as [|m] eqn:E; [easy|]. unfold upto. rewrite firstn_all2; auto.
      rewrite contents_length. lia.
    - exfalso. destruct (nth_error (wtasks w) k) as [p|] eqn:E.
      + pose proof (inv_cur I E) as Hc. rewrite (R p) in Hc by (eapply nth_error_In; eauto). exact Hc.
      + apply nth_error_None in E. rewrite (inv_n I) in E. pose proof (inv_k I). lia. Qed.

  Lemma prefix_firstn k : is_prefix (concat (firstn k cs)) (concat cs).
  Proof. exists (concat (skipn k cs)). now rewrite <- concat_app, firstn_skipn. Qed.
  Lemma prefix_current k c q r : nth_error cs k = Some c -> c = q ++ r -> is_prefix (concat (firstn k cs) ++ q) (concat cs).
  Proof. intros E ->. destruct (nth_error_split _ _ E) as (l1 & l2 & E2 & E3). rewrite E2, <- E3.
    rewrite firstn_app, firstn_all, Nat.sub_diag. cbn [firstn]. rewrite app_nil_r, concat_app. cbn.
    exists (r ++ concat l2). now rewrite !app_assoc. Qed.

  Lemma always_prefix k w : inv k w ->
    wfile w = old \/ exists p, wfile w = Some (base ++ p) /\ is_prefix p (concat cs).
  Proof. intros I.
    assert (U : forall j, upto j = old \/ exists p, upto j = Some (base ++ p) /\ is_prefix p (concat cs)).
    { intros [|j]; [now left|]. right. eexists. split; [reflexivity|]. apply prefix_firstn. }
    destruct (nth_error (wtasks w) k) as [p|] eqn:E.
    - pose proof (inv_cur I E) as Hc.
      destruct p; unfold current_ok in Hc.
      + rewrite Hc; apply U.
      + destruct Hc as [_ ->]; apply U.
      + destruct Hc as [_ ->]; apply U.
      + destruct Hc as (q & E2 & ->). right. eexists. split; [reflexivity|]. eapply prefix_current; eauto.
      + rewrite Hc; apply U.
      + easy.
      + destruct Hc as [->|(q & r & E2 & ->)]; [apply U|]. right. eexists. split; [reflexivity|]. eapply prefix_current; eauto.
    - apply nth_error_None in E. rewrite (inv_n I) in E. pose proof (inv_k I).
      rewrite (inv_end I) by lia. apply U. Qed.

  Lemma can_go_on k w : inv k w -> ~ csv_raised w -> ~ csv_returned w -> exists w', run_step render mode header pieces w w'.
  Proof. intros I NR ND.
    destruct (Nat.eq_dec k n) as [->|Hk].
    { exfalso. apply ND. unfold csv_returned. apply Forall_forall. intros p Hp. apply In_nth_error in Hp as [j Ej].
      pose proof (nth_error_lt _ _ Ej) as Hj. rewrite (inv_n I) in Hj. rewrite (inv_done I Hj) in Ej. congruence. }
    pose proof (inv_k I) as Ik.
    destruct (nth_error (wtasks w) k) as [p|] eqn:E.
    2:{ apply nth_error_None in E. rewrite (inv_n I) in E. lia. }
    pose proof (inv_cur I E) as Hc. destruct p.
    - destruct (nth_error pieces k) as [d|] eqn:Ed; [|apply nth_error_None in Ed; lia].
      eexists. exists k. eapply s_render; eauto.
    - eexists. exists k. eapply s_wait; eauto. eapply signalled_now; eauto.
    - eexists. exists k. eapply s_open; [exact E|]. destruct Hc as [_ ->]. apply open_now.
    - destruct Hc as (q & _ & Hf). destruct rest as [|x rest].
      + eexists. exists k. now eapply s_close.
      + eexists. exists k. eapply s_write; eauto.
    - eexists. exists k. eapply s_send; [exact E|]. eapply send_next; eauto. lia.
    - easy.
    - exfalso. apply NR. unfold csv_raised. apply Exists_exists. exists Failed. split; auto. eapply nth_error_In; eauto. Qed.

  Lemma never_fails_alone k w i w' : inv k w -> ~ csv_raised w -> step i w w' -> ~ csv_raised w'.
  Proof. intros I NR St.
    assert (Hu : forall p f ev, p <> Failed -> ~ csv_raised (mkw f ev (upd i p (wtasks w)))).
    { intros p f ev Hp R. apply NR. unfold csv_raised in *. cbn in R. apply Exists_exists in R as (q & Hq & ->).
      apply Exists_exists. exists Failed. split; auto. unfold upd in Hq. apply in_app_or in Hq as [Hq|[Hq|Hq]].
      - rewrite <- (firstn_skipn i (wtasks w)). apply in_or_app. now left.
      - congruence.
      - rewrite <- (firstn_skipn (S i) (wtasks w)). apply in_or_app. now right. }
    assert (Hx : forall p, nth_error (wtasks w) i = Some p -> p <> Done -> k <= i).
    { intros p E Hp. destruct (Nat.lt_ge_cases i k) as [X|X]; auto. rewrite (inv_done I X) in E. congruence. }
    inversion St; subst; try (apply Hu; discriminate).
    - exfalso. pose proof (Hx _ H0 ltac:(discriminate)). destruct (Nat.eq_dec i k) as [->|Hne].
      + pose proof (inv_cur I H0) as [_ Hf]. rewrite Hf, open_now in H1. discriminate.
      + exact (inv_later I (j:=i) ltac:(lia) H0).
    - exfalso. pose proof (Hx _ H0 ltac:(discriminate)). destruct (Nat.eq_dec i k) as [->|Hne].
      + pose proof (nth_error_lt _ _ H0) as Hk. rewrite (inv_n I) in Hk. rewrite (send_next I Hk) in H1. discriminate.
      + exact (inv_later I (j:=i) ltac:(lia) H0). Qed.
End Csv.

(** Every run ends: steps and crashes use up a budget. *)
Section Ends.
  Context {L H A C : Type}.
  Variable render : bool -> df L H A -> list C.
  Variables (mode : string) (header : bool) (pieces : list (df L H A)).

  Definition weight (i : nat) (p : phase C) : nat :=
    match p with
    | Start => match nth_error pieces i with Some d => 5 + length (render (task_header header i) d) | None => 1 end
    | Rendered c => 4 + length c
    | Turn c => 3 + length c
    | Writing r => 2 + length r
    | Written => 1
    | Done | Failed => 0
    end.
  Fixpoint budget (i : nat) (ts : list (phase C)) : nat :=
    match ts with [] => 0 | p :: r => weight i p + budget (S i) r end.

  Lemma budget_upd ts : forall k i p q, nth_error ts i = Some p -> weight (k + i) q < weight (k + i) p ->
    budget k (upd i q ts) < budget k ts.
  Proof. induction ts as [|t ts IH]; intros k [|i] p q E Hw; cbn in *; try easy.
    - injection E as ->. rewrite Nat.add_0_r in Hw. unfold upd. cbn. lia.
    - unfold upd in *. cbn. specialize (IH (S k) i p q E). replace (S k + i) with (k + S i) in IH by lia.
      specialize (IH Hw). cbn [skipn] in IH. lia. Qed.

  Lemma step_spends w w' : any_step render mode header pieces w w' -> budget 0 (wtasks w') < budget 0 (wtasks w).
  Proof. intros [[i St]|[i St]]; inversion St; subst; cbn [wtasks];
      (eapply budget_upd; [eassumption|]); cbn; rewrite ?H0; cbn; try lia.
    destruct p; cbn; try lia; try easy. destruct (nth_error pieces i); lia. Qed.

  Lemma runs_end w : Acc (fun b a => any_step render mode header pieces a b) w.
  Proof. remember (budget 0 (wtasks w)) as m eqn:E. revert w E.
    induction m as [m IH] using (well_founded_induction lt_wf). intros w ->.
    constructor. intros y St. eapply IH; [|reflexivity]. now apply step_spends. Qed.
End Ends.

(** Running a given schedule, for the examples. *)
Section Run.
  Context {L H A C : Type}.
  Variable render : bool -> df L H A -> list C.
  Variables (mode : string) (header : bool) (pieces : list (df L H A)).

  Definition do_task (i : nat) (w : wstate C) : option (wstate C) :=
    match nth_error (wtasks w) i with
    | Some Start =>
        match nth_error pieces i with
        | Some d => Some (mkw (wfile w) (wevents w) (upd i (Rendered (render (task_header header i) d)) (wtasks w)))
        | None => None
        end
    | Some (Rendered c) =>
        if signalled i (wevents w) then Some (mkw (wfile w) (wevents w) (upd i (Turn c) (wtasks w))) else None
    | Some (Turn c) =>
        match open_file (task_mode mode i) (wfile w) with
        | Ok f => Some (mkw (Some f) (wevents w) (upd i (Writing c) (wtasks w)))
        | Err _ => Some (mkw (wfile w) (wevents w) (upd i Failed (wtasks w)))
        end
    | Some (Writing (x :: c)) =>
        match wfile w with
        | Some f => Some (mkw (Some (f ++ [x])) (wevents w) (upd i (Writing c) (wtasks w)))
        | None => None
        end
    | Some (Writing []) => Some (mkw (wfile w) (wevents w) (upd i Written (wtasks w)))
    | Some Written =>
        match send (S i) (wevents w) with
        | Ok ev => Some (mkw (wfile w) ev (upd i Done (wtasks w)))
        | Err _ => Some (mkw (wfile w) (wevents w) (upd i Failed (wtasks w)))
        end
    | _ => None
    end.

  Lemma do_task_step i w w' : do_task i w = Some w' -> task_step render mode header pieces i w w'.
  Proof. unfold do_task. destruct (nth_error (wtasks w) i) as [[|c|c|[|x c]| | |]|] eqn:E; try discriminate.
    - destruct (nth_error pieces i) eqn:Ep; [|discriminate]. intros [= <-]. now constructor.
    - destruct (signalled i (wevents w)) eqn:Es; [|discriminate]. intros [= <-]. now constructor.
    - destruct (open_file (task_mode mode i) (wfile w)) eqn:Eo; intros [= <-].
      + eapply s_open; eauto.
      + eapply s_open_fails; eauto.
    - intros [= <-]. now constructor.
    - destruct (wfile w) eqn:Ef; [|discriminate]. intros [= <-]. eapply s_write; eauto.
    - destruct (send (S i) (wevents w)) eqn:Es; intros [= <-].
      + eapply s_send; eauto.
      + eapply s_send_fails; eauto. Qed.

  Fixpoint do_all (schedule : list nat) (w : wstate C) : option (wstate C) :=
    match schedule with
    | [] => Some w
    | i :: r => match do_task i w with Some w' => do_all r w' | None => None end
    end.

  Lemma reaches_trans {S} (step : S -> S -> Prop) a b c : reaches step a b -> reaches step b c -> reaches step a c.
  Proof. intros R1 R2. induction R2; auto. eapply reaches_step; eauto. Qed.

  Lemma do_all_reaches schedule w w' : do_all schedule w = Some w' -> reaches (run_step render mode header pieces) w w'.
  Proof. revert w; induction schedule as [|i r IH]; intros w E; cbn in E.
    - injection E as <-. apply reaches_here.
    - destruct (do_task i w) as [u|] eqn:Eu; [|discriminate]. eapply reaches_trans; [|eapply IH; exact E].
      eapply reaches_step; [apply reaches_here|]. exists i. now apply do_task_step. Qed.
End Run.
