(** C42: batch pipelines (modin/experimental/batch/pipeline.py). *)
From Verif Require Import Base PipeSpec PipeModel PipeProofs.

Section Props.
  Context {R : Type}.
  Notation D := (list R).
  Notation query := (query R).

  (** The last output with a given id. *)
  Definition last_with (k : nat) (outs : list (query * list D)) : option (list D) :=
    fold_left (fun o qo => if match output_id (fst qo) with Some k' => k' =? k | None => false end then Some (snd qo) else o)
              outs None.

  (** What [compute_batch] reports, in terms of the outputs in order: a list of them when no output has an id, and the
      dictionary by id when all have one. *)
  Definition reports (r : results) (outs : list (query * list D)) : Prop :=
    match r with
    | RList l => l = map snd outs /\ Forall (fun qo => output_id (fst qo) = None) outs
    | RDict d => NoDup (map fst d) /\ (forall k v, In (k, v) d <-> last_with k outs = Some v)
                 /\ Forall (fun qo => output_id (fst qo) <> None) outs
    end.

  Lemma dict_set_in (d : list (nat * list D)) k v : NoDup (map fst d) ->
    NoDup (map fst (dict_set d k v)) /\ forall k' v', In (k', v') (dict_set d k v) <-> (if k =? k' then v' = v else In (k', v') d).
  Proof. induction d as [|[a b] d IH]; cbn [dict_set]; intros N.
    - split; [cbn; constructor; [easy|constructor]|]. intros k' v'. cbn. destruct (Nat.eqb_spec k k').
      + subst. split; [intros [[= ->]|[]]; easy | intros ->; now left].
      + split; [intros [[= -> ->]|[]]; easy | easy].
    - cbn in N. apply NoDup_cons_iff in N as [N1 N2]. destruct (IH N2) as [I1 I2]. destruct (Nat.eqb_spec k a).
      + subst. split; [cbn; now constructor|]. intros k' v'. cbn [In]. destruct (Nat.eqb_spec a k').
        * subst. split; [|intros ->; now left]. intros [[= ->]|H]; [easy|]. exfalso. apply N1. now apply (in_map fst) in H.
        * split; [intros [[= -> ->]|H]; [easy|now right] | intros [[= -> ->]|H]; [easy|now right]].
      + split.
        * cbn. constructor; [|assumption]. intros H. apply in_map_iff in H as [[a' b'] [E H]]. cbn in E. subst a'.
          apply I2 in H. destruct (Nat.eqb_spec k a); [easy|]. apply N1. now apply (in_map fst) in H.
        * intros k' v'. cbn [In]. rewrite I2. destruct (Nat.eqb_spec k k').
          -- subst. split; [intros [[= -> ->]|H]; easy | auto].
          -- easy. Qed.
  Lemma dict_of (outs : list (query * list D)) : forall d o, NoDup (map fst d) -> (forall k v, In (k, v) d <-> o k = Some v) ->
    let d' := fold_left (fun d qo => match output_id (fst qo) with Some k => dict_set d k (snd qo) | None => d end) outs d in
    NoDup (map fst d') /\ forall k v, In (k, v) d' <-> 
      fold_left (fun o qo => if match output_id (fst qo) with Some k' => k' =? k | None => false end then Some (snd qo) else o)
              outs (o k) = Some v.
  Proof. induction outs as [|[q x] outs IH]; intros d o N E; cbn [fold_left fst snd]; [easy|].
    destruct (output_id q) as [k0|].
    - destruct (@dict_set_in d k0 x N) as [N' E']. apply (IH _ (fun k => if k0 =? k then Some x else o k)); [assumption|].
      intros k v. rewrite E'. destruct (k0 =? k); [|apply E]. split; [now intros -> | now intros [= ->]].
    - now apply IH. Qed.

  Lemma run_segments_nodes n post pp po outs : forall ds r, run_segments n post pp po outs ds = Ok r -> map fst r = map (@snd (list query) query) outs.
  Proof. induction outs as [|[ops node] outs IH]; intros ds r; cbn [run_segments].
    - now intros [= <-].
    - destruct (direct n (ops ++ [node]) ds) as [ds'|]; cbn; [|easy]. destruct (finish post pp po node ds') as [o|]; cbn; [|easy].
      destruct (run_segments n post pp po outs ds') as [r'|] eqn:E; cbn; [|easy]. intros [= <-]. cbn. f_equal. eauto. Qed.

  (** Either all outputs have ids or none has. *)
  Lemma accepted_ids (qs : list query) : forall ids b, ids = Some b ->
    Forall (fun q => is_output q = true -> has_id q = b) (accepted ids qs).
  Proof. induction qs as [|q qs IH]; intros ids b ->; cbn [accepted]; [constructor|]. fold (has_id q).
    destruct (is_output q) eqn:E.
    - destruct (Bool.eqb b (has_id q)) eqn:Eb; [|now apply IH]. apply Bool.eqb_prop in Eb. subst b. constructor; [easy|]. apply IH. reflexivity.
    - destruct (has_id q); [now apply IH|]. constructor; [congruence|]. now apply IH. Qed.
  Lemma accepted_all_or_none (qs : list query) : exists b, Forall (fun q => is_output q = true -> has_id q = b) (accepted None qs).
  Proof. induction qs as [|q qs [b IH]]; cbn [accepted]; [exists true; constructor|]. fold (has_id q). destruct (is_output q) eqn:E.
    - exists (has_id q). constructor; [easy|]. now apply accepted_ids.
    - destruct (has_id q); [now exists b|]. exists b. constructor; [congruence|assumption]. Qed.

  (** For every history of [add_query] calls (those that raise change nothing), every frame, number of partitions and
      postprocessor: each output is the composition of all accepted queries up to it, applied to the partitions of the
      frame; the batch raises exactly when one of these computations does, or when output ids are asked for and there
      are none.
      Partial: every query that fans out has to be an output (see the refutations below). *)
  Theorem C42_outputs_partial (n : nat) (post : option (D -> option nat -> option nat -> res D)) (pass_pid pass_oid : bool)
      (history : list query) (parts : list D) :
    0 < n ->
    let qs := accepted None history in
    (forall q, In q qs -> fan_out q = true -> is_output q = true) ->
    match compute_batch n post pass_pid pass_oid (add_queries new_pipeline history) parts,
          expected n post pass_pid pass_oid qs parts with
    | Ok r, Ok outs => reports r outs
    | Ok _, Err _ => False
    | Err _, Err _ => True
    | Err e, Ok _ => e = ValueError /\ pass_oid = true /\ exists q, In q qs /\ is_output q = true /\ output_id q = None
    end.
  Proof. intros Hn qs F. unfold compute_batch, expected. set (s := add_queries new_pipeline history).
    assert (Eo : outputs s = segments [] qs) by (unfold s; rewrite add_queries_ok; easy).
    assert (Ei : ids_given s = existsb (fun q => is_output q && has_id q) qs).
    { unfold s. rewrite add_queries_ids by easy. cbn. apply orb_false_r. }
    pose proof (@expected_segments R n post pass_pid pass_oid qs [] [] parts parts eq_refl) as X. cbn [app] in X.
    assert (Fs : Forall (fun on => Forall (fun q => fan_out q = false) (fst on)) (segments [] qs)).
    { apply Forall_forall. intros on Hon. destruct (segments_in _ _ _ Hon) as [A _]. eapply Forall_impl; [|exact A]. cbn.
      intros q [[Hq Hf]|[]]. destruct (fan_out q) eqn:E; [|easy]. rewrite (F q) in Hf; easy. }
    pose proof (@compute_outputs_ok R n Hn post pass_pid pass_oid _ Fs parts []) as Y. cbn [app] in Y. unfold fresh in Y.
    destruct (accepted_all_or_none history) as [b All]. fold qs in All.
    rewrite Eo. destruct (length (segments [] qs) =? 0) eqn:L.
    - destruct (segments [] qs); [|discriminate]. cbn in X. destruct (rmap _ _); cbn in *; [|easy]. subst. cbn. easy.
    - assert (Hid : b = ids_given s).
      { destruct (segments [] qs) as [|on l] eqn:Es; [discriminate|]. 
        destruct (segments_in qs [] on) as (_ & Hin & Hout); [rewrite Es; now left|].
        rewrite Ei. rewrite Forall_forall in All. destruct b.
        - symmetry. apply existsb_exists. exists (snd on). split; [assumption|]. now rewrite Hout, All.
        - symmetry. apply Bool.not_true_iff_false. intros H. apply existsb_exists in H as [q [Hq H]]. apply andb_true_iff in H as [H1 H2].
          now rewrite All in H2. }
      assert (Hpick : exists q, In q qs /\ is_output q = true).
      { destruct (segments [] qs) as [|on l] eqn:Es; [discriminate|]. exists (snd on). apply (segments_in qs []). rewrite Es. now left. }
      destruct Hpick as [q0 [Hq0 Ho0]].
      rewrite Forall_forall in All.
      destruct (negb (ids_given s) && pass_oid) eqn:V.
      + apply andb_true_iff in V as [V1 V2]. apply negb_true_iff in V1. destruct (rmap _ _); [|easy]. split; [easy|]. split; [easy|].
        exists q0. repeat split; auto. specialize (All q0 Hq0 Ho0). rewrite Hid, V1 in All. unfold has_id in All. now destruct (output_id q0).
      + destruct (compute_outputs _ _ _ _ _ _ _) as [outs|], (run_segments _ _ _ _ _ _) as [outs'|] eqn:Er; cbn [rbind agree] in *; try tauto.
        2:{ destruct (rmap _ _); cbn in *; tauto. }
        subst outs'. cbn [app] in *. destruct (rmap _ _) as [ex|]; cbn [agree] in X; [|tauto]. subst ex.
        assert (Hn' : Forall (fun qo => has_id (fst qo) = ids_given s) outs).
        { apply run_segments_nodes in Er. apply Forall_forall. intros qo Hqo. apply (in_map fst) in Hqo. rewrite Er in Hqo.
          apply in_map_iff in Hqo as [on [E1 E2]]. rewrite <- E1, <- Hid. apply All; now apply (segments_in qs []). }
        destruct (ids_given s); cbn [rbind reports].
        * destruct (@dict_of outs [] (fun _ => None)) as [N E]; [constructor|easy|]. split; [exact N|]. split; [exact E|].
          eapply Forall_impl; [|exact Hn']. intros qo. unfold has_id. now destruct (output_id (fst qo)).
        * split; [easy|]. eapply Forall_impl; [|exact Hn']. intros qo. unfold has_id. now destruct (output_id (fst qo)). Qed.

  (** Queries added later do not change the outputs there are. *)
  Theorem C42_later_queries_partial (n : nat) (history more : list query) (parts : list D) l l' :
    0 < n ->
    (forall q, In q (accepted None (history ++ more)) -> fan_out q = true -> is_output q = true) ->
    compute_batch n None false false (add_queries new_pipeline history) parts = Ok (RList l) ->
    compute_batch n None false false (add_queries new_pipeline (history ++ more)) parts = Ok (RList l') ->
    exists new, l' = l ++ new.
  Proof. intros Hn F E E'.
    assert (P : exists qs', accepted None (history ++ more) = accepted None history ++ qs').
    { clear. generalize (@None bool). induction history as [|q h IH]; intros ids; cbn [accepted app]; [now eexists|].
      destruct (is_output q); [destruct (match ids with None => true | Some _ => _ end)|destruct (output_id q)]; auto.
      - destruct (IH (Some (match output_id q with Some _ => true | None => false end))) as [qs' ->]. now exists qs'.
      - destruct (IH ids) as [qs' ->]. now exists qs'. }
    destruct P as [qs' P].
    pose proof (@C42_outputs_partial n None false false history parts Hn) as X.
    pose proof (@C42_outputs_partial n None false false (history ++ more) parts Hn F) as X'.
    cbv zeta in X, X'. rewrite E in X. rewrite E' in X'. rewrite P in *.
    specialize (X (fun q Hq => F q (in_or_app _ _ _ (or_introl Hq)))).
    destruct (expected n None false false (accepted None history) parts) as [o|] eqn:Eo; [|easy].
    destruct (expected n None false false (accepted None history ++ qs') parts) as [o'|] eqn:Eo'; [|easy].
    cbn [reports] in *. destruct X as [-> _], X' as [-> _].
    assert (Q : forall qs b, exists rest, output_prefixes b (qs ++ qs') = output_prefixes b qs ++ rest).
    { intros qs. induction qs as [|q qs IH]; intros b; cbn [app output_prefixes]; [now eexists|].
      destruct (IH (b ++ [q])) as [r ->]. exists r. now destruct (is_output q). }
    unfold expected in *. destruct (Q (accepted None history) []) as [rest ->] in Eo'. clear - Eo Eo'.
    set (F := fun pq : list query * query => _) in *. clearbody F.
    revert o o' Eo Eo'. induction (output_prefixes [] (accepted None history)) as [|x xs IH]; intros o o'; cbn [app rmap].
    - intros [= <-] _. now eexists.
    - destruct (F x) as [y|]; cbn [rbind]; [|easy].
      destruct (rmap F xs) as [ys|]; cbn [rbind]; [|easy]. destruct (rmap F (xs ++ rest)) as [ys'|]; cbn [rbind]; [|easy].
      intros [= <-] [= <-]. destruct (IH ys ys' eq_refl eq_refl) as [new Hnew]. exists new. cbn. now rewrite Hnew. Qed.

  (** Repartitioning keeps all rows in order, in [n] partitions of equal length except perhaps the last, which is the
      longest. *)
  Theorem C42_repartition_keeps_rows (n : nat) (q : query) (d d' : D) :
    0 < n -> is_output q = true -> repartition_after q = true -> fan_out q = false -> output_id q = None ->
    func q d None = Ok d' ->
    exists ps, compute_batch n None false false (add_queries new_pipeline [q]) [d] = Ok (RList [ps])
      /\ length ps = n /\ concat ps = d'
      /\ exists k, (forall i p, i < n - 1 -> nth_error ps i = Some p -> length p = k) /\ (forall p, In p ps -> k <= length p).
  Proof. intros Hn Ho Hr Hf Hid E.
    pose proof (@C42_outputs_partial n None false false [q] [d] Hn) as X. cbv zeta in X. cbn [accepted] in X. rewrite Ho in X.
    specialize (X ltac:(cbn; intros x [<-|[]]; easy)).
    unfold expected in X. cbn [output_prefixes app] in X. rewrite Ho in X. cbn [rmap fst snd direct] in X.
    unfold direct1 in X. rewrite Hf, Hr, E in X. cbn [rbind finish] in X.
    destruct (compute_batch _ _ _ _ _ _) as [r|]. 2:{ destruct X as (_ & X & _). discriminate. }
    destruct r as [l|l]; cbn in X.
    2:{ destruct X as (_ & _ & X). inversion X. easy. }
    destruct X as [-> _]. exists (even n d'). split; [easy|]. unfold even. set (k := length d' / n).
    assert (M : k * n <= length d') by (unfold k; rewrite Nat.mul_comm; apply Nat.mul_div_le; lia).
    clearbody k.
    assert (M' : k * (n - 1) + k = k * n) by (replace n with (n - 1 + 1) at 2 by lia; rewrite Nat.mul_add_distr_l; lia).
    assert (Sm : list_sum (repeat k (n - 1) ++ [length d' - k * (n - 1)]) = length d').
    { rewrite list_sum_app, sum_repeat. unfold list_sum. cbn [fold_right]. rewrite (Nat.mul_comm (n - 1)). lia. }
    split; [rewrite cut_length, app_length, repeat_length; cbn; lia|]. split; [now apply concat_cut_exact|].
    exists k. assert (Lens : map (@length R) (cut (repeat k (n - 1) ++ [length d' - k * (n - 1)]) d') = repeat k (n - 1) ++ [length d' - k * (n - 1)]).
    { apply cut_lengths. lia. }
    split.
    - intros i p Hi Hp. apply (map_nth_error (@length R)) in Hp. rewrite Lens, nth_error_app1 in Hp by (rewrite repeat_length; lia).
      apply nth_error_In, repeat_spec in Hp. easy.
    - intros p Hp. apply (in_map (@length R)) in Hp. rewrite Lens in Hp. apply in_app_iff in Hp as [Hp|[Hp|[]]].
      + apply repeat_spec in Hp. lia.
      + rewrite <- Hp. lia. Qed.
End Props.
Print Assumptions C42_outputs_partial.
Print Assumptions C42_later_queries_partial.
Print Assumptions C42_repartition_keeps_rows.

(** Queries on rows that are numbers. *)
Definition plain (f : list nat -> list nat) (out : bool) (id : option nat) : query nat :=
  Query (fun d _ => Ok (f d)) out false false false None id.
Definition fanned (out : bool) (g : list (list nat) -> list nat) : query nat :=
  Query (fun d i => Ok (map (fun x => x + match i with Some i => i | None => 0 end) d)) out false true true
        (Some (fun ds => Ok (g ds))) None.
Definition cut_up : query nat := Query (fun d _ => Ok d) false true false false None None.
Definition numbered : query nat :=
  Query (fun d i => Ok (map (fun x => x * 10 + match i with Some i => i | None => 0 end) d)) true false false true None None.

(** Fan out, cut into two partitions, two more outputs; the hypotheses of the theorems hold and an id is refused. *)
Definition long_history : list (query nat) :=
  [fanned true (@concat nat); cut_up; plain (map S) false (Some 1); numbered; plain (map S) true None; plain (map S) true (Some 3)].
Example C42_example : 
  (forall q, In q (accepted None long_history) -> fan_out q = true -> is_output q = true)
  /\ compute_batch 2 None false false (add_queries new_pipeline long_history) [[5; 6; 7]]
     = Ok (RList [[[5; 6; 7; 6; 7; 8]]; [[50; 60; 70]; [61; 71; 81]]; [[51; 61; 71]; [62; 72; 82]]])
  /\ exists outs, expected 2 None false false (accepted None long_history) [[5; 6; 7]] = Ok outs /\ length outs = 3.
Proof. split; [|split; [reflexivity|eexists; split; reflexivity]].
  cbn. intros q H. repeat (destruct H as [<-|H]; [easy|]). destruct H. Qed.
(** With ids, and a postprocessor that gets them. *)
Example C42_dict_example :
  compute_batch 2 (Some (fun d k i => Ok (d ++ match k, i with Some k, Some i => [k; i] | _, _ => [] end))) true true
    (add_queries new_pipeline [plain (map S) true (Some 7); plain (map S) true (Some 8)]) [[1]; [2; 3]]
  = Ok (RDict [(7, [[2; 7; 0]; [3; 4; 7; 1]]); (8, [[3; 8; 0]; [4; 5; 8; 1]])]).
Proof. reflexivity. Qed.

(** Without the hypothesis it is false: a query that fans out and is not an output is reduced by the function of a
    later query (pipeline.py:245-249 reads the loop variable [node] when the reduction runs).  Its results are wrong
    when the later query has such a function, *)
Definition smallest (ds : list (list nat)) : list nat := firstn 1 (concat ds).
Theorem C42_other_reducer_refuted :
  exists (history : list (query nat)) parts l outs,
    compute_batch 2 None false false (add_queries new_pipeline history) parts = Ok (RList l)
    /\ expected 2 None false false (accepted None history) parts = Ok outs
    /\ l <> map snd outs.
Proof. exists [fanned false smallest; fanned true (@concat nat)], [[5; 6]]. do 2 eexists. repeat split; try reflexivity.
  discriminate. Qed.
(** and the whole batch raises when it has none. *)
Theorem C42_no_reducer_refuted :
  exists (history : list (query nat)) parts,
    compute_batch 2 None false false (add_queries new_pipeline history) parts = Err TypeError
    /\ exists outs, expected 2 None false false (accepted None history) parts = Ok outs.
Proof. exists [fanned false (@concat nat); plain (map S) true None], [[5; 6]]. split; [reflexivity|]. eexists. reflexivity. Qed.

Print Assumptions C42_other_reducer_refuted.
Print Assumptions C42_no_reducer_refuted.
