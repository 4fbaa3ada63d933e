(** Proofs about the batch pipeline. *)
From Verif Require Import Base PipeSpec PipeModel.

Lemma agree_refl {A} (r : res A) : agree r r.
Proof. now destruct r. Qed.
Lemma agree_sym {A} (r s : res A) : agree r s -> agree s r.
Proof. destruct r, s; cbn; auto. Qed.
Lemma agree_trans {A} (r s t : res A) : agree r s -> agree s t -> agree r t.
Proof. destruct r, s, t; cbn; try tauto; congruence. Qed.
Lemma agree_bind {A B} (r s : res A) (f g : A -> res B) :
  agree r s -> (forall a, r = Ok a -> s = Ok a -> agree (f a) (g a)) -> agree (do a <- r; f a) (do a <- s; g a).
Proof. destruct r, s; cbn; try tauto. intros <- E. now apply E. Qed.
Lemma rbind_assoc {A B C} (r : res A) (f : A -> res B) (g : B -> res C) :
  (do b <- (do a <- r; f a); g b) = (do a <- r; do b <- f a; g b).
Proof. now destruct r. Qed.

Section Proofs.
  Context {R : Type}.
  Notation D := (list R).
  Notation query := (query R).
  Notation vpart := (@vpart R).
  Variable n : nat.
  Hypothesis n_pos : 0 < n.

  (** Queues without reducers do not look at the loop variable. *)
  Definition pure (p : vpart) : Prop := Forall (fun c => match c with CFun _ => True | CReduce _ => False end) (queue p).
  Definition value (node : query) (p : vpart) : res D := drain node (block p) (queue p).
  Lemma pure_value p a b : pure p -> value a p = value b p.
  Proof. unfold pure, value. destruct p as [d cs]. cbn. intros P. revert d. induction P as [|c cs H P IH]; intros d; cbn; [easy|].
    destruct c as [f|]; [|easy]. destruct (f d); cbn; auto. Qed.
  Lemma drain_app (node : query) d cs cs' : drain node d (cs ++ cs') = do d <- drain node d cs; drain node d cs'.
  Proof. revert d. induction cs as [|c cs IH]; intros d; cbn; [easy|]. destruct c; cbn.
    - destruct (f d); cbn; auto.
    - destruct (match reduce_fn node with Some g => g (d :: others) | None => _ end); cbn; auto. Qed.
  Lemma value_add node p f : value node (add_to_apply_calls p (CFun f)) = do d <- value node p; f d.
  Proof. unfold value. cbn. rewrite drain_app. destruct (drain node (block p) (queue p)); cbn; [|easy]. now destruct (f a). Qed.
  Lemma pure_add p f : pure p -> pure (add_to_apply_calls p (CFun f)).
  Proof. intros P. apply Forall_app. split; [assumption|]. now repeat constructor. Qed.

  Definition values (node : query) (ps : list vpart) : res (list D) := rmap (value node) ps.
  Lemma values_cons node p ps : values node (p :: ps) = do d <- value node p; do ds <- values node ps; Ok (d :: ds).
  Proof. reflexivity. Qed.
  Lemma values_pure a b ps : Forall pure ps -> values a ps = values b ps.
  Proof. intros P. unfold values. induction P as [|p ps H P IH]; cbn; [easy|]. rewrite (pure_value a b H). now rewrite IH. Qed.

  (** Cutting into pieces. *)
  Lemma cut_nth {A} lens (l : list A) i : i < length lens ->
    nth_error (cut lens l) i = Some (firstn (nth i lens 0) (skipn (list_sum (firstn i lens)) l)).
  Proof. revert l i. induction lens as [|k lens IH]; intros l i Hi; cbn in Hi; [lia|].
    destruct i as [|i]; cbn; [easy|]. rewrite IH by lia. rewrite skipn_skipn'. do 4 f_equal. Qed.
  Lemma firstn_repeat {A} (x : A) k m : firstn k (repeat x m) = repeat x (min k m).
  Proof. revert m. induction k as [|k IH]; intros [|m]; cbn; auto. now rewrite IH. Qed.
  Lemma nth_repeat' {A} (x y : A) i m : i < m -> nth i (repeat x m) y = x.
  Proof. revert m. induction i; intros [|m] H; cbn; auto; try lia. apply IHi. lia. Qed.
  Lemma sum_repeat x m : list_sum (repeat x m) = m * x.
  Proof. induction m as [|m IH]; cbn; [easy|]. now rewrite <- IH. Qed.
  Lemma even_masks (d : D) : map (fun i => mask_partition n i d) (seq 0 n) = even n d.
  Proof. assert (L : length (repeat (length d / n) (n - 1) ++ [length d - length d / n * (n - 1)]) = n).
    { rewrite app_length, repeat_length. cbn. lia. }
    apply nth_error_ext.
    intros i. destruct (Nat.lt_ge_cases i n) as [Hi|Hi].
    2:{ rewrite !(proj2 (nth_error_None _ _)); [easy| |]; [unfold even; rewrite cut_length; lia | rewrite map_length, seq_length; lia]. }
    rewrite (map_nth_error _ i (seq 0 n) (d := i)).
    2:{ rewrite (nth_error_nth' _ 0) by now rewrite seq_length. now rewrite seq_nth. }
    unfold even. rewrite cut_nth by lia. f_equal. unfold mask_partition.
    set (m := length d / n) in *. assert (M : m * n <= length d) by (unfold m; rewrite Nat.mul_comm; apply Nat.mul_div_le; lia).
    destruct (Nat.eqb_spec i (n - 1)) as [->|Ne].
    - rewrite app_nth2, repeat_length by (rewrite repeat_length; lia). rewrite Nat.sub_diag. cbn [nth].
      rewrite firstn_app, repeat_length, Nat.sub_diag, firstn_O, app_nil_r, firstn_repeat, Nat.min_id, sum_repeat.
      rewrite (firstn_all2 (n := length d - m * (n - 1))); [easy|]. rewrite skipn_length. lia.
    - rewrite app_nth1 by (rewrite repeat_length; lia). rewrite nth_repeat' by lia.
      rewrite firstn_app, repeat_length, firstn_repeat, list_sum_app, sum_repeat.
      replace (i - (n - 1)) with 0 by lia. cbn [firstn list_sum fold_right]. rewrite Nat.min_l by lia.
      unfold slice. rewrite Nat.add_0_r. f_equal. lia. Qed.

  Lemma rmap_const_ok {A B} (f : A -> B) l : rmap (fun x => Ok (f x)) l = Ok (map f l).
  Proof. apply rmap_ok. auto. Qed.
  Lemma rmap_map {A B C} (f : B -> res C) (g : A -> B) l : rmap f (map g l) = rmap (fun x => f (g x)) l.
  Proof. induction l as [|x l IH]; cbn; [easy|]. now rewrite IH. Qed.
  Lemma rmap_ext {A B} (f g : A -> res B) l : (forall x, In x l -> f x = g x) -> rmap f l = rmap g l.
  Proof. induction l as [|x l IH]; cbn; intros E; [easy|]. rewrite E by now left. rewrite IH by (intros; apply E; now right). easy. Qed.

  (** Applying a function to every partition later, or now. *)
  Lemma values_imap node (f : nat -> D -> res D) ps : forall i,
    agree (do ps' <- imap (fun i p => Ok (add_to_apply_calls p (CFun (f i)))) i ps; values node ps')
          (do ds <- values node ps; imap f i ds).
  Proof. induction ps as [|p ps IH]; intros i; [reflexivity|]. specialize (IH (S i)). revert IH. cbn [imap rbind].
    destruct (imap _ (S i) ps) as [ps'|e] eqn:Ei.
    2:{ exfalso. clear - Ei. revert e Ei. generalize (S i). induction ps as [|x ps IH]; intros j e; cbn; [easy|].
        destruct (imap _ (S j) ps) eqn:E; cbn; [easy|]. intros _. now apply (IH (S j) e0). }
    cbn [rbind]. rewrite !values_cons, value_add.
    destruct (value node p) as [d|]; cbn; [|easy]. destruct (values node ps) as [ds|] eqn:Ev; cbn.
    - destruct (f i d); cbn; [|easy]. destruct (values node ps'), (imap f (S i) ds); cbn; try tauto. congruence.
    - destruct (f i d); cbn; [|easy]. destruct (values node ps'); cbn; tauto. Qed.
  Lemma imap_pure (f : nat -> vpart -> vpart) ps : forall i, imap (fun i p => Ok (f i p)) i ps =
    Ok (map (fun ip => f (fst ip) (snd ip)) (combine (seq i (length ps)) ps)).
  Proof. induction ps as [|p ps IH]; intros i; cbn; [easy|]. now rewrite IH. Qed.

  Lemma node_plain node ps :
    fan_out node = false -> Forall pure ps ->
    agree (do ps' <- complete_node n node ps; values node ps') (do ds <- values node ps; direct1 n node ds)
    /\ (forall ps', complete_node n node ps = Ok ps' -> Forall pure ps').
  Proof. intros F P. unfold complete_node, direct1. rewrite F. destruct (repartition_after node).
    - destruct ps as [|p [|p' ps]]; unfold Nat.ltb; cbn [length Nat.leb].
      + split; [exact I | discriminate].
      + unfold drained. fold (value node (add_to_apply_calls p (CFun (fun d => func node d None)))). rewrite value_add.
        unfold values. cbn [rmap]. destruct (value node p) as [d|]; cbn; [|split; [exact I | discriminate]].
        destruct (func node d None) as [d'|]; cbn; [|split; [exact I | discriminate]]. split.
        * unfold values. rewrite rmap_map. unfold value. cbn. rewrite rmap_const_ok. cbn. apply even_masks.
        * intros ps' [= <-]. apply Forall_forall. intros x Hx. apply in_map_iff in Hx as [i [<- _]]. now repeat constructor.
      + split; [|discriminate]. unfold values. cbn [rmap rbind]. destruct (value node p); cbn; [|easy].
        destruct (value node p'); cbn; [|easy]. now destruct (rmap (value node) ps).
    - destruct (pass_partition_id node).
      + split; [apply values_imap|]. intros ps'. rewrite imap_pure. intros [= <-]. apply Forall_forall. intros x Hx.
        apply in_map_iff in Hx as [[i p] [<- Hp]]. apply in_combine_r in Hp. apply pure_add. rewrite Forall_forall in P. now apply P.
      + split.
        * pose proof (values_imap node (fun _ d => func node d None) ps 0) as X. rewrite imap_pure in X. cbn [rbind] in *.
          replace (map (fun ip : nat * PipeModel.vpart => add_to_apply_calls (snd ip) (CFun (fun d => func node d None))) (combine (seq 0 (length ps)) ps))
            with (map (fun p => add_to_apply_calls p (CFun (fun d => func node d None))) ps) in X; [exact X|].
          clear. generalize 0. induction ps as [|p ps IH]; intros i; cbn; [easy|]. now rewrite <- IH.
        * intros ps' [= <-]. apply Forall_forall. intros x Hx. apply in_map_iff in Hx as [p [<- Hp]]. apply pure_add.
          rewrite Forall_forall in P. now apply P. Qed.

  Lemma node_fan_out node ps :
    fan_out node = true -> Forall pure ps ->
    agree (do ps' <- complete_node n node ps; values node ps') (do ds <- values node ps; direct1 n node ds).
  Proof. intros F P. unfold complete_node, direct1. rewrite F.
    destruct ps as [|p [|p' ps]]; unfold Nat.ltb; cbn [length Nat.leb]; [exact I| |].
    2:{ unfold values. cbn [rmap rbind]. destruct (value node p); cbn; [|easy]. destruct (value node p'); cbn; [|easy].
        now destruct (rmap (value node) ps). }
    unfold drained at 1. fold (value node p). unfold values. cbn [rmap]. destruct (value node p) as [d|]; cbn [rbind]; [|easy].
    unfold drained, add_to_apply_calls. cbn [block queue app drain].
    assert (Sq : seq 0 n = 0 :: seq 1 (n - 1)) by (destruct n; [lia|]; cbn; now rewrite Nat.sub_0_r).
    rewrite Sq. cbn [rmap].
    destruct (func node d (Some 0)) as [d0|]; cbn [rbind]; [|now destruct (reduce_fn node)].
    rewrite (rmap_ext _ (fun i => func node d (Some i))).
    2:{ intros i _. cbn. now destruct (func node d (Some i)). }
    destruct (rmap _ (seq 1 (n - 1))) as [ds|]; cbn; [|now destruct (reduce_fn node)].
    unfold value. cbn. destruct (reduce_fn node) as [g|]; cbn; [|easy]. now destruct (g (d0 :: ds)). Qed.

  Lemma direct_app (qs qs' : list query) ds : direct n (qs ++ qs') ds = do ds <- direct n qs ds; direct n qs' ds.
  Proof. revert ds. induction qs as [|q qs IH]; intros ds; cbn; [easy|]. destruct (direct1 n q ds); cbn; auto. Qed.

  (** A segment: queries that do not fan out, then any query. *)
  Lemma segment (qs : list query) node : Forall (fun q => fan_out q = false) qs -> forall ps, Forall pure ps ->
    agree (do ps' <- complete_nodes n (qs ++ [node]) ps; values node ps') (do ds <- values node ps; direct n (qs ++ [node]) ds).
  Proof. induction qs as [|q qs IH]; intros F ps P; cbn [app complete_nodes direct].
    - assert (X : agree (do ps' <- complete_node n node ps; values node ps') (do ds <- values node ps; direct1 n node ds)).
      { destruct (fan_out node) eqn:E; [now apply node_fan_out | now apply node_plain]. }
      destruct (complete_node n node ps) as [ps'|]; cbn in *; destruct (values node ps) as [ds|]; cbn in *; auto;
        destruct (direct1 n node ds); cbn in *; auto.
    - inversion F; subst. destruct (@node_plain q ps) as [X Y]; [assumption..|].
      rewrite rbind_assoc. rewrite <- (values_pure q node) by assumption.
      destruct (complete_node n q ps) as [ps'|]; cbn [rbind] in *.
      + specialize (IH H2 ps' (Y ps' eq_refl)). eapply agree_trans; [exact IH|].
        rewrite <- (values_pure q node) by now apply Y. 
        destruct (values q ps) as [ds|]; cbn [rbind] in *.
        * destruct (values q ps') as [ds'|], (direct1 n q ds) as [ds2|]; cbn in *; try tauto. subst. apply agree_refl.
        * now destruct (values q ps').
      + destruct (values q ps) as [ds|]; cbn [rbind] in *; [|easy]. destruct (direct1 n q ds); cbn in *; tauto. Qed.

  (** The state between outputs: drained partitions. *)
  Definition fresh (ds : list D) : list vpart := map (fun d => Part d []) ds.
  Lemma fresh_pure ds : Forall pure (fresh ds).
  Proof. apply Forall_forall. intros x Hx. apply in_map_iff in Hx as [d [<- _]]. constructor. Qed.
  Lemma fresh_values node ds : values node (fresh ds) = Ok ds.
  Proof. unfold values, fresh. rewrite rmap_map. unfold value. cbn. rewrite rmap_const_ok. now rewrite map_id. Qed.
  Lemma rmap_drained node ps : rmap (drained node) ps = do ds <- values node ps; Ok (fresh ds).
  Proof. unfold values. induction ps as [|p ps IH]; cbn [rmap]; [easy|]. rewrite IH. unfold drained at 1. fold (value node p).
    destruct (value node p); cbn; [|easy]. now destruct (rmap (value node) ps). Qed.
  Lemma blocks_fresh ds : map (@block R) (fresh ds) = ds.
  Proof. unfold fresh. rewrite map_map. cbn. apply map_id. Qed.

  Variables (post : option (D -> option nat -> option nat -> res D)) (pass_pid pass_oid : bool).
  Notation finish := (finish post pass_pid pass_oid).
  Lemma finish_ok node ds :
    agree (do ps <- rmap (drained node) match post with
          | Some g =>
              map (fun ip => add_to_apply_calls (snd ip)
                     (CFun (fun d => g d (if pass_oid then output_id node else None) (if pass_pid then Some (fst ip) else None))))
                  (combine (seq 0 (length (fresh ds))) (fresh ds))
          | None => map (fun p => add_to_apply_calls p (CFun (fun d => Ok d))) (fresh ds)
          end; Ok (map (@block R) ps)) (finish node ds).
  Proof. rewrite rmap_drained, rbind_assoc. cbn [rbind]. unfold PipeSpec.finish. destruct post as [g|].
    - pose proof (values_imap node (fun i d => g d (if pass_oid then output_id node else None) (if pass_pid then Some i else None)) (fresh ds) 0) as X.
      rewrite imap_pure, fresh_values in X. cbn [rbind] in X.
      destruct (values node _); cbn in *; [|exact X]. now rewrite blocks_fresh.
    - unfold fresh, values. rewrite map_map. unfold value, add_to_apply_calls. cbn. rewrite rmap_map. cbn. rewrite rmap_const_ok. cbn.
      rewrite map_id. apply blocks_fresh. Qed.

  (** Each segment of the pipeline, from the partitions left by the one before. *)
  Fixpoint run_segments (outs : list (list query * query)) (ds : list D) : res (list (query * list D)) :=
    match outs with
    | [] => Ok []
    | (ops, node) :: outs =>
        do ds <- direct n (ops ++ [node]) ds; do o <- finish node ds; do rest <- run_segments outs ds; Ok ((node, o) :: rest)
    end.
  Lemma compute_outputs_ok outs : Forall (fun on => Forall (fun q => fan_out q = false) (fst on)) outs -> forall ds acc,
    agree (compute_outputs n post pass_pid pass_oid outs (fresh ds) acc) (do r <- run_segments outs ds; Ok (acc ++ r)).
  Proof. induction outs as [|[ops node] outs IH]; intros F ds acc; cbn [compute_outputs run_segments].
    - cbn. now rewrite app_nil_r.
    - inversion F; subst. cbn in H1. pose proof (segment node H1 (fresh_pure ds)) as X. rewrite fresh_values in X. cbn [rbind] in X.
      destruct (complete_nodes n (ops ++ [node]) (fresh ds)) as [ps|]; cbn [rbind] in *.
      2:{ destruct (direct n (ops ++ [node]) ds); cbn in *; tauto. }
      rewrite rmap_drained, rbind_assoc. cbn [rbind].
      destruct (values node ps) as [ds'|], (direct n (ops ++ [node]) ds) as [ds2|]; cbn [rbind agree] in *; try tauto. subst ds2.
      pose proof (finish_ok node ds') as Y. destruct (rmap (drained node) _) as [ops'|]; cbn [rbind] in *.
      2:{ destruct (finish node ds'); cbn in *; tauto. }
      destruct (finish node ds') as [o|]; cbn [rbind agree] in *; [|tauto]. subst o.
      eapply agree_trans; [apply IH; assumption|]. destruct (run_segments outs ds'); cbn; [|easy]. now rewrite <- app_assoc. Qed.

  (** The segments of a list of queries. *)
  Fixpoint segments (ops : list query) (qs : list query) : list (list query * query) :=
    match qs with
    | [] => []
    | q :: qs => if is_output q then (ops, q) :: segments [] qs else segments (ops ++ [q]) qs
    end.
  Lemma expected_segments qs : forall before ops ds parts,
    direct n before parts = Ok ds ->
    agree (run_segments (segments ops qs) ds)
      (rmap (fun pq => do ps <- direct n (fst pq) parts; do o <- finish (snd pq) ps; Ok (snd pq, o))
         (output_prefixes (before ++ ops) qs)).
  Proof. induction qs as [|q qs IH]; intros before ops ds parts E; cbn [segments output_prefixes]; [reflexivity|].
    destruct (is_output q).
    - cbn [run_segments rmap fst snd]. rewrite <- app_assoc. rewrite (direct_app before), E. cbn [rbind].
      destruct (direct n (ops ++ [q]) ds) as [ds'|] eqn:E'; cbn [rbind]; [|easy].
      destruct (finish q ds') as [o|]; cbn [rbind]; [|easy].
      assert (X := IH (before ++ ops ++ [q]) [] ds' parts). rewrite app_nil_r in X. specialize (X ltac:(now rewrite direct_app, E)).
      destruct (run_segments _ _), (rmap _ _); cbn in *; try tauto. congruence.
    - rewrite <- app_assoc. now apply IH. Qed.

  (** Adding queries builds the segments of the accepted ones. *)
  Definition ids_seen (s : @pipeline R) : option bool := if length (outputs s) =? 0 then None else Some (ids_given s).
  Definition has_id (q : query) : bool := match output_id q with Some _ => true | None => false end.
  Lemma add_queries_ok qs : forall s, (outputs s = [] -> ids_given s = false) ->
    outputs (add_queries s qs) = outputs s ++ segments (query_list s) (accepted (ids_seen s) qs).
  Proof. induction qs as [|q qs IH]; intros s Inv; cbn [add_queries accepted].
    - cbn. now rewrite app_nil_r.
    - fold (has_id q). unfold add_query. fold (has_id q).
      assert (Len : (length (outputs s) =? 0) = true -> outputs s = []) by (destruct (outputs s); [easy|discriminate]).
      destruct (is_output q) eqn:Eo; cbn [negb andb].
      + unfold ids_seen at 1. destruct (length (outputs s) =? 0) eqn:El; cbn [negb].
        * rewrite Inv by auto. rewrite !andb_false_r. cbn [andb negb].
          rewrite IH by (cbn; now destruct (outputs s)).
          unfold ids_seen. cbn [outputs query_list ids_given]. rewrite app_length, Nat.add_comm. cbn [length Nat.add Nat.eqb segments].
          rewrite Eo, <- app_assoc. cbn [app]. now destruct (has_id q).
        * rewrite andb_true_r.
          destruct (ids_given s) eqn:Ei, (has_id q) eqn:Eh; cbn [andb negb Bool.eqb].
          all: try (rewrite IH by (intros Z; rewrite Z in El; discriminate); rewrite ?Ei; reflexivity).
          all: rewrite IH by (cbn; now destruct (outputs s)).
          all: unfold ids_seen; cbn [outputs query_list ids_given]; rewrite app_length, Nat.add_comm; cbn [length Nat.add Nat.eqb segments].
          all: now rewrite Eo, <- app_assoc.
      + destruct (has_id q); cbn [negb andb].
        * now rewrite IH.
        * rewrite IH by (cbn; assumption). cbn [outputs query_list segments]. rewrite Eo. reflexivity. Qed.
  Lemma add_queries_ids qs : forall s, (outputs s = [] -> ids_given s = false) ->
    ids_given (add_queries s qs) = existsb (fun q => is_output q && has_id q) (accepted (ids_seen s) qs) || ids_given s.
  Proof. induction qs as [|q qs IH]; intros s Inv; cbn [add_queries accepted]; [easy|].
    fold (has_id q). unfold add_query. fold (has_id q).
    assert (Len : (length (outputs s) =? 0) = true -> outputs s = []) by (destruct (outputs s); [easy|discriminate]).
    destruct (is_output q) eqn:Eo; cbn [negb andb].
    - unfold ids_seen at 1. destruct (length (outputs s) =? 0) eqn:El; cbn [negb].
      + rewrite Inv by auto. rewrite !andb_false_r. cbn [andb negb]. rewrite IH by (cbn; now destruct (outputs s)).
        unfold ids_seen. cbn [outputs query_list ids_given existsb]. rewrite app_length, Nat.add_comm. cbn [length Nat.add Nat.eqb].
        rewrite Eo. cbn [andb]. destruct (has_id q); cbn; [now rewrite orb_true_r|easy].
      + rewrite andb_true_r.
        destruct (ids_given s) eqn:Ei, (has_id q) eqn:Eh; cbn [andb negb Bool.eqb].
        all: try (rewrite IH by (intros Z; rewrite Z in El; discriminate); rewrite ?Ei; reflexivity).
        all: rewrite IH by (cbn; now destruct (outputs s)).
        all: unfold ids_seen; cbn [outputs query_list ids_given existsb]; rewrite app_length, Nat.add_comm; cbn [length Nat.add Nat.eqb].
        all: rewrite Eo; cbn [andb]; rewrite Eh; cbn [orb]; now rewrite ?orb_true_r.
    - destruct (has_id q) eqn:Eh; cbn [negb andb].
      + now rewrite IH.
      + rewrite IH by (cbn; assumption). cbn [outputs query_list ids_given existsb]. now rewrite Eo. Qed.

  Lemma segments_in qs : forall ops on, In on (segments ops qs) ->
    Forall (fun q => In q qs /\ is_output q = false \/ In q ops) (fst on) /\ In (snd on) qs /\ is_output (snd on) = true.
  Proof. induction qs as [|q qs IH]; intros ops on; cbn [segments]; [easy|]. destruct (is_output q) eqn:Eo.
    - intros [<-|H].
      + cbn. split; [|auto]. apply Forall_forall. auto.
      + apply IH in H as (A & B & C). split; [|cbn; auto]. eapply Forall_impl; [|exact A]. cbn. intros a [[? ?]|[]]. auto.
    - intros H. apply IH in H as (A & B & C). split; [|cbn; auto]. eapply Forall_impl; [|exact A]. cbn. intros a [[? ?]|X]; auto.
      apply in_app_iff in X as [?|[<-|[]]]; auto. Qed.
  Lemma segments_none qs : forall ops, segments ops qs = [] <-> Forall (fun q => is_output q = false) qs.
  Proof. induction qs as [|q qs IH]; intros ops; cbn; [easy|]. destruct (is_output q) eqn:E.
    - split; [discriminate|]. intros H. inversion H. congruence.
    - rewrite IH. split; [now constructor|]. now inversion 1. Qed.
End Proofs.
