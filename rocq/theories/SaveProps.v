(** C52: to_sql.  C53: to_parquet.  C54: numbered files. *)
From Coq Require Import ZArith Permutation.
From Verif Require Import Base Table ChunkModel ChunkSpec GridModel GridSpec FrameSpec ChunkProofs GridProofs GridProofs2 GridProofs3 GridProofs5
  SelSpec SelModel SelProofs SelProofs2 SelProofs3 SelProofs4 SelProofs5 SelProofs6
  ReadSpec ReadModel ReadProps WriteSpec WriteModel WriteProofs WriteProofs2 SaveSpec SaveModel SaveProofs SaveProofs2 SaveProofs3 SaveProofs4.

Section Sql.
  Context {L H A R : Type}.
  Variable leqb : L -> L -> bool.
  Variable heqb : H -> H -> bool.
  Hypothesis leqb_ok : forall x y, leqb x y = true <-> x = y.
  Hypothesis heqb_ok : forall x y, heqb x y = true <-> x = y.
  Variables min_row min_col nparts : nat.
  Hypothesis mr : 0 < min_row.
  Hypothesis mc : 0 < min_col.
  Hypothesis np : 0 < nparts.
  Variables known_l known_w : nat -> nat -> bool.
  Variable argsort : list Z -> list nat.
  Hypothesis ag : forall l, sorts l (argsort l).
  (** The database: how a row is stored, which headers a table takes, which rows it may hold. *)
  Variable record : list H -> list H -> L -> list A -> R.
  Variable accepts : list H -> list H -> bool.
  Variable valid : list H -> list R -> bool.
  Hypothesis accepts_own : forall hs, accepts hs hs = true.
  Hypothesis valid_less : forall hs rows rest all, Permutation (rows ++ rest) all -> valid hs all = true -> valid hs rows = true.

  (** C52.  [t] is the database before the call, and pandas' own to_sql of the whole table succeeds and leaves
      [old ++ records cs d] in a table with columns [cs].  Then, for every interleaving of the tasks, and every
      crash of a task before its transaction is committed, with any number of retries:
      - the table always has the columns [cs], the rows [old] and some of the rows of [d], none twice;
      - when the call returns, it has all of them;
      - while no task has failed and some task is not done, some task can go on;
      - no task fails unless one crashes;
      - there is no endless run. *)
  Theorem C52_to_sql_partial : forall (f : pframe) (d : df L H A) rl cl big retries w t t',
    shows f d rl cl -> 0 < nrows d -> pandas_to_sql record accepts valid w d t = Ok t' ->
    exists cs old pieces s0,
      t' = Some (cs, old ++ records record cs d)
      /\ row_pieces leqb heqb f = Ok pieces
      /\ sql_start record accepts valid retries w
           (first_row leqb heqb min_row min_col nparts known_l known_w argsort big f) pieces t = Ok s0
      /\ (forall s, reaches (sql_run_early record accepts valid pieces) s0 s ->
            (exists rows rest, stable s = Some (cs, old ++ rows) /\ Permutation (rows ++ rest) (records record cs d)
                               /\ (sql_returned s -> rest = []))
            /\ (~ sql_raised s -> ~ sql_returned s -> exists s', sql_run record accepts valid pieces s s'))
      /\ (forall s, reaches (sql_run record accepts valid pieces) s0 s -> ~ sql_raised s)
      /\ Acc (fun b a => sql_run_any record accepts valid pieces a b) s0.
  Proof. intros f d rl cl big retries w t t' Sh Hn Ep.
    assert (X : exists cs old, t' = Some (cs, old ++ records record cs d) /\ accepts cs (dcols d) = true
                 /\ valid cs (old ++ records record cs d) = true
                 /\ forall d1 : df L H A, dcols d1 = dcols d -> nrows d1 = 0 -> pandas_to_sql record accepts valid w d1 t = Ok (Some (cs, old))).
    { assert (Y : forall cs old, valid cs (old ++ records record cs d) = true ->
        forall d1 : df L H A, nrows d1 = 0 -> (if valid cs (old ++ records record cs d1) then Ok (Some (cs, old ++ records record cs d1)) else Err UserError) = Ok (Some (cs, old))).
      { intros cs old V d1 N1. assert (E : records record cs d1 = []).
        { unfold records, rows_of. unfold nrows in N1. destruct (dindex d1); [reflexivity|discriminate]. }
        rewrite E, app_nil_r, (@valid_less cs old (records record cs d) _ (Permutation_refl _) V). reflexivity. }
      unfold pandas_to_sql in *. destruct t as [[x rows]|]; [destruct w|].
      - discriminate.
      - cbn [rbind fst snd] in *. destruct (valid _ _) eqn:V; [|discriminate]. injection Ep as <-.
        exists (dcols d), []. split; [reflexivity|]. split; [apply accepts_own|]. split; [exact V|]. intros d1 E1 N1. rewrite E1. now apply Y.
      - cbn [fst snd] in *. destruct (accepts x (dcols d)) eqn:Ea; [|discriminate]. cbn [rbind fst snd] in *.
        destruct (valid _ _) eqn:V; [|discriminate]. injection Ep as <-.
        exists x, rows. split; [reflexivity|]. split; [exact Ea|]. split; [exact V|]. intros d1 E1 N1. rewrite E1, Ea. cbn [rbind fst snd]. now apply Y.
      - cbn [rbind fst snd] in *. destruct (valid _ _) eqn:V; [|discriminate]. injection Ep as <-.
        exists (dcols d), []. split; [reflexivity|]. split; [apply accepts_own|]. split; [exact V|]. intros d1 E1 N1. rewrite E1. now apply Y. }
    destruct X as (cs & old & -> & Ha & Hv & He). exists cs, old.
    assert (Sh' := Sh). destruct Sh' as ([G _] & Hr & Hc & Hi & Hcc).
    assert (W : wf d) by apply G.
    destruct (row_pieces_ok leqb heqb leqb_ok G Hr Hc Hi Hcc) as (rl' & N & S & Erp).
    replace (relabel None (dindex d) (dcols d) d) with d in Erp by now destruct d.
    exists (row_cut rl' d).
    destruct (@take_2d_ok L H A leqb heqb leqb_ok heqb_ok min_row min_col nparts mr mc np known_l known_w argsort ag big f d rl cl
      (Some (IList [0%Z])) None [0] (seq 0 (ncols d)) Sh) as (f1 & E1 & E2 & _).
    { split; [exact I|]. split; [reflexivity|]. now repeat constructor. }
    { reflexivity. }
    { right. split; [repeat constructor; easy|apply seq_NoDup]. }
    assert (Ef : first_row leqb heqb min_row min_col nparts known_l known_w argsort big f = Ok (take2d [0] (seq 0 (ncols d)) d)).
    { unfold first_row. rewrite E1. exact E2. }
    eexists. split; [reflexivity|]. split; [exact Erp|]. split.
    { unfold sql_start. rewrite Ef. cbn [rbind]. rewrite He; [reflexivity| |].
      - cbn [iloc_rows take2d dcols]. apply pick_all. reflexivity.
      - unfold nrows. cbn [iloc_rows dindex]. unfold slice. now rewrite firstn_O. }
    assert (acc : forall p, In p (row_cut rl' d) -> accepts cs (dcols p) = true).
    { intros p Hp. unfold row_cut in Hp. apply in_map_iff in Hp as (ri & <- & _). exact Ha. }
    assert (ER : concat (map (records record cs) (row_cut rl' d)) = records record cs d).
    { unfold records at 2. rewrite <- (@rows_of_cut L H A rl' d W S), concat_map, map_map. f_equal.
      apply map_ext_in. intros p Hp. unfold row_cut in Hp. apply in_map_iff in Hp as (ri & <- & _). reflexivity. }
    assert (val : forall rows rest, Permutation (rows ++ rest) (old ++ concat (map (records record cs) (row_cut rl' d))) -> valid cs rows = true).
    { intros rows rest P. rewrite ER in P. eapply valid_less; eauto. }
    set (s0 := mks (Some (cs, old)) (repeat (SStart retries) (length (row_cut rl' d)))).
    assert (I0 : sinv1 record (row_cut rl' d) cs old s0).
    { split; [cbn; apply repeat_length|]. exists []. split; [constructor|]. split; [cbn; now rewrite app_nil_r|].
      intros i. split; [easy|]. intros (p & Ei & C). cbn in Ei. apply nth_error_In, repeat_spec in Ei. subst p. discriminate. }
    split; [|split].
    - intros s Rs. assert (I : sinv1 record (row_cut rl' d) cs old s) by (eapply sinv_reach; eauto). split.
      + destruct (@sinv_rows L H A R record accepts valid (row_cut rl' d) cs old acc val s I) as (rows & rest & Es & P & Hd). rewrite ER in P. eauto.
      + intros Nr Nt. eapply sql_can_go_on; eauto.
    - intros s Rs. assert (X : sinv1 record (row_cut rl' d) cs old s /\ ~ sql_raised s); [|apply X].
      induction Rs as [|a b Rs [I Nr] St].
      + split; [exact I0|]. unfold sql_raised. intros X. apply Exists_exists in X as (p & Hp & ->). cbn in Hp. apply repeat_spec in Hp. discriminate.
      + split; [|eapply sql_never_fails_alone; eauto]. destruct St as [i St]. eapply sinv_step; eauto.
    - eapply sql_runs_end with (cs := cs) (old := old); eauto. Qed.
End Sql.
Print Assumptions C52_to_sql_partial.

Section SqlRefuted.
  Let rec (cs hs : list nat) (l : nat) (r : list nat) : list nat := l :: r.
  Let anything (a b : list nat) : bool := true.
  Let any_rows (a : list nat) (b : list (list nat)) : bool := true.
  Let unique (a : list nat) (b : list (list nat)) : bool := Nat.eqb (length (nodup (list_eq_dec Nat.eq_dec) b)) (length b).
  Let p0 := mkdf [10] [7] [[1]].
  Let p1 := mkdf [11] [7] [[2]].
  Let both := mkdf [10; 11] [7] [[1]; [2]].
  Let f := mkpf [[p0]; [p1]] (Some [10; 11]) (Some [7]) None None.
  Let start retries := sql_start rec anything any_rows retries AppendRows (first_row Nat.eqb Nat.eqb 1 1 4 (fun _ _ => true) (fun _ _ => true) (fun _ => [0]) false f) [p0; p1] None.

  (** A process dies after its transaction and before it could report: Ray runs the task again. *)
  Theorem C52_retry_refuted : exists s0 s, start 3 = Ok s0
    /\ reaches (sql_run_any rec anything any_rows [p0; p1]) s0 s /\ sql_returned s
    /\ stable s = Some ([7], [[10; 1]; [10; 1]; [11; 2]])
    /\ pandas_to_sql rec anything any_rows AppendRows both None = Ok (Some ([7], [[10; 1]; [11; 2]])).
  Proof. eexists _, _. split; [vm_compute; reflexivity|]. split; [|split; [|split; [|reflexivity]]].
    - eapply reaches_step; [eapply reaches_step; [eapply reaches_step; [eapply reaches_step; [eapply reaches_step; [eapply reaches_step; [apply reaches_here|]|]|]|]|]|].
      + exists 0. left. eapply q_commit; reflexivity.
      + exists 0. right. right. eapply q_late_retry. reflexivity.
      + exists 0. left. eapply q_commit; reflexivity.
      + exists 1. left. eapply q_commit; reflexivity.
      + exists 0. left. eapply q_return. reflexivity.
      + exists 1. left. eapply q_return. reflexivity.
    - repeat constructor.
    - reflexivity. Qed.

  (** The rows arrive in the order in which the tasks commit. *)
  Theorem C52_row_order_refuted : exists s0 s, start 3 = Ok s0
    /\ reaches (sql_run rec anything any_rows [p0; p1]) s0 s /\ sql_returned s
    /\ stable s = Some ([7], [[11; 2]; [10; 1]]).
  Proof. eexists _, _. split; [vm_compute; reflexivity|]. split; [|split].
    - eapply reaches_step; [eapply reaches_step; [eapply reaches_step; [eapply reaches_step; [apply reaches_here|]|]|]|].
      + exists 1. eapply q_commit; reflexivity.
      + exists 0. eapply q_commit; reflexivity.
      + exists 0. eapply q_return. reflexivity.
      + exists 1. eapply q_return. reflexivity.
    - repeat constructor.
    - reflexivity. Qed.

  (** A table that does not take the second row: pandas changes nothing, Modin leaves the first row. *)
  Theorem C52_not_atomic_refuted : exists s0 s t, t = Some ([7], [[11; 2]])
    /\ pandas_to_sql rec anything unique AppendRows both t = Err UserError
    /\ sql_start rec anything unique 3 AppendRows (first_row Nat.eqb Nat.eqb 1 1 4 (fun _ _ => true) (fun _ _ => true) (fun _ => [0]) false f) [p0; p1] t = Ok s0
    /\ reaches (sql_run rec anything unique [p0; p1]) s0 s /\ sql_raised s
    /\ stable s = Some ([7], [[11; 2]; [10; 1]]).
  Proof. eexists _, _, _. split; [reflexivity|]. split; [reflexivity|]. split; [vm_compute; reflexivity|]. split; [|split].
    - eapply reaches_step; [eapply reaches_step; [apply reaches_here|]|].
      + exists 0. eapply q_commit; reflexivity.
      + exists 1. eapply q_error; reflexivity.
    - apply Exists_cons_tl, Exists_cons_hd. reflexivity.
    - reflexivity. Qed.

  (** A frame without rows: there is no first row to take. *)
  Theorem C52_no_rows_refuted : let empty : df nat nat nat := mkdf [] [7] [] in
    exists fr, from_pandas 4 32 32 empty = Ok fr
      /\ first_row Nat.eqb Nat.eqb 1 1 4 (fun _ _ => true) (fun _ _ => true) (fun _ => [0]) false
           (mkpf (fgrid fr) (Some (findex fr)) (Some (fcols fr)) None None) = Err IndexError
      /\ pandas_to_sql rec anything any_rows AppendRows empty None = Ok (Some ([7], [])).
  Proof. eexists. split; [vm_compute; reflexivity|]. split; vm_compute; reflexivity. Qed.

  (** The theorem applies: the frame, the database and its constraint. *)
  Example sql_ex : shows f both [1; 1] [1] /\ 0 < nrows both
    /\ pandas_to_sql rec anything unique AppendRows both (Some ([7], [[12; 5]])) = Ok (Some ([7], [[12; 5]; [10; 1]; [11; 2]])).
  Proof. split; [|split; [cbn; lia|reflexivity]]. split; [|repeat split; discriminate].
    split; [|split; now right]. repeat split; try (repeat constructor); cbn; intros ? [= <-]; reflexivity. Qed.
End SqlRefuted.
Print Assumptions C52_retry_refuted.
Print Assumptions C52_row_order_refuted.
Print Assumptions C52_not_atomic_refuted.
Print Assumptions C52_no_rows_refuted.

Section Parquet.
  Context {L H A : Type}.
  Variable leqb : L -> L -> bool.
  Variable heqb : H -> H -> bool.
  Hypothesis leqb_ok : forall x y, leqb x y = true <-> x = y.
  Hypothesis heqb_ok : forall x y, heqb x y = true <-> x = y.
  (** How the writer of one file divides its rows into row groups. *)
  Variable groups : df L H A -> list (list (L * list A)).
  Hypothesis groups_ok : forall d, concat (groups d) = rows_of d.

  Lemma table_of_rows (d : df L H A) : wf d -> mkdf (map fst (rows_of d)) (dcols d) (map snd (rows_of d)) = d.
  Proof. intros [W _]. destruct d as [ix cs cells]. unfold rows_of. cbn [dindex dcols dcells] in *. f_equal.
    - clear - W. revert cells W. induction ix as [|x ix IH]; intros [|r cells] E; cbn in *; try easy. f_equal. apply IH. lia.
    - clear - W. revert ix W. induction cells as [|r cells IH]; intros [|x ix] E; cbn in *; try easy. f_equal. apply IH. lia. Qed.

  (** C53.  [f] is any frame with blocks and rows whose table is [D]; the directory is new, there are at most
      10000 row partitions, and every worker process runs one task at a time.  For every interleaving of the
      tasks, every placement on processes, and every crash with its task run again, also in the middle of
      writing: while the call has not returned some task can go on, and when it has returned the directory read
      with read_parquet, under any configuration, is [D]. *)
  Theorem C53_to_parquet_partial : forall (f : pframe) (d : df L H A) rl cl idx cols pieces suffix nprocs s,
    gridded f d rl cl -> rl <> [] -> cl <> [] -> pindex f = Some idx -> pcols f = Some cols -> 0 < nrows d ->
    row_pieces leqb heqb f = Ok pieces -> length pieces <= 100 * 100 -> 0 < nprocs ->
    reaches (parquet_run suffix pieces 1) (parquet_start nprocs [] pieces) s ->
    (~ parquet_returned s -> exists s', parquet_run suffix pieces 1 s s')
    /\ (parquet_returned s -> forall nparts minrow mincol, 0 < nparts -> 0 < minrow -> 0 < mincol ->
          exists f', read_parquet leqb heqb cols (map (fun p => groups (snd p)) (pdir s)) nparts minrow mincol = Ok f'
            /\ pf_to_pandas leqb heqb f' = Ok (mkdf idx cols (dcells d))).
  Proof. intros f d rl cl idx cols pieces suffix nprocs s G Hr Hc Hi Hcc Hn Ep Lp Hp Rs.
    assert (D0 : dir_ok ([] : dir (df L H A))) by constructor. split.
    { now apply (parquet_can_go_on Hp D0 Rs). }
    intros Rt nparts minrow mincol P1 P2 P3.
    rewrite (final_dir (pinv_reach D0 Rs) Rt eq_refl Lp).
    destruct (row_pieces_ok leqb heqb leqb_ok G Hr Hc Hi Hcc) as (rl' & N & S & Erp).
    rewrite Erp in Ep. injection Ep as <-. change (relabel None idx cols d) with (mkdf idx cols (dcells d)) in *.
    set (D := mkdf idx cols (dcells d)) in *.
    assert (Gi : length idx = nrows d) by (destruct G as (_ & _ & _ & _ & Gi & _); exact (Gi _ Hi)).
    assert (W : wf D).
    { destruct G as (W & _ & _ & _ & _ & Gc & _). specialize (Gc _ Hcc). destruct W as [W1 W2]. split; cbn.
      - unfold nrows in Gi. congruence.
      - unfold ncols in Gc. eapply Forall_impl; [|exact W2]. cbn. intros a ->. congruence. }
    assert (SD : list_sum rl' = nrows D) by (rewrite S; symmetry; exact Gi).
    rewrite <- (map_map snd groups), all_parts_contents.
    assert (CC : concat (concat (map groups (row_cut rl' D))) = rows_of D).
    { rewrite <- (@rows_of_cut L H A rl' D W SD). clear - groups_ok. generalize (row_cut rl' D). intros l.
      induction l as [|p l IH]; [reflexivity|]. cbn [map concat]. now rewrite concat_app, groups_ok, IH. }
    assert (RR : Forall (fun r => length (snd r) = length cols) (rows_of D)).
    { apply Forall_forall. intros [l r] I. unfold rows_of in I. apply in_combine_r in I. destruct W as [_ W2]. rewrite Forall_forall in W2. now apply W2. }
    destruct (@C45_read_parquet_partial L H A leqb heqb leqb_ok heqb_ok cols (map groups (row_cut rl' D)) nparts minrow mincol P1 P2 P3) as (f' & E1 & E2 & _).
    { rewrite CC. exact RR. }
    { right. intros Z. rewrite Z in CC. change ([] = rows_of D) in CC. assert (X := table_of_rows W). rewrite <- CC in X.
      apply (f_equal nrows) in X. change (0 = length idx) in X. rewrite Gi in X. lia. }
    exists f'. split; [exact E1|]. rewrite E2. unfold dataset_table. rewrite CC. f_equal. now apply table_of_rows. Qed.

  (** C53: for any number of partitions and any earlier content: every partition is in the file of its number,
      and files of other names are as before. *)
  Theorem C53_files_partial : forall suffix pieces nprocs (before : dir (df L H A)) s,
    dir_ok before -> reaches (parquet_run suffix pieces 1) (parquet_start nprocs before pieces) s -> parquet_returned s ->
    (forall i p, nth_error pieces i = Some p -> file_at (pdir s) (part_name suffix i) = Some p)
    /\ (forall n, (forall i, i < length pieces -> n <> part_name suffix i) -> file_at (pdir s) n = file_at before n).
  Proof. intros suffix pieces nprocs before s Hd Rs Rt. destruct (pinv_reach Hd Rs) as (Hl & _ & _ & _ & Hf & Ho).
    split; [|exact Ho]. intros i p Ep. apply Hf; [|exact Ep]. assert (Li := nth_error_lt _ _ Ep).
    destruct (nth_error (ptasks s) i) as [q|] eqn:Eq; [|apply nth_error_None in Eq; lia].
    unfold parquet_returned in Rt. rewrite Forall_forall in Rt. rewrite (Rt _ (nth_error_In _ _ Eq)). reflexivity. Qed.
End Parquet.
Print Assumptions C53_to_parquet_partial.
Print Assumptions C53_files_partial.

(** C53: row labels that are the range 0..n-1 come back for every division into files; another range comes back
    when all its rows are in the first file. *)
Theorem C53_range_labels_partial : forall start step rl, step <> 0%Z ->
  (start = 0 /\ step = 1)%Z \/ hd 0 rl = list_sum rl ->
  parquet_range_labels (range_slice start step 0 (hd 0 rl)) (list_sum rl)
  = range_labels (range_slice start step 0 (list_sum rl)) (list_sum rl).
Proof. intros start step rl Hs [[-> ->]|E]; rewrite range_back.
  - destruct (_ =? _)%Z; unfold range_labels, range_slice; cbn [rstart rstep]; apply map_ext; intros k; lia.
  - rewrite E, Z.eqb_refl. unfold range_labels, range_slice. cbn [rstart rstep]. apply map_ext. intros k. lia. Qed.
Print Assumptions C53_range_labels_partial.

Section ParquetRefuted.
  Let p0 := mkdf [10] [7] [[1]].
  Let p1 := mkdf [11] [7] [[2]].
  Let suffix : name := [46; 112].
  Let groups (d : df nat nat nat) := [rows_of d].

  (** Range labels that do not start at 0 are lost when there are two files. *)
  Theorem C53_range_labels_refuted :
    parquet_range_labels (range_slice 5 1 0 2) 4 = [0; 1; 2; 3]%Z /\ range_labels (range_slice 5 1 0 4) 4 = [5; 6; 7; 8]%Z.
  Proof. split; reflexivity. Qed.

  (** A frame with one row partition written over one with two: the old second file stays and is read. *)
  Theorem C53_stale_files_refuted : exists s before, dir_ok before
    /\ reaches (parquet_run suffix [p0] 1) (parquet_start 1 before [p0]) s /\ parquet_returned s
    /\ dataset_table [7] (map (fun p => groups (snd p)) (pdir s)) = mkdf [10; 11] [7] [[1]; [2]].
  Proof. eexists _, [(part_name suffix 0, p1); (part_name suffix 1, p1)]. split.
    { repeat constructor. }
    split; [|split].
    - eapply reaches_step; [eapply reaches_step; [apply reaches_here|]|].
      + exists 0. eapply p_name with (p := 0); [reflexivity|cbn; lia|cbn; lia].
      + exists 0. eapply p_write; reflexivity.
    - repeat constructor.
    - vm_compute. reflexivity. Qed.

  (** Two tasks in two threads of one process: the second path overwrites the first before it is used. *)
  Theorem C53_threads_refuted : exists s,
    reaches (parquet_run suffix [p0; p1] 2) (parquet_start 1 [] [p0; p1]) s /\ parquet_returned s
    /\ pdir s = [(part_name suffix 1, p1)].
  Proof. eexists. split; [|split].
    - eapply reaches_step; [eapply reaches_step; [eapply reaches_step; [eapply reaches_step; [apply reaches_here|]|]|]|].
      + exists 0. eapply p_name with (p := 0); [reflexivity|cbn; lia|cbn; lia].
      + exists 1. eapply p_name with (p := 0); [reflexivity|cbn; lia|cbn; lia].
      + exists 0. eapply p_write; reflexivity.
      + exists 1. eapply p_write; reflexivity.
    - repeat constructor.
    - vm_compute. reflexivity. Qed.

  (** The names of partitions 1001 and 10000 sort the wrong way round. *)
  Theorem C53_many_files_refuted : name_lt (part_name suffix (100 * 100)) (part_name suffix 1001).
  Proof. vm_compute. reflexivity. Qed.

  (** A run with two processes and a crash in the middle of writing. *)
  Example parquet_ex : exists s, reaches (parquet_run suffix [p0; p1] 1) (parquet_start 2 [] [p0; p1]) s /\ parquet_returned s
    /\ row_pieces Nat.eqb Nat.eqb (mkpf [[p0]; [p1]] (Some [10; 11]) (Some [7]) None None) = Ok [p0; p1].
  Proof. eexists. split; [|split; [|vm_compute; reflexivity]].
    - eapply reaches_step; [eapply reaches_step; [eapply reaches_step; [eapply reaches_step; [eapply reaches_step; [eapply reaches_step; [apply reaches_here|]|]|]|]|]|].
      + exists 1. eapply p_name with (p := 0); [reflexivity|cbn; lia|cbn; lia].
      + exists 0. eapply p_name with (p := 1); [reflexivity|cbn; lia|cbn; lia].
      + exists 1. eapply p_crash_writing with (junk := p0); reflexivity.
      + exists 0. eapply p_write; reflexivity.
      + exists 1. eapply p_name with (p := 1); [reflexivity|cbn; lia|cbn; lia].
      + exists 1. eapply p_write; reflexivity.
    - repeat constructor. Qed.
End ParquetRefuted.
Print Assumptions C53_range_labels_refuted.
Print Assumptions C53_stale_files_refuted.
Print Assumptions C53_threads_refuted.
Print Assumptions C53_many_files_refuted.

Section Glob.
  Context {L H A K : Type}.
  Variable leqb : L -> L -> bool.
  Variable heqb : H -> H -> bool.
  Hypothesis leqb_ok : forall x y, leqb x y = true <-> x = y.
  Hypothesis heqb_ok : forall x y, heqb x y = true <-> x = y.
  Variable dump : df L H A -> K.
  Variable load : K -> res (df L H A).

  (** C54.  [f] is any frame with blocks whose table is [D]; the pattern has a star; no file of the directory
      matches it; there are at most ten row partitions, each of which a file keeps exactly.  The tasks write in
      any order, some perhaps several times.  Reading the pattern gives [D]. *)
  Theorem C54_glob_partial : forall (f : pframe) (d : df L H A) rl cl idx cols pieces pat before order,
    gridded f d rl cl -> rl <> [] -> cl <> [] -> pindex f = Some idx -> pcols f = Some cols ->
    row_pieces leqb heqb f = Ok pieces -> length pieces <= 10 -> Forall (fun p => load (dump p) = Ok p) pieces ->
    In 42 pat -> dir_ok before -> (forall p, In p before -> matches pat (fst p) = false) ->
    (forall i, i < length pieces -> In i order) ->
    exists f', glob_read load pat (glob_write dump pat pieces order before) = Ok f'
      /\ pf_to_pandas leqb heqb f' = Ok (mkdf idx cols (dcells d)) /\ length (pgrid f') = length pieces.
  Proof. intros f d rl cl idx cols pieces pat before order G Hr Hc Hi Hcc Ep Lp Fl St Db Nb Ho.
    destruct (row_pieces_ok leqb heqb leqb_ok G Hr Hc Hi Hcc) as (rl' & N & S & Erp).
    rewrite Erp in Ep. injection Ep as <-. change (relabel None idx cols d) with (mkdf idx cols (dcells d)) in *.
    set (D := mkdf idx cols (dcells d)) in *.
    assert (Gi : length idx = nrows d) by (destruct G as (_ & _ & _ & _ & Gi & _); exact (Gi _ Hi)).
    assert (W : wf D).
    { destruct G as (W & _ & _ & _ & _ & Gc & _). specialize (Gc _ Hcc). destruct W as [W1 W2]. split; cbn.
      - unfold nrows in Gi. congruence.
      - unfold ncols in Gc. eapply Forall_impl; [|exact W2]. cbn. intros a ->. congruence. }
    assert (SD : list_sum rl' = nrows D) by (rewrite S; symmetry; exact Gi).
    assert (Ll : length (row_cut rl' D) = length rl') by (unfold row_cut; now rewrite map_length, bounds_length).
    rewrite Ll in *. eapply glob_read_back; eauto. Qed.
End Glob.
Print Assumptions C54_glob_partial.

Section GlobRefuted.
  Let piece (i : nat) : df nat nat nat := mkdf [i] [7] [[100 + i]].
  (** "f*" *)
  Let pat : name := [102; 42].
  (** Eleven row partitions: the file f10 sorts before f2. *)
  Theorem C54_eleven_files_refuted : exists f',
    glob_read (fun d => Ok d) pat (glob_write (fun d => d) pat (map piece (seq 0 11)) (seq 0 11) []) = Ok f'
    /\ pf_to_pandas Nat.eqb Nat.eqb f' = Ok (mkdf [0; 1; 10; 2; 3; 4; 5; 6; 7; 8; 9] [7]
         [[100]; [101]; [110]; [102]; [103]; [104]; [105]; [106]; [107]; [108]; [109]]).
  Proof. eexists. split; vm_compute; reflexivity. Qed.
  (** A file of an earlier write with more partitions stays and is read. *)
  Theorem C54_stale_files_refuted : exists f',
    glob_read (fun d => Ok d) pat (glob_write (fun d => d) pat [piece 5] [0]
      (glob_write (fun d => d) pat [piece 0; piece 1] [0; 1] [])) = Ok f'
    /\ pf_to_pandas Nat.eqb Nat.eqb f' = Ok (mkdf [5; 1] [7] [[105]; [101]]).
  Proof. eexists. split; vm_compute; reflexivity. Qed.
  Example glob_ex : glob_read (fun d => Ok d) pat (glob_write (fun d => d) pat [piece 0; piece 1; piece 2] [2; 0; 1; 0] [([103; 48], piece 9)])
    = Ok (mkpf [[piece 0]; [piece 1]; [piece 2]] (Some [0; 1; 2]) (Some [7]) None None) /\ matches pat [103; 48] = false.
  Proof. repeat split; vm_compute; reflexivity. Qed.
End GlobRefuted.
Print Assumptions C54_eleven_files_refuted.
Print Assumptions C54_stale_files_refuted.
