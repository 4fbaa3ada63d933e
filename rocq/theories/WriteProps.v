(** C51: to_csv. *)
From Coq Require Import String Ascii.
From Verif Require Import Base Table ChunkSpec ChunkModel GridSpec GridModel FrameSpec ChunkProofs GridProofs GridProofs2 GridProofs3
  WriteSpec WriteModel WriteProofs WriteProofs2.

Section Csv.
  Context {L H A C : Type}.
  Variable leqb : L -> L -> bool.
  Variable heqb : H -> H -> bool.
  Hypothesis leqb_ok : forall x y, leqb x y = true <-> x = y.
  Hypothesis heqb_ok : forall x y, heqb x y = true <-> x = y.
  Variable render : bool -> df L H A -> list C.

  (** C51.  [f] is any frame with blocks; its table is [d] with the labels [idx] and [cols].  The text of a table
      is made row by row, the mode has no 'x', and [t] is what pandas' own to_csv of the whole table leaves in
      the file.  Then, whatever was in the file, for every interleaving of the tasks and every crash of a task at
      any point:
      - the file is as it was or holds the kept content followed by a prefix of the text;
      - when the call returns, the file is exactly pandas';
      - while no task has failed and some task is not done, some task can go on;
      - no task fails unless one crashes;
      - there is no endless run. *)
  Theorem C51_to_csv_partial : forall (f : pframe) (d : df L H A) rl cl idx cols (mode : string) (header : bool) old t,
    gridded f d rl cl -> rl <> [] -> cl <> [] -> pindex f = Some idx -> pcols f = Some cols ->
    row_local render -> has "x" mode = false ->
    pandas_to_csv render mode header old (mkdf idx cols (dcells d)) = Ok t ->
    exists pieces w0, row_pieces leqb heqb f = Ok pieces /\ csv_start old pieces = Ok w0
      /\ (forall w, reaches (any_step render mode header pieces) w0 w ->
            (wfile w = old \/ exists kept written rest, open_file mode old = Ok kept
                                /\ wfile w = Some (kept ++ written) /\ t = kept ++ written ++ rest)
            /\ (csv_returned w -> wfile w = Some t)
            /\ (~ csv_raised w -> ~ csv_returned w -> exists w', run_step render mode header pieces w w'))
      /\ (forall w, reaches (run_step render mode header pieces) w0 w -> ~ csv_raised w)
      /\ Acc (fun b a => any_step render mode header pieces a b) w0.
  Proof. intros f d rl cl idx cols mode header old t G Hr Hc Hi Hcc (head & line & RL) Nx Ep.
    unfold pandas_to_csv in Ep. destruct (open_file mode old) as [base|] eqn:Eo; [|discriminate]. cbn in Ep. injection Ep as <-.
    destruct (row_pieces_ok leqb heqb leqb_ok G Hr Hc Hi Hcc) as (rl' & N & S & Erp).
    change (relabel None idx cols d) with (mkdf idx cols (dcells d)) in Erp. set (D := mkdf idx cols (dcells d)) in *.
    assert (W : wf D).
    { destruct G as (W & _ & _ & _ & Gi & Gc & _). specialize (Gi _ Hi). specialize (Gc _ Hcc).
      destruct W as [W1 W2]. split; cbn.
      - unfold nrows in Gi. congruence.
      - unfold ncols in Gc. eapply Forall_impl; [|exact W2]. cbn. intros a ->. congruence. }
    assert (SD : list_sum rl' = nrows D).
    { rewrite S. destruct G as (_ & _ & _ & _ & Gi & _). symmetry. exact (Gi _ Hi). }
    pose proof (@contents_text L H A C render head line header rl' D RL W N SD) as CT.
    set (ps := row_cut rl' D) in *.
    assert (Hn : length ps <> 0).
    { unfold ps, row_cut. rewrite map_length, bounds_length. destruct rl'; [easy|discriminate]. }
    destruct (start_ok render mode header ps old base) as (w0 & Es & I0).
    exists ps, w0. split; [exact Erp|]. split; [exact Es|]. split; [|split].
    - intros w R. destruct (reach_ok old Eo Nx Es R) as [k I]. split; [|split].
      + destruct (always_prefix mode I) as [E|(p & E & r & Er)]; [now left|]. right.
        exists base, p, r. split; [reflexivity|]. split; [exact E|]. rewrite CT in Er. now rewrite Er.
      + intros Hd. rewrite (all_written mode I Hd Hn), CT. reflexivity.
      + intros N1 N2. eapply can_go_on; eauto.
    - intros w R. assert (X : (exists k, inv render header ps old base k w) /\ ~ csv_raised w); [|apply X].
      induction R as [|u v R IH St].
      + split; [eauto|]. unfold csv_raised. intros X. apply Exists_exists in X as (p & Hp & ->).
        unfold csv_start in Es. destruct (send 0 (new_signals (length ps + 1))) as [ev|]; [|discriminate].
        cbn in Es. injection Es as <-. cbn in Hp. apply repeat_spec in Hp. discriminate.
      + destruct IH as [[k I] NR]. destruct St as [i St]. split.
        * eapply step_ok; eauto.
        * eapply never_fails_alone; eauto.
    - apply runs_end. Qed.
End Csv.
Print Assumptions C51_to_csv_partial.

(** ** What fails *)
Section Refuted.
  (** Exclusive creation: pandas writes the file, but the second task finds it already there and raises. *)
  Let plain (h : bool) (d : df nat nat nat) : list nat := table_text (fun c => c) (fun l r => l :: r) h d.
  Theorem C51_exclusive_mode_refuted :
    exists (f : pframe (L:=nat) (H:=nat) (A:=nat)) d pieces w0 w,
      gridded f d [1; 1] [1] /\ pandas_to_csv plain "x" true None d = Ok [7; 10; 1; 11; 2]
      /\ row_pieces Nat.eqb Nat.eqb f = Ok pieces /\ csv_start None pieces = Ok w0
      /\ reaches (run_step plain "x" true pieces) w0 w /\ csv_raised w /\ wfile w = Some [7; 10; 1].
  Proof. set (d := mkdf [10; 11] [7] [[1]; [2]]).
    exists (mkpf (cut_table [1; 1] [1] d) (Some [10; 11]) (Some [7]) None None), d.
    eexists _, _, _. split.
    { repeat split; try (repeat constructor); cbn; intros ? [= <-]; reflexivity. }
    split; [reflexivity|]. split; [vm_compute; reflexivity|]. split; [vm_compute; reflexivity|].
    split.
    { apply do_all_reaches with (schedule := [0;0;0;0;0;0;0;0;1;1;1]). vm_compute. reflexivity. }
    split; [|reflexivity]. apply Exists_cons_tl, Exists_cons_hd. reflexivity. Qed.

  (** A table without rows: from_pandas makes a frame without blocks, so there is no task and no file, where
      pandas writes the header. *)
  Theorem C51_no_rows_refuted :
    exists (d : df nat nat nat) fr (w : wstate nat),
      wf d /\ from_pandas 4 32 32 d = Ok fr
      /\ (do pieces <- row_pieces Nat.eqb Nat.eqb (mkpf (fgrid fr) (Some (findex fr)) (Some (fcols fr)) None None);
          csv_start None pieces) = Ok w
      /\ csv_returned w /\ wfile w = None
      /\ pandas_to_csv plain "w" true None d = Ok [7; 8].
  Proof. exists (mkdf [] [7; 8] []). eexists _, _. split; [repeat constructor|].
    split; [vm_compute; reflexivity|]. split; [vm_compute; reflexivity|].
    split; [constructor|]. split; reflexivity. Qed.

  (** A writer that looks at the whole column, as pandas does to choose between dates and times: a cell is
      written with a trailing 0 when some cell of the table is above 9. *)
  Let dates (h : bool) (d : df nat nat nat) : list nat :=
    let long := existsb (fun r => existsb (fun x => 9 <? x) r) (dcells d) in
    table_text (fun c => c) (fun l r => l :: flat_map (fun x => if long then [x; 0] else [x]) r) h d.
  Theorem C51_column_format_refuted :
    exists (f : pframe (L:=nat) (H:=nat) (A:=nat)) d pieces w0 w,
      gridded f d [1; 1] [1] /\ pandas_to_csv dates "w" false None d = Ok [5; 1; 0; 6; 20; 0]
      /\ row_pieces Nat.eqb Nat.eqb f = Ok pieces /\ csv_start None pieces = Ok w0
      /\ reaches (run_step dates "w" false pieces) w0 w /\ csv_returned w /\ wfile w = Some [5; 1; 6; 20; 0].
  Proof. set (d := mkdf [5; 6] [7] [[1]; [20]]).
    exists (mkpf (cut_table [1; 1] [1] d) (Some [5; 6]) (Some [7]) None None), d.
    eexists _, _, _. split.
    { repeat split; try (repeat constructor); cbn; intros ? [= <-]; reflexivity. }
    split; [reflexivity|]. split; [vm_compute; reflexivity|]. split; [vm_compute; reflexivity|].
    split.
    { apply do_all_reaches with (schedule := [0;1;0;0;0;0;0;0;1;1;1;1;1;1;1]). vm_compute. reflexivity. }
    split; [repeat constructor|reflexivity]. Qed.
End Refuted.
Print Assumptions C51_exclusive_mode_refuted.
Print Assumptions C51_no_rows_refuted.
Print Assumptions C51_column_format_refuted.

Section Examples.
  (** A 3x2 frame in 2x2 blocks whose labels were changed after it was made; the file is appended to. *)
  Let d := mkdf [0; 1; 2] [0; 1] [[1; 2]; [3; 4]; [5; 6]].
  Let f := mkpf (cut_table [2; 1] [1; 1] d) (Some [10; 11; 12]) (Some [7; 8]) None None.
  Let plain (h : bool) (d : df nat nat nat) : list nat := table_text (fun c => c) (fun l r => l :: r) h d.
  Example csv_ex_frame : gridded f d [2; 1] [1; 1] /\ pindex f = Some [10; 11; 12] /\ pcols f = Some [7; 8].
  Proof. repeat split; try (repeat constructor); cbn; intros ? [= <-]; reflexivity. Qed.
  Example csv_ex_local : row_local plain.
  Proof. exists (fun c => c), (fun l r => l :: r). reflexivity. Qed.
  Example csv_ex_pandas : pandas_to_csv plain "a" true (Some [99]) (mkdf [10; 11; 12] [7; 8] (dcells d))
      = Ok [99; 7; 8; 10; 1; 2; 11; 3; 4; 12; 5; 6] /\ has "x" "a" = false.
  Proof. split; reflexivity. Qed.
  Example csv_ex_pieces : row_pieces Nat.eqb Nat.eqb f
      = Ok [mkdf [10; 11] [7; 8] [[1; 2]; [3; 4]]; mkdf [12] [7; 8] [[5; 6]]].
  Proof. vm_compute. reflexivity. Qed.
End Examples.
