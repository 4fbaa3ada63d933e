(** Assignment: writing into a table, and writing into its blocks. *)
From Verif Require Import Base Table ChunkModel ChunkSpec ChunkProofs GridModel GridSpec FrameSpec GridProofs GridProofs2 GridProofs3 GridProofs5 SelSpec SelModel
  SelProofs SelProofs2 SelProofs3 SelProofs4 SelProofs5 SelProofs6 SelProofs7 SetSpec SetModel.

Lemma imap_from_nth {X Y} (f : nat -> X -> Y) l : forall k i, nth_error (imap_from k f l) i = option_map (f (k + i)) (nth_error l i).
Proof.
  induction l as [|x t IH]; intros k i; cbn [imap_from]; destruct i as [|i]; cbn; try reflexivity.
  - now rewrite Nat.add_0_r.
  - rewrite IH. now rewrite Nat.add_succ_comm.
Qed.
Lemma imap_nth {X Y} (f : nat -> X -> Y) l i : nth_error (imap f l) i = option_map (f i) (nth_error l i).
Proof. apply imap_from_nth. Qed.
Lemma imap_from_length {X Y} (f : nat -> X -> Y) l : forall k, length (imap_from k f l) = length l.
Proof. induction l as [|x t IH]; intros k; cbn; [reflexivity|]. now rewrite IH. Qed.
Lemma imap_length {X Y} (f : nat -> X -> Y) l : length (imap f l) = length l.
Proof. apply imap_from_length. Qed.

Lemma last_index_app l1 l2 p : last_index (l1 ++ l2) p
  = match last_index l2 p with Some i => Some (length l1 + i) | None => last_index l1 p end.
Proof.
  induction l1 as [|x t IH]; cbn [app last_index length].
  - destruct (last_index l2 p); reflexivity.
  - rewrite IH. destruct (last_index l2 p) as [i|]; [reflexivity|]. destruct (last_index t p); reflexivity.
Qed.
Lemma last_index_none l p : last_index l p = None <-> ~ In p l.
Proof.
  induction l as [|x t IH]; cbn [last_index In]; [tauto|].
  destruct (last_index t p) as [i|] eqn:E.
  - split; [discriminate|]. intros N. assert (Hn : ~ In p t) by tauto. apply IH in Hn. discriminate.
  - destruct (x =? p) eqn:Ex.
    + apply Nat.eqb_eq in Ex. split; [discriminate|tauto].
    + apply Nat.eqb_neq in Ex. assert (~ In p t) by (apply IH; reflexivity). split; tauto.
Qed.
Lemma last_index_spec l p i : last_index l p = Some i <-> last_at l i p.
Proof.
  revert i. induction l as [|x t IH]; intros i; cbn [last_index].
  - split; [discriminate|]. intros [E _]. now destruct i.
  - destruct (last_index t p) as [k|] eqn:E.
    + destruct (proj1 (IH k) eq_refl) as [E1 E2]. split.
      * intros [= <-]. split; [exact E1|]. intros [|m] Hm; [lia|]. cbn. apply E2. lia.
      * intros [F1 F2]. destruct i as [|i]; cbn in F1.
        -- exfalso. apply (F2 (S k)); [lia|exact E1].
        -- f_equal. f_equal. destruct (Nat.lt_trichotomy k i) as [Lt|[Eq|Gt]]; auto; exfalso.
           ++ now apply (E2 i).
           ++ apply (F2 (S k)); [lia|exact E1].
    + pose proof (proj1 (last_index_none t p) E) as N. destruct (x =? p) eqn:Ex.
      * apply Nat.eqb_eq in Ex. subst x. split.
        -- intros [= <-]. split; [reflexivity|]. intros [|m] Hm; [lia|]. cbn. intros Em. apply N. eapply nth_error_In; eauto.
        -- intros [F1 F2]. destruct i as [|i]; [reflexivity|]. cbn in F1. exfalso. apply N. eapply nth_error_In; eauto.
      * apply Nat.eqb_neq in Ex. split; [discriminate|]. intros [F1 _]. destruct i as [|i]; cbn in F1; [congruence|].
        exfalso. apply N. eapply nth_error_In; eauto.
Qed.
Lemma last_index_shift a l p : last_index (map (fun x => a + x) l) (a + p) = last_index l p.
Proof.
  induction l as [|x t IH]; cbn; [reflexivity|]. rewrite IH. destruct (last_index t p); [reflexivity|].
  destruct (Nat.eqb_spec (a + x) (a + p)), (Nat.eqb_spec x p); try reflexivity; lia.
Qed.
Lemma last_index_seq n p : last_index (seq 0 n) p = if p <? n then Some p else None.
Proof.
  destruct (Nat.ltb_spec p n) as [Lt|Ge].
  - apply last_index_spec. split.
    + rewrite (nth_error_nth' _ 0) by now rewrite seq_length. now rewrite seq_nth.
    + intros k Hk E. assert (k < n) by (rewrite <- (seq_length n 0); apply nth_error_Some; congruence).
      rewrite (nth_error_nth' _ 0) in E by now rewrite seq_length. rewrite seq_nth in E by assumption. injection E. lia.
  - apply last_index_none. rewrite in_seq. lia.
Qed.

Section Put.
  Context {L H A : Type}.
  Notation dframe := (df L H A).

  Lemma cell_some (d : dframe) p q : wf d -> (p < nrows d /\ q < ncols d) <-> cell d p q <> None.
  Proof.
    intros [W1 W2]. unfold cell, nrows, ncols. rewrite <- W1. split.
    - intros [Hp Hq]. destruct (nth_error (dcells d) p) as [r|] eqn:E.
      + rewrite Forall_forall in W2. apply nth_error_Some. rewrite (W2 r); [exact Hq|]. eapply nth_error_In; eauto.
      + apply nth_error_None in E. lia.
    - destruct (nth_error (dcells d) p) as [r|] eqn:E; [|congruence]. intros Hn. split; [apply nth_error_Some; congruence|].
      rewrite Forall_forall in W2. rewrite <- (W2 r); [|eapply nth_error_In; eauto]. now apply nth_error_Some.
  Qed.

  Lemma cells_ext (d e : dframe) : wf d -> wf e -> dindex d = dindex e -> dcols d = dcols e ->
    (forall p q, p < nrows d -> q < ncols d -> cell d p q = cell e p q) -> d = e.
  Proof.
    intros [W1 W2] [V1 V2] Ei Ec Hc. apply df_eq; auto. apply nth_error_ext. intros p.
    destruct (nth_error (dcells d) p) as [r|] eqn:E1.
    - assert (Hp : p < nrows d). { unfold nrows. rewrite <- W1. apply nth_error_Some. congruence. }
      destruct (nth_error (dcells e) p) as [s|] eqn:E2.
      2:{ apply nth_error_None in E2. unfold nrows in Hp. rewrite V1, <- Ei in E2. lia. }
      f_equal. rewrite Forall_forall in W2, V2.
      assert (Lr : length r = ncols d) by (apply W2; eapply nth_error_In; eauto).
      assert (Ls : length s = ncols d). { unfold ncols. rewrite Ec. apply V2. eapply nth_error_In; eauto. }
      apply nth_error_ext. intros q. destruct (Nat.lt_ge_cases q (ncols d)) as [Hq|Hq].
      + specialize (Hc p q Hp Hq). unfold cell in Hc. now rewrite E1, E2 in Hc.
      + rewrite (proj2 (nth_error_None r q)), (proj2 (nth_error_None s q)) by lia. reflexivity.
    - symmetry. apply nth_error_None. apply nth_error_None in E1. rewrite V1, <- Ei, <- W1. exact E1.
  Qed.

  Lemma put_nrows rows cols v (d : dframe) : nrows (put rows cols v d) = nrows d.
  Proof. reflexivity. Qed.
  Lemma put_ncols rows cols v (d : dframe) : ncols (put rows cols v d) = ncols d.
  Proof. reflexivity. Qed.
  Lemma wf_put rows cols v (d : dframe) : wf d -> wf (put rows cols v d).
  Proof.
    intros [W1 W2]. split; cbn [put dcells dindex dcols].
    - now rewrite imap_length.
    - apply Forall_forall. intros r Hr. apply In_nth_error in Hr as [p Hp]. rewrite imap_nth in Hp.
      destruct (nth_error (dcells d) p) as [s|] eqn:E; [|discriminate]. cbn in Hp. injection Hp as <-.
      rewrite Forall_forall in W2. assert (Ls : length s = length (dcols d)) by (apply W2; eapply nth_error_In; eauto).
      destruct (last_index rows p); [now rewrite imap_length|exact Ls].
  Qed.
  Lemma cell_put rows cols v (d : dframe) p q :
    cell (put rows cols v d) p q
    = match cell d p q with
      | None => None
      | Some x => Some (match last_index rows p, last_index cols q with Some i, Some j => v i j | _, _ => x end)
      end.
  Proof.
    unfold cell. cbn [put dcells]. rewrite imap_nth. destruct (nth_error (dcells d) p) as [r|]; [|reflexivity].
    cbn [option_map]. destruct (last_index rows p) as [i|].
    - rewrite imap_nth. destruct (nth_error r q) as [x|]; cbn; [|reflexivity]. destruct (last_index cols q); reflexivity.
    - destruct (nth_error r q); reflexivity.
  Qed.

  Lemma assigned_put rows cols v (d : dframe) : wf d -> assigned rows cols v d (put rows cols v d).
  Proof.
    intros W. split; [now apply wf_put|]. split; [reflexivity|]. split; [reflexivity|]. split.
    - intros p q N. rewrite cell_put. destruct (cell d p q) as [x|]; [|reflexivity]. f_equal.
      destruct (last_index rows p) as [i|] eqn:E1; [|reflexivity]. destruct (last_index cols q) as [j|] eqn:E2; [|reflexivity].
      exfalso. apply N. apply last_index_spec in E1, E2. destruct E1 as [E1 _], E2 as [E2 _]. split; eapply nth_error_In; eauto.
    - intros i j p q Hi Hj Hp Hq. apply last_index_spec in Hi, Hj. rewrite cell_put, Hi, Hj.
      destruct (cell d p q) eqn:E; [reflexivity|]. exfalso. now apply (proj1 (cell_some p q W)).
  Qed.

  (** [put] depends only on what each position receives. *)
  Lemma put_ext rows cols v rows' cols' v' (d : dframe) : wf d ->
    (forall p q, p < nrows d -> q < ncols d ->
       match last_index rows p, last_index cols q with Some i, Some j => Some (v i j) | _, _ => None end
       = match last_index rows' p, last_index cols' q with Some i, Some j => Some (v' i j) | _, _ => None end) ->
    put rows cols v d = put rows' cols' v' d.
  Proof.
    intros W E. apply cells_ext; try apply wf_put; auto. intros p q Hp Hq. rewrite !cell_put.
    destruct (cell d p q); [|reflexivity]. f_equal. specialize (E p q Hp Hq).
    destruct (last_index rows p), (last_index cols q), (last_index rows' p), (last_index cols' q); congruence.
  Qed.

  Lemma put_app_cols rows c1 c2 v (d : dframe) : wf d ->
    put rows (c1 ++ c2) v d = put rows c2 (fun i j => v i (length c1 + j)) (put rows c1 v d).
  Proof.
    intros W. apply cells_ext; repeat apply wf_put; auto. intros p q _ _. rewrite !cell_put.
    destruct (cell d p q); [|reflexivity]. f_equal. rewrite last_index_app.
    destruct (last_index rows p) as [i|]; [|reflexivity]. destruct (last_index c2 q); reflexivity.
  Qed.
  Lemma put_app_rows r1 r2 cols v (d : dframe) : wf d ->
    put (r1 ++ r2) cols v d = put r2 cols (fun i j => v (length r1 + i) j) (put r1 cols v d).
  Proof.
    intros W. apply cells_ext; repeat apply wf_put; auto. intros p q _ _. rewrite !cell_put.
    destruct (cell d p q); [|reflexivity]. f_equal. rewrite last_index_app.
    destruct (last_index r2 p) as [i|]; [|reflexivity]. destruct (last_index cols q) as [j|]; [reflexivity|].
    destruct (last_index r1 p); reflexivity.
  Qed.
  Lemma put_nil_rows cols v (d : dframe) : wf d -> put [] cols v d = d.
  Proof.
    intros W. apply cells_ext; auto. { now apply wf_put. } intros p q _ _. rewrite cell_put. cbn. destruct (cell d p q); reflexivity.
  Qed.
  Lemma put_nil_cols rows v (d : dframe) : wf d -> put rows [] v d = d.
  Proof.
    intros W. apply cells_ext; auto. { now apply wf_put. } intros p q _ _. rewrite cell_put. cbn. destruct (cell d p q); [|reflexivity].
    destruct (last_index rows p); reflexivity.
  Qed.

  Lemma cell_block (d : dframe) a b c e p q : p < b - a -> q < e - c ->
    cell (block d (a, b) (c, e)) p q = cell d (a + p) (c + q).
  Proof.
    intros Hp Hq. unfold cell. cbn [block dcells fst snd]. rewrite nth_error_map, nth_error_slice by assumption.
    destruct (nth_error (dcells d) (a + p)); [|reflexivity]. cbn. now apply nth_error_slice.
  Qed.
  Lemma block_dims (d : dframe) a b c e : b <= nrows d -> e <= ncols d ->
    nrows (block d (a, b) (c, e)) = b - a /\ ncols (block d (a, b) (c, e)) = e - c.
  Proof.
    intros Hb He. unfold nrows, ncols in *. cbn [block dindex dcols fst snd]. rewrite !slice_length. split; lia.
  Qed.
End Put.

Lemma set_nth_length {X} (x : X) l : forall i, length (set_nth i x l) = length l.
Proof. induction l as [|y t IH]; intros [|i]; cbn; auto. Qed.
Lemma set_nth_nth {X} (x : X) l : forall i k, nth_error (set_nth i x l) k = if (k =? i) && (i <? length l) then Some x else nth_error l k.
Proof.
  induction l as [|y t IH]; intros [|i] [|k]; cbn; try reflexivity.
  - now rewrite andb_false_r.
  - rewrite IH. reflexivity.
Qed.

Lemma start_of_disjoint bins i j x y : i < length bins -> j < length bins -> x < nth i bins 0 -> y < nth j bins 0 ->
  start_of bins i + x = start_of bins j + y -> i = j.
Proof.
  intros Hi Hj Hx Hy E. destruct (Nat.lt_trichotomy i j) as [Lt|[Eq|Gt]]; auto; exfalso.
  - pose proof (@start_of_mono bins (S i) j Lt). rewrite start_of_S in H by assumption. lia.
  - pose proof (@start_of_mono bins (S j) i Gt). rewrite start_of_S in H by assumption. lia.
Qed.
Lemma entry_elsewhere bins i ix k p : entry_ok bins (i, ix) -> k < length bins -> p < nth k bins 0 -> k <> i ->
  last_index (entry_positions bins (i, ix)) (start_of bins k + p) = None.
Proof.
  intros [Hi Hx] Hk Hp N. apply last_index_none. unfold entry_positions. intros Hin. apply in_map_iff in Hin as (x & Ex & Hin).
  cbn [fst snd] in *. rewrite Forall_forall in Hx. apply N. symmetry. eapply start_of_disjoint; eauto.
Qed.
Lemma entry_here bins i ix p : last_index (entry_positions bins (i, ix)) (start_of bins i + p) = last_index (expand (nth i bins 0) ix) p.
Proof. unfold entry_positions. cbn [fst snd]. apply last_index_shift. Qed.

Section Blocks.
  Context {L H A : Type}.
  Notation dframe := (df L H A).

  (** The block of number (i, j). *)
  Definition block_at (rl cl : list nat) (d : dframe) (i j : nat) : dframe :=
    block d (start_of rl i, start_of rl i + nth i rl 0) (start_of cl j, start_of cl j + nth j cl 0).

  Lemma cut_table_nth rl cl (d : dframe) i : nth_error (cut_table rl cl d) i
    = if i <? length rl then Some (map (block d (start_of rl i, start_of rl i + nth i rl 0)) (bounds 0 cl)) else None.
  Proof.
    unfold cut_table. rewrite nth_error_map. destruct (Nat.ltb_spec i (length rl)) as [Hi|Hi].
    - now rewrite nth_error_bounds.
    - rewrite (proj2 (nth_error_None _ _)); [reflexivity|]. rewrite bounds_length. exact Hi.
  Qed.
  Lemma cut_row_nth cl (d : dframe) rb j : nth_error (map (block d rb) (bounds 0 cl)) j
    = if j <? length cl then Some (block d rb (start_of cl j, start_of cl j + nth j cl 0)) else None.
  Proof.
    rewrite nth_error_map. destruct (Nat.ltb_spec j (length cl)) as [Hi|Hi].
    - now rewrite nth_error_bounds.
    - rewrite (proj2 (nth_error_None _ _)); [reflexivity|]. rewrite bounds_length. exact Hi.
  Qed.
  Lemma get_block_cut rl cl (d : dframe) i j : i < length rl -> j < length cl ->
    get_block (cut_table rl cl d) i j = Ok (block_at rl cl d i j).
  Proof.
    intros Hi Hj. unfold get_block. rewrite cut_table_nth. apply Nat.ltb_lt in Hi as ->. rewrite cut_row_nth. apply Nat.ltb_lt in Hj as ->. reflexivity.
  Qed.
  Lemma block_at_dims rl cl (d : dframe) i j : list_sum rl = nrows d -> list_sum cl = ncols d -> i < length rl -> j < length cl ->
    nrows (block_at rl cl d i j) = nth i rl 0 /\ ncols (block_at rl cl d i j) = nth j cl 0.
  Proof.
    intros Sr Sc Hi Hj. unfold block_at. pose proof (@start_of_bound _ _ Hi). pose proof (@start_of_bound _ _ Hj).
    destruct (@block_dims L H A d (start_of rl i) (start_of rl i + nth i rl 0) (start_of cl j) (start_of cl j + nth j cl 0)) as [-> ->]; lia.
  Qed.

  (** Writing into the blocks whose rows (columns) are those of an entry writes into the table. *)
  Lemma block_at_put rl cl (d : dframe) re ce v i j : wf d -> list_sum rl = nrows d -> list_sum cl = ncols d ->
    entry_ok rl re -> entry_ok cl ce -> i < length rl -> j < length cl ->
    block_at rl cl (put (entry_positions rl re) (entry_positions cl ce) v d) i j
    = if (i =? fst re) && (j =? fst ce)
      then put (expand (nth i rl 0) (snd re)) (expand (nth j cl 0) (snd ce)) v (block_at rl cl d i j)
      else block_at rl cl d i j.
  Proof.
    intros W Sr Sc Er Ec Hi Hj. pose proof (@start_of_bound _ _ Hi) as Bi. pose proof (@start_of_bound _ _ Hj) as Bj.
    assert (Wp := wf_put (entry_positions rl re) (entry_positions cl ce) v W).
    assert (Wb : wf (block_at rl cl d i j)) by now apply wf_block.
    destruct (@block_at_dims rl cl d i j Sr Sc Hi Hj) as [Dr Dc].
    destruct re as [ri rx], ce as [ci cx]. cbn [fst snd] in *.
    destruct ((i =? ri) && (j =? ci)) eqn:E.
    - apply andb_true_iff in E as [E1 E2]. apply Nat.eqb_eq in E1, E2. subst ri ci.
      apply cells_ext; [now apply wf_block|now apply wf_put|reflexivity|reflexivity|].
      change (nrows (block_at rl cl (put (entry_positions rl (i, rx)) (entry_positions cl (j, cx)) v d) i j)) with (nrows (block_at rl cl d i j)).
      change (ncols (block_at rl cl (put (entry_positions rl (i, rx)) (entry_positions cl (j, cx)) v d) i j)) with (ncols (block_at rl cl d i j)).
      rewrite Dr, Dc. intros p q Hp Hq. rewrite cell_put. unfold block_at. rewrite !cell_block by lia. rewrite cell_put.
      rewrite !entry_here. reflexivity.
    - apply cells_ext; [now apply wf_block|assumption|reflexivity|reflexivity|].
      change (nrows (block_at rl cl (put (entry_positions rl (ri, rx)) (entry_positions cl (ci, cx)) v d) i j)) with (nrows (block_at rl cl d i j)).
      change (ncols (block_at rl cl (put (entry_positions rl (ri, rx)) (entry_positions cl (ci, cx)) v d) i j)) with (ncols (block_at rl cl d i j)).
      rewrite Dr, Dc. intros p q Hp Hq. unfold block_at. rewrite !cell_block by lia. rewrite cell_put.
      destruct (cell d (start_of rl i + p) (start_of cl j + q)); [|reflexivity]. f_equal.
      apply andb_false_iff in E as [E|E]; apply Nat.eqb_neq in E.
      + now rewrite entry_elsewhere.
      + rewrite (@entry_elsewhere cl ci cx j q) by assumption. destruct (last_index _ _); reflexivity.
  Qed.

  Lemma set_block_cut rl cl (d : dframe) re ce v : wf d -> list_sum rl = nrows d -> list_sum cl = ncols d ->
    entry_ok rl re -> entry_ok cl ce ->
    set_block (fst re) (fst ce) (put (expand (nth (fst re) rl 0) (snd re)) (expand (nth (fst ce) cl 0) (snd ce)) v
                                     (block_at rl cl d (fst re) (fst ce))) (cut_table rl cl d)
    = cut_table rl cl (put (entry_positions rl re) (entry_positions cl ce) v d).
  Proof.
    intros W Sr Sc Er Ec. assert (Hr := proj1 Er). assert (Hc := proj1 Ec).
    unfold set_block. rewrite cut_table_nth. rewrite (proj2 (Nat.ltb_lt _ _) Hr).
    apply nth_error_ext. intros i. rewrite set_nth_nth, !cut_table_nth.
    assert (Lc : length (cut_table rl cl d) = length rl) by (unfold cut_table; now rewrite map_length, bounds_length). rewrite Lc.
    rewrite (proj2 (Nat.ltb_lt _ _) Hr), andb_true_r.
    destruct (i <? length rl) eqn:Ei.
    2:{ destruct (i =? fst re) eqn:E; [|reflexivity]. apply Nat.eqb_eq in E. subst. apply Nat.ltb_ge in Ei. lia. }
    apply Nat.ltb_lt in Ei. 
    assert (Row : map (block (put (entry_positions rl re) (entry_positions cl ce) v d) (start_of rl i, start_of rl i + nth i rl 0)) (bounds 0 cl)
      = if i =? fst re then set_nth (fst ce) (put (expand (nth (fst re) rl 0) (snd re)) (expand (nth (fst ce) cl 0) (snd ce)) v (block_at rl cl d (fst re) (fst ce)))
                               (map (block d (start_of rl i, start_of rl i + nth i rl 0)) (bounds 0 cl))
        else map (block d (start_of rl i, start_of rl i + nth i rl 0)) (bounds 0 cl)).
    { apply nth_error_ext. intros j. rewrite cut_row_nth. destruct (j <? length cl) eqn:Ej.
      - apply Nat.ltb_lt in Ej. pose proof (@block_at_put rl cl d re ce v i j W Sr Sc Er Ec Ei Ej) as B. unfold block_at at 1 in B. rewrite B.
        destruct (i =? fst re) eqn:E1; cbn [andb].
        + apply Nat.eqb_eq in E1. subst i. rewrite set_nth_nth, map_length, bounds_length, (proj2 (Nat.ltb_lt _ _) Hc), andb_true_r.
          destruct (j =? fst ce) eqn:E2.
          * apply Nat.eqb_eq in E2. subst j. reflexivity.
          * rewrite cut_row_nth, (proj2 (Nat.ltb_lt _ _) Ej). reflexivity.
        + rewrite cut_row_nth, (proj2 (Nat.ltb_lt _ _) Ej). reflexivity.
      - apply Nat.ltb_ge in Ej. symmetry. apply nth_error_None.
        destruct (i =? fst re); [rewrite set_nth_length|]; now rewrite map_length, bounds_length. }
    rewrite Row. destruct (i =? fst re) eqn:E; [|reflexivity]. apply Nat.eqb_eq in E. subst i. reflexivity.
  Qed.
End Blocks.
