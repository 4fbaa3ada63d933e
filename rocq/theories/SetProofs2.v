(** Distributing an array over the blocks named by two block indices. *)
From Verif Require Import Base Table ChunkModel ChunkSpec ChunkProofs GridModel GridSpec FrameSpec GridProofs GridProofs2 GridProofs3 GridProofs5 SelSpec SelModel
  SelProofs SelProofs2 SelProofs3 SelProofs4 SelProofs5 SelProofs6 SelProofs7 SetSpec SetModel SetProofs.

Definition entry_size (bins : list nat) (e : nat * bidx) : nat := length (expand (nth (fst e) bins 0) (snd e)).
Lemma entry_size_positions bins e : length (entry_positions bins e) = entry_size bins e.
Proof. unfold entry_positions, entry_size. now rewrite map_length. Qed.

(** The sizes the counters advance by: they exist; when an array is cut up they must be the true ones, except
    that the last may be too large. *)
Fixpoint steps (exact : bool) (sizes : option (list nat)) (bins : list nat) (k : nat) (dict : list (nat * bidx)) : Prop :=
  match dict with
  | [] => True
  | e :: rest =>
      (exists u, compute_part_size sizes k (nth (fst e) bins 0) (snd e) = Ok u
         /\ (exact = true -> entry_size bins e <= u /\ (rest <> [] -> u = entry_size bins e)))
      /\ steps exact sizes bins (S k) rest
  end.
Definition total (bins : list nat) (dict : list (nat * bidx)) : nat := list_sum (map (entry_size bins) dict).

Lemma total_cons bins e rest : total bins (e :: rest) = entry_size bins e + total bins rest.
Proof. unfold total. cbn [map]. now rewrite list_sum_cons. Qed.
Lemma total_positions bins dict : length (concat (map (entry_positions bins) dict)) = total bins dict.
Proof.
  unfold total. rewrite map_length_concat, map_map. f_equal. apply map_ext. intros e. apply entry_size_positions.
Qed.

Section Distribute.
  Context {L H A : Type}.
  Notation dframe := (df L H A).

  Lemma forallb_bound n ps : Forall (fun p => p < n) ps -> forallb (fun p => p <? n) ps = true.
  Proof. intros F. apply forallb_forall. rewrite Forall_forall in F. intros p Hp. apply Nat.ltb_lt. auto. Qed.

  Lemma write_block array r c (v : nat -> nat -> A) rl cl (d : dframe) re ce rpos ro cpos co :
    wf d -> list_sum rl = nrows d -> list_sum cl = ncols d -> entry_ok rl re -> entry_ok cl ce ->
    (array = true -> Nat.min (rpos + ro) r - rpos = entry_size rl re /\ Nat.min (cpos + co) c - cpos = entry_size cl ce) ->
    (array = false -> forall i j, v i j = v 0 0) ->
    iloc_set (expand (nth (fst re) rl 0) (snd re)) (expand (nth (fst ce) cl 0) (snd ce)) (sub_item array r c rpos ro cpos co v)
             (block_at rl cl d (fst re) (fst ce))
    = Ok (put (expand (nth (fst re) rl 0) (snd re)) (expand (nth (fst ce) cl 0) (snd ce)) (fun i j => v (rpos + i) (cpos + j))
              (block_at rl cl d (fst re) (fst ce))).
  Proof.
    intros W Sr Sc Er Ec Ha Hs. destruct (@block_at_dims L H A rl cl d (fst re) (fst ce) Sr Sc (proj1 Er) (proj1 Ec)) as [Dr Dc].
    unfold iloc_set. rewrite Dr, Dc, (forallb_bound (proj2 Er)), (forallb_bound (proj2 Ec)). cbn [andb]. unfold sub_item.
    destruct array.
    - destruct (Ha eq_refl) as [-> ->]. unfold entry_size. rewrite !Nat.eqb_refl. cbn [negb]. reflexivity.
    - f_equal. apply put_ext; [now apply wf_block|]. intros p q _ _.
      destruct (last_index _ p); [|reflexivity]. destruct (last_index _ q); [|reflexivity]. f_equal. symmetry. now apply Hs.
  Qed.

  Lemma write_columns_ok array r c (v : nat -> nat -> A) rsizes csizes rl cl k re rpos ro cdict :
    (array = false -> forall i j, v i j = v 0 0) -> entry_ok rl re -> 
    compute_part_size rsizes k (nth (fst re) rl 0) (snd re) = Ok ro ->
    (array = true -> Nat.min (rpos + ro) r - rpos = entry_size rl re) ->
    forall kc cpos off (d : dframe), wf d -> list_sum rl = nrows d -> list_sum cl = ncols d ->
    Forall (entry_ok cl) cdict -> steps array csizes cl kc cdict ->
    (array = true -> cdict <> [] -> cpos + total cl cdict = c) ->
    write_columns array r c v rsizes csizes k re rpos kc cpos off cdict (cut_table rl cl d)
    = Ok (cut_table rl cl (put (entry_positions rl re) (concat (map (entry_positions cl) cdict)) (fun i j => v (rpos + i) (cpos + j)) d),
          match cdict with [] => off | _ => ro end).
  Proof.
    intros Hs Er Ero Har. induction cdict as [|ce rest IH]; intros kc cpos off d W Sr Sc F St Hc.
    - cbn [write_columns map concat]. now rewrite put_nil_cols.
    - apply Forall_cons_iff in F as [Ec F]. cbn [steps] in St. destruct St as [(co & Eco & Hco) St].
      cbn [write_columns]. rewrite get_block_cut by (apply Er || apply Ec). cbn [rbind].
      destruct (@block_at_dims L H A rl cl d (fst re) (fst ce) Sr Sc (proj1 Er) (proj1 Ec)) as [-> ->].
      rewrite Ero. cbn [rbind]. rewrite Eco. cbn [rbind].
      assert (Hsz : array = true -> Nat.min (cpos + co) c - cpos = entry_size cl ce).
      { intros E. destruct (Hco E) as [H1 H2]. assert (Hn : ce :: rest <> []) by discriminate. specialize (Hc E Hn). rewrite total_cons in Hc.
        destruct rest as [|e' rest']; [change (total cl []) with 0 in Hc; lia|]. assert (Hn' : e' :: rest' <> []) by discriminate. specialize (H2 Hn'). lia. }
      rewrite (@write_block array r c v rl cl d re ce rpos ro cpos co W Sr Sc Er Ec) by auto. cbn [rbind].
      rewrite set_block_cut by assumption.
      rewrite IH; auto.
      2:{ now apply wf_put. }
      2:{ intros E Hn. destruct (Hco E) as [H1 H2]. assert (Hn2 : ce :: rest <> []) by discriminate. specialize (Hc E Hn2). rewrite total_cons in Hc. specialize (H2 Hn). lia. }
      f_equal. f_equal; [|destruct rest; reflexivity]. f_equal. cbn [map concat]. rewrite put_app_cols by assumption.
      destruct rest as [|e' rest']. { cbn [map concat]. rewrite !put_nil_cols; auto; now apply wf_put. }
      destruct array.
      + destruct (Hco eq_refl) as [_ H2]. assert (Hn' : e' :: rest' <> []) by discriminate. specialize (H2 Hn').
        rewrite entry_size_positions, <- H2. apply put_ext; [now apply wf_put|]. intros p q _ _.
        destruct (last_index _ p); [|reflexivity]. destruct (last_index _ q); [|reflexivity]. f_equal. f_equal. lia.
      + apply put_ext; [now apply wf_put|]. intros p q _ _.
        destruct (last_index _ p); [|reflexivity]. destruct (last_index _ q); [|reflexivity]. f_equal.
        etransitivity; [|symmetry]; now apply Hs.
  Qed.

  Lemma write_rows_ok array r c (v : nat -> nat -> A) rsizes csizes rl cl cdict rdict :
    (array = false -> forall i j, v i j = v 0 0) ->
    Forall (entry_ok cl) cdict -> steps array csizes cl 0 cdict -> (array = true -> cdict <> [] -> total cl cdict = c) ->
    forall k rpos (d : dframe), wf d -> list_sum rl = nrows d -> list_sum cl = ncols d ->
    Forall (entry_ok rl) rdict -> steps array rsizes rl k rdict -> (array = true -> rdict <> [] -> rpos + total rl rdict = r) ->
    write_rows array r c v rsizes csizes k rpos rdict cdict (cut_table rl cl d)
    = Ok (cut_table rl cl (put (concat (map (entry_positions rl) rdict)) (concat (map (entry_positions cl) cdict)) (fun i j => v (rpos + i) j) d)).
  Proof.
    intros Hs Fc Sc0 Hc. induction rdict as [|re rest IH]; intros k rpos d W Sr Sc F St Hr.
    - cbn [write_rows map concat]. now rewrite put_nil_rows.
    - apply Forall_cons_iff in F as [Er F]. cbn [steps] in St. destruct St as [(ro & Ero & Hro) St]. cbn [write_rows].
      assert (Hsz : array = true -> Nat.min (rpos + ro) r - rpos = entry_size rl re).
      { intros E. destruct (Hro E) as [H1 H2]. assert (Hn : re :: rest <> []) by discriminate. specialize (Hr E Hn). rewrite total_cons in Hr.
        destruct rest as [|e' rest']; [change (total rl []) with 0 in Hr; lia|]. assert (Hn' : e' :: rest' <> []) by discriminate. specialize (H2 Hn'). lia. }
      rewrite (@write_columns_ok array r c v rsizes csizes rl cl k re rpos ro cdict Hs Er Ero Hsz 0 0 0 d W Sr Sc Fc Sc0) by (intros; now apply Hc).
      cbn [rbind fst snd]. destruct cdict as [|ce cdict'].
      { (* no column entry: nothing is written *)
        cbn [map concat]. rewrite put_nil_cols by assumption. rewrite put_nil_cols by assumption.
        clear - W Sr Sc. revert k rpos. induction rest as [|e' rest' IH']; intros k rpos; [reflexivity|]. cbn [write_rows write_columns rbind fst snd]. apply IH'. }
      set (cd := ce :: cdict') in *.
      rewrite IH; auto.
      2:{ now apply wf_put. }
      2:{ intros E Hn. destruct (Hro E) as [H1 H2]. assert (Hn2 : re :: rest <> []) by discriminate. specialize (Hr E Hn2). rewrite total_cons in Hr. specialize (H2 Hn). lia. }
      f_equal. f_equal. change (map (entry_positions rl) (re :: rest)) with (entry_positions rl re :: map (entry_positions rl) rest). cbn [concat]. rewrite put_app_rows by assumption.
      destruct rest as [|e' rest']. { cbn [map concat]. rewrite !put_nil_rows; auto; now apply wf_put. }
      destruct array.
      + destruct (Hro eq_refl) as [_ H2]. assert (Hn' : e' :: rest' <> []) by discriminate. specialize (H2 Hn').
        rewrite entry_size_positions, <- H2. apply put_ext; [now apply wf_put|]. intros p q _ _.
        destruct (last_index _ p); [|reflexivity]. destruct (last_index _ q); [|reflexivity]. f_equal. f_equal. lia.
      + apply put_ext; [now apply wf_put|]. intros p q _ _.
        destruct (last_index _ p); [|reflexivity]. destruct (last_index _ q); [|reflexivity]. f_equal.
        etransitivity; [|symmetry]; now apply Hs.
  Qed.
End Distribute.

(* ---------------- the sizes are right ---------------- *)

(** All blocks but the last are as long as the first; the last is not longer. *)
Definition even (bins : list nat) : Prop :=
  forall i, i < length bins -> nth i bins 0 <= hd 0 bins /\ (S i < length bins -> nth i bins 0 = hd 0 bins).

Lemma steps_lists exact sizes bins dict : forall k, Forall (fun e => exists ps, snd e = BList ps) dict -> steps exact sizes bins k dict.
Proof.
  induction dict as [|e rest IH]; intros k F; cbn [steps]; [trivial|].
  apply Forall_cons_iff in F as [[ps E] F]. split; [|auto]. exists (length ps). unfold entry_size. rewrite E. cbn [compute_part_size expand]. split; [reflexivity|]. auto.
Qed.

Lemma expand_mono s t a b : s <= t -> length (expand s (BSlice a b)) <= length (expand t (BSlice a b)).
Proof. intros Hst. cbn [expand]. rewrite !seq_length. destruct a, b; lia. Qed.

Lemma steps_unknown exact bins dict : forall k, steps exact None bins k dict.
Proof.
  induction dict as [|e rest IH]; intros k; cbn [steps]; [trivial|]. split; [|apply IH]. unfold entry_size.
  destruct (snd e); cbn [compute_part_size]; eexists; (split; [reflexivity|]); auto.
Qed.

(** Consecutive slices from block [p0] on. *)
Definition run_from (p0 : nat) (dict : list (nat * bidx)) : Prop :=
  map fst dict = seq p0 (length dict) /\ Forall (fun e => exists a b, snd e = BSlice a b) dict.

Lemma steps_run exact bins dict : forall k p0, run_from (p0 + k) dict -> p0 + k + length dict <= length bins ->
  (exact = true -> p0 = 0 \/ even bins) -> steps exact (Some bins) bins k dict.
Proof.
  induction dict as [|e rest IH]; intros k p0 [R1 R2] Hle He; cbn [steps]; [trivial|].
  apply Forall_cons_iff in R2 as [(a & b & E) R2]. cbn [map length seq] in R1. injection R1 as E1 R1. cbn [length] in Hle. split.
  - rewrite E. cbn [compute_part_size]. rewrite (nth_error_nth' _ 0) by lia. eexists. split; [reflexivity|].
    intros Ex. unfold entry_size. rewrite E, E1. destruct (He Ex) as [->|Ev].
    + rewrite Nat.add_0_l. auto.
    + destruct p0 as [|p0]; [rewrite Nat.add_0_l; auto|].
      assert (Bk : nth k bins 0 = hd 0 bins) by (apply Ev; lia).
      split.
      * apply expand_mono. rewrite Bk. apply Ev. lia.
      * intros Hn. destruct rest; [easy|]. cbn [length] in Hle. rewrite Bk. f_equal. f_equal. symmetry. apply Ev; lia.
  - apply (IH (S k) p0); [|lia|exact He]. rewrite Nat.add_succ_r. split; [|exact R2]. exact R1.
Qed.

(** The block index of a unit-step range is a run of slices. *)
Lemma run_wholes i n : run_from i (map (fun j => (j, whole)) (seq i n)).
Proof.
  split; [rewrite map_map, map_length, seq_length; apply map_id|].
  apply Forall_map, Forall_forall. intros x _. now exists None, None.
Qed.
Lemma run_app p d1 d2 : run_from p d1 -> run_from (p + length d1) d2 -> run_from p (d1 ++ d2).
Proof.
  intros [A1 A2] [B1 B2]. split; [|now apply Forall_app].
  rewrite map_app, app_length, seq_app. congruence.
Qed.
Lemma run_one p a b : run_from p [(p, BSlice a b)].
Proof. split; [reflexivity|]. repeat constructor. now exists a, b. Qed.
