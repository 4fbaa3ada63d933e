(** Numbered files. *)
From Verif Require Import Base Table ChunkSpec GridSpec GridModel FrameSpec ChunkProofs GridProofs GridProofs2 GridProofs3
  WriteSpec WriteModel WriteProofs WriteProofs2 SaveSpec SaveModel SaveProofs SaveProofs2.

Section Names.
  Variable pat : name.
  Hypothesis star : In 42 pat.

  Lemma glob_length p i : length (glob_name p i) = (length p - count_occ Nat.eq_dec p 42) + count_occ Nat.eq_dec p 42 * length (str_of i)
    /\ count_occ Nat.eq_dec p 42 <= length p.
  Proof. induction p as [|c p [IH1 IH2]]; [split; reflexivity|]. cbn [glob_name flat_map] in *. fold (glob_name p i) in *.
    rewrite app_length. destruct (Nat.eqb_spec c 42) as [->|N].
    - rewrite count_occ_cons_eq by easy. cbn [length]. split; [|lia]. fold (glob_name p i). rewrite IH1. lia.
    - rewrite count_occ_cons_neq by easy. cbn [length]. fold (glob_name p i). rewrite IH1. split; lia. Qed.

  Lemma app_same_length (a b c d : name) : length a = length b -> a ++ c = b ++ d -> a = b /\ c = d.
  Proof. revert b. induction a as [|x a IH]; intros [|y b] El E; cbn in *; try easy.
    injection E as -> E. apply IH in E as [-> ->]; [easy|lia]. Qed.

  Lemma glob_name_inj i j : glob_name pat i = glob_name pat j -> i = j.
  Proof. intros E. assert (El : length (str_of i) = length (str_of j)).
    { apply (f_equal (@length nat)) in E. destruct (glob_length pat i) as [E1 _]. destruct (glob_length pat j) as [E2 _].
      rewrite E1, E2 in E. apply (count_occ_In Nat.eq_dec) in star. nia. }
    apply str_of_inj. revert E. induction pat as [|c p IH]; [easy|]. cbn [glob_name flat_map]. fold (glob_name p i). fold (glob_name p j).
    destruct (Nat.eqb_spec c 42) as [->|N]; intros E.
    - apply app_same_length in E; [|exact El]. easy.
    - destruct star as [X|X]; [congruence|]. injection E as E. now apply IH. Qed.

  (** one digit: the names sort like the numbers *)
  Lemma str_digit i : i < 10 -> str_of i = [48 + i].
  Proof. intros Hi. unfold str_of, digits. cbn [digits_fuel]. destruct (Nat.ltb_spec i 10); [reflexivity|lia]. Qed.
  Lemma glob_name_lt i j : i < j -> j < 10 -> name_lt (glob_name pat i) (glob_name pat j).
  Proof. intros Hij Hj. unfold name_lt. induction pat as [|c p IH]; [easy|]. cbn [glob_name flat_map]. fold (glob_name p i). fold (glob_name p j).
    destruct (Nat.eqb_spec c 42) as [->|N].
    - rewrite !str_digit by lia. cbn [app name_cmp]. destruct (Nat.compare_spec (48 + i) (48 + j)); lia || easy.
    - cbn [app name_cmp]. rewrite Nat.compare_refl. destruct star as [X|X]; [congruence|]. now apply IH. Qed.
End Names.

Lemma matches_star p t s : matches p s = true -> matches (42 :: p) (t ++ s) = true.
Proof. intros M. cbn [matches]. change (42 =? 42) with true. cbn match. induction t as [|c t IH]; cbn [app].
  - destruct s; rewrite M; reflexivity.
  - rewrite IH. apply Bool.orb_true_r. Qed.
Lemma matches_glob p i : matches p (glob_name p i) = true.
Proof. induction p as [|c p IH]; [reflexivity|]. cbn [glob_name flat_map]. fold (glob_name p i).
  destruct (Nat.eqb_spec c 42) as [->|N].
  - now apply matches_star.
  - cbn [matches app]. apply Nat.eqb_neq in N. rewrite N, Nat.eqb_refl. exact IH. Qed.

Section Glob.
  Context {L H A K : Type}.
  Variable leqb : L -> L -> bool.
  Variable heqb : H -> H -> bool.
  Hypothesis leqb_ok : forall x y, leqb x y = true <-> x = y.
  Hypothesis heqb_ok : forall x y, heqb x y = true <-> x = y.
  Notation dframe := (df L H A).
  Variable dump : dframe -> K.
  Variable load : K -> res dframe.
  Variable pat : name.
  Hypothesis star : In 42 pat.

  Lemma glob_write_ok pieces order (d : dir K) : dir_ok d -> dir_ok (glob_write dump pat pieces order d).
  Proof. revert d. unfold glob_write. induction order as [|i order IH]; intros d Hd; [exact Hd|]. cbn [fold_left]. apply IH.
    destruct (nth_error pieces i); [now apply dir_write_ok|exact Hd]. Qed.

  Lemma glob_write_other pieces order (d : dir K) n : (forall i, i < length pieces -> glob_name pat i <> n) ->
    file_at (glob_write dump pat pieces order d) n = file_at d n.
  Proof. intros Hn. revert d. unfold glob_write. induction order as [|i order IH]; intros d; [reflexivity|]. cbn [fold_left]. rewrite IH.
    destruct (nth_error pieces i) as [p|] eqn:E; [|reflexivity]. rewrite file_at_write.
    destruct (name_eq_dec (glob_name pat i) n) as [X|_]; [|reflexivity]. exfalso. eapply Hn; [|exact X].
    eapply nth_error_lt; eauto. Qed.

  Lemma glob_write_at pieces order (d : dir K) i p : nth_error pieces i = Some p ->
    In i order \/ file_at d (glob_name pat i) = Some (dump p) ->
    file_at (glob_write dump pat pieces order d) (glob_name pat i) = Some (dump p).
  Proof. intros Ep. revert d. unfold glob_write. induction order as [|k order IH]; intros d I; [destruct I as [[]|I]; exact I|].
    cbn [fold_left]. apply IH. destruct (Nat.eq_dec k i) as [->|N].
    - right. rewrite Ep, file_at_write. destruct (name_eq_dec (glob_name pat i) (glob_name pat i)); congruence.
    - destruct I as [[->|I]|I]; [congruence|now left|]. right. destruct (nth_error pieces k) as [q|]; [|exact I].
      rewrite file_at_write. destruct (name_eq_dec (glob_name pat k) (glob_name pat i)) as [X|_]; [|exact I].
      apply glob_name_inj in X; [congruence|exact star]. Qed.

  Lemma filter_dir_ok (P : name * K -> bool) (d : dir K) : dir_ok d -> dir_ok (filter P d).
  Proof. intros S. induction S as [|p d S IH F]; [constructor|]. cbn [filter]. destruct (P p); [|exact IH].
    constructor; [exact IH|]. rewrite Forall_forall in *. intros x Hx. apply filter_In in Hx as [Hx _]. auto. Qed.
  Lemma file_at_filter (P : name -> bool) (d : dir K) n : file_at (filter (fun p => P (fst p)) d) n = if P n then file_at d n else None.
  Proof. induction d as [|p d IH]; [now destruct (P n)|]. cbn [filter]. rewrite file_at_cons. destruct (P (fst p)) eqn:E.
    - rewrite file_at_cons, IH. destruct (name_eq_dec (fst p) n) as [<-|]; [now rewrite E|reflexivity].
    - rewrite IH. destruct (name_eq_dec (fst p) n) as [<-|]; [now rewrite E|reflexivity]. Qed.

  Definition numbered (pieces : list dframe) : dir K := combine (map (glob_name pat) (seq 0 (length pieces))) (map dump pieces).

  Lemma numbered_sorted k (l : list dframe) : k + length l <= 10 ->
    dir_ok (combine (map (glob_name pat) (seq k (length l))) (map dump l)).
  Proof. revert k. induction l as [|d l IH]; intros k Hk; cbn [length seq map combine]; [constructor|]. cbn [length] in Hk.
    constructor; [apply IH; lia|]. apply Forall_forall. intros [n c] Hn. apply in_combine_l in Hn.
    apply in_map_iff in Hn as (j & <- & Hj). apply in_seq in Hj. cbn [fst]. apply glob_name_lt; [exact star|lia|lia]. Qed.

  Lemma numbered_at pieces n : file_at (numbered pieces) n =
    match find (fun i => if name_eq_dec (glob_name pat i) n then true else false) (seq 0 (length pieces)) with
    | Some i => option_map dump (nth_error pieces i) | None => None end.
  Proof. unfold numbered.
    assert (X : forall k (l : list dframe), (forall j, nth_error l j = nth_error pieces (k + j)) ->
      file_at (combine (map (glob_name pat) (seq k (length l))) (map dump l)) n =
      match find (fun i => if name_eq_dec (glob_name pat i) n then true else false) (seq k (length l)) with
      | Some i => option_map dump (nth_error pieces i) | None => None end).
    { intros k l. revert k. induction l as [|d l IH]; intros k E; [reflexivity|]. cbn [length seq map combine find].
      rewrite file_at_cons. cbn [fst snd]. destruct (name_eq_dec (glob_name pat k) n).
      - specialize (E 0). rewrite Nat.add_0_r in E. now rewrite <- E.
      - apply IH. intros j. specialize (E (S j)). cbn in E. rewrite E. f_equal. lia. }
    apply X. reflexivity. Qed.

  Lemma glob_files pieces order (d : dir K) : dir_ok d -> (forall p, In p d -> matches pat (fst p) = false) ->
    (forall i, i < length pieces -> In i order) -> length pieces <= 10 ->
    filter (fun p => matches pat (fst p)) (glob_write dump pat pieces order d) = numbered pieces.
  Proof. intros Hd Hf Ho Hn. apply dir_ext.
    - now apply filter_dir_ok, glob_write_ok.
    - now apply numbered_sorted.
    - intros n. rewrite (file_at_filter (matches pat)), numbered_at. destruct (find _ (seq 0 (length pieces))) as [i|] eqn:Ef.
      + apply find_some in Ef as [Hi E]. apply in_seq in Hi. destruct (name_eq_dec (glob_name pat i) n) as [<-|]; [|discriminate].
        rewrite matches_glob. destruct (nth_error pieces i) as [p|] eqn:Ep; [|apply nth_error_None in Ep; lia].
        apply glob_write_at; [exact Ep|]. left. apply Ho. lia.
      + rewrite glob_write_other.
        * destruct (matches pat n) eqn:Em; [|reflexivity]. apply file_at_none. intros p Hp <-. rewrite Hf in Em by easy. discriminate.
        * intros i Hi X. eapply find_none in Ef; [|apply in_seq; split; [apply Nat.le_0_l|exact Hi]].
          cbn beta in Ef. destruct (name_eq_dec (glob_name pat i) n); congruence. Qed.

  Lemma rmap_load pieces : Forall (fun p => load (dump p) = Ok p) pieces ->
    forall k, rmap (fun p => load (snd p)) (combine (map (glob_name pat) (seq k (length pieces))) (map dump pieces)) = Ok pieces.
  Proof. induction 1 as [|p l Hp Hl IH]; intros k; [reflexivity|]. cbn [length seq map combine rmap snd]. rewrite Hp. cbn [rbind].
    now rewrite IH. Qed.

  Lemma glob_read_back rl (D : dframe) order (d : dir K) : wf D -> rl <> [] -> list_sum rl = nrows D -> length rl <= 10 ->
    Forall (fun p => load (dump p) = Ok p) (row_cut rl D) ->
    dir_ok d -> (forall p, In p d -> matches pat (fst p) = false) -> (forall i, i < length rl -> In i order) ->
    exists f, glob_read load pat (glob_write dump pat (row_cut rl D) order d) = Ok f
      /\ pf_to_pandas leqb heqb f = Ok D /\ length (pgrid f) = length rl.
  Proof. intros W N S Hn Hl Hd Hf Ho.
    assert (Lp : length (row_cut rl D) = length rl) by (unfold row_cut; now rewrite map_length, bounds_length).
    unfold glob_read. rewrite glob_files; try assumption; try (rewrite Lp; assumption).
    unfold numbered. destruct (combine _ _) as [|x xs] eqn:Ec.
    { apply (f_equal (@length _)) in Ec. rewrite combine_length, !map_length, seq_length in Ec. cbn in Ec. rewrite Nat.min_id, Lp in Ec. destruct rl; easy. }
    rewrite <- Ec, rmap_load by exact Hl. clear x xs Ec. cbn [rbind].
    eexists. split; [unfold construct, validate_axes_lengths, filter_empties; cbn [prl pcl negb andb orb]; reflexivity|].
    assert (G : map (fun b => [b]) (row_cut rl D) = cut_table rl [ncols D] D).
    { unfold row_cut, cut_table. rewrite map_map. apply map_ext. intros ri. cbn [bounds map]. rewrite Nat.add_0_l, block_cols_full by exact W; reflexivity. }
    assert (I : concat (map dindex (row_cut rl D)) = dindex D).
    { unfold row_cut. rewrite map_map.
      transitivity (concat (map (fun b => slice (dindex D) (fst b) (snd b)) (bounds 0 rl))); [reflexivity|].
      rewrite concat_bounds. apply slice_full. unfold nrows in S. lia. }
    split; [|cbn [pgrid]; rewrite map_length; exact Lp].
    eapply pf_to_pandas_holds with (rl := rl) (cl := [ncols D]); eauto.
    - split.
      + split; [exact W|]. split; [exact S|]. split; [unfold list_sum; cbn [fold_right]; lia|]. split; [exact G|]. cbn [pindex pcols prl pcl]. rewrite I.
        split; [intros i [= <-]; reflexivity|]. split; [|auto].
        intros c [= <-]. unfold row_cut. destruct rl; [easy|]. reflexivity.
      + cbn [pindex pcols]. rewrite I. split; [now right|right]. unfold row_cut. destruct rl; [easy|]. reflexivity.
    - intros _. cbn. split; discriminate. Qed.
End Glob.
