From Coq Require Import ZArith.
From Verif Require Import Base Table ChunkSpec ChunkModel ChunkProofs GridModel FrameSpec GridProofs GridProofs2 GridProofs3 GridProofs5 ReadSpec ReadModel ReadProofs ReadProofs2 ReadProofs3.

(** * HDF and feather *)
Lemma store_row_lengths_eq nparts minrow n : 0 < nparts -> 0 < minrow ->
  store_row_lengths nparts minrow n = get_length_list n nparts minrow.
Proof. intros Hn Hm. unfold store_row_lengths, get_length_list.
  destruct (@compute_chunksize_ok n nparts minrow Hn Hm) as (c & -> & Hc & _). cbn [rbind]. f_equal.
  destruct (Nat.ltb_spec n c) as [Lt|Ge].
  - destruct nparts as [|k]; [lia|]. cbn [seq map]. cbn [Nat.sub]. rewrite Nat.sub_0_r. f_equal.
    + destruct (Nat.leb_spec ((0 + 1) * c) n); lia.
    + rewrite <- seq_shift, map_map. transitivity (map (fun _ => 0) (seq 0 k)); [now rewrite map_const, seq_length|].
      apply map_ext. intros i. destruct (Nat.leb_spec ((S i + 1) * c) n); nia.
  - apply map_ext. intros i. destruct (Nat.ltb_spec ((i + 1) * c) n), (Nat.leb_spec ((i + 1) * c) n); nia. Qed.

Section Store.
  Context {L H A : Type}.
  Variable leqb : L -> L -> bool.
  Variable heqb : H -> H -> bool.
  Hypothesis leqb_ok : forall x y, leqb x y = true <-> x = y.
  Hypothesis heqb_ok : forall x y, heqb x y = true <-> x = y.
  Variable range_labels : nat -> list L.

  Lemma eff_lens_get n k m lens : 0 < m -> get_length_list n k m = Ok lens -> eff_lens n k m None = lens.
  Proof. intros Hm G. unfold eff_lens. destruct (Nat.eqb_spec k 1) as [E|E].
    - subst k. rewrite get_length_list_one in G by assumption. now injection G as <-.
    - now rewrite G. Qed.

  Lemma read_store_ok nparts minrow mincol (d : df L H A) : 0 < nparts -> 0 < minrow -> wf d -> dcols d <> [] ->
    length (range_labels (nrows d)) = nrows d ->
    exists f rl cl, read_store range_labels nparts minrow mincol d = Ok f
      /\ gridded f d rl cl /\ pindex f = Some (range_labels (nrows d)) /\ pcols f = Some (dcols d).
  Proof. intros Hn Hm W Cn Rl. unfold read_store.
    destruct (@build_columns_ok nparts mincol (ncols d) None Hn) as (ivs & widths & -> & Wn & In & Sw & Lw & Iv);
      [unfold ncols; destruct (dcols d); [easy|cbn; lia]|exact Logic.I|]. cbn [rbind fst snd].
    destruct (@get_length_list_ok (nrows d) nparts minrow Hn Hm) as (lens & G & Ll & Sl).
    assert (R : rmap (fun ci => split_result_of_axis_func false nparts (iloc_cols d (fst ci) (snd ci)) minrow None) ivs
       = Ok (map (fun ci => map (fun ri => block d ri ci) (bounds 0 lens)) ivs)).
    { apply rmap_ok. intros ci _. rewrite split_eff by auto using wf_iloc_cols. cbn [axis_size].
      replace (nrows (iloc_cols d (fst ci) (snd ci))) with (nrows d) by reflexivity. rewrite (@eff_lens_get (nrows d) nparts minrow lens) by assumption.
      f_equal. apply map_ext. intros ri. unfold iloc_rows, iloc_cols, block. cbn [dindex dcols dcells]. now rewrite slice_map. }
    rewrite R. cbn [rbind]. destruct (map (fun ci => map (fun ri => block d ri ci) (bounds 0 lens)) ivs) eqn:E; [apply map_eq_nil in E; easy|].
    rewrite <- E. clear E. rewrite store_row_lengths_eq, G by assumption. cbn [rbind].
    assert (T : transp nparts (map (fun ci => map (fun ri => block d ri ci) (bounds 0 lens)) ivs) = cut_table lens widths d).
    { rewrite <- Ll, <- (bounds_length 0 lens). rewrite (transp_fun (fun ci ri => block d ri ci) ivs (bounds 0 lens)).
      unfold cut_table. apply map_ext. intros ri. rewrite <- Iv, map_map. apply map_ext. intros ci. symmetry. now apply block_clip. }
    rewrite T.
    assert (Gr : gridded (mkpf (cut_table lens widths d) (Some (range_labels (nrows d))) (Some (dcols d)) (Some lens) (Some widths)) d lens widths).
    { unfold gridded. cbn. split; [exact W|]. repeat split; auto; intros ? [= <-]; auto. }
    destruct (@construct_gridded _ _ _ _ d lens widths Gr) as (f' & rl2 & cl2 & -> & G2 & _ & _ & Pi & Pc); auto.
    { intros ->. cbn in Ll. lia. }
    exists f', rl2, cl2. rewrite Pi, Pc. cbn. auto. Qed.
End Store.

(** * SQL *)
Lemma sql_windows_ok {X} nparts (rows : list X) : 0 < nparts ->
  exists ws, sql_windows nparts (length rows) = Ok ws /\ length ws = nparts
    /\ concat (map (fun w => slice rows (snd w) (snd w + fst w)) ws) = rows.
Proof. intros Hn. unfold sql_windows. destruct (Nat.eqb_spec nparts 0); [lia|]. eexists. split; [reflexivity|].
  split; [now rewrite map_length, seq_length|]. rewrite map_map. cbn [fst snd]. rewrite concat_map_slices_seq.
  apply firstn_all2. set (m := length rows). pose proof (Nat.div_mod (m + nparts - 1) nparts ltac:(lia)).
  pose proof (Nat.mod_upper_bound (m + nparts - 1) nparts ltac:(lia)). nia. Qed.

Lemma times_selected_cons r rs v : times_selected (r :: rs) v
  = (if (fst r <=? v)%Z && (v <=? snd r)%Z then 1 else 0) + times_selected rs v.
Proof. unfold times_selected. cbn [filter]. destruct ((fst r <=? v)%Z && (v <=? snd r)%Z); reflexivity. Qed.

Lemma bound_ranges_ok m v : (0 <= m)%Z -> forall n r stop, (0 <= r <= Z.of_nat n)%Z ->
  times_selected (bound_ranges n m r stop) v
  = if (stop <? v)%Z && (v <=? stop + Z.of_nat n * m + r)%Z then 1 else 0.
Proof. intros Hm. induction n as [|n IH]; intros r stop Hr.
  - assert (r = 0)%Z by lia. subst r. change (0 = if (stop <? v)%Z && (v <=? stop + Z.of_nat 0 * m + 0)%Z then 1 else 0). replace (stop + Z.of_nat 0 * m + 0)%Z with stop by lia. destruct (Z.ltb_spec stop v), (Z.leb_spec v stop); cbn; auto; lia.
  - cbn [bound_ranges]. rewrite times_selected_cons. cbn [fst snd]. rewrite IH by (destruct (Z.eqb_spec r 0); lia).
    replace (Z.of_nat (S n)) with (Z.of_nat n + 1)%Z by lia. set (N := Z.of_nat n) in *. assert (0 <= N)%Z by lia.
    assert (0 <= N * m)%Z by nia.
    destruct (Z.eqb_spec r 0);
    repeat match goal with |- context [(?a <=? ?b)%Z] => destruct (Z.leb_spec a b) | |- context [(?a <? ?b)%Z] => destruct (Z.ltb_spec a b) end; cbn; auto; exfalso; nia. Qed.

Lemma sql_bound_ranges_ok nparts max_sessions lower upper v : 0 < nparts -> (lower <= upper)%Z ->
  times_selected (sql_bound_ranges nparts max_sessions lower upper) v
  = if (lower <=? v)%Z && (v <=? upper)%Z then 1 else 0.
Proof. intros Hn Hl. unfold sql_bound_ranges. set (k := Nat.min nparts _).
  assert (Hk : 0 < k) by (unfold k; destruct (Nat.eqb_spec max_sessions 0); lia). clearbody k.
  set (diff := (upper - lower + 1)%Z). assert (Hd : (0 < diff)%Z) by lia.
  pose proof (Z.div_mod diff (Z.of_nat k) ltac:(lia)) as Dm. pose proof (Z.mod_pos_bound diff (Z.of_nat k) ltac:(lia)) as Mb.
  assert (0 <= diff / Z.of_nat k)%Z by (apply Z.div_pos; lia).
  rewrite bound_ranges_ok by lia.
  replace (lower - 1 + Z.of_nat k * (diff / Z.of_nat k) + diff mod Z.of_nat k)%Z with upper by lia.
  replace (lower - 1 <? v)%Z with (lower <=? v)%Z; [reflexivity|]. destruct (Z.leb_spec lower v), (Z.ltb_spec (lower - 1) v); auto; lia. Qed.
