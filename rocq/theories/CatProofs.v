(** Proofs about the groupby on categorical keys. *)
From Verif Require Import Base CatSpec CatModel.

Section Lists.
  Context {A : Type}.
  Lemma filter_concat (f : A -> bool) ls : filter f (concat ls) = concat (map (filter f) ls).
  Proof. induction ls as [|l ls IH]; cbn; [easy|]. now rewrite filter_app, IH. Qed.
  Lemma filter_none (f : A -> bool) l : (forall x, In x l -> f x = false) -> filter f l = [].
  Proof. induction l as [|x l IH]; intros E; cbn; [easy|]. rewrite E by now left. apply IH. intros; apply E; now right. Qed.
  Lemma filter_all (f : A -> bool) l : (forall x, In x l -> f x = true) -> filter f l = l.
  Proof. induction l as [|x l IH]; intros E; cbn; [easy|]. rewrite E by now left. f_equal. apply IH. intros; apply E; now right. Qed.
  Lemma filter_filter (f g : A -> bool) l : filter f (filter g l) = filter (fun x => g x && f x) l.
  Proof. induction l as [|x l IH]; cbn; [easy|]. destruct (g x); cbn; [|easy]. destruct (f x); now rewrite IH. Qed.
  Lemma concat_nils {Y} (l : list Y) : concat (map (fun _ => @nil A) l) = [].
  Proof. induction l; cbn; auto. Qed.

  Lemma NoDup_app_intro (a b : list A) : NoDup a -> NoDup b -> (forall x, In x a -> ~ In x b) -> NoDup (a ++ b).
  Proof. induction a as [|x a IH]; cbn; intros Na Nb D; [assumption|]. inversion Na; subst. constructor.
    - rewrite in_app_iff. intros [I|I]; [easy|]. apply (D x); [now left|assumption].
    - apply IH; auto. Qed.

  (** Sorting into buckets. *)
  Lemma buckets_perm (h : A -> nat) n l :
    (forall x, In x l -> h x < n) -> Permutation (concat (map (fun j => filter (fun x => h x =? j) l) (seq 0 n))) l.
  Proof. induction l as [|x l IH]; intros BD.
    { cbn. now rewrite concat_nils. }
    assert (Hx : h x < n) by (apply BD; now left).
    etransitivity; [|apply perm_skip, IH; intros; apply BD; now right].
    replace n with (h x + S (n - S (h x))) by lia. rewrite seq_app, !map_app, !concat_app. cbn [seq map concat plus].
    cbn [filter]. rewrite Nat.eqb_refl.
    rewrite (map_ext_in (fun j => if h x =? j then x :: filter (fun y => h y =? j) l else filter (fun y => h y =? j) l)
              (fun j => filter (fun y => h y =? j) l) (seq 0 (h x))).
    2:{ intros j I. apply in_seq in I. destruct (Nat.eqb_spec (h x) j); [lia|easy]. }
    rewrite (map_ext_in (fun j => if h x =? j then x :: filter (fun y => h y =? j) l else filter (fun y => h y =? j) l)
              (fun j => filter (fun y => h y =? j) l) (seq (S (h x)) _)).
    2:{ intros j I. apply in_seq in I. destruct (Nat.eqb_spec (h x) j); [lia|easy]. }
    cbn [app]. symmetry. apply Permutation_middle. Qed.
  Lemma buckets_exact (h : A -> nat) n l :
    (forall x, In x l -> h x < n) -> StronglySorted (fun a b => h a <= h b) l ->
    concat (map (fun j => filter (fun x => h x =? j) l) (seq 0 n)) = l.
  Proof. intros BD SS. revert BD. induction SS as [|x l SS IH F]; intros BD.
    { cbn. now rewrite concat_nils. }
    rewrite Forall_forall in F.
    assert (Hx : h x < n) by (apply BD; now left).
    specialize (IH (fun y I => BD y (or_intror I))). 
    transitivity (x :: concat (map (fun j => filter (fun y => h y =? j) l) (seq 0 n))); [|now rewrite IH]. clear IH.
    replace n with (h x + S (n - S (h x))) by lia. rewrite seq_app, !map_app, !concat_app. cbn [seq map concat plus].
    cbn [filter]. rewrite Nat.eqb_refl.
    rewrite (map_ext_in (fun j => if h x =? j then x :: filter (fun y => h y =? j) l else filter (fun y => h y =? j) l)
              (fun _ => @nil A) (seq 0 (h x))).
    2:{ intros j I. apply in_seq in I. destruct (Nat.eqb_spec (h x) j); [lia|]. apply filter_none. intros y Hy.
        apply Nat.eqb_neq. specialize (F _ Hy). lia. }
    rewrite (map_ext_in (fun j => filter (fun y => h y =? j) l) (fun _ => @nil A) (seq 0 (h x))).
    2:{ intros j I. apply in_seq in I. apply filter_none. intros y Hy. apply Nat.eqb_neq. specialize (F _ Hy). lia. }
    rewrite (map_ext_in (fun j => if h x =? j then x :: filter (fun y => h y =? j) l else filter (fun y => h y =? j) l)
              (fun j => filter (fun y => h y =? j) l) (seq (S (h x)) _)).
    2:{ intros j I. apply in_seq in I. destruct (Nat.eqb_spec (h x) j); [lia|easy]. }
    rewrite concat_nils. reflexivity. Qed.
End Lists.

Section Proofs.
  Context {K V R A : Type}.
  Variable kdec : forall a b : K, {a = b} + {a <> b}.
  Variable lead : K -> V.
  Variable vle : V -> V -> bool.
  Variable key : R -> option K.
  Variable agg : list R -> list A.
  Variable nan : A.
  Variable difference : list K -> list K.
  Variable complete : list K.
  Variable ncols : nat.
  Variable code : K -> nat.
  Variable n : nat.
  Variable parts : list (list R).
  Notation rows := (concat parts).
  Notation group := (group kdec key).
  Notation is_in := (is_in kdec).
  Notation keys := (keys key).
  Notation observed k := (is_in k (keys rows)).
  Notation shuffle := (shuffle key code n parts).
  Notation dfs sort := (map (groupby_observed kdec key agg complete sort) shuffle).
  Notation fill := (repeat (fill_value agg nan) ncols).

  Hypothesis diff_perm : forall l, Permutation (difference l) l.
  Hypothesis nodup : NoDup complete.
  Hypothesis known : forall k, In k (keys rows) -> In k complete.
  Hypothesis code_lt : forall k, In k complete -> code k < n.

  Lemma is_in_iff k l : is_in k l = true <-> In k l.
  Proof. unfold CatModel.is_in. destruct (in_dec kdec k l); split; auto; discriminate. Qed.
  Lemma is_in_false k l : is_in k l = false <-> ~ In k l.
  Proof. rewrite <- is_in_iff. destruct (is_in k l); split; congruence. Qed.

  Lemma keys_app a b : keys (a ++ b) = keys a ++ keys b.
  Proof. apply flat_map_app. Qed.
  Lemma keys_in k rs : In k (keys rs) <-> exists r, In r rs /\ key r = Some k.
  Proof. unfold CatModel.keys. rewrite in_flat_map. split; intros [r [I E]]; exists r; split; auto.
    - destruct (key r); [|easy]. destruct E as [->|[]]. reflexivity.
    - rewrite E. now left. Qed.
  Lemma uniques_in k l : In k (uniques kdec l) <-> In k l.
  Proof. induction l as [|x l IH]; cbn; [easy|]. rewrite filter_In, IH. destruct (kdec x k); intuition congruence. Qed.
  Lemma uniques_nodup l : NoDup (uniques kdec l).
  Proof. induction l as [|x l IH]; cbn; constructor.
    - rewrite filter_In. destruct (kdec x x); [|congruence]. intuition discriminate.
    - now apply NoDup_filter. Qed.

  Definition bin (j : nat) : list R := concat (map (fun p => nth j (split_rows key code n p) []) parts).
  Definition piece (j : nat) (p : list R) : list R :=
    filter (fun r => match key r with Some k => code k =? j | None => false end) p
    ++ if S j =? n then filter (fun r => match key r with Some _ => false | None => true end) p else [].
  Lemma nth_split j p : j < n -> nth j (split_rows key code n p) [] = piece j p.
  Proof. intros Hj. apply nth_error_nth. unfold split_rows. rewrite (map_nth_error _ j (seq 0 n) (d := j)); [reflexivity|].
    rewrite (nth_error_nth' _ 0) by now rewrite seq_length. now rewrite seq_nth. Qed.
  Lemma bin_pieces j : j < n -> bin j = concat (map (piece j) parts).
  Proof. intros Hj. unfold bin. f_equal. apply map_ext. intros p. now apply nth_split. Qed.

  Lemma piece_group j k p : group k (piece j p) = if code k =? j then group k p else [].
  Proof. unfold piece, CatSpec.group. rewrite filter_app, filter_filter.
    rewrite (filter_none _ (if S j =? n then _ else _)), app_nil_r.
    2:{ intros r. destruct (S j =? n); [|intros []]. rewrite filter_In. intros [_ E]. now destruct (key r). }
    destruct (Nat.eqb_spec (code k) j).
    - apply filter_ext. intros r. destruct (key r) as [k'|]; [|easy]. destruct (kdec k k') as [<-|]; [|apply andb_false_r].
      subst. now rewrite Nat.eqb_refl.
    - apply filter_none. intros r _. destruct (key r) as [k'|]; [|easy]. destruct (kdec k k') as [<-|]; [|apply andb_false_r].
      rewrite (proj2 (Nat.eqb_neq (code k) j)) by assumption. reflexivity. Qed.
  Lemma bin_group j k : j < n -> group k (bin j) = if code k =? j then group k rows else [].
  Proof. intros Hj. rewrite bin_pieces by assumption. unfold CatSpec.group. rewrite !filter_concat, !map_map.
    destruct (code k =? j) eqn:E.
    - f_equal. apply map_ext. intros p. pose proof (piece_group j k p) as X. rewrite E in X. exact X.
    - rewrite <- (@concat_nils R (list R) parts). f_equal. apply map_ext. intros p.
      pose proof (piece_group j k p) as X. rewrite E in X. exact X. Qed.
  Lemma group_nil k rs : group k rs = [] <-> ~ In k (keys rs).
  Proof. rewrite keys_in. unfold CatSpec.group. split.
    - intros E [r [I Er]]. assert (X : In r (filter (fun r => match key r with Some k' => if kdec k k' then true else false | None => false end) rs)).
      { apply filter_In. split; [assumption|]. rewrite Er. now destruct (kdec k k). } now rewrite E in X.
    - intros N. apply filter_none. intros r I. destruct (key r) as [k'|] eqn:E; [|easy]. destruct (kdec k k') as [<-|]; [|easy].
      destruct N. now exists r. Qed.
  Lemma bin_keys j k : j < n -> In k (keys (bin j)) <-> In k (keys rows) /\ code k = j.
  Proof. intros Hj. destruct (in_dec kdec k (keys (bin j))) as [I|N].
    - split; [intros _|easy]. assert (X : group k (bin j) <> []) by (rewrite group_nil; tauto).
      rewrite bin_group in X by assumption. destruct (Nat.eqb_spec (code k) j); [|congruence].
      split; [|assumption]. destruct (in_dec kdec k (keys rows)); [assumption|]. now rewrite <- group_nil in n0.
    - split; [easy|]. intros [I E]. destruct N. assert (X : group k (bin j) <> []).
      { rewrite bin_group by assumption. rewrite E, Nat.eqb_refl. rewrite group_nil. tauto. }
      destruct (in_dec kdec k (keys (bin j))); [assumption|]. now rewrite <- group_nil in n0. Qed.

  Lemma dfs_length s : length (dfs s) = n.
  Proof. rewrite map_length. unfold CatModel.shuffle. now rewrite map_length, seq_length. Qed.
  Lemma nth_dfs s j : j < n -> nth j (dfs s) [] = groupby_observed kdec key agg complete s (bin j).
  Proof. intros Hj. apply nth_error_nth. unfold CatModel.shuffle. rewrite map_map, (map_nth_error _ j (seq 0 n) (d := j)); [reflexivity|].
    rewrite (nth_error_nth' _ 0) by now rewrite seq_length. now rewrite seq_nth. Qed.

  (** What a result row must be. *)
  Definition row (k : K) : K * list A := (k, if observed k then agg (group k rows) else fill).
  Lemma part_keys s j k : j < n -> In k (map fst (nth j (dfs s) [])) <-> observed k = true /\ code k = j.
  Proof. intros Hj. rewrite nth_dfs by assumption. unfold groupby_observed. rewrite map_map. cbn [fst]. rewrite map_id.
    rewrite is_in_iff, <- bin_keys by assumption. destruct s.
    - rewrite filter_In, is_in_iff. split; [easy|]. intros I. split; [|assumption]. apply known. now apply bin_keys in I.
    - apply uniques_in. Qed.
  Lemma total_keys s k : In k (map fst (concat (dfs s))) <-> observed k = true.
  Proof. rewrite <- flat_map_concat_map. rewrite in_map_iff. split.
    - intros [r [<- I]]. apply in_flat_map in I as [b [Ib Ir]].
      unfold CatModel.shuffle in Ib. apply in_map_iff in Ib as [j [<- Ij]]. apply in_seq in Ij.
      apply (@part_keys s j); [lia|]. rewrite nth_dfs by lia. now apply in_map.
    - intros O. assert (Hj : code k < n) by (apply code_lt, known; now apply is_in_iff).
      assert (I : In k (map fst (nth (code k) (dfs s) []))) by (apply part_keys; auto).
      apply in_map_iff in I as [r [<- Ir]]. exists r. split; [easy|]. rewrite nth_dfs in Ir by assumption.
      apply in_flat_map. exists (bin (code (fst r))). split; [|assumption].
      unfold CatModel.shuffle. apply in_map_iff. exists (code (fst r)). split; [reflexivity|]. apply in_seq. lia. Qed.
  Lemma missing_eq s : missing_index kdec difference complete (dfs s) = difference (filter (fun k => negb (observed k)) complete).
  Proof. unfold missing_index. f_equal. apply filter_ext. intros k. f_equal. apply eq_true_iff_eq.
    rewrite is_in_iff. apply total_keys. Qed.
  Lemma missing_in s k : In k (missing_index kdec difference complete (dfs s)) <-> In k complete /\ observed k = false.
  Proof. rewrite missing_eq. split.
    - intros I. apply (Permutation_in _ (diff_perm _)), filter_In in I. now rewrite negb_true_iff in I.
    - intros I. apply (Permutation_in _ (Permutation_sym (diff_perm _))), filter_In. now rewrite negb_true_iff. Qed.

  (** The partition each possible key ends up in. *)
  Definition home (s : bool) (k : K) : nat :=
    if observed k then code k
    else if s then place lead vle (map (map fst) (dfs s)) k else n - 1.
  Lemma place_lt s k : 0 < n -> place lead vle (map (map fst) (dfs s)) k < n.
  Proof. intros Hn. unfold place.
    assert (X : forall idx bins offs off, length offs = length bins -> (forall p, nth p offs 0 <= off) ->
              let '(b, o) := bins_loop lead idx bins offs off in
              length o = S (length b) /\ (forall p, nth p o 0 + length b <= off + length bins + length idx)).
    { clear. induction idx as [|i idx IH]; intros bins offs off L B; cbn.
      - split; [rewrite app_length; cbn; lia|]. intros p. destruct (Nat.lt_ge_cases p (length offs)).
        + rewrite app_nth1 by lia. specialize (B p). lia.
        + rewrite app_nth2 by lia. destruct (p - length offs) as [|q]; cbn; [lia|]. destruct q; lia.
      - destruct (rev i) as [|k r].
        + assert (B' : forall p, nth p offs 0 <= S off) by (intros p; specialize (B p); lia).
          specialize (IH bins offs (S off) L B'). destruct (bins_loop lead idx bins offs (S off)) as [b o].
          destruct IH as [I1 I2]. split; [assumption|]. intros p. specialize (I2 p). lia.
        + assert (L' : length (offs ++ [off]) = length (bins ++ [lead k])) by (rewrite !app_length; cbn; lia).
          assert (B' : forall p, nth p (offs ++ [off]) 0 <= off).
          { intros p. destruct (Nat.lt_ge_cases p (length offs)).
            - rewrite app_nth1 by lia. apply B.
            - rewrite app_nth2 by lia. destruct (p - length offs) as [|q]; cbn; [lia|]. destruct q; lia. }
          specialize (IH (bins ++ [lead k]) (offs ++ [off]) off L' B').
          destruct (bins_loop lead idx (bins ++ [lead k]) (offs ++ [off]) off) as [b o].
          destruct IH as [I1 I2]. split; [assumption|]. intros p. specialize (I2 p). rewrite app_length in I2. cbn in I2. lia. }
    set (idx := removelast (map (map fst) (dfs s))).
    assert (Li : length idx = n - 1).
    { unfold idx. pose proof (dfs_length s) as L. rewrite <- (map_length (map fst)) in L.
      destruct (map (map fst) (dfs s)) as [|a l] eqn:E; [cbn in L; lia|].
      rewrite (app_removelast_last a) in L by discriminate. rewrite app_length in L. cbn [length] in L. lia. }
    specialize (X idx [] [] 0 eq_refl). cbn [length] in X.
    assert (B0 : forall p, nth p (@nil nat) 0 <= 0) by (intros []; cbn; lia). specialize (X B0).
    destruct (bins_loop lead idx [] [] 0) as [b o]. destruct X as [_ X].
    destruct b as [|v b]; [specialize (X 0); lia|].
    set (p := searchsorted_left vle (v :: b) (lead k)). specialize (X p).
    assert (p <= length (v :: b)).
    { unfold p, searchsorted_left. clear. induction (v :: b) as [|x l IH]; cbn; [lia|]. destruct (negb (vle (lead k) x)); cbn; lia. }
    lia. Qed.
  Lemma home_lt s k : In k complete -> home s k < n.
  Proof. intros I. unfold home. destruct (observed k); [now apply code_lt|].
    assert (0 < n) by (specialize (code_lt _ I); lia). destruct s; [now apply place_lt|lia]. Qed.

  Lemma df_rows s j : j < n ->
    nth j (dfs s) [] = map row (if s then filter (fun k => is_in k (keys (bin j))) complete else uniques kdec (keys (bin j))).
  Proof. intros Hj. rewrite nth_dfs by assumption. unfold groupby_observed. apply map_ext_in. intros k I.
    assert (In k (keys (bin j))) as B.
    { destruct s; [apply filter_In in I; now apply is_in_iff | now rewrite uniques_in in I]. }
    apply bin_keys in B as [O E]; [|assumption]. unfold row. rewrite (proj2 (is_in_iff k (keys rows)) O).
    rewrite bin_group by assumption. rewrite E, Nat.eqb_refl. reflexivity. Qed.
  Lemma mask_rows s j : j < n ->
    mask kdec lead vle agg nan difference complete s ncols (dfs s) j
    = map row (filter (fun k => home s k =? j) (difference (filter (fun k => negb (observed k)) complete))).
  Proof. intros Hj. unfold mask. rewrite missing_eq. set (ms := difference _).
    assert (M : forall k, In k ms -> observed k = false).
    { intros k I. apply (missing_in s). now rewrite missing_eq. }
    assert (E : missing_values agg nan ncols ms = map row ms).
    { unfold missing_values. apply map_ext_in. intros k I. unfold row. now rewrite (M k I). }
    rewrite E. destruct s; cbn [negb].
    - clear E. clearbody ms. induction ms as [|k ms IH]; [easy|]. cbn [map filter]. unfold row at 1. cbn [fst].
      assert (Hh : home true k = place lead vle (map (map fst) (dfs true)) k) by (unfold home; now rewrite (M k (or_introl eq_refl))).
      rewrite Hh. destruct (_ =? j); cbn [map]; [f_equal|]; apply IH; intros; apply M; now right.
    - rewrite dfs_length.
      assert (Hh : forall k, In k ms -> home false k = n - 1) by (intros k I; unfold home; now rewrite (M k I)).
      destruct (Nat.eqb_spec (S j) n).
      + rewrite filter_all; [easy|]. intros k I. rewrite (Hh k I). apply Nat.eqb_eq. lia.
      + rewrite filter_none; [easy|]. intros k I. rewrite (Hh k I). apply Nat.eqb_neq. lia. Qed.

  Lemma sort_index_rows cs ks :
    NoDup ks -> sort_index kdec cs (map row ks) = map row (filter (fun k => is_in k ks) cs).
  Proof. intros ND. unfold sort_index. induction cs as [|c cs IH]; [easy|]. cbn [flat_map filter].
    rewrite IH. clear IH. destruct (is_in c ks) eqn:E.
    - cbn [map]. change (row c :: map row (filter (fun k => is_in k ks) cs)) with ([row c] ++ map row (filter (fun k => is_in k ks) cs)). f_equal.
      apply is_in_iff in E. apply in_split in E as [l1 [l2 ->]]. apply NoDup_remove_2 in ND. rewrite map_app. cbn [map]. rewrite filter_app. cbn [filter].
      cbn [row fst]. destruct (kdec c c); [|congruence]. rewrite in_app_iff in ND.
      rewrite !filter_none; [reflexivity| |]; intros r I; apply in_map_iff in I as [k [<- I]]; cbn; destruct (kdec k c); subst; tauto.
    - apply is_in_false in E. rewrite filter_none; [easy|]. intros r I. apply in_map_iff in I as [k [<- I]]; cbn. destruct (kdec k c); subst; tauto. Qed.

  Lemma home_observed s k : observed k = true -> home s k = code k.
  Proof. intros O. unfold home. now rewrite O. Qed.

  Lemma filter_in_ext (f g : K -> bool) l : (forall k, In k l -> f k = g k) -> filter f l = filter g l.
  Proof. induction l as [|x l IH]; intros E; cbn; [easy|]. rewrite (E x) by now left. rewrite IH by (intros; apply E; now right). reflexivity. Qed.

  Theorem aligned_sorted j : j < n ->
    apply_aligned kdec lead vle agg nan difference complete true ncols (dfs true) j
    = map row (filter (fun k => home true k =? j) complete).
  Proof. intros Hj. unfold apply_aligned. rewrite mask_rows, df_rows by assumption. cbv iota.
    set (ms := filter _ (difference _)).
    assert (Hms : forall k, In k ms <-> In k complete /\ observed k = false /\ home true k = j).
    { intros k. unfold ms. rewrite filter_In, Nat.eqb_eq. rewrite <- missing_eq with (s := true), missing_in. tauto. }
    assert (Hob : forall k, In k complete -> is_in k (keys (bin j)) = observed k && (home true k =? j)).
    { intros k I. apply eq_true_iff_eq. rewrite is_in_iff, bin_keys, andb_true_iff, is_in_iff, Nat.eqb_eq by assumption.
      split; intros [O E]; (split; [assumption|]); (rewrite home_observed in * by now apply is_in_iff); assumption. }
    rewrite (filter_in_ext (fun k => is_in k (keys (bin j))) _ complete Hob).
    destruct (map row ms) as [|v vs] eqn:E.
    - apply map_eq_nil in E. f_equal. apply filter_in_ext. intros k I. destruct (observed k) eqn:O; [easy|]. cbn.
      symmetry. apply Nat.eqb_neq. intros Hk. assert (X : In k ms) by now apply Hms. now rewrite E in X.
    - rewrite <- E, <- map_app. rewrite sort_index_rows.
      + f_equal. apply filter_in_ext. intros k I. apply eq_true_iff_eq. rewrite is_in_iff, in_app_iff, filter_In, Hms, andb_true_iff, Nat.eqb_eq.
        destruct (observed k); intuition congruence.
      + apply NoDup_app_intro. 
        * now apply NoDup_filter.
        * unfold ms. apply NoDup_filter. apply (Permutation_NoDup (Permutation_sym (diff_perm _))). now apply NoDup_filter.
        * intros k I. rewrite filter_In, andb_true_iff in I. rewrite Hms. intuition congruence. Qed.

  Theorem aligned_unsorted j : j < n ->
    Permutation (apply_aligned kdec lead vle agg nan difference complete false ncols (dfs false) j)
                (map row (filter (fun k => home false k =? j) complete)).
  Proof. intros Hj. unfold apply_aligned. rewrite mask_rows, df_rows by assumption. cbv iota.
    set (ms := filter _ (difference _)).
    assert (Hms : forall k, In k ms <-> In k complete /\ observed k = false /\ home false k = j).
    { intros k. unfold ms. rewrite filter_In, Nat.eqb_eq. rewrite <- missing_eq with (s := false), missing_in. tauto. }
    assert (X : Permutation (uniques kdec (keys (bin j)) ++ ms) (filter (fun k => home false k =? j) complete)).
    { apply NoDup_Permutation.
      - apply NoDup_app_intro.
        + apply uniques_nodup.
        + unfold ms. apply NoDup_filter. apply (Permutation_NoDup (Permutation_sym (diff_perm _))). now apply NoDup_filter.
        + intros k I. rewrite uniques_in, bin_keys in I by assumption. destruct I as [I _]. apply is_in_iff in I. rewrite Hms. intuition congruence.
      - now apply NoDup_filter.
      - intros k. rewrite in_app_iff, uniques_in, bin_keys, Hms, filter_In, Nat.eqb_eq by assumption. rewrite <- is_in_iff. split.
        + intros [[O E]|H]; [|tauto]. split; [apply known; now apply is_in_iff | now rewrite home_observed].
        + intros [I E]. destruct (observed k) eqn:O; [|tauto]. left. rewrite home_observed in E by assumption. tauto. }
    destruct (map row ms) as [|v vs] eqn:E.
    - apply map_eq_nil in E. rewrite E, app_nil_r in X. now apply Permutation_map.
    - rewrite <- E, <- map_app. now apply Permutation_map. Qed.

  (** Every possible key exactly once. *)
  Theorem each_once s :
    Permutation (concat (groupby kdec lead vle key agg nan difference complete s ncols code n parts)) (map row complete).
  Proof. unfold groupby.
    transitivity (concat (map (fun j => map row (filter (fun k => home s k =? j) complete)) (seq 0 n))).
    - assert (B : forall j, In j (seq 0 n) -> j < n) by (intros j I; apply in_seq in I; lia).
      induction (seq 0 n) as [|j l IH]; [constructor|]. cbn [map concat]. apply Permutation_app; [|apply IH; intros; apply B; now right].
      destruct s; [rewrite aligned_sorted by (apply B; now left); reflexivity | apply aligned_unsorted, B; now left].
    - rewrite <- map_map with (g := map row), <- concat_map. apply Permutation_map. apply buckets_perm. intros k I. now apply home_lt. Qed.
  Theorem in_order :
    StronglySorted (fun a b => home true a <= home true b) complete ->
    concat (groupby kdec lead vle key agg nan difference complete true ncols code n parts) = map row complete.
  Proof. intros S. unfold groupby.
    rewrite (map_ext_in _ (fun j => map row (filter (fun k => home true k =? j) complete))).
    2:{ intros j I. apply in_seq in I. apply aligned_sorted. lia. }
    rewrite <- map_map with (g := map row), <- concat_map. f_equal. apply buckets_exact; [|assumption]. intros k I. now apply home_lt. Qed.
End Proofs.
