From Verif Require Import Base Table ChunkModel ChunkSpec ChunkProofs GridModel GridSpec FrameSpec
  GridProofs GridProofs2 GridProofs3 GridProofs5 JoinModel JoinProofs3 GroupSpec ShufSpec ShufModel
  ShufProofs ShufProofs2 ShufProofs3 ShufProofs4 ShufProofs5 ShufProofs6 ShufProofs7
  MergeSpec MergeModel MergeProofs MergeProofs2 MergeProofs3 MergeProofs4 RngModel.
From Coq Require Import Permutation Sorted.

Lemma rmap_ext {X Y} (f g : X -> res Y) l : (forall x, In x l -> f x = g x) -> rmap f l = rmap g l.
Proof. induction l as [|x l IH]; intros E; [reflexivity|]. cbn. rewrite E by now left. rewrite IH; [reflexivity|]. intros; apply E; now right. Qed.
Lemma rmap_map {X Y Z} (f : Y -> res Z) (g : X -> Y) l : rmap f (map g l) = rmap (fun x => f (g x)) l.
Proof. induction l as [|x l IH]; [reflexivity|]. cbn. now rewrite IH. Qed.
Lemma rmap_wrap {X Y} (f : X -> res Y) l : rmap (fun x => do y <- f x; Ok [y]) l = do ys <- rmap f l; Ok (map (fun y => [y]) ys).
Proof.
  induction l as [|x l IH]; [reflexivity|]. cbn. destruct (f x) as [y|]; [|reflexivity]. cbn. rewrite IH.
  destruct (rmap f l); reflexivity.
Qed.
Lemma combine_map_same {X Y Z} (f : X -> Y) (g : X -> Z) l : combine (map f l) (map g l) = map (fun x => (f x, g x)) l.
Proof. induction l as [|x l IH]; [reflexivity|]. cbn. now rewrite IH. Qed.
Lemma filter_map_snd {X Y} (p : Y -> bool) (l : list (X * Y)) : filter p (map snd l) = map snd (filter (fun x => p (snd x)) l).
Proof. induction l as [|[x y] l IH]; [reflexivity|]. cbn. destruct (p y); cbn; now rewrite IH. Qed.

Section Bins.
  Context {L H A K : Type}.
  Variable leqb : L -> L -> bool.
  Variable heqb : H -> H -> bool.
  Hypothesis leqb_ok : forall x y, leqb x y = true <-> x = y.
  Hypothesis heqb_ok : forall x y, heqb x y = true <-> x = y.
  Variable kle : K -> K -> bool.
  Hypothesis kle_total : total_preorder kle.
  Variable value : A -> option K.
  Variable numeric : nat -> bool.
  Notation dframe := (df L H A).
  Notation row := (@row L A).
  Notation key_at := (key_at (L := L) heqb value).
  Notation na_at := (na_at (L := L) heqb value).

  Variable on : H.
  Variable p : list (option K).
  Hypothesis p_ne : p <> [].
  Hypothesis p_asc : ascends kle p.
  Notation infos := [(0, p)].
  Notation B cols := (bin kle (na_at on cols) (key_at on cols) numeric infos true false false).
  Notation N cols := (is_na (na_at on cols) infos).
  Notation n := (S (length p)).

  Lemma n_bins : nbins infos = n.
  Proof. clear - p_ne. unfold nbins, sizes, with_pivots. cbn. destruct p; [easy|]. cbn. lia. Qed.
  Lemma many_bins : 1 < nbins infos.
  Proof. clear - p_ne. rewrite n_bins. destruct p; [easy|cbn; lia]. Qed.
  Lemma one_with_pivots : length (with_pivots (K := K) infos) = 1.
  Proof. clear - p_ne. unfold with_pivots. cbn. destruct p; [easy|reflexivity]. Qed.

  (** the same key on the two sides: the same bin *)
  Lemma cross_code kv1 kv2 (r s : row) : same_value kle (kv1 0 r) (kv2 0 s) = true ->
    group_code kle kv1 numeric true false (0, p) r = group_code kle kv2 numeric true false (0, p) s.
  Proof.
    intros E. set (kv := fun (_ : nat) (x : @ShufSpec.row (option K) A) => fst x).
    pose proof (@same_group_code (option K) A K kle kle_total (fun i x => match kv i x with None => true | Some _ => false end) kv numeric
                  (fun _ _ => eq_refl) true false (0, p) (kv1 0 r, []) (kv2 0 s, []) p_asc E) as X.
    unfold group_code in *. unfold kv in X. cbn [fst] in X. symmetry. exact X.
  Qed.
  Lemma cross_bin c1 c2 (r s : row) : same_value kle (key_at on c1 0 r) (key_at on c2 0 s) = true ->
    B c1 r = B c2 s /\ N c1 r = N c2 s.
  Proof.
    intros E. pose proof (cross_code _ _ _ _ E) as Ec. destruct (same_value_np _ _ _ E) as (_ & _ & Hn).
    assert (EN : N c1 r = N c2 s).
    { unfold is_na. cbn. unfold RngModel.na_at. destruct (key_at on c1 0 r), (key_at on c2 0 s); try reflexivity; exfalso.
      - destruct Hn as [_ Hn]. now specialize (Hn eq_refl).
      - destruct Hn as [Hn _]. now specialize (Hn eq_refl). }
    split; [|exact EN]. unfold bin. rewrite EN. destruct (N c2 s); [reflexivity|]. f_equal.
    unfold code. apply map_ext_in. intros ci Hci. unfold with_pivots in Hci. apply filter_In in Hci as [[<-|[]] _]. exact Ec.
  Qed.

  (** bin number [k] of a table cut at [rl] *)
  Definition bin_of (d : dframe) (rl : list nat) (k : nat) : dframe :=
    of_rows (dcols d) (whole (B (dcols d)) (N (dcols d)) (parts d rl) k).

  Lemma bin_wf d rl k : wf d -> list_sum rl = nrows d -> rl <> [] -> k < n -> wf (bin_of d rl k) /\ dcols (bin_of d rl k) = dcols d.
  Proof.
    intros W S R Hk. split; [|reflexivity]. apply wf_of_rows. apply Forall_forall. intros r Hr.
    apply (@in_map row _ (fun r => r)) in Hr. rewrite map_id in Hr.
    assert (I : In r (rows_of d)).
    { rewrite <- (concat_parts rl W S). apply (Permutation_in r (whole_perm (B (dcols d)) (N (dcols d)) (bin_lt kle _ _ numeric infos true false false) (parts d rl))).
      apply in_concat. exists (whole (B (dcols d)) (N (dcols d)) (parts d rl) k). split; [|exact Hr].
      apply in_map_iff. exists k. split; [reflexivity|]. apply in_seq. rewrite n_bins. lia. }
    pose proof (rows_of_forall W) as F. rewrite Forall_forall in F. now apply F.
  Qed.
  Lemma bin_cells d rl k : dcells (bin_of d rl k) = map snd (whole (B (dcols d)) (N (dcols d)) (parts d rl) k).
  Proof. reflexivity. Qed.
  Lemma bins_spread d rl : wf d -> list_sum rl = nrows d -> rl <> [] ->
    spread kle (na_at on (dcols d)) (key_at on (dcols d)) numeric 1 true false false d (map (bin_of d rl) (seq 0 n)).
  Proof.
    intros W S R. right. exists rl, infos. split; [unfold binned; now rewrite n_bins|]. split; [exact many_bins|].
    split; [exact S|]. split; [exact R|]. split; [repeat constructor; exact p_asc|]. exists p, []. auto.
  Qed.

  (** the rows of the other table with a given key are all in the bin of that key, in order *)
  Lemma bin_filter (d : dframe) rl k (t : row -> bool) b0 n0 : wf d -> list_sum rl = nrows d ->
    (forall s, In s (rows_of d) -> t s = true -> B (dcols d) s = b0 /\ N (dcols d) s = n0) -> k = b0 -> k < n ->
    filter t (whole (B (dcols d)) (N (dcols d)) (parts d rl) k) = filter t (rows_of d).
  Proof.
    intros W S Ht -> Hk. rewrite <- (concat_parts rl W S).
    set (t' := fun s => t s && (B (dcols d) s =? b0) && Bool.eqb (N (dcols d) s) n0).
    assert (In1 : forall s, In s (whole (B (dcols d)) (N (dcols d)) (parts d rl) b0) -> In s (rows_of d)).
    { intros s Hs. rewrite <- (concat_parts rl W S).
      apply (Permutation_in s (whole_perm (B (dcols d)) (N (dcols d)) (bin_lt kle _ _ numeric infos true false false) (parts d rl))).
      apply in_concat. exists (whole (B (dcols d)) (N (dcols d)) (parts d rl) b0). split; [|exact Hs].
      apply in_map_iff. exists b0. split; [reflexivity|]. apply in_seq. rewrite n_bins. lia. }
    assert (Et : forall s, In s (rows_of d) -> t s = t' s).
    { intros s Hs. unfold t'. destruct (t s) eqn:E; [|reflexivity]. destruct (Ht s Hs E) as [-> ->].
      now rewrite Nat.eqb_refl, Bool.eqb_reflx. }
    rewrite (filter_ext_in t t') by (intros s Hs; apply Et, In1, Hs).
    rewrite (filter_ext_in t t' (concat (parts d rl))) by (intros s Hs; apply Et; now rewrite <- (concat_parts rl W S)).
    assert (Ht' : forall y, t' y = true -> B (dcols d) y = b0 /\ N (dcols d) y = n0).
    { intros y. unfold t'. rewrite !andb_true_iff, Nat.eqb_eq, Bool.eqb_true_iff. tauto. }
    destruct (filter t' (concat (parts d rl))) as [|x l] eqn:Ex.
    - apply filter_none. intros s Hs. destruct (t' s) eqn:E; [|reflexivity]. exfalso.
      assert (I : In s (filter t' (concat (parts d rl)))).
      { apply filter_In. split; [|exact E]. rewrite (concat_parts rl W S). now apply In1. }
      now rewrite Ex in I.
    - assert (I : t' x = true) by (apply (filter_In t' x (concat (parts d rl))); rewrite Ex; now left).
      destruct (Ht' x I) as [Bx Nx].
      rewrite (@whole_filter row (B (dcols d)) (N (dcols d)) _ (bin_lt kle _ _ numeric infos true false false) t' x).
      + now rewrite Bx, Nat.eqb_refl.
      + intros y Hy. rewrite Bx, Nx. now apply Ht'.
  Qed.
End Bins.
