From Verif Require Import Base Table ChunkModel ChunkSpec ChunkProofs GridModel GridSpec FrameSpec
  GridProofs GridProofs2 GridProofs3 GridProofs5 JoinModel JoinProofs3 GroupSpec ShufSpec ShufModel
  ShufProofs ShufProofs2 ShufProofs3 ShufProofs4 ShufProofs5 ShufProofs6 ShufProofs7
  MergeSpec MergeModel MergeProofs MergeProofs2 MergeProofs3 MergeProofs4 RngModel RngProofs RngProofs2.
From Coq Require Import Permutation Sorted.

Lemma rmap_ok_inv {X Y} (f : X -> res Y) (g : X -> Y) l : (forall x, In x l -> f x = Ok (g x)) -> rmap f l = Ok (map g l).
Proof. induction l as [|x l IH]; intros E; [reflexivity|]. cbn. rewrite E by now left. cbn. rewrite IH; [reflexivity|]. intros; apply E; now right. Qed.
Lemma perm_flat_map {X Y} (f : X -> list Y) l l' : Permutation l l' -> Permutation (flat_map f l) (flat_map f l').
Proof.
  induction 1; cbn; auto.
  - now apply Permutation_app_head.
  - rewrite !app_assoc. apply Permutation_app_tail, Permutation_app_comm.
  - etransitivity; eassumption.
Qed.
Lemma perm_forallb {X} (p : X -> bool) l l' : Permutation l l' -> forallb p l = forallb p l'.
Proof. induction 1; cbn; [reflexivity|now rewrite IHPermutation|rewrite !andb_assoc; f_equal; apply andb_comm|congruence]. Qed.
Lemma forallb_concat {X} (p : X -> bool) ls : forallb p (concat ls) = forallb (forallb p) ls.
Proof. induction ls as [|l ls IH]; [reflexivity|]. cbn. now rewrite forallb_app, IH. Qed.
Lemma forallb_ext_in {X} (p q : X -> bool) l : (forall x, In x l -> p x = q x) -> forallb p l = forallb q l.
Proof. induction l as [|x l IH]; intros E; [reflexivity|]. cbn. rewrite E by now left. f_equal. apply IH. intros; apply E; now right. Qed.
Lemma forallb_map {X Y} (p : Y -> bool) (f : X -> Y) l : forallb p (map f l) = forallb (fun x => p (f x)) l.
Proof. induction l as [|x l IH]; [reflexivity|]. cbn. now rewrite IH. Qed.
Lemma flat_map_concat_map' {X Y} (f : X -> list Y) (ls : list (list X)) : concat (map (flat_map f) ls) = flat_map f (concat ls).
Proof. induction ls as [|l ls IH]; [reflexivity|]. cbn. now rewrite flat_map_app, IH. Qed.

Section Merge.
  Context {L H A K : Type}.
  Variable heqb : H -> H -> bool.
  Variable aeqb : A -> A -> bool.
  Variable nan : A.
  Variable suffixed : bool -> H -> H.
  Hypothesis heqb_ok : forall x y, heqb x y = true <-> x = y.
  Variable kle : K -> K -> bool.
  Hypothesis kle_total : total_preorder kle.
  Variable value : A -> option K.
  Hypothesis value_ok : forall x y, aeqb x y = true -> same_value kle (value x) (value y) = true.
  Variable numeric : nat -> bool.
  Notation dframe := (df L H A).
  Notation row := (@row L A).
  Notation key_at := (key_at (L := L) heqb value).
  Notation na_at := (na_at (L := L) heqb value).
  Notation pieces_ok := (pieces_ok heqb kle value numeric).

  Variable on : H.
  Variables ld rd : dframe.
  Hypotheses (Wl : wf ld) (Wr : wf rd) (Ol : In on (dcols ld)) (Or : In on (dcols rd)).
  Variable ps : list (dframe * dframe).
  Hypothesis P : pieces_ok on ld rd ps.
  Variable h : how.
  Hypothesis not_right : is_right h = false.
  Notation keys := [(on, on)].
  Notation part l r := (merge heqb aeqb nan suffixed keys l r h).
  Notation partner := (partners heqb aeqb nan h keys ld rd).

  Lemma keys_value c1 c2 (r s : row) :
    list_eqb aeqb (key_of heqb [on] c1 (snd r)) (key_of heqb [on] c2 (snd s)) = true ->
    same_value kle (key_at on c1 0 r) (key_at on c2 0 s) = true.
  Proof.
    clear - value_ok. unfold key_of, RngModel.key_at. cbn [flat_map]. rewrite !app_nil_r.
    destruct (keepl (heqb on) c1 (snd r)) as [|x xs], (keepl (heqb on) c2 (snd s)) as [|y ys]; cbn; try discriminate; [reflexivity|].
    rewrite andb_true_iff. intros [E _]. now apply value_ok.
  Qed.

  Lemma piece_filter q l : In q ps -> In l (dcells (fst q)) ->
    filter (same_key heqb aeqb keys ld rd l) (dcells (snd q)) = filter (same_key heqb aeqb keys ld rd l) (dcells rd).
  Proof.
    intros Hq Hl. destruct P as (F & _ & _ & X). rewrite Forall_forall in F. destruct (F q Hq) as [[W1 D1] [W2 D2]].
    rewrite <- (map_snd_rows W1) in Hl. apply in_map_iff in Hl as (r & <- & Hr).
    rewrite <- (map_snd_rows W2), <- (map_snd_rows Wr), !filter_map_snd. f_equal.
    apply (X q r _ Hq Hr). intros s _ E. apply keys_value. unfold same_key, left_key, right_key in E. exact E.
  Qed.

  Lemma piece_partners q l : In q ps -> In l (dcells (fst q)) ->
    partners heqb aeqb nan h keys (fst q) (snd q) l = partner l.
  Proof.
    intros Hq Hl. pose proof (piece_filter q l Hq Hl) as E. destruct P as (F & _). rewrite Forall_forall in F.
    destruct (F q Hq) as [[_ D1] [_ D2]].
    assert (Es : forall r, same_key heqb aeqb keys (fst q) (snd q) l r = same_key heqb aeqb keys ld rd l r).
    { intros r. unfold same_key, left_key, right_key. now rewrite D1, D2. }
    assert (Eb : forall r, both heqb keys (snd q) l r = both heqb keys rd l r).
    { intros r. unfold both, right_part. now rewrite D2. }
    unfold partners. destruct h; [| |discriminate]; rewrite (filter_ext _ _ Es), E.
    - destruct (filter _ (dcells rd)); [unfold left_only; now rewrite D2|]. now apply map_ext.
    - now apply map_ext.
  Qed.

  Lemma merged_piece (q : dframe * dframe) (l' : dframe) : In q ps -> dcols l' = dcols (fst q) -> (forall l, In l (dcells l') -> In l (dcells (fst q))) ->
    merged_rows heqb aeqb nan keys l' (snd q) h = flat_map partner (dcells l').
  Proof.
    intros Hq Dl Il. rewrite merged_partners. rewrite not_right. rewrite !flat_map_concat_map. f_equal. apply map_ext_in. intros l Hl.
    rewrite <- (piece_partners q l Hq (Il l Hl)). unfold partners, same_key, left_key. rewrite Dl. now destruct h.
  Qed.

  Lemma pieces_cells : Permutation (concat (map dcells (map fst ps))) (dcells ld).
  Proof.
    destruct P as (F & S & _). rewrite <- (map_snd_rows Wl).
    destruct (@spread_gathers L H A K kle kle_total _ _ numeric (fun _ _ => eq_refl) 1 true false false ld (map fst ps) Wl S) as (F1 & Pm & _).
    apply (Permutation_map snd) in Pm. etransitivity; [|exact Pm]. set (bs := map fst ps) in *. rewrite concat_map, map_map.
    apply Permutation_refl'. f_equal. apply map_ext_in. intros b Hb. rewrite Forall_forall in F1. symmetry. apply map_snd_rows. now apply F1.
  Qed.

  Lemma part_wf (l r : dframe) : wf l -> wf r -> dcols l = dcols ld -> dcols r = dcols rd ->
    wf (part l r) /\ dcols (part l r) = header heqb suffixed keys (dcols ld) (dcols rd).
  Proof.
    intros W1 W2 D1 D2. split; [|unfold merge; cbn; now rewrite D1, D2]. split; [cbn; now rewrite seq_length|].
    unfold merge. cbn [dcells dcols]. rewrite merged_partners. apply Forall_flat_map. apply Forall_forall. intros x Hx.
    apply partners_width; auto. destruct (is_right h); [destruct W2 as [_ W2]; rewrite Forall_forall in W2; now apply W2|].
    destruct W1 as [_ W1]; rewrite Forall_forall in W1; now apply W1.
  Qed.

  Lemma pieces_merged : Permutation (concat (map dcells (map (fun q => part (fst q) (snd q)) ps))) (dcells (part ld rd)).
  Proof.
    rewrite map_map. cbn [merge dcells].
    rewrite (map_ext_in _ (fun q => flat_map partner (dcells (fst q)))) by (intros q Hq; now apply merged_piece).
    rewrite merged_partners, not_right.
    rewrite <- (map_map fst (fun b => flat_map partner (dcells b))), <- (map_map dcells (flat_map partner)), flat_map_concat_map'.
    apply perm_flat_map. apply pieces_cells.
  Qed.

  (** ** sort=True *)
  Variable sort_left : dframe -> dframe.
  Notation le := (lex_le kle false [(key_at on (dcols ld) 0, true)]).
  Hypothesis sort_ok : forall b, wf b -> dcols b = dcols ld ->
    wf (sort_left b) /\ dcols (sort_left b) = dcols ld /\ stably_sorts le (rows_of b) (rows_of (sort_left b)).

  Lemma pieces_sorted :
    concat (map dcells (map (fun q => part (sort_left (fst q)) (snd q)) ps)) = dcells (part (sort_left ld) rd).
  Proof.
    destruct P as (F & S & _). rewrite Forall_forall in F.
    assert (In1 : forall b l, wf b -> dcols b = dcols ld -> In l (dcells (sort_left b)) -> In l (dcells b)).
    { intros b l Wb Db Hl. destruct (sort_ok Wb Db) as (Ws & _ & [[Pm _] _]).
      rewrite <- (map_snd_rows Ws) in Hl. rewrite <- (map_snd_rows Wb). apply (Permutation_in l (Permutation_map snd (Permutation_sym Pm))). exact Hl. }
    rewrite map_map. cbn [merge dcells].
    rewrite (map_ext_in _ (fun q => flat_map partner (dcells (sort_left (fst q))))).
    2:{ intros q Hq. destruct (F q Hq) as [[W1 D1] _]. destruct (sort_ok W1 D1) as (_ & D1' & _).
        apply merged_piece; [exact Hq|congruence|]. intros l Hl. now apply In1. }
    transitivity (flat_map partner (dcells (sort_left ld))).
    2:{ rewrite merged_partners, not_right. rewrite !flat_map_concat_map. f_equal. apply map_ext. intros l.
        destruct (sort_ok Wl eq_refl) as (_ & Ds & _). unfold partners, same_key, left_key. rewrite Ds. now destruct h. }
    rewrite <- (map_map fst (fun b => flat_map partner (dcells (sort_left b)))), <- (map_map (fun b => dcells (sort_left b)) (flat_map partner)), flat_map_concat_map'.
    f_equal.
    destruct (sort_ok Wl eq_refl) as (Ws & _ & Ss).
    pose proof (proj2 (@spread_sorted L H A K kle kle_total _ _ numeric (fun _ _ => eq_refl) true false false [] ld (map fst ps) sort_left Wl S)
      (fun b Wb Db => proj2 (proj2 (sort_ok Wb Db)))) as Sw.
    pose proof (@stable_unique _ le (@lex_le_total _ _ kle kle_total false _) (rows_of ld) _ _ Sw Ss) as E.
    rewrite <- (map_snd_rows Ws), <- E, concat_map, !map_map. f_equal. apply map_ext_in. intros q Hq.
    destruct (F q Hq) as [[W1 D1] _]. destruct (sort_ok W1 D1) as (Wq & _). symmetry. now apply map_snd_rows.
  Qed.
End Merge.

(** * validate= *)
Section Unique.
  Context {L H A K : Type}.
  Variable heqb : H -> H -> bool.
  Variable aeqb : A -> A -> bool.
  Variable kle : K -> K -> bool.
  Hypothesis kle_total : total_preorder kle.
  Variable value : A -> option K.
  Hypothesis value_ok : forall x y, aeqb x y = true -> same_value kle (value x) (value y) = true.
  Variable numeric : nat -> bool.
  Notation dframe := (df L H A).
  Variable on : H.

  Lemma unique_map (f : list A -> list A) (rs : list (@row L A)) :
    unique_keys aeqb (map f (map snd rs)) = forallb (fun r => length (filter (fun s => list_eqb aeqb (f (snd r)) (f (snd s))) rs) <=? 1) rs.
  Proof.
    unfold unique_keys. rewrite !forallb_map. apply forallb_ext_in. intros r _. f_equal.
    rewrite map_map. generalize (f (snd r)). intros k. clear. induction rs as [|s rs IH]; [reflexivity|]. cbn [map filter].
    destruct (list_eqb aeqb k (f (snd s))); cbn [length]; now rewrite IH.
  Qed.

  (** distinct keys in every piece: distinct keys in the whole table *)
  Lemma unique_pieces (d : dframe) bins : wf d ->
    spread kle (na_at heqb value on (dcols d)) (key_at heqb value on (dcols d)) numeric 1 true false false d bins ->
    forallb (fun b => unique_keys aeqb (map (key_of heqb [on] (dcols b)) (dcells b))) bins
    = unique_keys aeqb (map (key_of heqb [on] (dcols d)) (dcells d)).
  Proof.
    intros W S.
    destruct (@spread_gathers L H A K kle kle_total _ _ numeric (fun _ _ => eq_refl) 1 true false false d bins W S) as (F & Pm & G & _).
    rewrite Forall_forall in F.
    rewrite <- (map_snd_rows W), unique_map.
    rewrite <- (perm_forallb _ Pm), forallb_concat, forallb_map. apply forallb_ext_in. intros b Hb.
    destruct (F b Hb) as [Wb Db]. rewrite Db, <- (map_snd_rows Wb), unique_map. apply forallb_ext_in. intros r Hr. f_equal. f_equal.
    specialize (G b r Hb Hr).
    assert (E : forall rs, filter (fun s => list_eqb aeqb (key_of heqb [on] (dcols d) (snd r)) (key_of heqb [on] (dcols d) (snd s))) rs
      = filter (fun s => list_eqb aeqb (key_of heqb [on] (dcols d) (snd r)) (key_of heqb [on] (dcols d) (snd s)))
          (filter (same_keys kle (map (key_at heqb value on (dcols d)) (seq 0 1)) r) rs)).
    { intros rs. rewrite filter_filter. apply filter_ext. intros s. unfold same_keys. cbn [seq map forallb]. rewrite andb_true_r.
      destruct (list_eqb _ _ _) eqn:El; [|now rewrite andb_false_r]. apply (@keys_value L H A K heqb aeqb kle value value_ok on) in El. now rewrite El. }
    now rewrite E, G, <- E.
  Qed.
End Unique.
