(** Keys of a groupby: what [keys_of] returns, and that taking the keys of pieces first changes nothing. *)
From Verif Require Import Base Table GroupSpec ShufSpec ShufProofs7.
Open Scope nat_scope.

Section Keys.
  Context {A : Type}.
  Variable aeqb : A -> A -> bool.
  Hypothesis aeqb_ok : forall x y, aeqb x y = true <-> x = y.
  Variable na : A -> bool.
  Variable kle : list A -> list A -> bool.
  Notation key := (list A).
  Notation keqb := (keqb aeqb).
  Notation distinct := (distinct aeqb).
  Notation keys_of := (keys_of aeqb na kle).
  Notation pick := (pick aeqb).

  Lemma keqb_ok (x y : key) : keqb x y = true <-> x = y.
  Proof. now apply list_eqb_spec. Qed.
  Lemma keqb_refl (x : key) : keqb x x = true.
  Proof. now apply keqb_ok. Qed.
  Lemma keqb_sym (x y : key) : keqb x y = keqb y x.
  Proof. destruct (keqb x y) eqn:E1, (keqb y x) eqn:E2; auto.
    - apply keqb_ok in E1. subst. now rewrite keqb_refl in E2.
    - apply keqb_ok in E2. subst. now rewrite keqb_refl in E1. Qed.
  Lemma keqb_false (x y : key) : keqb x y = false <-> x <> y.
  Proof. rewrite <- keqb_ok. destruct (keqb x y); split; congruence. Qed.

  Lemma filter_filter {X} (p q : X -> bool) l : filter p (filter q l) = filter (fun x => q x && p x) l.
  Proof. induction l as [|x l IH]; cbn; auto. destruct (q x); cbn; [destruct (p x); now rewrite ?IH|auto]. Qed.
  Lemma filter_comm {X} (p q : X -> bool) l : filter p (filter q l) = filter q (filter p l).
  Proof. rewrite !filter_filter. apply filter_ext. intros x. apply andb_comm. Qed.

  Lemma distinct_in k ks : In k (distinct ks) <-> In k ks.
  Proof. induction ks as [|x ks IH]; cbn; [easy|]. rewrite filter_In, IH, negb_true_iff, keqb_false.
    split; [tauto|]. intros [->|Hk]; auto. destruct (keqb x k) eqn:E.
    - apply keqb_ok in E. auto.
    - apply keqb_false in E. auto. Qed.
  Lemma distinct_nodup ks : NoDup (distinct ks).
  Proof. induction ks as [|x ks IH]; cbn; constructor.
    - rewrite filter_In, negb_true_iff, keqb_false. tauto.
    - now apply NoDup_filter. Qed.
  Lemma filter_distinct p ks : filter p (distinct ks) = distinct (filter p ks).
  Proof. induction ks as [|x ks IH]; cbn; auto. destruct (p x) eqn:E; cbn.
    - f_equal. now rewrite filter_comm, IH.
    - rewrite <- IH, filter_filter. apply filter_ext. intros y.
      destruct (keqb x y) eqn:E2; cbn; auto. apply keqb_ok in E2. subst. now rewrite E. Qed.
  Lemma distinct_app_l l1 l2 : distinct (distinct l1 ++ l2) = distinct (l1 ++ l2).
  Proof.
    revert l2. induction l1 as [|k l1 IH]; intros l2; cbn; auto. f_equal.
    set (q := fun x => negb (keqb k x)).
    rewrite <- IH. rewrite (filter_distinct q (_ ++ _)), filter_app, filter_filter.
    replace (filter (fun x => q x && q x) (distinct l1)) with (filter q (distinct l1))
      by (apply filter_ext; intros; now rewrite andb_diag).
    rewrite <- filter_app, <- filter_distinct. reflexivity.
  Qed.
  Lemma distinct_app_r l1 l2 : distinct (l1 ++ distinct l2) = distinct (l1 ++ l2).
  Proof. induction l1 as [|k l1 IH]; cbn; [|now rewrite IH].
    pose proof (distinct_app_l l2 []) as E. now rewrite !app_nil_r in E. Qed.
  Lemma distinct_concat ls : distinct (concat (map distinct ls)) = distinct (concat ls).
  Proof. induction ls as [|l ls IH]; cbn; auto.
    rewrite distinct_app_l, <- distinct_app_r, IH. apply distinct_app_r. Qed.

  (** sorting *)
  Hypothesis kle_total : forall x y, kle x y = true \/ kle y x = true.
  Hypothesis kle_trans : forall x y z, kle x y = true -> kle y z = true -> kle x z = true.
  Hypothesis kle_anti : forall x y, kle x y = true -> kle y x = true -> x = y.

  Lemma insert_key_perm k l : Permutation (k :: l) (insert_key kle k l).
  Proof. induction l as [|x l IH]; cbn; auto. destruct (kle k x); auto.
    rewrite perm_swap. now constructor. Qed.
  Lemma sort_keys_perm l : Permutation l (sort_keys kle l).
  Proof. induction l as [|x l IH]; cbn; auto. rewrite <- insert_key_perm. now constructor. Qed.
  Lemma insert_key_sorted k l : StronglySorted (fun x y => kle x y = true) l ->
    StronglySorted (fun x y => kle x y = true) (insert_key kle k l).
  Proof. induction 1 as [|x l S IH F]; cbn; [repeat constructor|]. destruct (kle k x) eqn:E.
    - constructor; [now constructor|]. constructor; auto. eapply Forall_impl; [|exact F]. cbn. eauto.
    - constructor; auto. apply Forall_forall. intros y Hy. rewrite <- insert_key_perm in Hy.
      destruct Hy as [<-|Hy]; [destruct (kle_total x k); congruence|]. rewrite Forall_forall in F. auto. Qed.
  Lemma sort_keys_sorted l : StronglySorted (fun x y => kle x y = true) (sort_keys kle l).
  Proof. induction l; cbn; [constructor|now apply insert_key_sorted]. Qed.

  Definition wanted (dropna : bool) (k : key) : bool := negb (dropna && existsb na k).

  Lemma keys_of_in sort dropna k ks : In k (keys_of sort dropna ks) <-> In k ks /\ wanted dropna k = true.
  Proof.
    rewrite <- filter_In, <- (distinct_in k (filter _ _)). unfold keys_of, GroupSpec.keys_of. cbv zeta.
    destruct sort; [|reflexivity].
    split; intros E; [rewrite <- sort_keys_perm in E|rewrite <- sort_keys_perm]; exact E. Qed.
  Lemma keys_of_nodup sort dropna ks : NoDup (keys_of sort dropna ks).
  Proof. unfold keys_of, GroupSpec.keys_of. cbv zeta. destruct sort; [|apply distinct_nodup].
    eapply Permutation_NoDup; [apply sort_keys_perm|apply distinct_nodup]. Qed.
  Lemma keys_of_sorted dropna ks : StronglySorted (fun x y => kle x y = true) (keys_of true dropna ks).
  Proof. apply sort_keys_sorted. Qed.

  Lemma keys_of_concat sort dropna kss :
    keys_of sort dropna (concat (map (keys_of sort dropna) kss)) = keys_of sort dropna (concat kss).
  Proof.
    destruct sort.
    - apply (sorted_perm_unique kle); try apply keys_of_sorted.
      + intros; now apply kle_anti.
      + apply NoDup_Permutation; try apply keys_of_nodup. intros k. rewrite !keys_of_in.
        rewrite !in_concat. split.
        * intros ((l & Hl & Hk) & W). apply in_map_iff in Hl as (ks & <- & Hks). apply keys_of_in in Hk as [Hk _]. eauto.
        * intros ((ks & Hl & Hk) & W). split; auto. exists (keys_of true dropna ks). split; [now apply in_map|].
          now apply keys_of_in.
    - unfold keys_of, GroupSpec.keys_of. cbv zeta.
      set (w := fun k => negb (dropna && existsb na k)).
      assert (E : filter w (concat (map (fun ks => distinct (filter w ks)) kss)) = concat (map (fun ks => distinct (filter w ks)) kss)).
      { induction kss as [|ks kss IH]; cbn; auto. rewrite filter_app, IH. f_equal.
        rewrite filter_distinct, filter_filter. f_equal. apply filter_ext. intros; now rewrite andb_diag. }
      rewrite E, <- map_map, distinct_concat. f_equal.
      clear E. induction kss as [|ks kss IH]; cbn; auto. now rewrite IH, filter_app.
  Qed.

  (** rows of a key *)
  Lemma pick_app {X} k ks1 ks2 (xs1 xs2 : list X) : length ks1 = length xs1 ->
    pick k (ks1 ++ ks2) (xs1 ++ xs2) = pick k ks1 xs1 ++ pick k ks2 xs2.
  Proof. intros E. unfold pick, GroupSpec.pick. revert xs1 E. induction ks1 as [|x ks1 IH]; intros [|y xs1] E; try discriminate; cbn; auto.
    destruct (keqb x k); cbn; rewrite IH by (cbn in E; congruence); reflexivity. Qed.
  Lemma pick_concat {X Y} k (ps : list Y) (fk : Y -> list key) (fx : Y -> list X) :
    (forall p, In p ps -> length (fk p) = length (fx p)) ->
    pick k (concat (map fk ps)) (concat (map fx ps)) = concat (map (fun p => pick k (fk p) (fx p)) ps).
  Proof. induction ps as [|p ps IH]; intros E; [reflexivity|]. cbn [map concat]. rewrite pick_app by (apply E; now left).
    rewrite IH by (intros; apply E; now right). reflexivity. Qed.
  Lemma pick_none {X} k ks (xs : list X) : ~ In k ks -> pick k ks xs = [].
  Proof. intros Hn. unfold pick, GroupSpec.pick. replace (filter _ _) with (@nil (key * X)); auto.
    symmetry. revert xs. induction ks as [|x ks IH]; intros [|y xs]; cbn; auto.
    destruct (keqb x k) eqn:E; [apply keqb_ok in E; subst; cbn in Hn; tauto|]. apply IH. cbn in Hn. tauto. Qed.
  Lemma pick_nonempty {X} k ks (xs : list X) : In k ks -> length ks = length xs -> pick k ks xs <> [].
  Proof. unfold pick, GroupSpec.pick. revert xs. induction ks as [|x ks IH]; intros [|y xs] Hk E; try easy; cbn.
    destruct (keqb x k) eqn:Ex; cbn; [easy|]. apply IH; [|cbn in E; congruence]. destruct Hk as [->|]; auto.
    now rewrite keqb_refl in Ex. Qed.
  Lemma pick_one {X} k ks (f : key -> X) : NoDup ks ->
    pick k ks (map f ks) = if existsb (keqb k) ks then [f k] else [].
  Proof.
    induction 1 as [|x ks Hn _ IH]; cbn; auto. unfold pick, GroupSpec.pick in *. cbn. rewrite keqb_sym.
    destruct (keqb k x) eqn:E; cbn; [|exact IH]. apply keqb_ok in E as <-. f_equal.
    pose proof (@pick_none X k ks (map f ks) Hn) as N. exact N.
  Qed.
  Lemma pick_in {X} k ks (xs : list X) x : In x (pick k ks xs) -> In x xs.
  Proof. unfold pick, GroupSpec.pick. rewrite in_map_iff. intros ((a & b) & <- & Hf). apply filter_In in Hf as [Hf _].
    now apply in_combine_r in Hf. Qed.
  Lemma existsb_keqb k ks : existsb (keqb k) ks = true <-> In k ks.
  Proof. rewrite existsb_exists. split.
    - intros (x & Hx & E). apply keqb_ok in E. now subst.
    - intros Hk. exists k. split; auto. apply keqb_refl. Qed.
  Lemma pick_map {X Y} (g : X -> Y) k ks xs : pick k ks (map g xs) = map g (pick k ks xs).
  Proof. unfold pick, GroupSpec.pick. revert xs. induction ks as [|x ks IH]; intros [|y xs]; cbn; auto.
    destruct (keqb x k); cbn; now rewrite IH. Qed.
End Keys.
