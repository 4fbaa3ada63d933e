From Verif Require Import Base Table ShufSpec ShufModel ShufProofs ShufProofs2 ShufProofs3 ShufProofs5.
From Coq Require Import Permutation Sorted.

(* ---------------- the order of rows ---------------- *)
Section Order.
  Context {K R : Type}.
  Variable kle : K -> K -> bool.
  Hypothesis kle_total : total_preorder kle.

  Lemma value_le_total (na_first ascending : bool) : total_preorder (value_le kle na_first ascending).
  Proof.
    destruct kle_total as [T1 T2]. split.
    - intros [x|] [y|]; cbn; auto.
      + destruct ascending; apply T1.
      + destruct na_first; auto.
      + destruct na_first; auto.
    - intros [x|] [y|] [z|]; cbn; auto; try (destruct na_first; cbn; congruence).
      destruct ascending; intros; eapply T2; eassumption.
  Qed.

  Lemma lex_le_total (na_first : bool) (cols : list ((R -> option K) * bool)) : total_preorder (lex_le kle na_first cols).
  Proof.
    induction cols as [|[key asc] cols [I1 I2]]; [split; auto|].
    destruct (value_le_total na_first asc) as [V1 V2]. cbn. split.
    - intros x y. destruct (value_le _ _ _ (key x) (key y)) eqn:E1, (value_le _ _ _ (key y) (key x)) eqn:E2; auto.
      destruct (V1 (key x) (key y)); congruence.
    - intros x y z. 
      destruct (value_le _ _ _ (key x) (key y)) eqn:E1; [|discriminate].
      destruct (value_le _ _ _ (key y) (key z)) eqn:E2; [|discriminate].
      rewrite (V2 _ _ _ E1 E2).
      destruct (value_le _ _ _ (key z) (key x)) eqn:E3.
      + rewrite (V2 _ _ _ E3 E1), (V2 _ _ _ E2 E3). apply I2.
      + reflexivity.
  Qed.
End Order.

(* ---------------- a stable sort is unique ---------------- *)
Section Unique.
  Context {R : Type}.
  Variable le : R -> R -> bool.
  Hypothesis le_total : total_preorder le.

  Lemma le_refl x : le x x = true.
  Proof. destruct le_total as [T _]. destruct (T x x); auto. Qed.

  Lemma stable_unique l l1 l2 : stably_sorts le l l1 -> stably_sorts le l l2 -> l1 = l2.
  Proof.
    intros [[P1 S1] F1] [[P2 S2] F2].
    assert (P : Permutation l1 l2) by (now rewrite <- P1, <- P2).
    assert (F : forall x, filter (same le x) l1 = filter (same le x) l2) by (intros; now rewrite F1, F2).
    clear l P1 P2 F1 F2. revert l2 S2 P F. induction l1 as [|x l1 IH]; intros l2 S2 P F.
    - now apply Permutation_nil in P.
    - destruct l2 as [|y l2]; [symmetry in P; now apply Permutation_nil in P|].
      inversion S1 as [|? ? S1' A1]; subst. inversion S2 as [|? ? S2' A2]; subst.
      rewrite Forall_forall in A1, A2.
      assert (Exy : le x y = true).
      { assert (In y (x :: l1)) as [<-|I] by (apply (Permutation_in _ (Permutation_sym P)); now left); [apply le_refl|now apply A1]. }
      assert (Eyx : le y x = true).
      { assert (In x (y :: l2)) as [<-|I] by (apply (Permutation_in _ P); now left); [apply le_refl|now apply A2]. }
      pose proof (F x) as Fx. cbn [filter] in Fx.
      replace (same le x x) with true in Fx by (unfold same; now rewrite le_refl).
      replace (same le x y) with true in Fx by (unfold same; now rewrite Exy, Eyx).
      injection Fx as <- _. f_equal. apply IH; auto.
      + now apply Permutation_cons_inv in P.
      + intros z. specialize (F z). cbn in F. destruct (same le z x); [now injection F|exact F].
  Qed.
End Unique.

(* ---------------- a concrete stable sort, for the examples ---------------- *)
Section Insertion.
  Context {R : Type}.
  Variable le : R -> R -> bool.
  Fixpoint insert (x : R) (l : list R) : list R :=
    match l with
    | [] => [x]
    | y :: l' => if le x y then x :: l else y :: insert x l'
    end.
  Definition isort (l : list R) : list R := fold_right insert [] l.

  Hypothesis le_total : total_preorder le.
  Lemma insert_perm x l : Permutation (insert x l) (x :: l).
  Proof. induction l as [|y l IH]; cbn; [reflexivity|]. destruct (le x y); [reflexivity|]. rewrite IH. apply perm_swap. Qed.
  Lemma insert_sorted x l : StronglySorted (fun x y => le x y = true) l -> StronglySorted (fun x y => le x y = true) (insert x l).
  Proof.
    destruct le_total as [T1 T2]. induction 1 as [|y l S IH F]; cbn; [repeat constructor|]. destruct (le x y) eqn:E.
    - constructor; [now constructor|]. constructor; [exact E|]. eapply Forall_impl; [|exact F]. cbn. intros z. now apply T2.
    - constructor; [exact IH|]. rewrite Forall_forall in *. intros z Hz. apply (Permutation_in _ (insert_perm x l)) in Hz.
      destruct Hz as [<-|Hz]; [|auto]. destruct (T1 x y); congruence.
  Qed.
  Lemma insert_filter x l z : filter (same le z) (insert x l) = filter (same le z) (x :: l).
  Proof.
    destruct le_total as [T1 T2]. induction l as [|y l IH]; [reflexivity|]. cbn [insert]. destruct (le x y) eqn:E; [reflexivity|].
    cbn [filter]. cbn [filter] in IH. rewrite IH. destruct (same le z y) eqn:Ey, (same le z x) eqn:Ex; try reflexivity.
    exfalso. unfold same in *. rewrite andb_true_iff in *. destruct Ey, Ex. assert (le x y = true) by (eapply T2; eassumption). congruence.
  Qed.
  Lemma isort_stable l : stably_sorts le l (isort l).
  Proof.
    induction l as [|x l [[P S] F]]; cbn; [repeat constructor|]. split; [split|].
    - rewrite insert_perm. now constructor.
    - now apply insert_sorted.
    - intros z. rewrite insert_filter. cbn. now rewrite F.
  Qed.
End Insertion.

(* ---------------- groups ---------------- *)
Lemma NoDup_app' {X} (l1 l2 : list X) : NoDup l1 -> NoDup l2 -> (forall x, In x l1 -> In x l2 -> False) -> NoDup (l1 ++ l2).
Proof.
  induction 1 as [|x l1 N _ IH]; cbn; intros D E; [exact D|]. constructor.
  - rewrite in_app_iff. intros [I|I]; [auto|]. apply (E x); auto.
  - apply IH; [exact D|]. intros y Hy. apply E. now right.
Qed.

Section Groups.
  Context {R : Type}.
  Variable eqk : R -> R -> bool.
  Hypothesis eqk_refl : forall x, eqk x x = true.
  Hypothesis eqk_sym : forall x y, eqk x y = true -> eqk y x = true.
  Hypothesis eqk_trans : forall x y z, eqk x y = true -> eqk y z = true -> eqk x z = true.

  Lemma eqk_ext x y z : eqk x y = true -> eqk x z = eqk y z.
  Proof.
    intros E. destruct (eqk x z) eqn:E1, (eqk y z) eqn:E2; auto.
    - rewrite (eqk_trans (eqk_sym E) E1) in E2. discriminate.
    - rewrite (eqk_trans E E2) in E1. discriminate.
  Qed.

  Lemma firsts_from_in seen l r : In r (firsts_from eqk seen l) -> In r l.
  Proof.
    revert seen. induction l as [|x l IH]; cbn; intros seen; [easy|]. destruct (existsb _ seen); [eauto|].
    cbn. intros [<-|I]; eauto.
  Qed.
  Lemma firsts_from_unseen seen l r s : In r (firsts_from eqk seen l) -> In s seen -> eqk s r = false.
  Proof.
    revert seen. induction l as [|x l IH]; cbn; intros seen; [easy|]. destruct (existsb _ seen) eqn:E.
    - apply IH.
    - cbn. intros [<-|I] Hs.
      + destruct (eqk s x) eqn:Es; [|reflexivity]. assert (existsb (fun s => eqk s x) seen = true) by (apply existsb_exists; eauto). congruence.
      + apply (IH (x :: seen)); [exact I|now right].
  Qed.
  Lemma firsts_from_cover seen l r : In r l ->
    (exists s, In s seen /\ eqk s r = true) \/ (exists s, In s (firsts_from eqk seen l) /\ eqk s r = true).
  Proof.
    revert seen. induction l as [|x l IH]; cbn; intros seen; [easy|]. intros [<-|I].
    - destruct (existsb _ seen) eqn:E.
      + left. apply existsb_exists in E. exact E.
      + right. exists x. split; [now left|apply eqk_refl].
    - destruct (existsb _ seen) eqn:E; [now apply IH|]. destruct (IH (x :: seen) I) as [(s & [<-|Hs] & Es)|(s & Hs & Es)].
      + right. exists x. split; [now left|exact Es].
      + left. eauto.
      + right. exists s. split; [now right|exact Es].
  Qed.
  (** the representative of a key is the first row with that key *)
  Lemma firsts_from_hd seen l r : In r (firsts_from eqk seen l) -> hd_error (filter (eqk r) l) = Some r.
  Proof.
    revert seen. induction l as [|x l IH]; cbn; intros seen; [easy|]. destruct (existsb _ seen) eqn:E.
    - intros I. destruct (eqk r x) eqn:Er; [|eauto]. apply existsb_exists in E. destruct E as (s & Hs & Es).
      pose proof (@firsts_from_unseen _ _ _ _ I Hs) as N. rewrite (eqk_trans Es (eqk_sym Er)) in N. discriminate.
    - cbn. intros [<-|I].
      + now rewrite eqk_refl.
      + destruct (eqk r x) eqn:Er; [|eauto].
        pose proof (@firsts_from_unseen _ _ _ x I (or_introl eq_refl)) as N. rewrite (eqk_sym Er) in N. discriminate.
  Qed.

  Lemma firsts_in l r : In r (firsts eqk l) <-> hd_error (filter (eqk r) l) = Some r.
  Proof.
    split; [apply firsts_from_hd|]. intros E.
    assert (Ir : In r l). { destruct (filter (eqk r) l) eqn:Ef; [discriminate|]. injection E as ->.
      assert (In r (filter (eqk r) l)) by (rewrite Ef; now left). apply filter_In in H. tauto. }
    destruct (firsts_from_cover [] l r Ir) as [(s & [] & _)|(s & Hs & Es)].
    pose proof (@firsts_from_hd _ _ _ Hs) as E2.
    rewrite (filter_ext (eqk r) (eqk s)) in E by (intros; now rewrite (eqk_ext _ Es)).
    rewrite E in E2. injection E2 as <-. exact Hs.
  Qed.

  Lemma firsts_from_nodup seen l : NoDup (firsts_from eqk seen l).
  Proof.
    revert seen. induction l as [|x l IH]; cbn; intros seen; [constructor|]. destruct (existsb _ seen); [auto|].
    constructor; [|auto]. intros I. pose proof (@firsts_from_unseen _ _ _ x I (or_introl eq_refl)) as N.
    rewrite eqk_refl in N. discriminate.
  Qed.

  Lemma groups_in l g : In g (groups eqk l) <-> exists r, In r l /\ g = filter (eqk r) l.
  Proof.
    unfold groups. rewrite in_map_iff. split.
    - intros (r & <- & Hr). exists r. split; [now apply firsts_from_in in Hr|reflexivity].
    - intros (r & Hr & ->). destruct (firsts_from_cover [] l r Hr) as [(s & [] & _)|(s & Hs & Es)].
      exists s. split; [|exact Hs]. apply filter_ext. intros. now apply eqk_ext.
  Qed.

  (** splitting the rows over pieces that keep every group whole does not change the groups *)
  Lemma groups_pieces (l : list R) (ps : list (list R)) :
    Permutation (concat ps) l ->
    (forall p r, In p ps -> In r p -> filter (eqk r) p = filter (eqk r) l) ->
    (forall i j pi pj r s, nth_error ps i = Some pi -> nth_error ps j = Some pj -> In r pi -> In s pj -> eqk r s = true -> i = j) ->
    Permutation (concat (map (firsts eqk) ps)) (firsts eqk l)
    /\ Permutation (concat (map (groups eqk) ps)) (groups eqk l).
  Proof.
    intros P G1 G2.
    assert (F : Permutation (concat (map (firsts eqk) ps)) (firsts eqk l)).
    { apply NoDup_Permutation.
      - clear P G1. induction ps as [|p ps IH]; cbn; [constructor|].
        apply NoDup_app'; [apply firsts_from_nodup| |].
        + apply IH. intros i j pi pj r s Hi Hj. specialize (G2 (S i) (S j) pi pj r s Hi Hj). intros A B E.
          specialize (G2 A B E). now injection G2.
        + intros r H1 H2. apply firsts_from_in in H1. apply in_concat in H2. destruct H2 as (q & Hq & H2).
          apply in_map_iff in Hq. destruct Hq as (p' & <- & Hp'). apply firsts_from_in in H2.
          apply In_nth_error in Hp'. destruct Hp' as (j & Hj).
          specialize (G2 0 (S j) p p' r r eq_refl Hj H1 H2 (eqk_refl r)). discriminate.
      - apply firsts_from_nodup.
      - intros r. rewrite firsts_in. rewrite in_concat. split.
        + intros (q & Hq & Hr). apply in_map_iff in Hq. destruct Hq as (p & <- & Hp).
          pose proof (@firsts_from_in _ _ _ Hr) as Ir. apply firsts_in in Hr. now rewrite (G1 p r Hp Ir) in Hr.
        + intros E. assert (Ir : In r l).
          { destruct (filter (eqk r) l) eqn:Ef; [discriminate|]. injection E as ->.
            assert (X : In r (filter (eqk r) l)) by (rewrite Ef; now left). apply filter_In in X. tauto. }
          apply (Permutation_in _ (Permutation_sym P)) in Ir. apply in_concat in Ir. destruct Ir as (p & Hp & Ir).
          exists (firsts eqk p). split; [now apply in_map|]. apply firsts_in. now rewrite (G1 p r Hp Ir). }
    split; [exact F|]. unfold groups at 2.
    transitivity (map (fun r => filter (eqk r) l) (concat (map (firsts eqk) ps))); [|now apply Permutation_map].
    rewrite concat_map, map_map. erewrite map_ext_in; [reflexivity|]. intros p Hp. cbn. unfold groups.
    apply map_ext_in. intros r Hr. apply G1; [exact Hp|]. now apply firsts_from_in in Hr.
  Qed.
End Groups.
