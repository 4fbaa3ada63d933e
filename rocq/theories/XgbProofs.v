(** Proofs for C56. *)
From Coq Require Import Permutation.
From Verif Require Import Base WriteModel WriteProofs XgbSpec XgbModel.

Section Assign.
  Context {IP P : Type}.
  Variable ipeqb : IP -> IP -> bool.
  Notation ddict := (@ddict IP).
  Implicit Types (acc : list (list (P * nat))).

  Definition dvals {V} (d : ddict V) : list V := concat (map snd d).

  Lemma dset_perm {V} ip v (d : ddict V) : Permutation (dget ipeqb ip d ++ dvals (dset ipeqb ip v d)) (v ++ dvals d).
  Proof. induction d as [|[i w] d IH]; unfold dget in *; cbn [dset find fst].
    - cbn. now rewrite !app_nil_r.
    - destruct (ipeqb ip i); cbn [fst snd].
      + unfold dvals. cbn [map concat fst snd]. rewrite !app_assoc. apply Permutation_app_tail, Permutation_app_comm.
      + unfold dvals in *. cbn [map concat snd]. rewrite Permutation_app_swap_app, IH. apply Permutation_app_swap_app. Qed.

  Lemma dappend_perm {V} (l : list (IP * V)) : forall d, Permutation (dvals (fold_left (dappend ipeqb) l d)) (dvals d ++ map snd l).
  Proof. induction l as [|e l IH]; intros d; cbn [fold_left map]; [now rewrite app_nil_r|]. rewrite IH. unfold dappend.
    pose proof (dset_perm (fst e) (dget ipeqb (fst e) d ++ [snd e]) d) as Q. rewrite <- app_assoc in Q. apply Permutation_app_inv_l in Q.
    rewrite Q. cbn [app]. apply Permutation_middle. Qed.

  Lemma upd_perm acc i x : i < length acc -> Permutation (concat (upd i (nth i acc [] ++ x) acc)) (x ++ concat acc).
  Proof. intros Hi. destruct (nth_split acc [] Hi) as (a & b & E & Hl). rewrite E at 2 3. rewrite <- Hl at 1. rewrite upd_mid.
    rewrite !concat_app. cbn [concat]. rewrite (Permutation_app_swap_app x). apply Permutation_app_head.
    rewrite <- app_assoc. apply Permutation_app_swap_app. Qed.

  (** how many lists have length [mx] *)
  Definition cnt (mx : nat) acc : nat := length (filter (fun c => length c =? mx) acc).
  Lemma cnt_cons mx c acc : cnt mx (c :: acc) = (if length c =? mx then 1 else 0) + cnt mx acc.
  Proof. unfold cnt. cbn [filter]. destruct (length c =? mx); reflexivity. Qed.
  Lemma cnt_app mx a b : cnt mx (a ++ b) = cnt mx a + cnt mx b.
  Proof. unfold cnt. now rewrite filter_app, app_length. Qed.
  Lemma cnt_upd mx acc i x : i < length acc -> nth i acc [] = [] -> 0 < mx -> cnt mx (upd i x acc) = (if length x =? mx then 1 else 0) + cnt mx acc.
  Proof. intros Hi E0 Hm. destruct (nth_split acc [] Hi) as (a & b & E & Hl). rewrite E0 in E. rewrite E. rewrite <- Hl at 1. rewrite upd_mid.
    rewrite !cnt_app, !cnt_cons. cbn [length]. destruct (Nat.eqb_spec 0 mx); lia. Qed.
  Lemma cnt_le mx acc : cnt mx acc <= length acc.
  Proof. unfold cnt. induction acc as [|c acc IH]; cbn; [lia|]. destruct (length c =? mx); cbn; lia. Qed.
  Lemma Forall_upd {X} (R : X -> Prop) i x (l : list X) : Forall R l -> R x -> Forall R (upd i x l).
  Proof. intros F Hx. rewrite Forall_forall in *. unfold upd. intros y Hy. apply in_app_or in Hy. destruct Hy as [Hy|[<-|Hy]]; [|exact Hx|].
    - apply F. rewrite <- (firstn_skipn i l). apply in_or_app. now left.
    - apply F. rewrite <- (firstn_skipn (S i) l). apply in_or_app. now right. Qed.
  Lemma nth_upd_other {X} i j x (l : list X) d : i < length l -> j <> i -> nth j (upd i x l) d = nth j l d.
  Proof. intros Hi Hj. rewrite <- !nth_default_eq. unfold nth_default. now rewrite upd_other. Qed.

  Variables (mn mx r0 k : nat).
  Hypothesis mnp : 0 < mn.
  (** either no actor has more than the minimum, or the maximum is one more *)
  Hypothesis shape : r0 = 0 /\ mx = mn \/ 0 < r0 /\ mx = S mn.

  (** what holds while the nodes are served: [todo] are the actors not yet served *)
  Definition inv acc (r : nat) (todo : list nat) : Prop :=
    length acc = k /\ Forall (fun c => length c <= mx) acc
    /\ (0 < r0 -> r + cnt mx acc = r0) /\ (r0 = 0 -> r = 0)
    /\ NoDup todo /\ Forall (fun i => i < k /\ nth i acc [] = []) todo.

  Lemma inv_give acc r rank todo x r' : inv acc r (rank :: todo) -> length x <= mx ->
    (0 < r0 -> r = r' + (if length x =? mx then 1 else 0)) -> (r0 = 0 -> r' = 0) ->
    inv (upd rank (nth rank acc [] ++ x) acc) r' todo.
  Proof.
    intros (Hl & Hm & Hr & Hz & Hn & Ht) Hx Hr' Hz'. inversion Hn as [|? ? Hnot Hn']; subst. inversion Ht as [|? ? [Hk E0] Ht']; subst.
    rewrite E0. cbn [app]. repeat split.
    - rewrite upd_length; [exact Hl|lia].
    - apply Forall_upd; auto.
    - intros Hp. rewrite cnt_upd by (auto; lia). specialize (Hr Hp). specialize (Hr' Hp). lia.
    - exact Hz'.
    - exact Hn'.
    - rewrite Forall_forall in *. intros i Hi. destruct (Ht' i Hi) as [Hik Ei]. split; [exact Hik|].
      rewrite nth_upd_other; [exact Ei|lia|congruence].
  Qed.
  Lemma inv_skip acc r a b : inv acc r (a ++ b) -> inv acc r b.
  Proof. intros (Hl & Hm & Hr & Hz & Hn & Ht). repeat split; auto.
    - clear - Hn. induction a; cbn in Hn; [exact Hn|]. inversion Hn; auto.
    - apply Forall_app in Ht. apply Ht. Qed.

  Lemma fill_node_ok ranks : forall avail r acc todo avail' r' acc', inv acc r (ranks ++ todo) ->
    fill_node mn mx ranks avail r acc = (avail', r', acc') ->
    inv acc' r' todo /\ Permutation (concat acc' ++ avail') (concat acc ++ avail).
  Proof.
    induction ranks as [|rank ranks IH]; intros avail r acc todo avail' r' acc' HI E; cbn [fill_node] in E.
    - injection E as <- <- <-. split; [exact HI|reflexivity].
    - destruct (Nat.eqb_spec (length avail) 0) as [E0|E0].
      + injection E as <- <- <-. split; [now apply (@inv_skip acc r (rank :: ranks) todo)|reflexivity].
      + assert (G : forall n r1, length (firstn n avail) <= mx -> (0 < r0 -> r = r1 + (if length (firstn n avail) =? mx then 1 else 0)) ->
                  (r0 = 0 -> r1 = 0) ->
                  fill_node mn mx ranks (skipn n avail) r1 (upd rank (nth rank acc [] ++ firstn n avail) acc) = (avail', r', acc') ->
                  inv acc' r' todo /\ Permutation (concat acc' ++ avail') (concat acc ++ avail)).
        { intros n r1 H1 H2 H3 E'. cbn [app] in HI. pose proof HI as HI0. apply inv_give with (x := firstn n avail) (r' := r1) in HI; auto.
          destruct (IH _ _ _ _ _ _ _ HI E') as [A B]. split; [exact A|]. rewrite B.
          destruct HI0 as (Hl & _ & _ & _ & _ & Ht). inversion Ht as [|? ? [Hk _] _]; subst.
          rewrite upd_perm by lia. rewrite <- (firstn_skipn n avail) at 3. rewrite (Permutation_app_comm (firstn n avail)), <- app_assoc.
          reflexivity. }
        pose proof HI as (_ & _ & _ & Hz & _ & _). cbn in E.
        destruct (Nat.leb_spec mn (length avail)) as [L|L]; [destruct (Nat.leb_spec mx (length avail)); [destruct (Nat.ltb_spec 0 r)|]|]; cbn [andb] in E;
          apply G in E; try exact E; rewrite ?firstn_length; try (rewrite Nat.min_l by lia); try (rewrite Nat.min_id);
          try lia; intros; destruct (Nat.eqb_spec mx mx), (Nat.eqb_spec mn mx), (Nat.eqb_spec (length avail) mx); try lia.
  Qed.

  Lemma fill_nodes_ok nodes : forall dist r acc dist' r' acc', inv acc r (dvals nodes) ->
    fill_nodes ipeqb mn mx nodes dist r acc = (dist', r', acc') ->
    inv acc' r' [] /\ Permutation (concat acc' ++ dvals dist') (concat acc ++ dvals dist).
  Proof.
    induction nodes as [|[ip ranks] nodes IH]; intros dist r acc dist' r' acc' HI E; cbn [fill_nodes] in E.
    - injection E as <- <- <-. split; [exact HI|reflexivity].
    - destruct (fill_node mn mx ranks (dget ipeqb ip dist) r acc) as [[avail r1] acc1] eqn:E1.
      apply fill_node_ok with (todo := dvals nodes) in E1; [|exact HI]. destruct E1 as [I1 P1].
      destruct (IH _ _ _ _ _ _ I1 E) as [I2 P2]. split; [exact I2|]. rewrite P2.
      apply Permutation_app_inv_l with (l := dget ipeqb ip dist).
      rewrite (Permutation_app_swap_app (dget ipeqb ip dist)), dset_perm, app_assoc, P1, <- app_assoc. apply Permutation_app_swap_app.
  Qed.

  Definition total acc := list_sum (map (@length _) acc).
  Lemma total_cons c acc : total (c :: acc) = length c + total acc.
  Proof. unfold total. cbn [map]. now rewrite list_sum_cons. Qed.
  Lemma total_concat acc : total acc = length (concat acc).
  Proof. induction acc as [|c acc IH]; [reflexivity|]. rewrite total_cons, IH. cbn [concat]. now rewrite app_length. Qed.
  Lemma total_le acc : Forall (fun c => length c <= mx) acc -> total acc <= length acc * mn + (mx - mn) * cnt mx acc.
  Proof. induction 1 as [|c acc Hc _ IH]; [cbn; apply Nat.le_0_l|]. rewrite total_cons, cnt_cons. cbn [length].
    destruct (Nat.eqb_spec (length c) mx); destruct shape as [[? M]|[? M]].
    - replace (mx - mn) with 0 in * by lia. lia.
    - replace (mx - mn) with 1 in * by lia. lia.
    - replace (mx - mn) with 0 in * by lia. lia.
    - replace (mx - mn) with 1 in * by lia. lia. Qed.

  Lemma fill_rest_ok acc : forall avail r acc' avail', Forall (fun c => length c <= mx) acc -> (r0 = 0 -> r = 0) ->
    length avail + total acc = length acc * mn + (mx - mn) * (r + cnt mx acc) -> r + (if mx =? mn then 0 else cnt mx acc) <= length acc ->
    fill_rest mn mx acc avail r = (acc', avail') ->
    avail' = [] /\ Permutation (concat acc') (concat acc ++ avail) /\ length acc' = length acc
    /\ Forall (fun c => length c = mn \/ length c = mx) acc'.
  Proof.
    assert (X : r0 = 0 /\ mx - mn = 0 /\ mx = mn \/ 0 < r0 /\ mx - mn = 1 /\ mx = S mn) by lia.
    induction acc as [|c acc IH]; intros avail r acc' avail' Hm Hz He Hr E; cbn [fill_rest] in E.
    - injection E as <- <-. cbn in *. unfold total, cnt in He. cbn in He.
      assert (length avail = 0) by (destruct (mx =? mn); assert (r = 0) by lia; subst r; lia).
      destruct avail; [|discriminate]. repeat split; auto.
    - inversion Hm as [|? ? Hc Hm']; subst. rewrite total_cons, cnt_cons in He. rewrite cnt_cons in Hr. cbn [length] in He, Hr.
      pose proof (total_le Hm') as Ht. pose proof (cnt_le mx acc) as Hcl.
      destruct ((length c =? mx) || ((length c =? mn) && (r =? 0))) eqn:B.
      + destruct (fill_rest mn mx acc avail r) as [a2 av2] eqn:E2. injection E as <- <-.
        apply IH in E2; auto.
        * destruct E2 as (A1 & A2 & A3 & A4). subst av2. split; [reflexivity|]. split; [|split].
          -- cbn [concat]. rewrite A2. now rewrite app_assoc.
          -- cbn. now rewrite A3.
          -- constructor; [|exact A4]. destruct (Nat.eqb_spec (length c) mx); [now right|].
             destruct (Nat.eqb_spec (length c) mn); [now left|discriminate].
        * destruct (Nat.eqb_spec (length c) mx); cbn [orb] in B; [destruct X as [(? & X & ?)|(? & X & ?)]; rewrite X in *; lia|].
          destruct (Nat.eqb_spec (length c) mn); [|discriminate]. destruct X as [(Z & X & ?)|(? & X & ?)]; rewrite X in *; lia.
        * destruct (Nat.eqb_spec mx mn), (Nat.eqb_spec (length c) mx); cbn [orb] in B; destruct shape as [[Z ?]|[? ?]]; try lia.
      + apply orb_false_elim in B. destruct B as [B1 B2]. rewrite B1 in *. apply Nat.eqb_neq in B1.
        set (n := (if 0 <? r then mx else mn) - length c) in *. set (r1 := if 0 <? r then r - 1 else r) in *. cbn in E.
        destruct (fill_rest mn mx acc (skipn n avail) r1) as [a2 av2] eqn:E2. injection E as <- <-.
        assert (Hn : n <= length avail /\ length c + n = (if 0 <? r then mx else mn)).
        { unfold n. destruct (Nat.ltb_spec 0 r).
          - split; [|lia]. destruct X as [(Z & X & ?)|(? & X & ?)]; rewrite X in *; [specialize (Hz Z); lia|]. lia.
          - assert (length c < mn).
            { assert (r = 0) by lia. subst r. rewrite Nat.eqb_refl, andb_true_r in B2. apply Nat.eqb_neq in B2. destruct shape as [[Z ?]|[? ?]]; lia. }
            split; [|lia]. destruct X as [(Z & X & ?)|(? & X & ?)]; rewrite X in *; lia. }
        destruct Hn as [Hn1 Hn2].
        apply IH in E2; auto.
        * destruct E2 as (A1 & A2 & A3 & A4). subst av2. split; [reflexivity|]. split; [|split].
          -- cbn [concat]. rewrite A2, <- !app_assoc. apply Permutation_app_head.
             rewrite <- (firstn_skipn n avail) at 3. apply Permutation_app_swap_app.
          -- cbn. now rewrite A3.
          -- constructor; [|exact A4]. rewrite app_length, firstn_length, Nat.min_l by lia. rewrite Hn2. destruct (0 <? r); auto.
        * unfold r1. intros Z. specialize (Hz Z). subst r. reflexivity.
        * rewrite skipn_length. unfold r1. destruct (Nat.ltb_spec 0 r); destruct X as [(Z & X & ?)|(? & X & ?)]; rewrite X in *; try (specialize (Hz Z)); lia.
        * unfold r1. destruct (Nat.ltb_spec 0 r); destruct (Nat.eqb_spec mx mn); destruct shape as [[Z ?]|[? ?]]; try (specialize (Hz Z)); lia.
  Qed.
End Assign.

Lemma rmap_total {A B} (f : A -> res B) (R : A -> B -> Prop) l : (forall x, In x l -> exists y, f x = Ok y /\ R x y) ->
  exists ys, rmap f l = Ok ys /\ Forall2 R l ys.
Proof. induction l as [|x l IH]; intros H; [exists []; split; [reflexivity|constructor]|].
  destruct (H x (or_introl eq_refl)) as (y & E & Hy). destruct IH as (ys & E' & Hys); [intros; apply H; now right|].
  exists (y :: ys). split; [|now constructor]. cbn [rmap]. rewrite E. cbn [rbind]. rewrite E'. reflexivity. Qed.

Lemma combine_app {A B} (a a' : list A) (b b' : list B) : length a = length b -> combine (a ++ a') (b ++ b') = combine a b ++ combine a' b'.
Proof. revert b. induction a as [|x a IH]; intros [|y b] H; try discriminate; [reflexivity|]. cbn. f_equal. apply IH. now injection H. Qed.

Lemma combine_fst_snd {A B} (l : list (A * B)) : combine (map fst l) (map snd l) = l.
Proof. induction l as [|[a b] l IH]; [reflexivity|]. cbn. now rewrite IH. Qed.

Lemma NoDup_perm_seq {V} (l : list V) n : NoDup (seq n (length l)).
Proof. apply seq_NoDup. Qed.

Section Assign2.
  Context {IP P : Type}.
  Variable ipeqb : IP -> IP -> bool.

  Lemma map_snd_combine {A B} (a : list A) (b : list B) : length a = length b -> map snd (combine a b) = b.
  Proof. revert b. induction a as [|x a IH]; intros [|y b] H; try discriminate; [reflexivity|]. cbn. f_equal. apply IH. now injection H. Qed.
  Lemma cnt_repeat m k : 0 < m -> cnt m (repeat (@nil (P * nat)) k) = 0.
  Proof. intros Hm. induction k as [|k IH]; [reflexivity|]. cbn [repeat]. rewrite cnt_cons, IH. cbn [length]. destruct (Nat.eqb_spec 0 m); lia. Qed.
  Lemma concat_repeat_nil {X} k : concat (repeat (@nil X) k) = [].
  Proof. induction k; auto. Qed.

  Lemma assign_ok (actors : list IP) (parts : list (IP * P)) :
    0 < length actors -> length actors <= length parts ->
    exists out, assign_row_partitions ipeqb actors parts = Ok out
      /\ length out = length actors
      /\ Forall (fun o => length (fst o) = length (snd o)
                          /\ length parts / length actors <= length (fst o)
                          /\ length (fst o) <= length parts / length actors + (if length parts mod length actors =? 0 then 0 else 1)) out
      /\ Permutation (concat (map (fun o => combine (fst o) (snd o)) out)) (combine (map snd parts) (seq 0 (length parts))).
  Proof.
    intros Hk Hn. unfold assign_row_partitions. destruct parts as [|p0 ps] eqn:Ep; [cbn in Hn; lia|]. rewrite <- Ep in *. clear p0 ps Ep.
    destruct (Nat.eqb_spec (length actors) 0) as [E0|_]; [lia|].
    set (n := length parts) in *. set (k := length actors) in *. set (mn := n / k). set (mx := divup n k). set (r0 := n mod k).
    assert (Hmn : 0 < mn) by (apply Nat.div_str_pos; lia).
    assert (Hdm : n = k * mn + r0) by (apply Nat.div_mod; lia).
    assert (Hr0 : r0 < k) by (apply Nat.mod_upper_bound; lia).
    assert (shape : r0 = 0 /\ mx = mn \/ 0 < r0 /\ mx = S mn).
    { unfold mx, divup. fold r0 mn. destruct (Nat.eqb_spec r0 0); lia. }
    set (nodes := fold_left (dappend ipeqb) (combine actors (seq 0 k)) []).
    set (dist := fold_left (dappend ipeqb) _ []).
    destruct (fill_nodes ipeqb mn mx nodes dist r0 (repeat [] k)) as [[dist' r] acc] eqn:E1.
    assert (Pn : Permutation (dvals nodes) (seq 0 k)).
    { unfold nodes. rewrite dappend_perm. cbn [dvals map concat app]. rewrite map_snd_combine by (now rewrite seq_length). reflexivity. }
    assert (Pd : Permutation (dvals dist) (combine (map snd parts) (seq 0 n))).
    { unfold dist. rewrite dappend_perm. cbn [dvals map concat app]. rewrite map_map. cbn [snd].
      unfold n. generalize 0. clear. induction parts as [|p ps IH]; intros m; [reflexivity|]. cbn. now rewrite IH. }
    apply (fill_nodes_ok ipeqb Hmn shape (k := k)) in E1.
    2:{ unfold inv. rewrite repeat_length. repeat split.
        - apply Forall_forall. intros c Hc. apply repeat_spec in Hc. subst c. cbn. lia.
        - intros _. rewrite cnt_repeat by lia. lia.
        - auto.
        - apply Permutation_NoDup with (l := seq 0 k); [now symmetry|apply seq_NoDup].
        - apply Forall_forall. intros i Hi. split.
          + apply Permutation_in with (l' := seq 0 k) in Hi; [|exact Pn]. apply in_seq in Hi. lia.
          + clear. revert i. induction k as [|k' IH]; intros [|i]; cbn; auto. }
    destruct E1 as [(Hl & Hm & Hr & Hz & _ & _) P1]. rewrite concat_repeat_nil in P1. cbn [app] in P1. rewrite Pd in P1.
    destruct (fill_rest mn mx acc (concat (map snd dist')) r) as [acc' avail'] eqn:E2.
    assert (Hlen : length (concat acc) + length (dvals dist') = n).
    { rewrite <- app_length, (Permutation_length P1), combine_length, map_length, seq_length. fold n. lia. }
    pose proof (cnt_le mx acc) as Hc.
    apply (fill_rest_ok Hmn shape) in E2; auto.
    - destruct E2 as (-> & P2 & L2 & F2). cbn [length Nat.eqb negb].
      destruct (@rmap_total _ _ (fun pairs : list (P * nat) => match pairs with [] => Err ValueError | _ => Ok (map fst pairs, map snd pairs) end)
                  (fun pairs o => o = (map fst pairs, map snd pairs)) acc') as (out & Eo & Fo).
      { intros x Hx. rewrite Forall_forall in F2. specialize (F2 x Hx). destruct x; [cbn in F2; lia|]. eexists. split; reflexivity. }
      exists out. split; [exact Eo|].
      assert (Em : out = map (fun pairs => (map fst pairs, map snd pairs)) acc') by (clear - Fo; induction Fo; cbn; congruence).
      subst out. rewrite map_length, L2, Hl. split; [reflexivity|]. split.
      + apply Forall_map. eapply Forall_impl; [|exact F2]. cbn. intros c Hcl. rewrite !map_length. split; [reflexivity|].
        fold mn. destruct shape as [[Z M]|[Z M]]; fold r0; [rewrite Z; cbn; lia|]. destruct (Nat.eqb_spec r0 0); lia.
      + rewrite map_map. cbn [fst snd]. rewrite (map_ext _ (fun x => x)) by (intros; apply combine_fst_snd). rewrite map_id. rewrite P2. exact P1.
    - rewrite Hl, total_concat. fold (dvals dist'). destruct shape as [[Z M]|[Z M]]; [specialize (Hz Z)|specialize (Hr Z)].
      + replace (mx - mn) with 0 by lia. lia.
      + replace (mx - mn) with 1 by lia. lia.
    - rewrite Hl. destruct shape as [[Z M]|[Z M]]; [specialize (Hz Z); subst r; rewrite M, Nat.eqb_refl; lia|]. specialize (Hr Z).
      destruct (mx =? mn); lia.
  Qed.
End Assign2.

Section Train.
  Context {IP R S N : Type}.
  Variable ipeqb : IP -> IP -> bool.
  Implicit Types (m : @dmatrix IP R S).

  Lemma Forall2_len {X Y} (Q : X -> Y -> Prop) l l' : Forall2 Q l l' -> length l = length l'.
  Proof. induction 1; cbn; auto. Qed.

  Lemma concat_combine (xs : list (list R)) (ys : list (list S)) : Forall2 (fun x y => length x = length y) xs ys ->
    combine (concat xs) (concat ys) = concat (map (fun p => combine (fst p) (snd p)) (combine xs ys)).
  Proof. induction 1 as [|x y xs ys E F IH]; [reflexivity|]. cbn. rewrite combine_app by exact E. now rewrite IH. Qed.
  Lemma concat_len (xs : list (list R)) (ys : list (list S)) : Forall2 (fun x y => length x = length y) xs ys -> length (concat xs) = length (concat ys).
  Proof. induction 1 as [|x y xs ys E F IH]; [reflexivity|]. cbn. rewrite !app_length. lia. Qed.

  Lemma split_ok actors m : 0 < length actors -> length actors <= length (fst m) -> cut_alike m ->
    exists w, split_data ipeqb actors m = Ok w /\ length w = length actors /\ dealt m w.
  Proof.
    intros Hk Hn Hc. destruct m as [xs ys]. cbn [fst snd] in *. unfold split_data. cbn [fst snd].
    destruct (assign_ok ipeqb actors xs Hk Hn) as (out & E & Hl & Hf & Hp). rewrite E. cbn [rbind].
    pose proof (Forall2_len Hc) as Hlen. cbn [fst snd] in Hlen.
    pose (lab := fun i => nth i ys []).
    assert (Hin : forall o, In o out -> Forall (fun pi => snd pi < length ys /\ length (fst pi) = length (lab (snd pi)))
                                              (combine (fst o) (snd o))).
    { intros o Ho. apply Forall_forall. intros [p i] Hpi. cbn [fst snd].
      assert (Hm : In (p, i) (combine (map snd xs) (seq 0 (length xs)))).
      { apply (Permutation_in _ Hp). apply in_concat. exists (combine (fst o) (snd o)). split; [|exact Hpi]. apply in_map_iff. now exists o. }
      clear - Hm Hc. unfold cut_alike in Hc. cbn [fst snd] in Hc.
      assert (G : forall b, In (p, i) (combine (map snd xs) (seq b (length xs))) -> b <= i /\ i - b < length ys /\ length p = length (nth (i - b) ys [])).
      { clear Hm. induction Hc as [|x y xs ys Exy F IH]; intros b Hb; [destruct Hb|]. cbn [map length seq combine In] in Hb.
        destruct Hb as [E|Hb].
        - injection E as <- <-. rewrite Nat.sub_diag. cbn. repeat split; auto; lia.
        - apply IH in Hb. destruct Hb as (A & B & C). replace (i - b) with (1 + (i - Datatypes.S b)) by lia. cbn. repeat split; auto; lia. }
      apply G in Hm. rewrite Nat.sub_0_r in Hm. unfold lab. destruct Hm as (_ & A & B). auto. }
    assert (Ea : align out ys = Ok (map (fun o => map lab (snd o)) out)).
    { unfold align. destruct (@rmap_total _ _ (fun o : list (list R) * list nat => rmap (fun i => match nth_error ys i with Some p => Ok p | None => Err IndexError end) (snd o))
          (fun o y => y = map lab (snd o)) out) as (zs & Ez & Fz).
      - intros o Ho. rewrite Forall_forall in Hf. destruct (Hf o Ho) as (Hol & _). specialize (Hin o Ho). destruct o as [ps is_]. cbn [fst snd] in *.
        destruct (@rmap_total _ _ (fun i => match nth_error ys i with Some p => Ok p | None => Err IndexError end) (fun i y => y = lab i) is_) as (z & Ez & Fz).
        { intros i Hi. assert (Hi' : exists p, In (p, i) (combine ps is_)).
          { clear - Hi Hol. revert ps Hol. induction is_ as [|j js IH]; intros [|p ps] Hol; try discriminate; [destruct Hi|].
            destruct Hi as [->|Hi]; [exists p; now left|]. destruct (IH Hi ps) as [q Hq]; [now injection Hol|]. exists q. now right. }
          destruct Hi' as [p Hpi]. rewrite Forall_forall in Hin. destruct (Hin _ Hpi) as [Hlt _]. cbn [snd] in Hlt.
          unfold lab. exists (nth i ys []). split; [|reflexivity]. now rewrite (nth_error_nth' ys [] Hlt). }
        exists z. split; [exact Ez|]. clear - Fz. induction Fz; cbn; congruence.
      - rewrite Ez. f_equal. clear - Fz. induction Fz; cbn; congruence. }
    rewrite Ea. cbn [rbind].
    assert (Ec : combine out (map (fun o => map lab (snd o)) out) = map (fun o => (o, map lab (snd o))) out)
      by (clear; induction out; cbn; congruence).
    rewrite Ec. clear Ec Ea.
    assert (Hal : forall o, In o out -> Forall2 (fun x y => length x = length y) (fst o) (map lab (snd o))).
    { intros o Ho. specialize (Hin o Ho). rewrite Forall_forall in Hf. destruct (Hf o Ho) as (Hol & _). destruct o as [ps is_]. cbn [fst snd] in *.
      clear - Hin Hol. revert ps Hin Hol. induction is_ as [|j js IH]; intros [|p ps] Hin Hol; try discriminate; [constructor|].
      cbn [combine] in Hin. inversion Hin as [|? ? [_ A] B]; subst. cbn in *. constructor; [exact A|]. apply IH; auto. }
    exists (map (fun o => (concat (fst o), concat (map lab (snd o)))) out).
    split; [|split].
    - clear - Hal. induction out as [|o out IH]; [reflexivity|]. cbn [map rmap].
      rewrite (concat_len (Hal o (or_introl eq_refl))), Nat.eqb_refl. cbn [rbind]. rewrite IH; [reflexivity|]. intros; apply Hal; now right.
    - now rewrite map_length.
    - split.
      + rewrite map_map. cbn [fst snd].
        assert (E1 : concat (map (fun o => combine (concat (fst o)) (concat (map lab (snd o)))) out)
                     = flat_map (fun pi => combine (fst pi) (lab (snd pi))) (concat (map (fun o => combine (fst o) (snd o)) out))).
        { clear - Hal. induction out as [|o out IH]; [reflexivity|]. cbn [map concat]. rewrite flat_map_app. rewrite IH by (intros; apply Hal; now right).
          f_equal. rewrite concat_combine by (apply Hal; now left). rewrite flat_map_concat_map. f_equal.
          destruct o as [ps is_]. cbn [fst snd]. clear. revert ps. induction is_ as [|j js IH]; intros [|p ps]; cbn; auto. now rewrite IH. }
        rewrite E1. rewrite (Permutation_flat_map _ Hp). unfold labelled. cbn [fst snd]. rewrite concat_combine.
        * rewrite flat_map_concat_map. apply Permutation_refl'. f_equal. unfold lab. clear - Hlen.
          assert (G : forall b, map (fun pi : list R * nat => combine (fst pi) (nth (snd pi - b) ys [])) (combine (map snd xs) (seq b (length xs)))
                                = map (fun p => combine (fst p) (snd p)) (combine (map snd xs) ys)).
          { revert ys Hlen. induction xs as [|x xs IH]; intros [|y ys] Hlen b; try discriminate; [reflexivity|]. cbn [length seq map combine fst snd].
            rewrite Nat.sub_diag. cbn [nth]. f_equal. rewrite <- (IH ys ltac:(cbn in Hlen; lia) (Datatypes.S b)). apply map_ext_in. intros [p i] Hi. cbn [fst snd].
            apply in_combine_r, in_seq in Hi. replace (i - b) with (Datatypes.S (i - Datatypes.S b)) by lia. reflexivity. }
          rewrite <- (G 0). apply map_ext. intros [p i]. cbn [fst snd]. now rewrite Nat.sub_0_r.
        * clear - Hc. unfold cut_alike in Hc. cbn [fst snd] in Hc. induction Hc; cbn; constructor; auto.
      + apply Forall_map, Forall_forall. intros o Ho. cbn [fst snd]. apply concat_len. now apply Hal.
  Qed.

  Lemma create_actors_length (nodes : list IP) n : length (create_actors nodes n) = length nodes * Nat.max (n / length nodes) 1.
  Proof. unfold create_actors. generalize (Nat.max (n / length nodes) 1). intros k. induction nodes as [|ip nodes IH]; [reflexivity|].
    cbn [flat_map length]. rewrite app_length, repeat_length, IH. lia. Qed.
  Lemma create_actors_le (nodes : list IP) n : nodes <> [] -> length nodes <= n ->
    0 < length (create_actors nodes n) /\ length (create_actors nodes n) <= n.
  Proof. intros Hn Hl. rewrite create_actors_length. assert (0 < length nodes) by (destruct nodes; [congruence|cbn; lia]).
    assert (0 < n / length nodes) by (apply Nat.div_str_pos; lia). rewrite Nat.max_l by lia.
    pose proof (Nat.mul_div_le n (length nodes)). lia. Qed.

  Definition others (evals : list (N * option (@dmatrix IP R S))) := filter (fun e => match snd e with None => false | Some _ => true end) evals.
  Definition the_set (train : @dmatrix IP R S) (e : N * option (@dmatrix IP R S)) := match snd e with Some m => m | None => train end.

  Lemma fold_min {X} (f : X -> nat) (m : nat) l : forall n0, m <= n0 -> Forall (fun e => m <= f e) l ->
    let r := fold_left (fun n e => if f e <? n then f e else n) l n0 in m <= r /\ r <= n0 /\ Forall (fun e => r <= f e) l.
  Proof. cbn zeta. induction l as [|e l IH]; intros n0 H0 F; cbn [fold_left]; [repeat split; auto|]. inversion F as [|? ? Fe F']; subst.
    destruct (Nat.ltb_spec (f e) n0) as [L|L].
    - destruct (IH (f e) Fe F') as (A & B & C). repeat split; auto. lia.
    - destruct (IH n0 H0 F') as (A & B & C). repeat split; auto. constructor; [lia|exact C]. Qed.

  Lemma train_ok nodes requested train evals :
    nodes <> [] -> length nodes <= requested ->
    Forall (fun m => length nodes <= length (fst m) /\ cut_alike m) (train :: map (the_set train) evals) ->
    exists t es last, train_data ipeqb nodes requested train evals = Ok (t, es ++ last, others evals)
      /\ 0 < length t /\ dealt train t /\ evaluated train (others evals) es
      /\ match fold_left (fun f (e : N * option _) => match snd e with None => Some (fst e) | Some _ => f end) evals None with
         | Some name => last = [(name, t)] | None => last = [] end.
  Proof.
    intros Hnn Hreq HF. inversion HF as [|? ? [Ht Hct] He]; subst. clear HF. rewrite Forall_map in He. unfold train_data.
    pose proof (Forall2_len Hct) as Hl. rewrite Hl, Nat.eqb_refl. cbn [negb]. cbn zeta. rewrite <- Hl.
    match goal with |- context [create_actors nodes ?x] => set (num := x) end. set (n0 := if length (fst train) <? requested then length (fst train) else requested) in *.
    assert (Hnum : length nodes <= num /\ num <= n0 /\ Forall (fun e => num <= length (fst (the_set train e))) evals).
    { apply fold_min; [unfold n0; destruct (_ <? _); lia|]. eapply Forall_impl; [|exact He]. now intros e [H _]. }
    destruct Hnum as (Hn1 & Hn2 & Hn3). destruct (create_actors_le Hnn Hn1) as [Ha1 Ha2]. set (actors := create_actors nodes num) in *.
    fold (others evals).
    destruct (@rmap_total _ _ (fun e : N * option (@dmatrix IP R S) => match snd e with
                 | Some m => do d <- split_data ipeqb actors m; Ok (fst e, d) | None => Err InternalBug end)
               (fun e g => fst e = fst g /\ dealt (the_set train e) (snd g)) (others evals)) as (es & Ees & Fes).
    { intros e Hin. apply filter_In in Hin. destruct Hin as [Hin Hs]. rewrite Forall_forall in He, Hn3. destruct (He e Hin) as [_ Hce]. specialize (Hn3 e Hin).
      unfold the_set in *. destruct e as [nm [m|]]; [|discriminate]. cbn [snd fst] in *.
      destruct (@split_ok actors m Ha1 ltac:(lia) Hce) as (w & Ew & _ & Dw). rewrite Ew. cbn [rbind]. eexists. split; [reflexivity|]. now split. }
    destruct (@split_ok actors train Ha1) as (t & Et & Lt & Dt); [unfold n0 in Hn2; destruct (Nat.ltb_spec (length (fst train)) requested); lia|exact Hct|].
    rewrite Ees. cbn [rbind]. rewrite Et. cbn [rbind]. eexists t, es, _. split; [reflexivity|]. repeat split; auto.
    - lia.
    - apply Dt.
    - apply Dt.
    - destruct (fold_left _ evals None); reflexivity.
  Qed.
End Train.
