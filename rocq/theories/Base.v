(** Shared list and arithmetic vocabulary.  Nothing in this file models modin
    itself: these are the Python/NumPy/pandas primitives the models are written
    with (slicing, ranges, cumulative sums) and plain list lemmas. *)
From Coq Require Export List Arith Lia Bool ZArith Permutation Sorted.
From Coq Require Export ZifyBool ZifyNat.
Export ListNotations.
Global Set Implicit Arguments.
Ltac Zify.zify_post_hook ::= Z.div_mod_to_equations.

(** Result of a Python call: a value or a raised exception.  [Unmodelled] marks
    inputs outside the modelled fragment; theorems exclude it. *)
Inductive err :=
  ValueError | IndexError | KeyError | TypeError | ZeroDivisionError
| AssertionError | AttributeError | NotImplementedErr | RuntimeError | InternalBug
| UserError | Unmodelled.
Inductive res (A : Type) := Ok (a : A) | Err (e : err).
Arguments Ok {A} a.
Arguments Err {A} e.

Definition rbind {A B} (r : res A) (f : A -> res B) : res B :=
  match r with Ok a => f a | Err e => Err e end.
Notation "'do' x <- r ; k" := (rbind r (fun x => k))
  (at level 200, x pattern, r at level 100, k at level 200).

Fixpoint rmap {A B} (f : A -> res B) (l : list A) : res (list B) :=
  match l with
  | [] => Ok []
  | x :: xs => do y <- f x; do ys <- rmap f xs; Ok (y :: ys)
  end.

Fixpoint list_eqb {A} (eqb : A -> A -> bool) (xs ys : list A) : bool :=
  match xs, ys with
  | [], [] => true
  | x :: xs, y :: ys => eqb x y && list_eqb eqb xs ys
  | _, _ => false
  end.

Lemma list_eqb_spec {A} (eqb : A -> A -> bool) :
  (forall x y, eqb x y = true <-> x = y) ->
  forall xs ys, list_eqb eqb xs ys = true <-> xs = ys.
Proof. intros E; induction xs as [|x xs IH]; intros [|y ys]; cbn; try (split; congruence).
  rewrite andb_true_iff, E, IH. split; [intros [-> ->]; auto | intros [= -> ->]; auto]. Qed.

Lemma list_eqb_refl {A} (eqb : A -> A -> bool) :
  (forall x y, eqb x y = true <-> x = y) -> forall xs, list_eqb eqb xs xs = true.
Proof. intros E xs. now apply list_eqb_spec. Qed.

Lemma rmap_ok {A B} (f : A -> res B) (g : A -> B) l :
  (forall x, In x l -> f x = Ok (g x)) -> rmap f l = Ok (map g l).
Proof. induction l as [|x xs IH]; intros H; cbn; [reflexivity|].
  rewrite H by now left. cbn. rewrite IH by (intros; apply H; now right). reflexivity. Qed.

(** Python slice [l[a:b]] for 0 <= a, 0 <= b (out-of-range bounds clip). *)
Definition slice {A} (l : list A) (a b : nat) : list A := firstn (b - a) (skipn a l).

(** Python [range(start, stop, step)] for step >= 1. *)
Definition range_step (start stop step : nat) : list nat :=
  map (fun k => start + k * step)
      (seq 0 ((stop - start) / step + (if ((stop - start) mod step =? 0) then 0 else 1))).

(** [np.cumsum([0] + lens)] *)
Fixpoint cumsum_from (acc : nat) (lens : list nat) : list nat :=
  match lens with
  | [] => [acc]
  | n :: ns => acc :: cumsum_from (acc + n) ns
  end.
Definition cumsum0 (lens : list nat) : list nat := cumsum_from 0 lens.

(** [[l[sums[i]:sums[i+1]] for i in range(len(sums)-1)]] *)
Definition slices_at {A} (l : list A) (sums : list nat) : list (list A) :=
  map (fun i => slice l (nth i sums 0) (nth (S i) sums 0)) (seq 0 (length sums - 1)).

(** Cutting a list into consecutive pieces of the given lengths. *)
Fixpoint cut {A} (lens : list nat) (l : list A) : list (list A) :=
  match lens with
  | [] => []
  | n :: ns => firstn n l :: cut ns (skipn n l)
  end.

Definition zipapp {A} (a b : list (list A)) : list (list A) :=
  map (fun p => fst p ++ snd p) (combine a b).

(** Python [zip]-style map of two lists. *)
Definition map2 {A B C} (f : A -> B -> C) (xs : list A) (ys : list B) : list C :=
  map (fun p => f (fst p) (snd p)) (combine xs ys).

(* ------------------------------------------------------------------ *)
(** * Lemmas *)

Lemma list_sum_cons n ns : list_sum (n :: ns) = n + list_sum ns.
Proof. reflexivity. Qed.
Lemma list_sum_nil : list_sum [] = 0.
Proof. reflexivity. Qed.
Global Arguments list_sum : simpl never.
Global Arguments zipapp : simpl never.
Global Arguments Nat.ltb : simpl never.
Global Arguments Nat.div : simpl never.
Global Arguments Nat.modulo : simpl never.
Global Arguments slice : simpl never.
Global Arguments map2 : simpl never.
Ltac lsum := rewrite ?list_sum_cons, ?list_sum_nil in *.

Lemma slice_length {A} (l : list A) a b :
  length (slice l a b) = Nat.min (b - a) (length l - a).
Proof. unfold slice. now rewrite firstn_length, skipn_length. Qed.

Lemma slice_full {A} (l : list A) b : length l <= b -> slice l 0 b = l.
Proof. intros H. unfold slice. rewrite Nat.sub_0_r. cbn. now apply firstn_all2. Qed.

Lemma slice_map {A B} (f : A -> B) l a b : slice (map f l) a b = map f (slice l a b).
Proof. unfold slice. now rewrite skipn_map, firstn_map. Qed.

Lemma skipn_skipn' {A} (a b : nat) (l : list A) : skipn a (skipn b l) = skipn (b + a) l.
Proof. revert l; induction b as [|b IH]; intros l; cbn [Nat.add]; [reflexivity|].
  destruct l; cbn [skipn]; [now rewrite skipn_nil | apply IH]. Qed.

Lemma firstn_add {A} (a b : nat) (l : list A) :
  firstn (a + b) l = firstn a l ++ firstn b (skipn a l).
Proof. revert l; induction a as [|a IH]; intros l; cbn; [reflexivity|].
  destruct l; cbn; [now rewrite firstn_nil | now rewrite IH]. Qed.

Lemma slice_app {A} (l : list A) a b c :
  a <= b <= c -> slice l a b ++ slice l b c = slice l a c.
Proof. intros H. unfold slice.
  replace (c - a) with ((b - a) + (c - b)) by lia. rewrite firstn_add, skipn_skipn'.
  now replace (a + (b - a)) with b by lia. Qed.

Lemma cut_length {A} lens (l : list A) : length (cut lens l) = length lens.
Proof. revert l; induction lens; intros l; cbn; auto. Qed.

Lemma concat_cut {A} lens (l : list A) : concat (cut lens l) = firstn (list_sum lens) l.
Proof. revert l; induction lens as [|n ns IH]; intros l; cbn; lsum; [reflexivity|].
  rewrite IH. now rewrite <- firstn_add. Qed.

Lemma concat_cut_exact {A} lens (l : list A) : list_sum lens = length l -> concat (cut lens l) = l.
Proof. intros H. rewrite concat_cut, H. apply firstn_all. Qed.

Lemma cut_lengths {A} lens (l : list A) :
  list_sum lens <= length l -> map (@length A) (cut lens l) = lens.
Proof. revert l; induction lens as [|n ns IH]; intros l H; cbn in *; [reflexivity|]. lsum.
  rewrite firstn_length, IH by (rewrite skipn_length; lia). f_equal; lia. Qed.

Lemma cut_concat {A} (ls : list (list A)) : cut (map (@length A) ls) (concat ls) = ls.
Proof. induction ls as [|l ls IH]; cbn; [reflexivity|].
  rewrite firstn_app, firstn_all, Nat.sub_diag, skipn_app, skipn_all, Nat.sub_diag.
  cbn. now rewrite app_nil_r, IH. Qed.

Lemma cut_map {A B} (f : A -> B) lens l : cut lens (map f l) = map (map f) (cut lens l).
Proof. revert l; induction lens as [|n ns IH]; intros l; cbn; [reflexivity|].
  now rewrite firstn_map, skipn_map, IH. Qed.

Lemma cumsum_from_length acc lens : length (cumsum_from acc lens) = S (length lens).
Proof. revert acc; induction lens; intros acc; cbn; auto. Qed.

Lemma cumsum_from_nth acc lens i :
  i <= length lens -> nth i (cumsum_from acc lens) 0 = acc + list_sum (firstn i lens).
Proof. revert acc i; induction lens as [|n ns IH]; intros acc [|i] H; cbn in *; lsum; try lia.
  rewrite IH by lia. lia. Qed.

Lemma slices_at_cumsum_from {A} acc lens (l : list A) :
  slices_at l (cumsum_from acc lens) = cut lens (skipn acc l).
Proof.
  revert acc l; induction lens as [|n ns IH]; intros acc l; [reflexivity|].
  unfold slices_at. cbn [cumsum_from length]. rewrite cumsum_from_length.
  cbn [Nat.sub]. cbn [seq map cut]. f_equal.
  - unfold slice. cbn [nth]. destruct ns; cbn; f_equal; lia.
  - rewrite skipn_skipn'. rewrite <- IH. unfold slices_at.
    rewrite cumsum_from_length. replace (S (length ns) - 1) with (length ns) by lia.
    rewrite <- seq_shift, map_map. reflexivity.
Qed.

Lemma slices_at_cumsum {A} lens (l : list A) : slices_at l (cumsum0 lens) = cut lens l.
Proof. unfold cumsum0. now rewrite slices_at_cumsum_from. Qed.

Lemma concat_map_slices_seq {A} (l : list A) c k :
  concat (map (fun j => slice l (j * c) (j * c + c)) (seq 0 k)) = firstn (k * c) l.
Proof. induction k as [|k IH]; [reflexivity|].
  rewrite seq_S, map_app, concat_app, IH. cbn. rewrite app_nil_r.
  replace (c + k * c) with (k * c + c) by lia. rewrite firstn_add.
  unfold slice. f_equal. f_equal. lia. Qed.

(** Number of chunks of size [c] needed for [n] elements. *)
Definition nchunks (n c : nat) : nat := n / c + (if n mod c =? 0 then 0 else 1).

Lemma nchunks_cover n c : 0 < c -> n <= nchunks n c * c.
Proof. intros H. unfold nchunks. destruct (Nat.eqb_spec (n mod c) 0); nia. Qed.

Lemma nchunks_tight n c j : 0 < c -> j < nchunks n c -> j * c < n.
Proof. intros H. unfold nchunks. destruct (Nat.eqb_spec (n mod c) 0); nia. Qed.

Lemma range_step_0 n c : range_step 0 n c = map (fun k => k * c) (seq 0 (nchunks n c)).
Proof. unfold range_step, nchunks. now rewrite Nat.sub_0_r. Qed.

Lemma range_step_length n c : length (range_step 0 n c) = nchunks n c.
Proof. rewrite range_step_0. now rewrite map_length, seq_length. Qed.

Lemma concat_slices_range {A} (l : list A) c :
  0 < c -> concat (map (fun i => slice l i (i + c)) (range_step 0 (length l) c)) = l.
Proof. intros H. rewrite range_step_0, map_map, concat_map_slices_seq.
  apply firstn_all2. now apply nchunks_cover. Qed.

Lemma combine_map_same {A B C} (f : A -> B) (g : A -> C) l :
  combine (map f l) (map g l) = map (fun x => (f x, g x)) l.
Proof. induction l; cbn; congruence. Qed.

Lemma zipapp_map {A R} (f g : R -> list A) t :
  zipapp (map f t) (map g t) = map (fun r => f r ++ g r) t.
Proof. unfold zipapp. now rewrite combine_map_same, map_map. Qed.

Lemma map_const {A B} (b : B) (l : list A) : map (fun _ => b) l = repeat b (length l).
Proof. induction l; cbn; congruence. Qed.

Lemma fold_zipapp_map {A R} (fs : list (R -> list A)) t :
  fold_right zipapp (repeat [] (length t)) (map (fun f => map f t) fs)
  = map (fun r => concat (map (fun f => f r) fs)) t.
Proof. induction fs as [|f fs IH]; cbn.
  - symmetry; apply map_const.
  - rewrite IH. now rewrite zipapp_map. Qed.

Lemma map_length_concat {A} (ls : list (list A)) : length (concat ls) = list_sum (map (@length A) ls).
Proof. induction ls; cbn; lsum; rewrite ?app_length; lia. Qed.

Lemma list_sum_repeat n k : list_sum (repeat n k) = k * n.
Proof. induction k; cbn; lsum; lia. Qed.

Lemma Forall_slice {A} (P : A -> Prop) l a b : Forall P l -> Forall P (slice l a b).
Proof. intros H. rewrite Forall_forall in *. intros x Hx. apply H.
  unfold slice in Hx.
  assert (Hin : In x (skipn a l)).
  { rewrite <- (firstn_skipn (b - a) (skipn a l)). apply in_or_app. now left. }
  rewrite <- (firstn_skipn a l). apply in_or_app. now right. Qed.

Lemma Forall_firstn' {A} (P : A -> Prop) n l : Forall P l -> Forall P (firstn n l).
Proof. intros H. apply (@Forall_slice A P l 0 n) in H. unfold slice in H.
  now rewrite Nat.sub_0_r in H. Qed.

Lemma Forall_skipn' {A} (P : A -> Prop) n l : Forall P l -> Forall P (skipn n l).
Proof. rewrite !Forall_forall. intros H x Hx. apply H. rewrite <- (firstn_skipn n l).
  apply in_or_app. now right. Qed.

Lemma map_ext_seq {B} (f g : nat -> B) s n :
  (forall i, s <= i < s + n -> f i = g i) -> map f (seq s n) = map g (seq s n).
Proof. intros H. apply map_ext_in. intros i Hi. apply in_seq in Hi. auto. Qed.

Lemma nth_error_ext {A} (l1 l2 : list A) :
  (forall i, nth_error l1 i = nth_error l2 i) -> l1 = l2.
Proof. revert l2; induction l1 as [|x xs IH]; intros [|y ys] H; auto.
  - specialize (H 0); discriminate.
  - specialize (H 0); discriminate.
  - f_equal; [now injection (H 0)|]. apply IH. intros i. apply (H (S i)). Qed.

(* ------------------------------------------------------------------ *)
(** * Transposition of lists of lists *)

(** Transpose of a grid that has [w] columns (numpy's [.T]). *)
Definition transp {A} (w : nat) (g : list (list A)) : list (list A) :=
  fold_right (map2 cons) (repeat [] w) g.
Global Arguments transp : simpl never.

Lemma transp_nil {A} w : transp w (@nil (list A)) = repeat [] w.
Proof. reflexivity. Qed.
Lemma transp_cons {A} w (r : list A) g : transp w (r :: g) = map2 cons r (transp w g).
Proof. reflexivity. Qed.

Lemma map2_length {A B C} (f : A -> B -> C) xs ys :
  length (map2 f xs ys) = Nat.min (length xs) (length ys).
Proof. unfold map2. now rewrite map_length, combine_length. Qed.
Lemma map2_cons {A B C} (f : A -> B -> C) x xs y ys :
  map2 f (x :: xs) (y :: ys) = f x y :: map2 f xs ys.
Proof. reflexivity. Qed.
Lemma map2_nil_l {A B C} (f : A -> B -> C) ys : map2 f [] ys = [].
Proof. reflexivity. Qed.
Lemma map2_nil_r {A B C} (f : A -> B -> C) xs : map2 f xs [] = [].
Proof. destruct xs; reflexivity. Qed.
Lemma map2_map {X A B C} (f : A -> B -> C) (g : X -> A) (h : X -> B) l :
  map2 f (map g l) (map h l) = map (fun x => f (g x) (h x)) l.
Proof. unfold map2. now rewrite combine_map_same, map_map. Qed.
Lemma map_map2 {A B C D} (f : A -> B -> C) (g : C -> D) xs ys :
  map g (map2 f xs ys) = map2 (fun x y => g (f x y)) xs ys.
Proof. unfold map2. now rewrite map_map. Qed.
Lemma firstn_map2 {A B C} (f : A -> B -> C) n xs ys :
  firstn n (map2 f xs ys) = map2 f (firstn n xs) (firstn n ys).
Proof. revert xs ys; induction n; intros [|x xs] [|y ys]; cbn [firstn];
  rewrite ?map2_nil_l, ?map2_nil_r, ?map2_cons; cbn [firstn]; auto. now rewrite IHn. Qed.
Lemma skipn_map2 {A B C} (f : A -> B -> C) n xs ys :
  skipn n (map2 f xs ys) = map2 f (skipn n xs) (skipn n ys).
Proof. revert xs ys; induction n; intros [|x xs] [|y ys]; cbn [skipn];
  rewrite ?map2_nil_l, ?map2_nil_r, ?map2_cons; cbn [skipn]; auto. Qed.
Lemma slice_map2 {A B C} (f : A -> B -> C) xs ys a b :
  slice (map2 f xs ys) a b = map2 f (slice xs a b) (slice ys a b).
Proof. unfold slice. now rewrite skipn_map2, firstn_map2. Qed.

Lemma map2_ext_r {A B C} (f g : A -> B -> C) xs ys :
  (forall x y, In y ys -> f x y = g x y) -> map2 f xs ys = map2 g xs ys.
Proof. intros H. unfold map2. apply map_ext_in. intros [x y] Hi. cbn. apply H.
  now apply in_combine_r in Hi. Qed.

Lemma transp_length {A} w (g : list (list A)) :
  Forall (fun r => length r = w) g -> length (transp w g) = w.
Proof. induction 1 as [|r g Hr _ IH]; [apply repeat_length|].
  rewrite transp_cons, map2_length. lia. Qed.

Lemma transp_fun {R C X} (f : R -> C -> X) rs cs :
  transp (length cs) (map (fun r => map (f r) cs) rs) = map (fun c => map (fun r => f r c) rs) cs.
Proof. induction rs as [|r rs IH]; cbn [map].
  - rewrite transp_nil. now rewrite map_const.
  - rewrite transp_cons, IH. now rewrite map2_map. Qed.

Lemma transp_rows {A} w (g : list (list A)) : Forall (fun r => length r = w) g ->
  Forall (fun c => length c = length g) (transp w g).
Proof. induction 1 as [|r g Hr _ IH].
  - rewrite transp_nil. apply Forall_forall. intros x Hx. apply repeat_spec in Hx. now subst.
  - rewrite transp_cons. apply Forall_forall. intros x Hx. unfold map2 in Hx.
    apply in_map_iff in Hx as ([a c] & <- & Hi). cbn. apply in_combine_r in Hi.
    rewrite Forall_forall in IH. now rewrite IH. Qed.

Lemma transp_map2_cons {A} h (r : list A) t : length r = length t ->
  transp (S h) (map2 cons r t) = r :: transp h t.
Proof. revert r; induction t as [|c t IH]; intros [|x r] H; try discriminate; [reflexivity|].
  rewrite map2_cons, !transp_cons, IH by (cbn in H; lia). now rewrite map2_cons. Qed.

Lemma transp_involutive {A} w (g : list (list A)) : Forall (fun r => length r = w) g ->
  transp (length g) (transp w g) = g.
Proof. intros F. induction F as [|r g Hr F IH].
  - rewrite transp_nil. cbn [length]. induction w; [reflexivity|].
    cbn [repeat]. rewrite transp_cons. apply map2_nil_l.
  - rewrite transp_cons. cbn [length]. rewrite transp_map2_cons, IH; auto.
    now rewrite transp_length. Qed.

Lemma slice_repeat {A} (x : A) n a b : slice (repeat x n) a b = repeat x (Nat.min (b - a) (n - a)).
Proof. apply nth_error_ext. intros i. revert n b i. induction a as [|a IH]; intros n b i.
  - unfold slice. cbn [skipn]. rewrite !Nat.sub_0_r. revert b i.
    induction n as [|n IHn]; intros b i; cbn [repeat].
    + now rewrite firstn_nil, Nat.min_0_r.
    + destruct b; [reflexivity|]. cbn. destruct i; [reflexivity|]. apply IHn.
  - destruct n as [|n]; unfold slice in *; cbn [repeat skipn].
    + rewrite firstn_nil. now rewrite Nat.min_0_r.
    + destruct b as [|b]; [cbn [Nat.sub firstn Nat.min]; reflexivity|].
      apply (IH n b). Qed.

Lemma transp_map_slice {A} w (g : list (list A)) a b :
  transp (Nat.min (b - a) (w - a)) (map (fun r => slice r a b) g) = slice (transp w g) a b.
Proof. induction g as [|r g IH]; cbn [map].
  - rewrite !transp_nil. now rewrite slice_repeat.
  - rewrite !transp_cons, IH. now rewrite slice_map2. Qed.

Lemma transp_firstn {A} w (g : list (list A)) n : Forall (fun r => length r = w) g ->
  transp w (firstn n g) = map (firstn n) (transp w g).
Proof. intros F. revert n. induction F as [|r g Hr F IH]; intros n.
  - rewrite firstn_nil, transp_nil. clear. induction w; cbn; [reflexivity|].
    rewrite firstn_nil. now f_equal.
  - destruct n as [|n].
    + cbn [firstn]. rewrite transp_nil. rewrite map_const.
      now rewrite transp_length by (constructor; auto).
    + cbn [firstn]. rewrite !transp_cons, IH. rewrite map_map2.
      generalize (transp w g). clear. intros t. revert r.
      induction t as [|c t IH]; intros [|x r]; cbn [map]; rewrite ?map2_nil_l, ?map2_nil_r, ?map2_cons; auto.
      now rewrite IH. Qed.

Lemma transp_skipn {A} w (g : list (list A)) n : Forall (fun r => length r = w) g ->
  transp w (skipn n g) = map (skipn n) (transp w g).
Proof. intros F. revert n. induction F as [|r g Hr F IH]; intros n.
  - rewrite skipn_nil, transp_nil. clear. induction w; cbn; [reflexivity|].
    rewrite skipn_nil. now f_equal.
  - destruct n as [|n].
    + cbn [skipn]. now rewrite map_id.
    + cbn [skipn]. rewrite IH, transp_cons, map_map2. cbn [skipn].
      assert (E : length r = length (transp w g)) by now rewrite transp_length.
      revert E. generalize (transp w g). clear. intros t. revert r.
      induction t as [|c t IH]; intros [|x r] E; try discriminate; [reflexivity|].
      rewrite map2_cons. cbn [map]. rewrite <- IH; auto. Qed.

Lemma transp_slice {A} w (g : list (list A)) a b : Forall (fun r => length r = w) g ->
  transp w (slice g a b) = map (fun c => slice c a b) (transp w g).
Proof. intros F. unfold slice. rewrite transp_firstn by now apply Forall_skipn'.
  rewrite transp_skipn by assumption. now rewrite map_map. Qed.

Lemma nth_error_map2 {A B C} (f : A -> B -> C) xs ys i :
  nth_error (map2 f xs ys) i =
  match nth_error xs i, nth_error ys i with Some x, Some y => Some (f x y) | _, _ => None end.
Proof. revert ys i; induction xs as [|x xs IH]; intros [|y ys] [|i]; cbn; auto.
  - now destruct (nth_error xs i).
  - apply IH. Qed.

(** Entry (j,i) of the transpose is entry (i,j). *)
Lemma transp_nth_error {A} w (g : list (list A)) i j : Forall (fun r => length r = w) g ->
  j < w ->
  match nth_error (transp w g) j with Some c => nth_error c i | None => None end
  = match nth_error g i with Some r => nth_error r j | None => None end.
Proof. intros F Hj. revert i. induction F as [|r g Hr F IH]; intros i.
  - rewrite transp_nil. rewrite nth_error_repeat by assumption. now destruct i.
  - rewrite transp_cons, nth_error_map2.
    destruct (nth_error r j) as [x|] eqn:E.
    2:{ apply nth_error_None in E. lia. }
    assert (L : length (transp w g) = w) by now apply transp_length.
    destruct (nth_error (transp w g) j) as [c|] eqn:Ec.
    2:{ apply nth_error_None in Ec. lia. }
    destruct i as [|i]; cbn [nth_error]; [congruence|]. apply IH. Qed.

Definition grid_width {A} (g : list (list A)) : nat := match g with [] => 0 | r :: _ => length r end.

Lemma rmap_length {A B} (f : A -> res B) l ys : rmap f l = Ok ys -> length ys = length l.
Proof. revert ys; induction l as [|x xs IH]; intros ys; cbn; [now intros [= <-]|].
  destruct (f x); cbn; [|discriminate]. destruct (rmap f xs); cbn; [|discriminate].
  intros [= <-]. cbn. f_equal. now apply IH. Qed.
