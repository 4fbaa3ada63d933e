(** C75: reductions of modin.numpy arrays.

    NredSpec.v: [np_reduce agg v axis keep] is NumPy's reduction of the array [v] ([agg]: the reduction of a list); [n_sum], [n_max], ... are NumPy's
    reductions of lists of numbers with NaN.  [stands x v] (C73): the modin array [x] reads as [v], whatever its partitioning.  [got_is g r]: the scalar or
    array [g] reads as [r]. *)
From Coq Require Import Permutation QArith Qround.
From Verif Require Import Base Table ChunkModel ChunkSpec GridSpec GridModel FrameSpec GridProofs GridProofs2 GridProofs3 GridProofs4 GridProofs5
  SelSpec SelModel SelProofs SelProofs4 SelProofs5 SelProofs6 SelProofs7 InsProps ArrSpec ArrModel ArrProofs NbinSpec NbinModel NbinProofs3 NbinProps NredSpec NredModel NredProofs NredProofs2
  NredProofs3 NredProofs4.
Open Scope nat_scope.

Section C75.
  Variables min_row min_col nparts cpus : nat.
  Variable dynamic : bool.
  Hypothesis mr : 0 < min_row.
  Hypothesis mc : 0 < min_col.
  Hypothesis np : 0 < nparts.
  Variable unnamed : nat.
  Notation np_total := (np_total min_row min_col nparts cpus dynamic unnamed).
  Notation np_extreme := (np_extreme min_row min_col nparts cpus dynamic unnamed).
  Notation np_truth := (np_truth min_row min_col nparts cpus dynamic unnamed).
  Notation np_mean := (np_mean min_row min_col nparts cpus dynamic unnamed).
  Notation np_norm := (np_norm min_row min_col nparts cpus dynamic unnamed).

  (** sum and prod.  Missing (refuted): with axis=None and keepdims=True the result is cast to the dtype of the array. *)
  Theorem C75_sum_prod_partial :
    forall (A : Type) (agg : list A -> A) (init : option (A -> A)) (to_dtype : A -> A) (x : @arr A) (v : nd A) axis keep r,
      tree_law agg agg agg -> stands x v -> ~ In 0 (shape v) ->
      np_reduce (fun l => initial_cell init (agg l)) v axis keep = Some r ->
      (axis = None -> keep = true -> ndim v = 2 -> to_dtype (initial_cell init (agg (flat v))) = initial_cell init (agg (flat v))) ->
      exists g, np_total agg init to_dtype x axis keep = Ok g /\ got_is g r.
  Proof. exact (@total_ok min_row min_col nparts cpus dynamic mr mc np unnamed). Qed.

  (** A 2-D array has the axes -2, -1, 0 and 1 only; a 1-D array accepts others as well (refuted). *)
  Theorem C75_bad_axis :
    forall (A : Type) (agg : list A -> A) (init : option (A -> A)) (to_dtype : A -> A) (x : @arr A) w rows z keep,
      stands x (Mat w rows) -> np_reduce agg (Mat w rows) (Some z) keep = None ->
      np_total agg init to_dtype x (Some z) keep = Err ValueError.
  Proof. intros A agg init to_dtype x w rows z keep S E. apply (bad_axis min_row min_col nparts cpus dynamic unnamed agg init to_dtype (w:=w) (rows:=rows)); [exact S|].
    unfold np_reduce in E. cbn [ndim] in E. destruct (axis_of 2 z) as [[|k]|]; [discriminate|discriminate|reflexivity]. Qed.

  (** max and min.  Missing (refuted): [initial] with keepdims of a vector; [agg] skips NaN (see C75_reductions below). *)
  Theorem C75_max_min_partial :
    forall (A : Type) (agg : list A -> A) (over : A -> A -> A) (beats : A -> A -> bool) (initial : option A) (x : @arr A) (v : nd A) axis keep r,
      tree_law agg agg agg -> (forall l l', Permutation l l' -> agg l = agg l') ->
      stands x v -> ~ In 0 (shape v) ->
      np_reduce (fun l => over_initial over initial (agg l)) v axis keep = Some r ->
      (keep = true -> ndim v = 1 -> initial = None) ->
      (forall i l, initial = Some i -> l <> [] -> incl l (flat v) -> (if beats (agg l) i then agg l else i) = over (agg l) i) ->
      exists g, np_extreme agg over beats initial x axis keep = Ok g /\ got_is g r.
  Proof. exact (@extreme_ok min_row min_col nparts cpus dynamic mr mc np unnamed). Qed.

  (** any and all.  Missing (refuted): a 2-D array with axis=None and keepdims=True; [agg] skips NaN. *)
  Theorem C75_any_all_partial :
    forall (A : Type) (agg : list A -> A) (truth : A) (x : @arr A) (v : nd A) axis keep r,
      tree_law agg agg agg -> stands x v -> ~ In 0 (shape v) ->
      np_reduce agg v axis keep = Some r -> ~ (axis = None /\ keep = true /\ ndim v = 2) ->
      exists g, np_truth agg truth x axis keep = Ok g /\ got_is g r.
  Proof. exact (@truth_ok min_row min_col nparts cpus dynamic mr mc np unnamed). Qed.

  (** mean, NaN included.  Missing (refuted): a 2-D array with axis=None if the cast of the sum (or, with keepdims, of the mean) to the dtype of the array
      changes it, or if keepdims meets NaN. *)
  Theorem C75_mean_partial :
    forall (A : Type) (sum skip_sum : list A -> A) (div : A -> nat -> A) (isna : A -> bool) (nan : A),
      tree_law sum sum sum -> tree_law skip_sum skip_sum skip_sum ->
      (forall l, existsb isna l = false -> skip_sum l = sum l) -> (forall l n, existsb isna l = true -> div (sum l) n = nan) ->
      let mean := fun l => div (sum l) (length l) in
      forall (to_dtype : A -> A) (x : @arr A) (v : nd A) axis keep r,
      stands x v -> ~ In 0 (shape v) -> np_reduce mean v axis keep = Some r ->
      (axis = None -> ndim v = 2 -> existsb isna (flat v) = true -> keep = false) ->
      (axis = None -> ndim v = 2 -> existsb isna (flat v) = false -> to_dtype (sum (flat v)) = sum (flat v) /\ (keep = true -> to_dtype (mean (flat v)) = mean (flat v))) ->
      exists g, np_mean sum skip_sum div isna nan to_dtype x axis keep = Ok g /\ got_is g r.
  Proof. intros A sum skip_sum div isna nan H1 H2 H3 H4 mean to_dtype x v axis keep r. exact (@mean_ok min_row min_col nparts cpus dynamic mr mc np unnamed A sum skip_sum div isna nan H1 H2 H3 H4 to_dtype x v axis keep r). Qed.

  (** The norm of the whole array.  Missing (refuted): norms along an axis; [sum] skips NaN. *)
  Theorem C75_norm_partial :
    forall (A : Type) (sq : A -> A) (sum : list A -> A) (root : A -> A) (x : @arr A) (v : nd A),
      tree_law sum sum sum -> (forall l l', Permutation l l' -> sum l = sum l') -> stands x v -> ~ In 0 (shape v) ->
      np_norm sq sum root x None = Ok (GScalar (root (sum (map sq (flat v))))).
  Proof. exact (@norm_ok min_row min_col nparts cpus dynamic mr mc np unnamed). Qed.

  Variables known_l known_w : nat -> nat -> bool.
  Variable argsort : list Z -> list nat.
  Hypothesis argsort_ok : forall l, sorts l (argsort l).
  Variable big : bool.

  (** argmax and argmin of arrays without NaN ([better]: > or < on them): the first position of an extreme element.  Missing (refuted): a 2-D array with
      axis=None and keepdims=True when the position is not 0 or 1. *)
  Theorem C75_argmax_partial :
    forall (A : Type) (better : A -> A -> bool),
      (forall a, better a a = false) -> (forall a b c, better a b = true -> better b c = true -> better a c = true) ->
      (forall a b, better a b = false -> better b a = false -> a = b) ->
      forall best : list A -> A, tree_law best best best -> (forall l, l <> [] -> In (best l) l) -> (forall l b, In b l -> better b (best l) = false) ->
      forall (x : @arr A) (v : nd A) axis keep r,
        stands x v -> ~ In 0 (shape v) -> np_reduce (arg_best better) v axis keep = Some r ->
        (axis = None -> ndim v = 2 -> keep = true -> arg_best better (flat v) < 2) ->
        exists g, np_arg min_row min_col nparts cpus dynamic unnamed known_l known_w argsort big better best x axis keep = Ok g /\ got_is g r.
  Proof. intros A better I T O best L B1 B2. exact (@arg_ok min_row min_col nparts cpus dynamic mr mc np unnamed known_l known_w argsort argsort_ok big A better I T O best L B1 B2). Qed.
End C75.

(** [arg_best] is the first position of an element no element beats, and everything before it is worse. *)
Theorem C75_arg_best :
  forall (A : Type) (better : A -> A -> bool),
    (forall a, better a a = false) -> (forall a b c, better a b = true -> better b c = true -> better a c = true) ->
    (forall a b, better a b = false -> better b a = false -> a = b) ->
    forall l, l <> [] -> exists a, nth_error l (arg_best better l) = Some a /\ (forall b, In b l -> better b a = false)
      /\ forall j b, j < arg_best better l -> nth_error l j = Some b -> better a b = true.
Proof. exact @arg_best_ok. Qed.

Print Assumptions C75_sum_prod_partial.
Print Assumptions C75_bad_axis.
Print Assumptions C75_max_min_partial.
Print Assumptions C75_any_all_partial.
Print Assumptions C75_mean_partial.
Print Assumptions C75_norm_partial.
Print Assumptions C75_argmax_partial.
Print Assumptions C75_arg_best.

(** ** The reductions of numbers meet the hypotheses *)
Definition nred_isna {T} (o : option T) : bool := match o with None => true | Some _ => false end.
Definition nred_vals {T} (l : list (option T)) : list T := concat (map (fun o => match o with Some x => [x] | None => [] end) l).
Definition nred_fold {T} (op : T -> T -> T) (e : T) (l : list (option T)) : option T := if existsb nred_isna l then None else Some (fold_right op e (nred_vals l)).
Lemma nred_fold_law {T} (op : T -> T -> T) e : (forall a b c, op a (op b c) = op (op a b) c) -> (forall a, op e a = a) -> (forall a, op a e = a) ->
  tree_law (nred_fold op e) (nred_fold op e) (nred_fold op e).
Proof.
  intros As Il Ir p _. induction p as [|l p IH]; [reflexivity|]. cbn [map concat].
  assert (Ap : forall a b, nred_fold op e (a ++ b) = match nred_fold op e a, nred_fold op e b with Some x, Some y => Some (op x y) | _, _ => None end).
  { clear - As Il. intros a b. unfold nred_fold. rewrite existsb_app. unfold nred_vals. rewrite map_app, concat_app. destruct (existsb nred_isna a); [reflexivity|]. cbn [orb].
    destruct (existsb nred_isna b); [reflexivity|]. f_equal. generalize (concat (map (fun o : option T => match o with Some x => [x] | None => [] end) a)) as u. induction u as [|c u IHu]; cbn; [now rewrite Il|]. rewrite IHu. apply As. }
  rewrite Ap, <- IH. set (q := map (nred_fold op e) p). change (nred_fold op e l :: q) with ([nred_fold op e l] ++ q). rewrite Ap.
  destruct (nred_fold op e l) as [x|]; [|reflexivity]. unfold nred_fold at 1. cbn. now rewrite Ir. Qed.

(** What the code calls, against NumPy's reductions: sum and prod let NaN through, as NumPy does; max, min, any and all skip NaN, so they agree with NumPy
    on arrays without NaN. *)
Theorem C75_reductions :
  tree_law n_sum n_sum n_sum /\ tree_law n_prod n_prod n_prod
  /\ tree_law p_max p_max p_max /\ tree_law p_min p_min p_min /\ tree_law p_any p_any p_any /\ tree_law p_all p_all p_all
  /\ (forall l l', Permutation l l' -> p_max l = p_max l') /\ (forall l l', Permutation l l' -> p_min l = p_min l')
  /\ (forall l, ~ In None l -> p_max l = n_max l /\ p_min l = n_min l /\ p_any l = n_any l /\ p_all l = n_all l).
Proof.
  split. { apply (nred_fold_law Z.add 0%Z); intros; lia. } split. { apply (nred_fold_law Z.mul 1%Z); intros; nia. }
  split; [exact p_max_law|]. split; [exact p_min_law|]. split; [exact p_any_law|]. split; [exact p_all_law|].
  assert (Ev : forall l l', Permutation l l' -> Permutation (values l) (values l')).
  { intros l l' P. unfold values. induction P as [|a l l' P IH|a b l|l l' l'' P1 IH1 P2 IH2]; cbn; auto.
    - apply Permutation_app_head, IH.
    - rewrite !app_assoc. apply Permutation_app_tail, Permutation_app_comm.
    - eapply Permutation_trans; eauto. }
  assert (Ef : forall f : Z -> Z -> Z, (forall a b, f a b = f b a) -> (forall a b c, f a (f b c) = f (f a b) c) ->
     forall l l', Permutation l l' -> match l with [] => @None Z | x :: xs => Some (fold_right f x xs) end = match l' with [] => None | x :: xs => Some (fold_right f x xs) end).
  { intros f C As. assert (Sh : forall xs x y, fold_right f x (y :: xs) = fold_right f y (x :: xs)).
    { cbn. induction xs as [|z xs IH]; intros x y; cbn; [apply C|]. rewrite !As, (C y z), (C x z), <- !As. f_equal. apply IH. }
    assert (Fp : forall l l' e, Permutation l l' -> fold_right f e l = fold_right f e l').
    { intros l l' e P. induction P; cbn; [reflexivity|congruence| |congruence]. rewrite !As. f_equal. apply C. }
    intros l l' P. induction P as [|a l l' P IH|a b l|l l' l'' P1 IH1 P2 IH2]; [reflexivity|f_equal; auto|f_equal; apply Sh|congruence]. }
  split. { intros l l' P. apply (Ef Z.max Z.max_comm Z.max_assoc), Ev, P. } split. { intros l l' P. apply (Ef Z.min Z.min_comm Z.min_assoc), Ev, P. }
  intros l N. assert (E : existsb (fun o : option Z => match o with None => true | Some _ => false end) l = false).
  { destruct (existsb _ l) eqn:E; [|reflexivity]. apply existsb_exists in E. destruct E as ([z|] & I & E); [discriminate|]. easy. }
  unfold n_max, n_min, nan_or, n_any, n_all. rewrite E. split; [reflexivity|]. split; [reflexivity|]. unfold p_any, p_all. clear E.
  split; f_equal; (match goal with |- (if ?a then _ else _) = (if ?b then _ else _) => assert (E : a = b); [|now rewrite E] end); unfold values;
    (induction l as [|[z|] l IH]; [reflexivity| |exfalso; apply N; now left]); cbn; rewrite IH; auto; intros I; apply N; now right. Qed.
Print Assumptions C75_reductions.

(** Greater-than on integers is a [better], with [best] the maximum. *)
Definition nred_gt (a b : Z) : bool := (b <? a)%Z.
Definition nred_best (l : list Z) : Z := match l with [] => 0%Z | x :: xs => fold_right Z.max x xs end.
Theorem C75_argmax_instance :
  (forall a, nred_gt a a = false) /\ (forall a b c, nred_gt a b = true -> nred_gt b c = true -> nred_gt a c = true)
  /\ (forall a b, nred_gt a b = false -> nred_gt b a = false -> a = b)
  /\ (forall l, l <> [] -> In (nred_best l) l) /\ (forall l b, In b l -> nred_gt b (nred_best l) = false).
Proof.
  unfold nred_gt. split; [intros; apply Z.ltb_irrefl|]. split; [intros a b c H1 H2; apply Z.ltb_lt in H1, H2; apply Z.ltb_lt; lia|].
  split; [intros a b H1 H2; apply Z.ltb_ge in H1, H2; lia|].
  assert (G : forall xs x, In (fold_right Z.max x xs) (x :: xs) /\ forall b, In b (x :: xs) -> (b <= fold_right Z.max x xs)%Z).
  { induction xs as [|y xs IH]; intros x; [cbn; split; [now left|]; intros b [-> |[]]; lia|]. destruct (IH x) as (I & M). cbn [fold_right]. split.
    - destruct (Z.max_spec y (fold_right Z.max x xs)) as [(_ & ->)|(_ & ->)]; [|right; now left]. destruct I as [I|I]; [left; exact I|right; right; exact I].
    - intros b [-> |[-> |J]]; [specialize (M b (or_introl eq_refl)); lia|lia|specialize (M b (or_intror J)); lia]. }
  split.
  - intros [|x xs] N; [easy|]. apply G.
  - intros [|x xs] b I; [easy|]. apply Z.ltb_ge. now apply G. Qed.
Print Assumptions C75_argmax_instance.

(** ** Concrete arrays: a 2-D array in 2x2 blocks, a vector in two, two rows (columns) to a block, "__reduced__" is 99 *)
Definition nred_of (v : nd (option Z)) rl cl : @arr (option Z) := tarr (nbin_of v rl cl false).
Definition nred_read {A} (r : res (@got A)) : res (value A) := do g <- r; match g with GScalar a => Ok (Scalar a) | GArr x => do v <- to_numpy x; Ok (Array v) end.
Definition nred_add (i : Z) (o : option Z) : option Z := match o with Some z => Some (z + i)%Z | None => None end.
Definition nred_sum to_dtype (x : @arr (option Z)) axis keep := nred_read (np_total 2 2 4 4 false 99 n_sum None to_dtype x axis keep).
Definition nred_over (a b : option Z) : option Z := match a, b with Some x, Some y => Some (Z.max x y) | _, _ => a end.
Definition nred_beats (a b : option Z) : bool := match a, b with Some x, Some y => (y <? x)%Z | _, _ => false end.
Definition nred_max initial (x : @arr (option Z)) axis keep := nred_read (np_extreme 2 2 4 4 false 99 p_max nred_over nred_beats initial x axis keep).
Definition nred_any (x : @arr (option Z)) axis keep := nred_read (np_truth 2 2 4 4 false 99 p_any (Some 1%Z) x axis keep).
Definition nred_bool (o : option Z) : option Z := match o with Some z => Some (if (z =? 0)%Z then 0 else 1)%Z | None => Some 1%Z end.

Example C75_sum_axis0 : nred_sum (fun a => a) (nred_of nbin_m [2;2] [2;1]) (Some 0%Z) false = Ok (Array (Vec (map Some [22;26;30]%Z)))
  /\ np_reduce n_sum nbin_m (Some 0%Z) false = Some (Array (Vec (map Some [22;26;30]%Z))).
Proof. split; vm_compute; reflexivity. Qed.
Example C75_sum_axis1 : nred_sum (fun a => a) (nred_of nbin_m [2;2] [2;1]) (Some (-1)%Z) true = Ok (Array (Mat 1 (map (map Some) [[6];[15];[24];[33]]%Z)))
  /\ np_reduce n_sum nbin_m (Some (-1)%Z) true = Some (Array (Mat 1 (map (map Some) [[6];[15];[24];[33]]%Z))).
Proof. split; vm_compute; reflexivity. Qed.
Example C75_sum_all : nred_sum (fun a => a) (nred_of nbin_m [2;2] [2;1]) None true = Ok (Array (Mat 1 [[Some 78%Z]])).
Proof. vm_compute. reflexivity. Qed.
Example C75_max_initial : nred_max (Some (Some 8%Z)) (nred_of nbin_m [2;2] [2;1]) (Some 1%Z) false = Ok (Array (Vec (map Some [8;8;9;12]%Z))).
Proof. vm_compute. reflexivity. Qed.
Example C75_hyps : stands (nred_of nbin_m [2;2] [2;1]) nbin_m /\ ~ In 0 (shape nbin_m) /\ nred_any (nred_of nbin_m [2;2] [2;1]) (Some 0%Z) false = Ok (Array (Vec [Some 1; Some 1; Some 1]%Z)).
Proof. split; [nbin_ok|]. split; [cbn; intuition discriminate|vm_compute; reflexivity]. Qed.

(** ** Where modin departs from NumPy *)

(** [np.max] of a vector with NaN: NumPy answers NaN, modin the largest number. *)
Theorem C75_max_nan_refuted : let v := Vec [Some 1; None; Some 3]%Z in stands (nred_of v [2;1] [1]) v
  /\ np_reduce n_max v None false = Some (Scalar None) /\ nred_max None (nred_of v [2;1] [1]) None false = Ok (Scalar (Some 3%Z)).
Proof. split; [nbin_ok|]. split; vm_compute; reflexivity. Qed.

(** [np.max(v, initial=1, keepdims=True)] is [[1]] whatever the vector. *)
Theorem C75_initial_keepdims_refuted : let v := Vec [Some 5; Some 7]%Z in stands (nred_of v [2] [1]) v
  /\ np_reduce (fun l => nred_over (n_max l) (Some 1%Z)) v None true = Some (Array (Vec [Some 7%Z]))
  /\ nred_max (Some (Some 1%Z)) (nred_of v [2] [1]) None true = Ok (Array (Vec [Some 1%Z])).
Proof. split; [nbin_ok|]. split; vm_compute; reflexivity. Qed.

(** [np.any(a, keepdims=True)] of zeros is [[True]]. *)
Theorem C75_any_keepdims_refuted : let v := Mat 2 [[Some 0; Some 0]; [Some 0; Some 0]]%Z in stands (nred_of v [1;1] [1;1]) v
  /\ np_reduce n_any v None true = Some (Array (Mat 1 [[Some 0%Z]]))
  /\ nred_any (nred_of v [1;1] [1;1]) None true = Ok (Array (Mat 1 [[Some 1%Z]])) /\ nred_any (nred_of v [1;1] [1;1]) None false = Ok (Scalar (Some 0%Z)).
Proof. split; [nbin_ok|]. split; [|split]; vm_compute; reflexivity. Qed.

(** [np.any([nan])] is true in NumPy. *)
Theorem C75_any_nan_refuted : let v := Vec [None; Some 0%Z] in stands (nred_of v [1;1] [1]) v
  /\ np_reduce n_any v None false = Some (Scalar (Some 1%Z)) /\ nred_any (nred_of v [1;1] [1]) None false = Ok (Scalar (Some 0%Z)).
Proof. split; [nbin_ok|]. split; vm_compute; reflexivity. Qed.

(** [np.sum(a, keepdims=True)] of truth values counts them in NumPy; modin casts the count back to a truth value. *)
Theorem C75_sum_keepdims_refuted : let v := Mat 2 [[Some 1; Some 1]; [Some 1; Some 0]]%Z in stands (nred_of v [1;1] [2]) v
  /\ np_reduce n_sum v None true = Some (Array (Mat 1 [[Some 3%Z]])) /\ nd_map nred_bool v = v
  /\ nred_sum nred_bool (nred_of v [1;1] [2]) None true = Ok (Array (Mat 1 [[Some 1%Z]])) /\ nred_sum nred_bool (nred_of v [1;1] [2]) None false = Ok (Scalar (Some 3%Z)).
Proof. split; [nbin_ok|]. repeat split; vm_compute; reflexivity. Qed.

(** [np.sum(v, axis=2)] of a vector: AxisError in NumPy, the sum in modin. *)
Theorem C75_axis_refuted : stands (nred_of nbin_v [2;1] [1]) nbin_v /\ np_reduce n_sum nbin_v (Some 2%Z) false = None
  /\ nred_sum (fun a => a) (nred_of nbin_v [2;1] [1]) (Some 2%Z) false = Ok (Scalar (Some 60%Z)).
Proof. split; [nbin_ok|]. split; vm_compute; reflexivity. Qed.

(** Norms along an axis: one norm per column in NumPy, an array of shape (1,) in modin; NaN is skipped. *)
Definition nred_sq (o : option Z) : option Z := match o with Some z => Some (z * z)%Z | None => None end.
Definition nred_root (o : option Z) : option Z := match o with Some z => Some (Z.sqrt z) | None => None end.
Definition nred_norm (l : list (option Z)) : option Z := nred_root (n_sum (map nred_sq l)).
Theorem C75_norm_axis_refuted : let v := Mat 2 [[Some 3; Some 0]; [Some 4; Some 2]]%Z in let x := nred_of v [1;1] [2] in stands x v
  /\ np_reduce nred_norm v (Some 0%Z) false = Some (Array (Vec [Some 5; Some 2]%Z)) /\ shape (Vec [Some 5; Some 2]%Z) = [2]
  /\ exists y, np_norm 2 2 4 4 false 99 nred_sq p_sum nred_root x (Some 0%Z) = Ok (GArr y) /\ get_shape y = Ok [1].
Proof. split; [nbin_ok|]. split; [vm_compute; reflexivity|]. split; [reflexivity|]. eexists. split; [vm_compute; reflexivity|]. vm_compute. reflexivity. Qed.
Theorem C75_norm_nan_refuted : let v := Vec [Some 3%Z; None] in stands (nred_of v [1;1] [1]) v
  /\ np_reduce nred_norm v None false = Some (Scalar None) /\ np_norm 2 2 4 4 false 99 nred_sq p_sum nred_root (nred_of v [1;1] [1]) None = Ok (GScalar (Some 3%Z)).
Proof. split; [nbin_ok|]. split; vm_compute; reflexivity. Qed.

(** [np.argmax(a, keepdims=True)] passes through a truth value: position 5 becomes 1. *)
Definition nred_mat (v : nd Z) rl cl : @arr Z := mka (mkpf (cut_table rl cl (table_of v)) (Some (dindex (table_of v))) (Some (dcols (table_of v))) None None) (ndim v).
Definition nred_argmax (x : @arr Z) axis keep := nred_read (np_arg 2 2 4 4 false 99 (fun _ _ => true) (fun _ _ => true) zargsort false nred_gt nred_best x axis keep).
Definition nred_a : nd Z := Mat 3 [[1;2;3];[4;5;6]]%Z.
Lemma nred_a_stands : stands (nred_mat nred_a [1;1] [2;1]) nred_a.
Proof. split; [reflexivity|]. exists [1;1], [2;1]. split; [|split; [discriminate|split; [discriminate|split; reflexivity]]]. apply holds_intro; cbn; auto. split; [reflexivity|repeat constructor]. Qed.
Theorem C75_argmax_keepdims_refuted : stands (nred_mat nred_a [1;1] [2;1]) nred_a
  /\ np_reduce (arg_best nred_gt) nred_a None true = Some (Array (Mat 1 [[5]])) /\ nred_argmax (nred_mat nred_a [1;1] [2;1]) None true = Ok (Array (Mat 1 [[1]]))
  /\ nred_argmax (nred_mat nred_a [1;1] [2;1]) None false = Ok (Scalar 5) /\ nred_argmax (nred_mat nred_a [1;1] [2;1]) (Some 1%Z) false = Ok (Array (Vec [2;2])).
Proof. split; [exact nred_a_stands|]. repeat split; vm_compute; reflexivity. Qed.

(** Means of fractions. *)
Definition nred_q (v : nd (option Q)) rl cl : @arr (option Q) := mka (mkpf (cut_table rl cl (table_of v)) (Some (dindex (table_of v))) (Some (dcols (table_of v))) None None) (ndim v).
Lemma nred_q_stands v rl cl : wf (table_of v) -> rl <> [] -> cl <> [] -> list_sum rl = nrows (table_of v) -> list_sum cl = ncols (table_of v) -> stands (nred_q v rl cl) v.
Proof. intros W N1 N2 S1 S2. split; [reflexivity|]. exists rl, cl. unfold shows. split; [apply holds_intro; cbn; auto|auto]. Qed.
Ltac nred_ok := apply nred_q_stands; [split; [reflexivity|repeat constructor]|discriminate|discriminate|reflexivity|reflexivity].
Definition nred_qsum := nred_fold Qplus 0%Q.
Definition nred_qskip (l : list (option Q)) : option Q := Some (fold_right Qplus 0%Q (nred_vals l)).
Definition nred_div (a : option Q) (n : nat) : option Q := match a with Some q => Some (q / inject_Z (Z.of_nat n))%Q | None => None end.
Definition nred_floor (a : option Q) : option Q := match a with Some q => Some (inject_Z (Qfloor q)) | None => None end.
Definition nred_qbool (a : option Q) : option Q := match a with Some q => Some (if Qeq_bool q 0 then 0 else 1)%Q | None => Some 1%Q end.
Definition nred_mean to_dtype (x : @arr (option Q)) axis keep := nred_read (np_mean 2 2 4 4 false 99 nred_qsum nred_qskip nred_div nred_isna None to_dtype x axis keep).
Definition nred_np_mean (l : list (option Q)) : option Q := nred_div (nred_qsum l) (length l).

(** The sums of fractions meet the hypotheses of C75_mean_partial. *)
Theorem C75_mean_instance : tree_law nred_qsum nred_qsum nred_qsum /\ tree_law nred_qskip nred_qskip nred_qskip
  /\ (forall l, existsb nred_isna l = false -> nred_qskip l = nred_qsum l) /\ (forall l n, existsb nred_isna l = true -> nred_div (nred_qsum l) n = None).
Proof.
  assert (As : forall a b c, (a + (b + c) = a + b + c)%Q).
  { intros [a a'] [b b'] [c c']. unfold Qplus. cbn [Qnum Qden]. f_equal; [rewrite !Pos2Z.inj_mul; ring|apply Pos.mul_assoc]. }
  assert (Il : forall a, (0 + a = a)%Q) by (intros [a a']; unfold Qplus; cbn; f_equal; now rewrite Z.mul_1_r).
  assert (Ir : forall a, (a + 0 = a)%Q) by (intros [a a']; unfold Qplus; cbn [Qnum Qden]; f_equal; [ring|apply Pos.mul_1_r]).
  split; [now apply nred_fold_law|]. split.
  { intros p _. unfold nred_qskip. f_equal. induction p as [|l p IH]; [reflexivity|]. cbn [map concat]. unfold nred_vals in *. rewrite map_app, concat_app. cbn [map concat app fold_right].
    rewrite IH. generalize (concat (map (fun o : option Q => match o with Some x => [x] | None => [] end) l)) as u. induction u as [|a u IHu]; cbn; [apply Il|]. now rewrite <- IHu. }
  split; [intros l E; unfold nred_qsum, nred_fold, nred_qskip; now rewrite E|]. intros l n E. unfold nred_qsum, nred_fold. now rewrite E. Qed.
Example C75_mean_run : let v := Mat 2 [[Some 1; Some 2]; [Some 4; None]]%Q in stands (nred_q v [1;1] [1;1]) v
  /\ nred_mean (fun a => a) (nred_q v [1;1] [1;1]) (Some 1%Z) false = Ok (Array (Vec [Some (3 # 2); None])).
Proof. split; [nred_ok|vm_compute; reflexivity]. Qed.

(** [np.mean(a, keepdims=True)] of integers is cast back to an integer: 1 instead of 3/2. *)
Theorem C75_mean_keepdims_refuted : let v := Mat 2 [[Some 1; Some 2]]%Q in stands (nred_q v [1] [2]) v /\ nd_map nred_floor v = v
  /\ np_reduce nred_np_mean v None true = Some (Array (Mat 1 [[Some (3 # 2)]])) /\ nred_mean nred_floor (nred_q v [1] [2]) None true = Ok (Array (Mat 1 [[Some 1%Q]])).
Proof. split; [nred_ok|]. repeat split; vm_compute; reflexivity. Qed.

(** [np.mean(a)] of truth values: 3/4 in NumPy, 1/4 in modin, which casts their sum to a truth value. *)
Theorem C75_mean_bool_refuted : let v := Mat 2 [[Some 1; Some 1]; [Some 1; Some 0]]%Q in stands (nred_q v [2] [2]) v /\ nd_map nred_qbool v = v
  /\ np_reduce nred_np_mean v None false = Some (Scalar (Some (3 # 4))) /\ nred_mean nred_qbool (nred_q v [2] [2]) None false = Ok (Scalar (Some (1 # 4))).
Proof. split; [nred_ok|]. repeat split; vm_compute; reflexivity. Qed.

(** [np.mean(a, keepdims=True)] with NaN in [a]: an array of shape (1, 1) in NumPy, a scalar in modin. *)
Theorem C75_mean_nan_keepdims_refuted : let v := Mat 2 [[Some 1; None]]%Q in stands (nred_q v [1] [2]) v
  /\ np_reduce nred_np_mean v None true = Some (Array (Mat 1 [[None]])) /\ nred_mean (fun a => a) (nred_q v [1] [2]) None true = Ok (Scalar None).
Proof. split; [nred_ok|]. split; vm_compute; reflexivity. Qed.

Print Assumptions C75_max_nan_refuted.
Print Assumptions C75_initial_keepdims_refuted.
Print Assumptions C75_any_keepdims_refuted.
Print Assumptions C75_any_nan_refuted.
Print Assumptions C75_sum_keepdims_refuted.
Print Assumptions C75_axis_refuted.
Print Assumptions C75_norm_axis_refuted.
Print Assumptions C75_norm_nan_refuted.
Print Assumptions C75_argmax_keepdims_refuted.
Print Assumptions C75_mean_instance.
Print Assumptions C75_mean_keepdims_refuted.
Print Assumptions C75_mean_bool_refuted.
Print Assumptions C75_mean_nan_keepdims_refuted.
