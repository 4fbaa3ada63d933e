(** C40: groupby on categorical keys with observed=False. *)
From Verif Require Import Base CatSpec CatModel CatProofs CatProofs2.

Section Props.
  Context {K V R A : Type}.
  Variable kdec : forall a b : K, {a = b} + {a <> b}.
  Variable lead : K -> V.
  Variable vle : V -> V -> bool.
  Variable key : R -> option K.
  Variable agg : list R -> list A.
  Variable nan : A.
  Variable difference : list K -> list K.
  Variable complete : list K.
  Variable ncols : nat.
  Notation groupby s := (groupby kdec lead vle key agg nan difference complete s ncols).
  Notation groupby_all := (groupby_all kdec key agg complete).

  Hypothesis diff_perm : forall l, Permutation (difference l) l.
  Hypothesis nodup : NoDup complete.

  (** Every possible key is in the result exactly once, sorted or not, however the keys are spread over partitions
      and whichever are missing where; the rows of keys that occur are right. *)
  Theorem C40_each_key_once sort code n parts :
    (forall r k, In r (concat parts) -> key r = Some k -> In k complete) ->
    (forall k, In k complete -> code k < n) ->
    Permutation (map fst (concat (groupby sort code n parts))) complete
    /\ forall k v, In (k, v) (concat (groupby sort code n parts)) -> group kdec key k (concat parts) <> [] ->
         v = agg (group kdec key k (concat parts)).
  Proof. intros KN CL.
    assert (KN' : forall k, In k (keys key (concat parts)) -> In k complete).
    { intros k I. apply keys_in in I as [r [Ir E]]; auto. eauto. }
    pose proof (each_once kdec lead vle key agg nan difference ncols code parts diff_perm nodup KN' CL sort) as P. split.
    - apply (Permutation_map fst) in P. rewrite map_map in P. cbn [row fst] in P. now rewrite map_id in P.
    - intros k v I N. apply (Permutation_in _ P) in I. apply in_map_iff in I as [k' [E _]]. injection E as -> <-.
      destruct (is_in kdec k (keys key (concat parts))) eqn:O; [reflexivity|]. destruct N.
      apply (group_nil kdec key), (is_in_false kdec). assumption. Qed.

  (** All columns have the same aggregate of no rows (as with one aggregation like "sum" or "min"). *)
  Definition uniform : Prop := exists a, agg [] = repeat a ncols.
  Lemma uniform_fill : uniform -> agg [] = repeat (fill_value agg nan) ncols.
  Proof. intros [a E]. rewrite E. unfold fill_value. rewrite E. now destruct ncols. Qed.
  Lemma rows_all parts : uniform -> map (row kdec key agg nan ncols parts) complete = groupby_all (concat parts).
  Proof. intros U. unfold CatSpec.groupby_all. apply map_ext. intros k. unfold row.
    destruct (is_in kdec k (keys key (concat parts))) eqn:O; [reflexivity|]. f_equal. rewrite <- uniform_fill by assumption. f_equal.
    symmetry. apply (group_nil kdec key), (is_in_false kdec). assumption. Qed.

  (** Then the result, sorted or not, has exactly pandas' rows. *)
  Theorem C40_same_rows_partial sort code n parts :
    uniform ->
    (forall r k, In r (concat parts) -> key r = Some k -> In k complete) ->
    (forall k, In k complete -> code k < n) ->
    Permutation (concat (groupby sort code n parts)) (groupby_all (concat parts)).
  Proof. intros U KN CL. rewrite <- rows_all by assumption. apply each_once; auto.
    intros k I. apply keys_in in I as [r [Ir E]]; auto. eauto. Qed.

  (** With sort=True they are in pandas' order too, when the possible keys are in the order of the values of the first
      key, and the rows are spread by the first key alone. *)
  Theorem C40_in_place_partial pivots parts :
    (forall a b c, vle a b = true -> vle b c = true -> vle a c = true) ->
    (forall a b, vle a b = true \/ vle b a = true) ->
    uniform ->
    (forall r k, In r (concat parts) -> key r = Some k -> In k complete) ->
    StronglySorted (fun a b => vle (lead a) (lead b) = true) complete ->
    concat (groupby true (fun k => searchsorted_right vle pivots (lead k)) (S (length pivots)) parts)
    = groupby_all (concat parts).
  Proof. intros VT VO U KN SO. rewrite <- rows_all by assumption.
    assert (KN' : forall k, In k (keys key (concat parts)) -> In k complete).
    { intros k I. apply keys_in in I as [r [Ir E]]; auto. eauto. }
    apply in_order; auto.
    - intros k _. eapply code_le; eassumption.
    - now apply home_mono. Qed.
End Props.

(** One categorical key: its categories are in the order of their values. *)
Theorem C40_one_key_partial {K R A} (kdec : forall a b : K, {a = b} + {a <> b}) (vle : K -> K -> bool) (key : R -> option K)
    (agg : list R -> list A) (nan : A) (difference : list K -> list K) (categories : list K) (ncols : nat) pivots parts :
  (forall a b c, vle a b = true -> vle b c = true -> vle a c = true) ->
  (forall a b, vle a b = true \/ vle b a = true) ->
  (forall l, Permutation (difference l) l) ->
  NoDup categories -> StronglySorted (fun a b => vle a b = true) categories ->
  uniform agg ncols ->
  (forall r k, In r (concat parts) -> key r = Some k -> In k categories) ->
  concat (groupby kdec (fun k => k) vle key agg nan difference categories true ncols
            (fun k => searchsorted_right vle pivots k) (S (length pivots)) parts)
  = groupby_all kdec key agg categories (concat parts).
Proof. intros. now apply C40_in_place_partial with (lead := fun k => k). Qed.

Print Assumptions C40_each_key_once.
Print Assumptions C40_same_rows_partial.
Print Assumptions C40_in_place_partial.
Print Assumptions C40_one_key_partial.

(** * Examples: a row is (key, number); the aggregates are the number of rows and the sum. *)
Definition ex_agg (rs : list (option nat * nat)) : list (option nat) := [Some (length rs); Some (list_sum (map snd rs))].
Definition ex_parts : list (list (option nat * nat)) :=
  [[(Some 5, 1); (Some 1, 2); (None, 9)]; [(Some 7, 3); (Some 1, 4); (Some 5, 5)]].
Notation ex_run cats pivots parts agg :=
  (groupby Nat.eq_dec (fun k => k) Nat.leb fst agg None (fun l => l) cats true 2 (searchsorted_right Nat.leb pivots) (S (length pivots)) parts).
(** Categories 0..8; the pivots 2, 3, 6 leave the second partition empty; 0, 2, 3, 4, 6 and 8 are missing. *)
Example ex_in_place :
  concat (ex_run (seq 0 9) [2; 3; 6] ex_parts ex_agg)
  = map (fun k => (k, match k with 1 => [Some 2; Some 6] | 5 => [Some 2; Some 6] | 7 => [Some 1; Some 3] | _ => [Some 0; Some 0] end)) (seq 0 9)
  /\ map (map fst) (ex_run (seq 0 9) [2; 3; 6] ex_parts ex_agg) = [[0; 1]; []; [2; 3; 4; 5]; [6; 7; 8]].
Proof. split; reflexivity. Qed.
Example ex_hypotheses : StronglySorted (fun a b => (a <=? b) = true) (seq 0 9) /\ uniform ex_agg 2.
Proof. split; [|now exists (Some 0)]. repeat constructor. Qed.

(** * Where the claim fails *)
(** Categories in another order than their values (3 before 1 before 2): the partitions are in the order of the
    values, so the result is not in category order. *)
Theorem C40_category_order_refuted :
  ~ (forall (categories : list nat) pivots (parts : list (list (option nat * nat))), NoDup categories ->
     (forall r k, In r (concat parts) -> fst r = Some k -> In k categories) ->
     concat (ex_run categories pivots parts ex_agg) = groupby_all Nat.eq_dec fst ex_agg categories (concat parts)).
Proof. intros X. specialize (X [3; 1; 2] [2] [[(Some 3, 1); (Some 1, 2)]]).
  assert (N : NoDup [3; 1; 2]) by (repeat constructor; cbn; intuition discriminate). specialize (X N). vm_compute in X.
  assert (Y : forall r k, (Some 3, 1) = r \/ (Some 1, 2) = r \/ False -> (let (x, _) := r in x) = Some k -> 3 = k \/ 1 = k \/ 2 = k \/ False).
  { intros r k [<-|[<-|[]]] [= <-]; auto. }
  specialize (X Y). discriminate. Qed.

(** Two keys, and the rows are spread by the second key as well (utils.py:167-191 makes pivots for more columns when
    the first has few values): all missing keys with the same first key go to the first partition that has it
    (utils.py:947-949), before keys of the next partition that are smaller. *)
Definition pdec (a b : nat * nat) : {a = b} + {a <> b}.
Proof. decide equality; apply Nat.eq_dec. Defined.
Theorem C40_second_key_refuted :
  ~ (forall (complete : list (nat * nat)) (code : nat * nat -> nat) n (parts : list (list (option (nat * nat) * nat))),
     NoDup complete -> StronglySorted (fun a b => fst a < fst b \/ fst a = fst b /\ snd a <= snd b) complete ->
     (forall r k, In r (concat parts) -> fst r = Some k -> In k complete) ->
     (forall k, In k complete -> code k < n) ->
     StronglySorted (fun a b => code a <= code b) complete ->
     concat (groupby pdec fst Nat.leb fst (fun rs => [Some (length rs)]) None (fun l => l) complete true 1 code n parts)
     = groupby_all pdec fst (fun rs => [Some (length rs)]) complete (concat parts)).
Proof. intros X.
  specialize (X [(0, 1); (0, 2); (0, 3)] (fun k => if snd k <? 2 then 0 else 1) 2 [[(Some (0, 1), 5); (Some (0, 2), 6)]]).
  assert (N : NoDup [(0, 1); (0, 2); (0, 3)]) by (repeat constructor; cbn; intuition discriminate). specialize (X N).
  assert (Y : StronglySorted (fun a b => fst a < fst b \/ fst a = fst b /\ snd a <= snd b) [(0, 1); (0, 2); (0, 3)]).
  { repeat constructor; right; cbn; lia. }
  specialize (X Y). clear N Y.
  assert (Y : forall r k, In r (concat [[(Some (0, 1), 5); (Some (0, 2), 6)]]) -> fst r = Some k -> In k [(0, 1); (0, 2); (0, 3)]).
  { intros r k [<-|[<-|[]]] [= <-]; cbn; auto. }
  specialize (X Y). clear Y.
  assert (Y : forall k : nat * nat, In k [(0, 1); (0, 2); (0, 3)] -> (if snd k <? 2 then 0 else 1) < 2) by (intros k _; destruct (snd k <? 2); lia).
  specialize (X Y). clear Y.
  assert (Y : StronglySorted (fun a b : nat * nat => (if snd a <? 2 then 0 else 1) <= (if snd b <? 2 then 0 else 1)) [(0, 1); (0, 2); (0, 3)]).
  { repeat constructor; cbn; lia. }
  specialize (X Y). vm_compute in X. discriminate. Qed.

(** Columns with different aggregates of no rows (agg({"a": "sum", "b": "mean"}): 0 and NaN): the first column's value
    fills all of them (utils.py:907-910). *)
Definition sum_mean (rs : list (option nat * nat)) : list (option nat) :=
  [Some (list_sum (map snd rs)); match rs with [] => None | _ => Some (list_sum (map snd rs) / length rs) end].
Theorem C40_fill_value_refuted :
  ~ (forall (categories : list nat) pivots (parts : list (list (option nat * nat))), NoDup categories ->
     StronglySorted (fun a b => (a <=? b) = true) categories ->
     (forall r k, In r (concat parts) -> fst r = Some k -> In k categories) ->
     concat (ex_run categories pivots parts sum_mean) = groupby_all Nat.eq_dec fst sum_mean categories (concat parts)).
Proof. intros X. specialize (X [1; 2] [] [[(Some 1, 4)]]).
  assert (N : NoDup [1; 2]) by (repeat constructor; cbn; intuition discriminate). specialize (X N).
  assert (Y : StronglySorted (fun a b => (a <=? b) = true) [1; 2]) by repeat constructor. specialize (X Y).
  assert (Z : forall r k, In r (concat [[(Some 1, 4)]]) -> fst r = Some k -> In k [1; 2]).
  { intros r k [<-|[]] [= <-]; cbn; auto. }
  specialize (X Z). vm_compute in X. discriminate. Qed.

Print Assumptions C40_category_order_refuted.
Print Assumptions C40_second_key_refuted.
Print Assumptions C40_fill_value_refuted.
