(** Aggregating the partial aggregates of pieces gives the aggregate of the whole, key by key. *)
From Verif Require Import Base Table ChunkModel GridModel SelModel GroupSpec GroupModel GroupProofs.
Open Scope nat_scope.

Lemma list_prod_map {X Y Z} (g : Y -> Z) (ts : list X) (ys : list Y) :
  list_prod ts (map g ys) = map (fun ty => (fst ty, g (snd ty))) (list_prod ts ys).
Proof. induction ts as [|t ts IH]; cbn; auto. rewrite map_app, IH, !map_map. reflexivity. Qed.

Lemma map_snd_single {X Y} (t : X) (ys : list Y) : map snd (list_prod [t] ys) = ys.
Proof. cbn. rewrite app_nil_r, map_map. apply map_id. Qed.

Lemma filter_nil {X} (p : X -> bool) l : (forall x, In x l -> p x = false) -> filter p l = [].
Proof. induction l as [|x l IH]; intros E; cbn; auto. rewrite E by now left. apply IH. intros. apply E. now right. Qed.
Lemma filter_all {X} (p : X -> bool) l : (forall x, In x l -> p x = true) -> filter p l = l.
Proof. induction l as [|x l IH]; intros E; cbn; auto. rewrite E by now left. f_equal. apply IH. intros. apply E. now right. Qed.

Lemma filter_tag {Y} (t : nat) (ts : list nat) (ys : list Y) : NoDup ts -> In t ts ->
  filter (fun ty => fst ty =? t) (list_prod ts ys) = map (pair t) ys.
Proof.
  induction 1 as [|x ts Hn _ IH]; intros Ht; [easy|]. cbn [list_prod]. rewrite filter_app. destruct Ht as [->|Ht].
  - rewrite filter_all, filter_nil, app_nil_r; auto.
    + intros (a & b) Hab. apply in_prod_iff in Hab as [Ha _]. cbn. destruct (Nat.eqb_spec a t); auto. now subst.
    + intros p Hp. apply in_map_iff in Hp as (y & <- & _). cbn. apply Nat.eqb_refl.
  - rewrite filter_nil, IH; auto. intros p Hp. apply in_map_iff in Hp as (y & <- & _). cbn.
    destruct (Nat.eqb_spec x t); auto. now subst.
Qed.

Lemma keepl_map {X Y Z} (p : X -> bool) (f : Z -> X) (g : Z -> Y) (zs : list Z) :
  keepl p (map f zs) (map g zs) = map g (filter (fun z => p (f z)) zs).
Proof. unfold keepl. induction zs as [|z zs IH]; cbn; auto. destruct (p (f z)); cbn; now rewrite IH. Qed.

Section Columns.
  Context {A : Type}.
  Variable nan : A.
  Definition col (c : nat) (rows : list (list A)) : list A := map (fun r => nth c r nan) rows.

  Lemma row_nth (r : list A) : r = map (fun c => nth c r nan) (seq 0 (length r)).
  Proof. induction r as [|x r IH]; cbn; auto. f_equal. rewrite <- seq_shift, map_map. exact IH. Qed.
  Lemma transp_col w rows : Forall (fun r => length r = w) rows ->
    transp w rows = map (fun c => col c rows) (seq 0 w).
  Proof. intros F. replace rows with (map (fun r => map (fun c => nth c r nan) (seq 0 w)) rows) at 1.
    - pose proof (transp_fun (fun r c => nth c r nan) rows (seq 0 w)) as E. rewrite seq_length in E. exact E.
    - rewrite <- (map_id rows) at 2. apply map_ext_in. intros r Hr. rewrite Forall_forall in F.
      rewrite <- (F r Hr). symmetry. apply row_nth. Qed.
  Lemma col_app c r1 r2 : col c (r1 ++ r2) = col c r1 ++ col c r2.
  Proof. apply map_app. Qed.
  Lemma col_concat {X} c (f : X -> list (list A)) l : col c (concat (map f l)) = concat (map (fun x => col c (f x)) l).
  Proof. induction l as [|x l IH]; [reflexivity|]. cbn [map concat]. now rewrite col_app, IH. Qed.
End Columns.

Section Reduce.
  Context {L H A : Type}.
  Notation dframe := (df L H A).
  Notation key := (list A).
  Variable heqb : H -> H -> bool.
  Hypothesis heqb_ok : forall x y, heqb x y = true <-> x = y.
  Variable aeqb : A -> A -> bool.
  Hypothesis aeqb_ok : forall x y, aeqb x y = true <-> x = y.
  Variable na : A -> bool.
  Variable nan : A.
  Variable kle : key -> key -> bool.
  Hypothesis kle_total : forall x y, kle x y = true \/ kle y x = true.
  Hypothesis kle_trans : forall x y z, kle x y = true -> kle y z = true -> kle x z = true.
  Hypothesis kle_anti : forall x y, kle x y = true -> kle y x = true -> x = y.
  Notation keqb := (keqb aeqb).
  Notation keys_of := (keys_of aeqb na kle).
  Notation pick := (pick aeqb).
  Notation grouped_map := (grouped_map aeqb na kle).
  Notation groupby := (groupby aeqb na kle).

  Definition impl_law (im : impl (A:=A)) (agg : list A -> A) : Prop :=
    NoDup (itags im) /\ itags im <> [] /\
    (iplain im = true -> exists t, itags im = [t] /\ forall x, ifin im [x] = x) /\
    (forall pieces, pieces <> [] ->
       ifin im (map (fun t => ired im (map (imap im t) pieces)) (itags im)) = agg (concat pieces)).

  (** The sums of the mapped pieces, per key and (tag, column). *)
  Section Pieces.
    Context {P : Type}.
    Variable im : impl (A:=A).
    Variable agg : list A -> A.
    Hypothesis law : impl_law im agg.
    Variables sort dropna : bool.
    Variable ps : list P.
    Variable fk : P -> list key.
    Variable fr : P -> list (list A).
    Variable w : nat.
    Hypothesis lens : forall p, In p ps -> length (fk p) = length (fr p).
    Hypothesis widths : forall p, In p ps -> Forall (fun r => length r = w) (fr p).

    Let KS := concat (map fk ps).
    Let RS := concat (map fr ps).
    Let out := keys_of sort dropna KS.
    Definition row_of (p : P) (k : key) : list A :=
      map (fun tc => imap im (fst tc) (snd tc)) (list_prod (itags im) (transp w (pick k (fk p) (fr p)))).
    Definition having (k : key) : list P := filter (fun p => existsb (keqb k) (fk p)) ps.

    Lemma pick_widths p k : In p ps -> Forall (fun r => length r = w) (pick k (fk p) (fr p)).
    Proof. intros Hp. apply Forall_forall. intros r Hr. apply pick_in in Hr. pose proof (widths p Hp) as F.
      rewrite Forall_forall in F. auto. Qed.

    Lemma row_of_eq p k : In p ps ->
      row_of p k = map (fun tc => imap im (fst tc) (col nan (snd tc) (pick k (fk p) (fr p))))
                       (list_prod (itags im) (seq 0 w)).
    Proof. intros Hp. unfold row_of. rewrite (transp_col nan (pick_widths p k Hp)), list_prod_map, map_map. reflexivity. Qed.

    Lemma partial_rows k : In k out ->
      pick k (concat (map (fun p => keys_of sort dropna (fk p)) ps))
             (concat (map (fun p => map (row_of p) (keys_of sort dropna (fk p))) ps))
      = map (fun p => row_of p k) (having k).
    Proof.
      intros Hk. apply keys_of_in in Hk as [_ Wk]; auto.
      rewrite (pick_concat aeqb k ps (fun p => keys_of sort dropna (fk p)) (fun p => map (row_of p) (keys_of sort dropna (fk p))))
        by (intros; now rewrite map_length).
      unfold having. clear lens widths. induction ps as [|p l IH]; [reflexivity|]. cbn [map concat filter].
      rewrite pick_one by (auto; now apply keys_of_nodup). rewrite IH.
      assert (E : existsb (keqb k) (keys_of sort dropna (fk p)) = existsb (keqb k) (fk p)).
      { apply eq_true_iff_eq. rewrite !existsb_keqb by auto. rewrite keys_of_in by auto. tauto. }
      rewrite E. destruct (existsb (keqb k) (fk p)); reflexivity.
    Qed.

    Lemma having_nonempty k : In k out -> having k <> [].
    Proof. intros Hk. apply keys_of_in in Hk as [Hk _]; auto. apply in_concat in Hk as (l & Hl & Hk).
      apply in_map_iff in Hl as (p & <- & Hp). intros E.
      assert (In p (having k)) by (apply filter_In; split; auto; now apply existsb_keqb).
      rewrite E in *. easy. Qed.

    Lemma whole_rows k : pick k KS RS = concat (map (fun p => pick k (fk p) (fr p)) (having k)).
    Proof.
      unfold KS, RS. rewrite (pick_concat aeqb k ps fk fr) by auto. unfold having.
      clear - aeqb_ok. induction ps as [|p l IH]; [reflexivity|]. cbn [map concat filter]. rewrite IH.
      destruct (existsb (keqb k) (fk p)) eqn:E; [reflexivity|].
      rewrite pick_none; auto. intros X. apply (existsb_keqb aeqb aeqb_ok) in X. congruence.
    Qed.

    Lemma whole_widths k : Forall (fun r => length r = w) (pick k KS RS).
    Proof. rewrite whole_rows. apply Forall_forall. intros r Hr. apply in_concat in Hr as (l & Hl & Hr).
      apply in_map_iff in Hl as (p & <- & Hp). apply filter_In in Hp as [Hp _].
      pose proof (pick_widths p k Hp) as F. rewrite Forall_forall in F. auto. Qed.

    Definition sum_at (k : key) (tc : nat * nat) : A :=
      ired im (map (fun p => imap im (fst tc) (col nan (snd tc) (pick k (fk p) (fr p)))) (having k)).

    Lemma sums_row k : In k out ->
      map (ired im) (transp (length (list_prod (itags im) (seq 0 w)))
        (pick k (concat (map (fun p => keys_of sort dropna (fk p)) ps))
                (concat (map (fun p => map (row_of p) (keys_of sort dropna (fk p))) ps))))
      = map (sum_at k) (list_prod (itags im) (seq 0 w)).
    Proof.
      intros Hk. rewrite partial_rows by assumption.
      replace (map (fun p => row_of p k) (having k))
        with (map (fun p => map (fun tc => imap im (fst tc) (col nan (snd tc) (pick k (fk p) (fr p))))
                              (list_prod (itags im) (seq 0 w))) (having k)).
      2:{ apply map_ext_in. intros p Hp. apply filter_In in Hp as [Hp _]. now rewrite row_of_eq. }
      rewrite transp_fun, map_map. reflexivity.
    Qed.

    Lemma fin_at k c : In k out -> ifin im (map (fun t => sum_at k (t, c)) (itags im)) = agg (col nan c (pick k KS RS)).
    Proof.
      intros Hk. destruct law as (_ & _ & _ & E). rewrite whole_rows, col_concat.
      rewrite <- E.
      - f_equal. apply map_ext. intros t. unfold sum_at. cbn [fst snd]. now rewrite map_map.
      - intros X. apply map_eq_nil in X. now apply having_nonempty in X.
    Qed.

    Lemma finish_ok (cols : list H) (idx : list L) : length cols = w ->
      (iplain im = true \/ out <> []) ->
      finish heqb im (mkdf out (list_prod (itags im) cols)
                        (map (fun k => map (sum_at k) (list_prod (itags im) (seq 0 w))) out))
      = Ok (groupby agg sort dropna KS (mkdf idx cols RS)).
    Proof.
      intros Hc Hne. unfold groupby, GroupSpec.groupby. cbn [dcols dcells]. unfold ncols at 1. cbn [dcols]. rewrite Hc.
      fold out.
      assert (E : map (fun k => map agg (transp w (pick k KS RS))) out
                  = map (fun k => map (fun c => ifin im (map (fun t => sum_at k (t, c)) (itags im))) (seq 0 w)) out).
      { apply map_ext_in. intros k Hk. rewrite (transp_col nan (whole_widths k)), map_map.
        apply map_ext. intros c. symmetry. now apply fin_at. }
      rewrite E. clear E. destruct law as (ND & NE & PL & _).
      unfold finish. cbn [dindex dcols dcells].
      destruct (iplain im) eqn:Ep.
      - destruct (PL eq_refl) as (t & Et & Hid). cbn [orb]. rewrite Et, map_snd_single. f_equal. f_equal.
        apply map_ext. intros k. cbn. rewrite app_nil_r, map_map. apply map_ext. intros c. now rewrite Hid.
      - destruct Hne as [?|Hne]; [discriminate|]. cbn [orb].
        unfold df_empty, nrows, ncols. cbn [dindex dcols].
        destruct (length out =? 0) eqn:Eo; [apply Nat.eqb_eq in Eo; destruct out; easy|]. cbn [orb].
        destruct (length (list_prod (itags im) cols) =? 0) eqn:Ec.
        + apply Nat.eqb_eq in Ec. rewrite prod_length in Ec. destruct (itags im) as [|t0 ts] eqn:Et; [easy|].
          assert (w = 0) as -> by (cbn in Ec; lia). destruct cols; [|discriminate].
          assert (Z : forall T (l : list T), list_prod l (@nil nat) = []) by (induction l; cbn; auto).
          assert (Z2 : list_prod ts (@nil H) = []) by (clear; induction ts; cbn; auto).
          cbn. rewrite Z2. cbn. f_equal. f_equal. apply map_ext. intros k. now rewrite Z.
        +
          assert (Es : forall t, In t (itags im) ->
            keep_cols (fun th => fst th =? t)
              (mkdf out (list_prod (itags im) cols)
                 (map (fun k => map (sum_at k) (list_prod (itags im) (seq 0 w))) out))
            = mkdf out (map (pair t) cols) (map (fun k => map (fun c => sum_at k (t, c)) (seq 0 w)) out)).
          { intros t Ht. unfold keep_cols. cbn [dindex dcols dcells]. rewrite filter_tag by assumption. f_equal.
            rewrite map_map. apply map_ext. intros k.
            transitivity (keepl (fun n => n =? t) (map fst (list_prod (itags im) (seq 0 w)))
                                (map (sum_at k) (list_prod (itags im) (seq 0 w)))).
            { assert (G : forall ts : list nat, map fst (list_prod ts cols) = map fst (list_prod ts (seq 0 w))).
              { induction ts as [|x ts IH]; cbn; auto. rewrite !map_app, !map_map, IH. f_equal.
                cbn. rewrite !map_const, seq_length. now rewrite Hc. }
              rewrite <- G. unfold keepl. generalize (list_prod (itags im) cols) (map (sum_at k) (list_prod (itags im) (seq 0 w))).
              intros l1 l2. revert l2. induction l1 as [|x l1 IH]; intros [|y l2]; cbn; auto.
              destruct (fst x =? t); cbn; now rewrite IH. }
            rewrite keepl_map, filter_tag by assumption. now rewrite map_map. }
          rewrite (map_ext_in _ _ _ Es). clear Es Ec.
          set (F := fun t => mkdf out (map (pair t) cols) (map (fun k => map (fun c => sum_at k (t, c)) (seq 0 w)) out)).
          destruct (itags im) as [|t0 ts] eqn:Et; [easy|].
          change (map F (t0 :: ts)) with (F t0 :: map F ts). cbv iota beta.
          change (F t0 :: map F ts) with (map F (t0 :: ts)).
          replace (forallb _ _) with true.
          2:{ symmetry. apply forallb_forall. intros e He. apply in_map_iff in He as (t & <- & _). unfold F. cbn [dcols].
              rewrite !map_map. cbn [snd]. apply list_eqb_refl. exact heqb_ok. }
          f_equal. rewrite map_map. unfold F at 1 2 3, nrows, ncols. cbn [dcols dindex dcells].
          rewrite map_map, map_length, Hc. cbn [snd]. rewrite map_id. f_equal.
          pose proof (transp_fun (fun t k => map (fun c => sum_at k (t, c)) (seq 0 w)) (t0 :: ts) out) as T.
          rewrite T, map_map. apply map_ext. intros k.
          pose proof (transp_fun (fun t c => sum_at k (t, c)) (t0 :: ts) (seq 0 w)) as T2. rewrite seq_length in T2.
          rewrite T2, map_map. reflexivity.
    Qed.
  End Pieces.
End Reduce.
