From Verif Require Import Base Table ChunkModel ChunkSpec ChunkProofs GridModel GridSpec FrameSpec GridProofs GridProofs2 GridProofs3 GridProofs5 SelProofs5
  GroupSpec JoinSpec JoinModel JoinProofs JoinProofs2 JoinProofs3 JoinProofs4 JoinProofs5 JoinProps MergeSpec ResetModel ResetProofs InsModel InsProofs2
  LixSpec LixModel.

Section Proofs.
  Context {L H A : Type}.
  Variable leqb : L -> L -> bool.
  Variable heqb : H -> H -> bool.
  Hypothesis leqb_ok : forall x y, leqb x y = true <-> x = y.
  Hypothesis heqb_ok : forall x y, heqb x y = true <-> x = y.
  Variable nan : A.
  Notation dframe := (df L H A).
  Notation pf := (@pframe L H A).

  (** the cells at the label [x] *)
  Definition at_label (idx : list L) (cells : list (list A)) (m : list A) (x : L) : list A :=
    match position leqb x idx with Some p => nth p cells m | None => m end.

  Lemma position_cons_ne x y idx : x <> y -> position leqb x (y :: idx) = option_map S (position leqb x idx).
  Proof. intros N. cbn. destruct (leqb x y) eqn:E; [|reflexivity]. now apply leqb_ok in E. Qed.
  Lemma position_cons_eq x idx : position leqb x (x :: idx) = Some 0.
  Proof. cbn. now rewrite (proj2 (leqb_ok x x) eq_refl). Qed.
  Lemma at_cons_ne x y idx c cells m : x <> y -> at_label (y :: idx) (c :: cells) m x = at_label idx cells m x.
  Proof. intros N. unfold at_label. rewrite position_cons_ne by assumption. now destruct (position leqb x idx). Qed.

  Lemma rows_at m : forall idx cells, length cells = length idx -> NoDup idx ->
    combine idx cells = map (fun x => (x, at_label idx cells m x)) idx.
  Proof. induction idx as [|y idx IH]; intros [|c cells] E N; try discriminate; [reflexivity|]. cbn [combine map]. inversion N as [|? ? N1 N2]; subst.
    f_equal.
    - unfold at_label. now rewrite position_cons_eq.
    - rewrite IH by (auto; cbn in E; lia). apply map_ext_in. intros x I. rewrite at_cons_ne; [reflexivity|]. intros ->. easy. Qed.

  Lemma no_match x : forall (idx : list L) (cells : list (list A)), ~ In x idx -> filter (fun y => leqb x (fst y)) (combine idx cells) = [].
  Proof. induction idx as [|y idx IH]; intros [|c cells] N; try reflexivity. cbn. destruct (leqb x y) eqn:E.
    - apply leqb_ok in E. subst. exfalso. apply N. now left.
    - apply IH. intros I. apply N. now right. Qed.
  Lemma one_match x m : forall (idx : list L) cells, length cells = length idx -> NoDup idx ->
    filter (fun y => leqb x (fst y)) (combine idx cells) = if inb leqb x idx then [(x, at_label idx cells m x)] else [].
  Proof. induction idx as [|y idx IH]; intros [|c cells] E N; try discriminate; [reflexivity|]. inversion N as [|? ? N1 N2]; subst.
    unfold inb. cbn. destruct (leqb x y) eqn:Exy.
    - assert (x = y) by now apply leqb_ok. subst y. cbn. rewrite no_match by assumption. unfold at_label. now rewrite position_cons_eq.
    - cbn. rewrite IH by (auto; cbn in E; lia). unfold inb. rewrite at_cons_ne; [reflexivity|]. intros ->. rewrite (proj2 (leqb_ok y y) eq_refl) in Exy. discriminate. Qed.
  Lemma at_absent x idx cells m : inb leqb x idx = false -> at_label idx cells m x = m.
  Proof. intros E. unfold at_label. destruct (position leqb x idx) as [p|] eqn:P; [|reflexivity]. exfalso.
    destruct (position_some leqb_ok _ _ P) as [_ I]. apply nth_error_In in I. unfold inb in E. apply not_true_iff_false in E. apply E.
    apply existsb_exists. exists x. split; [exact I|]. now apply leqb_ok. Qed.

  Definition labels_of (h : how) (l r : list L) : list L :=
    match h with HLeft => l | HRight => r | HInner => filter (fun x => inb leqb x r) l end.
  Definition side (d : dframe) : L -> list A := at_label (dindex d) (dcells d) (repeat nan (ncols d)).

  Lemma flat_single {X Y} (f : X -> list Y) (g : X -> Y) l : (forall x, In x l -> f x = [g x]) -> flat_map f l = map g l.
  Proof. induction l as [|x l IH]; intros F; [reflexivity|]. cbn. rewrite F by now left. cbn. f_equal. apply IH. intros. apply F. now right. Qed.

  Lemma flat_filter {X Y} (f : X -> list Y) (g : X -> Y) (p : X -> bool) l : (forall x, f x = if p x then [g x] else []) -> flat_map f l = map g (filter p l).
  Proof. intros F. induction l as [|x l IH]; [reflexivity|]. cbn. rewrite F. destruct (p x); cbn; now rewrite IH. Qed.

  (** pandas' join when labels do not repeat: each joined label with its cells on both sides *)
  Lemma matched_unique h (l r : dframe) : wf l -> wf r -> NoDup (dindex l) -> NoDup (dindex r) ->
    matched leqb nan h l r = map (fun x => (x, side l x ++ side r x)) (labels_of h (dindex l) (dindex r)).
  Proof.
    intros [Wl _] [Wr _] Nl Nr. unfold matched, labels_of.
    assert (El := @rows_at (repeat nan (ncols l)) (dindex l) (dcells l)). assert (Er := @rows_at (repeat nan (ncols r)) (dindex r) (dcells r)).
    fold (side l) in El. fold (side r) in Er.
    assert (Ml := fun x => @one_match x (repeat nan (ncols l)) (dindex l) (dcells l)). assert (Mr := fun x => @one_match x (repeat nan (ncols r)) (dindex r) (dcells r)).
    fold (side l) in Ml. fold (side r) in Mr.
    destruct h.
    - rewrite El by auto. rewrite flat_map_concat_map, map_map, <- flat_map_concat_map. apply flat_single. intros x _.
      unfold from_left, labelled. cbn [fst snd]. rewrite Mr by auto. destruct (inb leqb x (dindex r)) eqn:E; [reflexivity|].
      unfold side at 3. now rewrite at_absent.
    - rewrite El by auto. rewrite flat_map_concat_map, map_map, <- flat_map_concat_map. apply flat_filter. intros x.
      unfold from_left, labelled. cbn [fst snd]. rewrite Mr by auto. now destruct (inb leqb x (dindex r)).
    - rewrite Er by auto. rewrite flat_map_concat_map, map_map, <- flat_map_concat_map. apply flat_single. intros x _.
      unfold from_right, labelled. cbn [fst snd]. rewrite Ml by auto. destruct (inb leqb x (dindex l)) eqn:E; [reflexivity|].
      unfold side at 2. now rewrite at_absent. Qed.

  Lemma zip_sides {X} (f g : X -> list A) (j : list X) : fold_right zipapp (repeat [] (length j)) [map f j; map g j] = map (fun x => f x ++ g x) j.
  Proof. clear. cbn [fold_right]. unfold zipapp. induction j as [|x j IH]; [reflexivity|]. cbn in *. rewrite IH. now rewrite app_nil_r. Qed.
  Lemma pick_side joined (d : dframe) : dcells (pick_rows nan joined (map (fun x => position leqb x (dindex d)) joined) d) = map (side d) joined.
  Proof. unfold pick_rows. cbn [dcells]. rewrite map_map. reflexivity. Qed.

  (** equal lists of labels are joined without calling [join_labels]: no difference if labels do not repeat *)
  Lemma join_objects h (l r : list L) : NoDup l -> NoDup r ->
    join_index_objects leqb (join_labels leqb h) [l; r] = (labels_of h l r, indexers leqb (labels_of h l r) [l; r]).
  Proof.
    intros Nl Nr. unfold join_index_objects. cbn [forallb]. destruct (list_eqb leqb l r) eqn:E; cbn [andb]; [|destruct h; reflexivity].
    apply (list_eqb_spec leqb leqb_ok) in E. subst r.
    assert (X : labels_of h l l = l).
    { destruct h; try reflexivity. cbn. apply filter_all_true. apply forallb_forall. intros x I. unfold inb. apply existsb_exists. exists x. split; [exact I|]. now apply leqb_ok. }
    rewrite X. f_equal. destruct (@C13_unique_labels_join L leqb [l; l] l leqb_ok) as [_ J]; [repeat constructor; auto|].
    destruct (J 0 l (map (fun x => position leqb x l) l) eq_refl eq_refl) as (_ & _ & _ & Y). unfold indexers. cbn [map]. now rewrite (Y eq_refl). Qed.

  Variable names : list H -> list H -> res (list H).
  Hypothesis names_length : forall a b c, names a b = Ok c -> length c = length a + length b.

  Lemma label_join_ok nparts min_row fk h (l r : pf) (dl dr : dframe) rll cll rlr clr : 0 < nparts -> 0 < min_row ->
    shows l dl rll cll -> shows r dr rlr clr -> NoDup (dindex dl) -> NoDup (dindex dr) ->
    match p_label_join leqb nan names h dl dr with
    | Ok t => exists f, api_label_join leqb heqb nan names nparts min_row fk h l r = Ok f /\ look leqb heqb f = Ok t
    | Err e => api_label_join leqb heqb nan names nparts min_row fk h l r = Err e
    end.
  Proof.
    intros Pn Pm Sl Sr Nl Nr. destruct Sl as (Hl & Rl & Cl & Il & Ol). destruct Sr as (Hr & Rr & Cr & Ir & Or).
    assert (Wl : wf dl) by apply Hl. assert (Wr : wf dr) by apply Hr.
    unfold p_label_join, api_label_join.
    rewrite (col_labels_holds Hl (or_introl Rl)), (col_labels_holds Hr (or_introl Rr)).
    destruct (names (dcols dl) (dcols dr)) as [c|e] eqn:En; cbn [rbind]; [|reflexivity].
    set (j := labels_of h (dindex dl) (dindex dr)).
    destruct (@concat_cols_ok L H A leqb heqb leqb_ok heqb_ok nan (join_labels leqb h) nparts min_row fk (mkslot l dl rll cll) [mkslot r dr rlr clr]
      j (indexers leqb j [dindex dl; dindex dr])) as (f & rl & cl & E & Hh & N1 & N2 & P1 & P2); auto.
    - constructor; [split; [exact Hl|split; [exact Rl|exact Cl]]|]. constructor; [split; [exact Hr|split; [exact Rr|exact Cr]]|constructor].
    - unfold joins_well. cbn [map sd]. assert (X : join_labels leqb h [dindex dl; dindex dr] = (j, indexers leqb j [dindex dl; dindex dr])) by (destruct h; reflexivity).
      rewrite X. cbn [fst snd]. apply C13_unique_labels_join; [exact leqb_ok|]. repeat constructor; auto.
    - cbn [map sd]. now apply join_objects.
    - cbn [sf map] in E. rewrite E. cbn [rbind]. cbn [length seq combine map fst snd nth sd indexers] in Hh.
      set (D := glue _ _) in Hh.
      assert (S : shows f D rl cl).
      { split; [exact Hh|]. split; [exact N1|]. split; [exact N2|]. destruct Hh as (_ & Ki & Kc). split.
        - destruct Ki as [Ki|Ki]; [|exact Ki]. exfalso. apply P2; [|exact Ki]. cbn. congruence.
        - destruct Kc as [Kc|Kc]; [|exact Kc]. exfalso. apply P1; [|exact Kc]. repeat constructor; cbn; congruence. }
      destruct (@set_columns_ok L H A heqb heqb_ok f D rl cl c S) as (f' & rl' & cl' & E' & S').
      { rewrite (@names_length _ _ _ En). unfold D, glue, ncols. cbn [dcols map concat pick_rows]. rewrite !app_length. cbn. lia. }
      exists f'. split; [exact E'|]. destruct S' as (H' & M1 & M2 & _).
      rewrite (@look_holds L H A leqb heqb leqb_ok heqb_ok f' _ rl' cl' H' M1 M2). f_equal.
      rewrite (@matched_unique h dl dr Wl Wr Nl Nr), !map_map. cbn [fst snd]. fold j. rewrite map_id. f_equal.
      unfold D, glue. cbn [dcells map]. rewrite !pick_side. apply zip_sides. Qed.
End Proofs.
