(** C69: [df.set_index(keys, drop, append, inplace, verify_integrity)].

    KeySpec.v: [gives d k vs] says that [vs] are the values key [k] gives to the rows of [d]; [indexed] is the table with
    them as row labels; [level_names] the names of its index levels.  [shows f d rl cl] (SelProofs5.v): the frame [f] stands
    for the table [d], its blocks cut at [rl], [cl].  The call gives the object as it is afterwards, and the result. *)
From Coq Require Import Permutation.
From Verif Require Import Base Table ChunkModel ChunkSpec GridModel GridSpec FrameSpec GridProofs GridProofs2 GridProofs3 GridProofs5 SelSpec SelModel
  SelProofs SelProofs4 SelProofs5 SelProofs6 SelProofs7 LocSpec LocModel LocProofs JoinSpec JoinModel JoinProofs3 RemSpec RemModel RemProofs KeySpec KeyModel KeyProofs.

Section C69.
  Context {H A : Type}.
  Variable aeqb : A -> A -> bool.
  Variable heqb : H -> H -> bool.
  Hypothesis aeqb_ok : forall x y, aeqb x y = true <-> x = y.
  Hypothesis heqb_ok : forall x y, heqb x y = true <-> x = y.
  Variable order : list H -> list H.
  Hypothesis order_ok : forall l, Permutation (order l) l.
  Variables min_row min_col nparts : nat.
  Hypothesis mr : 0 < min_row.
  Hypothesis mc : 0 < min_col.
  Hypothesis np : 0 < nparts.
  Variables known_l known_w : nat -> nat -> bool.
  Variable argsort : list Z -> list nat.
  Hypothesis argsort_ok : forall zs, sorts zs (argsort zs).
  Variable is_tuple : H -> bool.
  Notation obj := (@object H A).
  Notation table := (df (list A) H A).
  Notation set_index := (df_set_index aeqb heqb order min_row min_col nparts known_l known_w argsort is_tuple).
  Notation seen o := (pf_to_pandas (list_eqb aeqb) heqb (body o)).

  Lemma is_unique_ok ls : is_unique aeqb ls = true <-> NoDup ls.
  Proof.
    induction ls as [|l ls IH]; [split; [constructor|reflexivity]|]. cbn [is_unique]. rewrite andb_true_iff, negb_true_iff, IH.
    assert (E : existsb (list_eqb aeqb l) ls = false <-> ~ In l ls).
    { rewrite <- not_true_iff_false, existsb_exists. split; intros N I; apply N; [exists l; split; [exact I|now apply (leqb_ok aeqb aeqb_ok)]|].
      destruct I as (x & I & Ex). apply (leqb_ok aeqb aeqb_ok) in Ex. now subst. }
    rewrite E. split; [intros [N1 N2]; now constructor|]. intros N. now inversion N. Qed.
  Lemma columns_only hs : existsb (fun k : rowkey H A => match k with KColumn _ => false | KValues _ _ => true end) (map KColumn hs) = false.
  Proof. induction hs; auto. Qed.
  Lemma key_columns_map hs : key_columns (map (@KColumn H A) hs) = hs.
  Proof. unfold key_columns. induction hs as [|h hs IH]; [reflexivity|]. cbn. now rewrite IH. Qed.
  Lemma gives_in (d : table) hs vss : Forall2 (gives d) (map KColumn hs) vss -> Forall2 (fun h vs => gives d (KColumn h) vs) hs vss /\ forall h, In h hs -> In h (dcols d).
  Proof. revert vss. induction hs as [|h hs IH]; intros vss F; inversion F as [|? vs ? vss' G F']; subst; [split; [constructor|easy]|].
    destruct (IH _ F') as [I1 I2]. split; [now constructor|]. intros h' [<- | I]; [|auto]. destruct G as (p & Ep & _). now apply nth_error_In in Ep. Qed.

  (** C69, columns as keys: the rows get the values of these columns as labels, after the old ones with [append]; the
      columns go unless [drop=False]; in place, the object itself becomes the result, otherwise it stays as it is. *)
  Theorem C69_columns_partial :
    forall (o : obj) (d : table) rl cl hs vss (drop append verify inplace : bool),
      shows (body o) d rl cl -> 0 < nrows d -> NoDup (dcols d) -> NoDup hs ->
      Forall2 (gives d) (map KColumn hs) vss ->
      (verify = true -> NoDup (new_labels append vss d)) ->
      exists o', set_index (map KColumn hs) drop append verify inplace o = (if inplace then o' else o, Ok o')
        /\ seen o' = Ok (indexed heqb drop append (map KColumn hs) vss d)
        /\ names o' = level_names append (names o) (map (@KColumn H A) hs).
  Proof.
    intros o d rl cl hs vss drop append verify inplace Sh Hn ND NH F Hv. unfold df_set_index. rewrite columns_only, key_columns_map.
    destruct (gives_in _ F) as [F1 I]. unfold by_labels.
    assert (Pc : pcols (body o) = Some (dcols d)) by apply Sh. rewrite Pc. cbn [labels].
    replace (existsb _ hs) with false.
    2:{ symmetry. apply not_true_iff_false. intros (h & Ih & E)%existsb_exists. apply negb_true_iff, not_true_iff_false in E. apply E. apply (in_existsb heqb heqb_ok). auto. }
    destruct (@from_columns_ok H A aeqb heqb aeqb_ok heqb_ok order order_ok min_row min_col nparts mr mc np known_l known_w argsort argsort_ok o d rl cl hs vss drop append Sh Hn ND NH F1) as (o' & rl' & cl' & E & Sh' & N').
    rewrite E. assert (Pi : pindex (body o') = Some (new_labels append vss d)) by apply Sh'. rewrite Pi. cbn [labels].
    replace (verify && negb (is_unique aeqb (new_labels append vss d))) with false.
    2:{ destruct verify; [|reflexivity]. symmetry. cbn [andb]. apply negb_false_iff, is_unique_ok. now apply Hv. }
    exists o'. split; [reflexivity|]. split; [|exact N']. exact (shows_pandas aeqb heqb aeqb_ok heqb_ok Sh').
  Qed.

  (** C69, errors with columns as keys: an unknown one is a KeyError, repeated labels with [verify_integrity] a ValueError;
      the object stays as it is, in place or not. *)
  Theorem C69_unknown_column :
    forall (o : obj) (d : table) rl cl hs h (drop append verify inplace : bool),
      shows (body o) d rl cl -> In h hs -> ~ In h (dcols d) ->
      set_index (map KColumn hs) drop append verify inplace o = (o, Err KeyError).
  Proof.
    intros o d rl cl hs h drop append verify inplace Sh Ih Nh. unfold df_set_index. rewrite columns_only, key_columns_map. unfold by_labels.
    assert (Pc : pcols (body o) = Some (dcols d)) by apply Sh. rewrite Pc. cbn [labels].
    replace (existsb _ hs) with true; [reflexivity|]. symmetry. apply existsb_exists. exists h. split; [exact Ih|].
    apply negb_true_iff, not_true_iff_false. intros E. apply (in_existsb heqb heqb_ok) in E. auto. Qed.
  Theorem C69_not_unique :
    forall (o : obj) (d : table) rl cl hs vss (drop append inplace : bool),
      shows (body o) d rl cl -> 0 < nrows d -> NoDup (dcols d) -> NoDup hs ->
      Forall2 (gives d) (map KColumn hs) vss -> ~ NoDup (new_labels append vss d) ->
      set_index (map KColumn hs) drop append true inplace o = (o, Err ValueError).
  Proof.
    intros o d rl cl hs vss drop append inplace Sh Hn ND NH F Hv. unfold df_set_index. rewrite columns_only, key_columns_map.
    destruct (gives_in _ F) as [F1 I]. unfold by_labels.
    assert (Pc : pcols (body o) = Some (dcols d)) by apply Sh. rewrite Pc. cbn [labels].
    replace (existsb _ hs) with false.
    2:{ symmetry. apply not_true_iff_false. intros (h & Ih & E)%existsb_exists. apply negb_true_iff, not_true_iff_false in E. apply E. apply (in_existsb heqb heqb_ok). auto. }
    destruct (@from_columns_ok H A aeqb heqb aeqb_ok heqb_ok order order_ok min_row min_col nparts mr mc np known_l known_w argsort argsort_ok o d rl cl hs vss drop append Sh Hn ND NH F1) as (o' & rl' & cl' & E & Sh' & N').
    rewrite E. assert (Pi : pindex (body o') = Some (new_labels append vss d)) by apply Sh'. rewrite Pi. cbn [labels andb].
    replace (negb (is_unique aeqb (new_labels append vss d))) with true; [reflexivity|]. symmetry. apply negb_true_iff, not_true_iff_false. rewrite is_unique_ok. exact Hv. Qed.

  (** C69, arrays among the keys (partial): as above.
      Missing, because the code is wrong there (below): [drop=False] with a column among the keys; a column label that is a
      tuple; a repeated column. *)
  Theorem C69_values_partial :
    forall (o : obj) (d : table) rl cl ks vss (drop append verify inplace : bool),
      shows (body o) d rl cl -> 0 < nrows d -> NoDup (dcols d) ->
      (exists n l, In (KValues n l) ks) ->
      (drop = true \/ key_columns ks = []) ->
      NoDup (key_columns ks) -> Forall (fun h => is_tuple h = false) (key_columns ks) ->
      Forall2 (gives d) ks vss ->
      (verify = true -> NoDup (new_labels append vss d)) ->
      exists o', set_index ks drop append verify inplace o = (if inplace then o' else o, Ok o')
        /\ seen o' = Ok (indexed heqb drop append ks vss d)
        /\ names o' = level_names append (names o) ks.
  Proof.
    intros o d rl cl ks vss drop append verify inplace Sh Hn ND (n & l & Il) Hd NK NT F Hv. unfold df_set_index.
    replace (existsb _ ks) with true by (symmetry; apply existsb_exists; exists (KValues n l); now split). unfold by_values.
    assert (W : wf d) by apply Sh.
    assert (Lv : Forall (fun vs => length vs = nrows d) vss).
    { clear - F W. induction F as [|k vs ks vss G F IH]; constructor; [|exact IH]. exact (@gives_length H A d _ _ W G). }
    assert (Lt := @tuples_length A (nrows d) vss Lv). set (new := new_labels append vss d) in *.
    assert (Ea : (if append then map2 (@app A) (dindex d) (tuples (nrows d) vss) else tuples (nrows d) vss) = new).
    { unfold new, new_labels. destruct append; [reflexivity|]. rewrite <- Lt at 2. now rewrite map2_app_nil. }
    assert (Ln : length new = nrows d). { unfold new, new_labels. rewrite map2_length, Lt. destruct append; [apply Nat.min_id|]. rewrite repeat_length. apply Nat.min_id. }
    assert (Lk : length ks = length vss) by (clear - F; induction F as [|k vs ks vss G F IH]; [reflexivity|cbn; now rewrite IH]).
    assert (X : exists o1 rl1 cl1, (if drop then pops aeqb heqb order min_row min_col nparts known_l known_w argsort is_tuple ks o else (o, Ok ks)) = (o1, Ok (map2 as_values ks vss))
       /\ shows (body o1) (let d' := if drop then keep_columns (map (fun h => negb (existsb (heqb h) (key_columns ks))) (dcols d)) d else d in d') rl1 cl1 /\ names o1 = names o).
    { destruct drop.
      - exact (@pops_ok H A aeqb heqb aeqb_ok heqb_ok order order_ok min_row min_col nparts mr mc np known_l known_w argsort argsort_ok is_tuple ks vss o d rl cl Sh Hn ND NK NT F).
      - destruct Hd as [Hd|Hd]; [discriminate|]. exists o, rl, cl. split; [|auto]. f_equal. f_equal. clear - F Hd. induction F as [|k vs ks vss G F IH]; [reflexivity|]. rewrite map2_cons.
        destruct k as [h|n l]; [discriminate|]. destruct G as [-> _]. cbn [as_values key_name]. f_equal. now apply IH. }
    destruct X as (o1 & rl1 & cl1 & E1 & Sh1 & N1). rewrite E1. cbn [rbind].
    assert (Pi : pindex (body o) = Some (dindex d)) by apply Sh. rewrite Pi. cbn [labels rbind].
    assert (EP : pandas_set_index aeqb (dindex d) (names o) (map2 as_values ks vss) append verify = Ok (new, level_names append (names o) ks)).
    { unfold pandas_set_index.
      replace (existsb (fun k : rowkey H A => match k with KColumn _ => true | KValues _ _ => false end) (map2 as_values ks vss)) with false.
      2:{ clear. revert vss. induction ks as [|k ks IH]; intros [|vs vss]; rewrite ?map2_nil_l, ?map2_nil_r; try reflexivity. rewrite map2_cons. cbn. apply IH. }
      replace (existsb _ (map2 as_values ks vss)) with false.
      2:{ clear - Lv. revert ks. induction Lv as [|vs vss E F IH]; intros [|k ks]; rewrite ?map2_nil_l, ?map2_nil_r; try reflexivity. rewrite map2_cons. cbn [existsb as_values]. rewrite <- IH, E. unfold nrows. now rewrite Nat.eqb_refl. }
      assert (El : map (fun k : rowkey H A => match k with KColumn _ => [] | KValues _ l => l end) (map2 as_values ks vss) = vss).
      { clear - Lk. revert vss Lk. induction ks as [|k ks IH]; intros [|vs vss] E; try discriminate; [reflexivity|]. rewrite map2_cons. cbn [map as_values]. f_equal. apply IH. now injection E. }
      assert (En : map (fun k : rowkey H A => match k with KColumn h => Some h | KValues n _ => n end) (map2 as_values ks vss) = map key_name ks).
      { clear - Lk. revert vss Lk. induction ks as [|k ks IH]; intros [|vs vss] E; try discriminate; [reflexivity|]. rewrite map2_cons. cbn [map as_values]. f_equal. apply IH. now injection E. }
      rewrite El, En, transp_tuples. fold (nrows d). rewrite Ea.
      replace (verify && negb (is_unique aeqb new)) with false; [reflexivity|].
      destruct verify; [|reflexivity]. symmetry. cbn [andb]. apply negb_false_iff, is_unique_ok. now apply Hv. }
    rewrite EP. cbn [rbind fst snd].
    destruct (set_rows_ok new Sh1) as (f2 & rl2 & cl2 & E2 & Sh2); [destruct drop; exact Ln|]. rewrite E2. cbn [rbind].
    eexists. split; [reflexivity|]. cbn [body names]. split; [|reflexivity]. exact (shows_pandas aeqb heqb aeqb_ok heqb_ok Sh2).
  Qed.

  (** C69, values of another length: a ValueError, and the object stays as it is if no column is among the keys. *)
  Theorem C69_wrong_length :
    forall (o : obj) (d : table) rl cl ks n l (drop append verify inplace : bool),
      shows (body o) d rl cl -> In (KValues n l) ks -> length l <> nrows d -> key_columns ks = [] ->
      set_index ks drop append verify inplace o = (o, Err ValueError).
  Proof.
    intros o d rl cl ks n l drop append verify inplace Sh Il Hl Hk. unfold df_set_index.
    replace (existsb _ ks) with true by (symmetry; apply existsb_exists; exists (KValues n l); now split). unfold by_values.
    assert (X : (if drop then pops aeqb heqb order min_row min_col nparts known_l known_w argsort is_tuple ks o else (o, Ok ks)) = (o, Ok ks)).
    { destruct drop; [|reflexivity]. clear - Hk. induction ks as [|k ks IH]; [reflexivity|]. destruct k as [h|n l]; [discriminate|]. cbn [pops]. rewrite IH by exact Hk. reflexivity. }
    rewrite X. cbn [rbind]. assert (Pi : pindex (body o) = Some (dindex d)) by apply Sh. rewrite Pi. cbn [labels rbind]. unfold pandas_set_index.
    replace (existsb (fun k : rowkey H A => match k with KColumn _ => true | KValues _ _ => false end) ks) with false.
    2:{ clear - Hk. induction ks as [|k ks IH]; [reflexivity|]. destruct k as [h|n l]; [discriminate|]. cbn. now apply IH. }
    replace (existsb _ ks) with true.
    2:{ symmetry. apply existsb_exists. exists (KValues n l). split; [exact Il|]. apply negb_true_iff, Nat.eqb_neq. exact Hl. }
    cbn [rbind]. now destruct inplace. Qed.

  (** C69: without [inplace] the object is never changed, whatever happens. *)
  Theorem C69_not_in_place :
    forall (o : obj) ks (drop append verify : bool), fst (set_index ks drop append verify false o) = o.
  Proof.
    intros o ks drop append verify. unfold df_set_index. destruct (existsb _ ks).
    - unfold by_values. destruct (if drop then _ else _) as [fr r]. destruct (do ks <- r; _); reflexivity.
    - unfold by_labels. destruct (labels (pcols (body o))) as [c|e]; [|reflexivity]. destruct (existsb _ (key_columns ks)); [reflexivity|].
      destruct (set_index_from_columns _ _ _ _ _ _ _ _ _ _ _ o) as [r|e]; [|reflexivity]. destruct (labels (pindex (body r))) as [i|e]; [|reflexivity]. now destruct (_ && _). Qed.
End C69.
Print Assumptions C69_columns_partial.
Print Assumptions C69_unknown_column.
Print Assumptions C69_not_unique.
Print Assumptions C69_values_partial.
Print Assumptions C69_wrong_length.
Print Assumptions C69_not_in_place.

(** * Where the claim fails, and concrete cases *)
Definition key_d : df (list nat) nat nat := mkdf [[0];[1];[2]] [10;11;12] [[1;2;3];[4;5;6];[7;8;9]].
Definition key_frame (rl cl : list nat) : @pframe (list nat) nat nat := mkpf (cut_table rl cl key_d) (Some (dindex key_d)) (Some (dcols key_d)) (Some rl) (Some cl).
Definition key_o := mkobj (key_frame [2;1] [2;1]) [@None nat].
Definition key_set := df_set_index Nat.eqb Nat.eqb (fun l : list nat => l) 1 1 2 (fun _ _ => true) (fun _ _ => true) zargsort (fun h => 20 <=? h).
Lemma key_o_shows : shows (body key_o) key_d [2;1] [2;1].
Proof. split; [|repeat split; easy]. apply holds_intro; cbn; auto. split; [reflexivity|repeat constructor]. Qed.

(** df.set_index(["a", array], drop=False) is a KeyError *)
Theorem C69_kept_column_refuted : exists vs, gives key_d (KColumn 10) vs
  /\ key_set [KColumn 10; KValues None [5;6;7]] false false false false key_o = (key_o, Err KeyError).
Proof. exists [1;4;7]. split; [exists 0; split; [reflexivity|repeat constructor]|vm_compute; reflexivity]. Qed.

(** df.set_index(["a", too_short], inplace=True) raises ValueError, and the column is gone from df *)
Theorem C69_half_done_refuted : exists o',
  key_set [KColumn 10; KValues None [5;6]] true false false true key_o = (o', Err ValueError)
  /\ pf_to_pandas (list_eqb Nat.eqb) Nat.eqb (body o') = Ok (mkdf [[0];[1];[2]] [11;12] [[2;3];[5;6];[8;9]]).
Proof. eexists. split; [vm_compute; reflexivity|]. vm_compute. reflexivity. Qed.

(** df.set_index(["a", array, "a"]) is a KeyError: the column was popped already *)
Theorem C69_repeated_with_values_refuted :
  snd (key_set [KColumn 10; KValues None [5;6;7]; KColumn 10] true false false false key_o) = Err KeyError.
Proof. vm_compute. reflexivity. Qed.

(** a column whose label is a tuple, together with an array: KeyError *)
Theorem C69_tuple_label_refuted : exists (d : df (list nat) nat nat) o vs, shows (body o) d [2] [2]
  /\ gives d (KColumn 20) vs
  /\ key_set [KColumn 20; KValues None [5;6]] true false false false o = (o, Err KeyError).
Proof.
  set (d' := mkdf [[0];[1]] [10;20] [[1;2];[4;5]] : df (list nat) nat nat).
  exists d', (mkobj (mkpf (cut_table [2] [2] d') (Some (dindex d')) (Some (dcols d')) (Some [2]) (Some [2])) [None]), [2;5].
  split; [split; [|repeat split; easy]; apply holds_intro; cbn; auto; split; [reflexivity|repeat constructor]|].
  split; [exists 1; split; [reflexivity|repeat constructor]|vm_compute; reflexivity]. Qed.

(** df.set_index(["a", "a"]) on a frame whose first block column is two columns wide does not give the column twice *)
Theorem C69_repeated_column_refuted :
  match snd (key_set [KColumn 10; KColumn 10] true false false false key_o) with Ok _ => False | Err _ => True end.
Proof. vm_compute. exact I. Qed.

Example key_ex_two : exists o', key_set [KColumn 12; KColumn 10] true true true true key_o = (o', Ok o')
  /\ pf_to_pandas (list_eqb Nat.eqb) Nat.eqb (body o') = Ok (mkdf [[0;3;1];[1;6;4];[2;9;7]] [11] [[2];[5];[8]])
  /\ names o' = [None; Some 12; Some 10].
Proof. eexists. split; [vm_compute; reflexivity|]. split; [vm_compute; reflexivity|]. vm_compute. reflexivity. Qed.
Example key_ex_all : exists o', key_set [KColumn 12; KColumn 10; KColumn 11] true false false false key_o = (key_o, Ok o')
  /\ pf_to_pandas (list_eqb Nat.eqb) Nat.eqb (body o') = Ok (mkdf [[3;1;2];[6;4;5];[9;7;8]] [] [[];[];[]]).
Proof. eexists. split; [vm_compute; reflexivity|]. vm_compute. reflexivity. Qed.
Example key_ex_values : exists o', key_set [KColumn 12; KValues (Some 9) [7;7;8]] true false false false key_o = (key_o, Ok o')
  /\ pf_to_pandas (list_eqb Nat.eqb) Nat.eqb (body o') = Ok (mkdf [[3;7];[6;7];[9;8]] [10;11] [[1;2];[4;5];[7;8]])
  /\ names o' = [Some 12; Some 9].
Proof. eexists. split; [vm_compute; reflexivity|]. split; [vm_compute; reflexivity|]. vm_compute. reflexivity. Qed.
Example key_ex_gives : Forall2 (gives key_d) [KColumn 12; KValues (Some 9) [7;7;8]] [[3;6;9];[7;7;8]].
Proof. constructor; [exists 2; split; [reflexivity|repeat constructor]|]. constructor; [split; reflexivity|constructor]. Qed.
Print Assumptions C69_kept_column_refuted.
Print Assumptions C69_half_done_refuted.
Print Assumptions C69_repeated_with_values_refuted.
Print Assumptions C69_tuple_label_refuted.
Print Assumptions C69_repeated_column_refuted.
