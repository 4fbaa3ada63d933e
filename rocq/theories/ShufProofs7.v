From Verif Require Import Base Table ChunkModel ChunkSpec GridModel FrameSpec
  ShufSpec ShufModel ShufProofs ShufProofs2 ShufProofs3 ShufProofs4 ShufProofs5 ShufProofs6.
From Coq Require Import Permutation Sorted.

Section Spread.
  Context {L H A K : Type}.
  Notation dframe := (df L H A).
  Notation row := (@row L A).
  Variable kle : K -> K -> bool.
  Hypothesis kle_total : total_preorder kle.
  Variable raw_na : nat -> row -> bool.
  Variable kval : nat -> row -> option K.
  Variable numeric : nat -> bool.
  Hypothesis na_ok : forall i r, raw_na i r = match kval i r with None => true | Some _ => false end.
  Notation spread := (spread kle raw_na kval numeric).
  Notation bin := (bin kle raw_na kval numeric).
  Notation is_na := (is_na raw_na).
  Notation group_code := (group_code kle kval numeric).

  Lemma same_value_np x y : same_value kle x y = true ->
    npleb kle x y = true /\ npleb kle y x = true /\ (x = None <-> y = None).
  Proof. destruct x, y; cbn; try discriminate; rewrite ?andb_true_iff; intuition discriminate. Qed.

  Lemma same_group_code ascending cr ci r s : ascends kle (snd ci) ->
    same_value kle (kval (fst ci) r) (kval (fst ci) s) = true ->
    group_code ascending cr ci s = group_code ascending cr ci r.
  Proof.
    intros AS E. apply same_value_np in E. destruct E as (E1 & E2 & _).
    pose proof (@group_code_mono L A K kle kle_total raw_na kval numeric ascending cr ci r s AS E1).
    pose proof (@group_code_mono L A K kle kle_total raw_na kval numeric ascending cr ci s r AS E2).
    destruct ascending; lia.
  Qed.

  Lemma same_keys_at nkeys i r s : i < nkeys -> same_keys kle (map kval (seq 0 nkeys)) r s = true ->
    same_value kle (kval i r) (kval i s) = true.
  Proof.
    intros Hi E. unfold same_keys in E. rewrite forallb_forall in E. apply E. apply in_map, in_seq. lia.
  Qed.

  Lemma same_keys_bin nkeys infos ascending cr na_first r s :
    Forall (fun ci => fst ci < nkeys /\ ascends kle (snd ci)) infos ->
    same_keys kle (map kval (seq 0 nkeys)) r s = true ->
    bin infos ascending cr na_first s = bin infos ascending cr na_first r /\ is_na infos s = is_na infos r.
  Proof.
    intros F E.
    assert (N : is_na infos s = is_na infos r).
    { unfold ShufProofs.is_na. induction F as [|ci infos [Hi _] _ IH]; cbn; [reflexivity|]. rewrite IH. f_equal.
      apply (@same_keys_at nkeys (fst ci) r s Hi) in E. apply same_value_np in E. rewrite !na_ok.
      destruct (kval (fst ci) r), (kval (fst ci) s); try reflexivity; destruct E as (_ & _ & [E1 E2]);
        [specialize (E2 eq_refl)|specialize (E1 eq_refl)]; discriminate. }
    split; [|exact N]. unfold ShufProofs.bin. rewrite N. destruct (is_na infos r); [reflexivity|]. f_equal.
    unfold code. apply map_ext_in. intros ci Hci. unfold with_pivots in Hci. apply filter_In in Hci.
    rewrite Forall_forall in F. destruct (F ci (proj1 Hci)) as [Hi AS]. apply same_group_code; [exact AS|].
    now apply (@same_keys_at nkeys (fst ci) r s Hi).
  Qed.

  Lemma spread_gathers nkeys ascending cr na_first (d : dframe) bins : wf d ->
    spread nkeys ascending cr na_first d bins -> gathers (same_keys kle (map kval (seq 0 nkeys))) d bins.
  Proof.
    intros W [-> | (rl & infos & -> & N & Hr & Hn & F & _)].
    - split; [repeat constructor; apply W|]. split; [cbn; now rewrite app_nil_r|]. split.
      + intros b r [<-|[]] _. reflexivity.
      + intros [|[|i]] [|[|j]]; cbn; try discriminate; auto.
    - apply binned_gathers; auto. intros r s E. now apply (@same_keys_bin nkeys infos ascending cr na_first r s F).
  Qed.

  Section Sorting.
    Variable ascending na_first : bool.
    Variable rest : list ((row -> option K) * bool).
    Notation le := (lex_le kle na_first ((kval 0, ascending) :: rest)).
    Variable p : list (option K).
    Hypothesis p_ne : p <> [].
    Hypothesis p_asc : ascends kle p.
    Variable cr : bool.
    Notation B := (bin [(0, p)] ascending cr na_first).
    Notation N := (is_na [(0, p)]).

    Lemma one_na r : N r = match kval 0 r with None => true | Some _ => false end.
    Proof. unfold ShufProofs.is_na. cbn. now rewrite orb_false_r, na_ok. Qed.

    Lemma one_bin r : B r = if N r then if na_first then 0 else length p else group_code ascending cr (0, p) r.
    Proof.
      unfold ShufProofs.bin, nbins, sizes, code, with_pivots. cbn [filter snd]. destruct p as [|o l]; [easy|].
      cbn [length Nat.eqb negb map rank]. destruct (is_na [(0, o :: l)] r).
      - destruct na_first; [reflexivity|]. cbn. lia.
      - unfold prod. cbn [fold_right]. lia.
    Qed.

    Lemma le_first r s : le s r = true -> value_le kle na_first ascending (kval 0 s) (kval 0 r) = true.
    Proof. cbn. destruct (value_le kle na_first ascending (kval 0 s) (kval 0 r)); [reflexivity|discriminate]. Qed.

    Lemma one_bin_mono r s : B r < B s -> le s r = false.
    Proof.
      intros Lt. destruct (le s r) eqn:E; [|reflexivity]. exfalso. apply le_first in E. rewrite !one_bin, !one_na in Lt.
      pose proof (group_code_le kle raw_na kval numeric ascending cr (0, p) r) as G1.
      pose proof (group_code_le kle raw_na kval numeric ascending cr (0, p) s) as G2. cbn [snd] in *.
      destruct (kval 0 r) as [a|] eqn:Er, (kval 0 s) as [b|] eqn:Es; cbn [value_le] in E.
      - destruct ascending.
        + pose proof (@group_code_mono L A K kle kle_total raw_na kval numeric true cr (0, p) s r p_asc) as M.
          cbn [fst] in M. rewrite Er, Es in M. specialize (M E). cbv beta iota in M. lia.
        + pose proof (@group_code_mono L A K kle kle_total raw_na kval numeric false cr (0, p) r s p_asc) as M.
          cbn [fst] in M. rewrite Er, Es in M. specialize (M E). cbv beta iota in M. lia.
      - destruct na_first; [lia|discriminate].
      - destruct na_first; [discriminate|lia].
      - lia.
    Qed.

    Lemma one_same_na r s : same le r s = true -> N s = N r.
    Proof.
      unfold same. rewrite andb_true_iff. intros [E1 E2]. apply le_first in E1, E2. rewrite !one_na.
      destruct (kval 0 r), (kval 0 s); cbn in *; try reflexivity; destruct na_first; discriminate.
    Qed.
  End Sorting.

  (** sorting every bin sorts the table *)
  Lemma spread_sorted ascending cr na_first rest (d : dframe) bins (sort_values : dframe -> dframe) :
    wf d -> spread 1 ascending cr na_first d bins ->
    let le := lex_le kle na_first ((kval 0, ascending) :: rest) in
    ((forall b, wf b -> dcols b = dcols d -> sorts le (rows_of b) (rows_of (sort_values b))) ->
     sorts le (rows_of d) (concat (map rows_of (map sort_values bins))))
    /\ ((forall b, wf b -> dcols b = dcols d -> stably_sorts le (rows_of b) (rows_of (sort_values b))) ->
     stably_sorts le (rows_of d) (concat (map rows_of (map sort_values bins)))).
  Proof.
    intros W S le. destruct S as [-> | (rl & infos & -> & Hn & Hr & Hne & F & (p & more & -> & Hp & M))].
    - cbn [map concat]. rewrite app_nil_r. split; intros C; now apply C.
    - specialize (M eq_refl). subst more. inversion F as [|? ? [_ AS] _]; subst. cbn [snd] in AS.
      set (B := bin [(0, p)] ascending cr na_first). set (N := is_na [(0, p)]).
      set (ps := parts d rl).
      assert (E : map rows_of (map sort_values (binned kle raw_na kval numeric d rl [(0, p)] ascending cr na_first))
                  = map (fun k => (fun l => rows_of (sort_values (of_rows (dcols d) l))) (whole B N ps k)) (seq 0 (nbins [(0, p)]))).
      { unfold binned. rewrite !map_map. reflexivity. }
      rewrite E. clear E. rewrite <- (@concat_parts L H A d rl W Hr).
      assert (Wk : forall k, wf (of_rows (dcols d) (whole B N ps k))) by (intros; apply wf_of_rows, whole_rows; assumption).
      split; intros C.
      + apply (@sorted_bins row B N) with (sort := fun l => rows_of (sort_values (of_rows (dcols d) l))); auto.
        * intros; apply bin_lt.
        * now apply lex_le_total.
        * intros r s Hs. eapply one_bin_mono; eassumption.
        * intros r s Hs. eapply one_same_na; exact Hs.
        * intros k. pose proof (C (of_rows (dcols d) (whole B N ps k)) (Wk k) eq_refl) as X.
          rewrite rows_of_of_rows in X. exact X.
      + apply (@stably_sorted_bins row B N) with (sort := fun l => rows_of (sort_values (of_rows (dcols d) l))); auto.
        * intros; apply bin_lt.
        * now apply lex_le_total.
        * intros r s Hs. eapply one_bin_mono; eassumption.
        * intros r s Hs. eapply one_same_na; exact Hs.
        * intros k. pose proof (C (of_rows (dcols d) (whole B N ps k)) (Wk k) eq_refl) as X.
          rewrite rows_of_of_rows in X. exact X.
  Qed.

  (** the bins follow the order of the keys *)
  Lemma spread_ordered ascending cr na_first (d : dframe) bins :
    wf d -> spread 1 ascending cr na_first d bins ->
    forall i j bi bj r s, i < j -> nth_error bins i = Some bi -> nth_error bins j = Some bj ->
      In r (rows_of bi) -> In s (rows_of bj) -> value_le kle na_first ascending (kval 0 s) (kval 0 r) = false.
  Proof.
    intros W S i j bi bj r s Lt Hi Hj Hr Hs.
    destruct S as [-> | (rl & infos & -> & Hn & Hrl & Hne & F & (p & more & -> & Hp & M))].
    - destruct i as [|[|i]], j as [|[|j]]; cbn in *; try discriminate; lia.
    - specialize (M eq_refl). subst more. inversion F as [|? ? [_ AS] _]; subst. cbn [snd] in AS.
      unfold binned in *. rewrite !nth_error_map in *.
      destruct (nth_error (seq 0 _) i) as [ki|] eqn:Ei; [|discriminate].
      destruct (nth_error (seq 0 _) j) as [kj|] eqn:Ej; [|discriminate]. cbn in Hi, Hj. injection Hi as <-. injection Hj as <-.
      rewrite rows_of_of_rows in *. apply in_whole in Hr, Hs.
      assert (ki = i /\ kj = j) as [-> ->].
      { assert (i < nbins [(0, p)] /\ j < nbins [(0, p)]) as [L1 L2].
        { split; rewrite <- (seq_length (nbins [(0, p)]) 0); apply nth_error_Some; congruence. }
        apply (nth_error_nth _ _ 0) in Ei, Ej. rewrite seq_nth in Ei, Ej by assumption. lia. }
      destruct (value_le kle na_first ascending (kval 0 s) (kval 0 r)) eqn:E; [|reflexivity].
      assert (X : lex_le kle na_first [(kval 0, ascending)] s r = false).
      { eapply one_bin_mono with (p := p) (cr := cr); auto. rewrite Hr, Hs. exact Lt. }
      cbn in X. rewrite E in X. destruct (value_le kle na_first ascending (kval 0 r) (kval 0 s)); discriminate.
  Qed.
End Spread.

Section Antisym.
  Context {X : Type}.
  Variable le : X -> X -> bool.
  Lemma sorted_perm_unique (l1 l2 : list X) : (forall x y, In x l1 -> In y l1 -> le x y = true -> le y x = true -> x = y) ->
    Permutation l1 l2 -> StronglySorted (fun x y => le x y = true) l1 -> StronglySorted (fun x y => le x y = true) l2 -> l1 = l2.
  Proof.
    revert l2. induction l1 as [|x l1 IH]; intros l2 AS P S1 S2.
    - now apply Permutation_nil in P.
    - destruct l2 as [|y l2]; [symmetry in P; now apply Permutation_nil in P|].
      inversion S1 as [|? ? S1' A1]; subst. inversion S2 as [|? ? S2' A2]; subst. rewrite Forall_forall in A1, A2.
      assert (Iy : In y (x :: l1)) by (apply (Permutation_in _ (Permutation_sym P)); now left).
      assert (Ix : In x (y :: l2)) by (apply (Permutation_in _ P); now left).
      assert (x = y) as <-.
      { destruct Iy as [->|Iy]; [reflexivity|]. destruct Ix as [<-|Ix]; [reflexivity|].
        apply AS; [now left|now right|auto|auto]. }
      f_equal. apply IH; auto.
      + intros a b Ha Hb. apply AS; now right.
      + now apply Permutation_cons_inv in P.
  Qed.
End Antisym.
