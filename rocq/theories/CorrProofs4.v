(** Proofs for C58: combining the two kinds of partitions, and the table of the result. *)
From Verif Require Import Base Table GridModel LabModel GroupSpec CorrSpec CorrModel GroupProofs7 CorrProofs CorrProofs2 CorrProofs3.
From Verif Require GroupProofs2.
From Coq Require Import QArith Qcanon Permutation Sorted.
Open Scope nat_scope.

Section Numpy.
  Context {X : Type}.
  Lemma pieces_of_repeat {C} n (G : C -> X) xs : pieces_of n (length xs) (concat (map (fun c => repeat (G c) n) xs)) = map (fun c => repeat (G c) n) xs.
  Proof. induction xs as [|c xs IH]; auto. cbn [length pieces_of map concat].
    rewrite firstn_app, skipn_app, repeat_length, Nat.sub_diag. cbn [firstn skipn]. rewrite app_nil_r.
    rewrite firstn_all2 by now rewrite repeat_length. rewrite skipn_all2 by now rewrite repeat_length. cbn [app]. now rewrite IH. Qed.
  Lemma concat_repeat_length {C} n (G : C -> X) xs : length (concat (map (fun c => repeat (G c) n) xs)) = n * length xs.
  Proof. induction xs as [|c xs IH]; cbn [map concat length]; [lia|]. rewrite app_length, repeat_length, IH. lia. Qed.
  Lemma repeat_map {C} (x : X) (l : list C) : repeat x (length l) = map (fun _ => x) l.
  Proof. induction l; cbn; congruence. Qed.
End Numpy.

Section CorrProofs4.
  Context {L : Type}.
  Variable leqb : L -> L -> bool.
  Hypothesis leqb_ok : forall x y, leqb x y = true <-> x = y.
  Variable root : Qc -> Qc.
  Hypothesis root_0 : root (Q2Qc 0) = Q2Qc 0.
  Notation num := (option Qc).
  Notation dframe := (df L L num).
  Notation acol := (akind * option L)%type.
  Notation aframe := (df L acol num).
  Implicit Types (d : dframe) (cols : list L).
  Notation val := (val leqb).
  Notation P := (P leqb).
  Notation colof := (colof leqb).

  (** * Combining *)
  Section Combine.
    Variable cols : list L.
    Variable u : list acol.
    Variable F : L -> acol -> num.
    Hypothesis Hna : filter na_col u = na_cols cols.
    Hypothesis Hun : incl un_cols u.
    Hypothesis Hsum : 1 < length (filter (of_kind Sum) u).

    Definition partner (c : acol) : num := match c with (k, Some a) => F a (k, None) | _ => None end.

    Lemma put_na_map (f : acol -> num) (g : acol -> num) cs : put_na cs (map f cs) (map g (filter na_col cs)) = map (fun c => if na_col c then g c else f c) cs.
    Proof. induction cs as [|c cs IH]; auto. cbn [map put_na filter]. destruct (na_col c); cbn [map]; now rewrite IH. Qed.

    Lemma combine_ok : maybe_combine leqb (tab cols u F) = Ok (tab cols u (fun l c => if na_col c then nadd (F l c) (partner c) else F l c)).
    Proof.
      unfold maybe_combine. cbn [tab dcols dcells dindex].
      apply Nat.ltb_lt in Hsum. rewrite Hsum.
      assert (existsb (acol_eqb leqb (Sum, None)) u = true) as ->. { apply (memb_in leqb leqb_ok). apply Hun. now left. }
      cbn [andb]. rewrite !map_map.
      rewrite (map_ext (fun x => keepl na_col u (map (F x) u)) (fun l => map (F l) (na_cols cols))).
      2:{ intros l. pose proof (GroupProofs2.keepl_map na_col (fun c => c) (F l) u) as E. rewrite map_id in E. rewrite E. now rewrite <- Hna. }
      rewrite map_length. rewrite Hna.
      assert (W : map (fun k => flat_map (fun row => repeat (at_col leqb (k, None) u row) (length cols)) (map (fun l => map (F l) u) cols)) [Sum; Pow2; Cnt]
        = map (fun k => flat_map (fun l => repeat (F l (k, None)) (length cols)) cols) [Sum; Pow2; Cnt]).
      { apply map_ext_in. intros k Hk. rewrite !flat_map_concat_map, map_map. f_equal. apply map_ext. intros l. rewrite (at_col_map leqb leqb_ok).
        assert (memb leqb (k, None) u = true) as ->; auto. apply (memb_in leqb leqb_ok). apply Hun.
        apply (un_cols_in k None). split; auto. destruct Hk as [<-|[<-|[<-|[]]]]; discriminate. }
      rewrite W. clear W. unfold reshape_F.
      assert (W : concat (map (fun k => flat_map (fun l => repeat (F l (k, None)) (length cols)) cols) [Sum; Pow2; Cnt])
        = concat (map (fun c => repeat (partner c) (length cols)) (na_cols cols))).
      { cbn [map concat]. unfold na_cols. rewrite !map_app, !concat_app, !map_map, app_nil_r. cbn [partner]. now rewrite !flat_map_concat_map. }
      rewrite W. rewrite concat_repeat_length, Nat.eqb_refl. cbn [rbind]. rewrite pieces_of_repeat.
      rewrite (map_ext (fun c => repeat (partner c) (length cols)) (fun c => map (fun _ => partner c) cols)) by (intros; apply repeat_map).
      rewrite transp_fun. unfold tab. f_equal. f_equal. rewrite map2_map, map2_map. apply map_ext. intros l. rewrite map2_map, <- Hna. apply put_na_map.
    Qed.
  End Combine.

  Lemma no_combine idx u F : length (filter (of_kind Sum) u) <= 1 \/ ~ In (Sum, None) u -> maybe_combine leqb (tab idx u F) = Ok (tab idx u F).
  Proof. intros Hu. unfold maybe_combine. cbn [tab dcols].
    destruct (1 <? length (filter (of_kind Sum) u)) eqn:E1; [|reflexivity]. apply Nat.ltb_lt in E1. destruct Hu as [Hu|Hu]; [lia|].
    apply (memb_out leqb leqb_ok) in Hu. unfold memb in Hu. rewrite Hu. reflexivity. Qed.

  (** * The result from the totals *)
  Lemma corr_of_comm mul sa mb ma sb n da db : corr_of mul sa mb ma sb n da db = corr_of mul sb ma mb sa n db da.
  Proof. unfold corr_of. assert (nmul da db = nmul db da) as ->. { destruct da, db; cbn; auto. f_equal. ring. }
    f_equal. destruct mul, sa, mb, ma, sb, n; cbn; auto. f_equal. ring. Qed.

  Lemma qlen_swap d a b : qlen (P d b a) = qlen (P d a b).
  Proof. unfold CorrProofs2.P. rewrite (both_swap (colof d a)). apply qlen_map. Qed.
  Lemma Qsum_swap d a b : Qsum (P d b a) = qsum (map (fun q => (snd q * snd q)%Qc) (P d a b)).
  Proof. unfold CorrProofs2.P. rewrite (both_swap (colof d a)). unfold Qsum. now rewrite map_map. Qed.

  Section Result.
    Variable d : dframe.
    Variable min_periods : nat.
    Notation cols := (dcols d).
    Hypothesis W : wf d.
    Hypothesis N : NoDup cols.

    Lemma correlations_by_label : correlations root min_periods d
      = mkdf cols cols (map (fun a => map (fun b => correlation root min_periods (colof d a) (colof d b)) cols) cols).
    Proof. unfold correlations. rewrite (columns_colof leqb leqb_ok W N), map_map. f_equal. apply map_ext. intros a. now rewrite map_map. Qed.

    Lemma named_ok u rest : u = mul_cols cols ++ rest -> (forall c, In c rest -> of_kind Mul c = false) ->
      forall F : L -> acol -> num, forall li : list L, named (tab li u F) = cols.
    Proof. intros -> Hr F li. unfold named. cbn [tab dcols]. rewrite flat_map_app.
      replace (flat_map _ rest) with (@nil L).
      - rewrite app_nil_r. unfold mul_cols. rewrite flat_map_concat_map, map_map. cbn [of_kind akind_eqb fst snd]. clear. induction cols as [|c l IH]; [reflexivity|]. cbn [map concat app]. now rewrite IH.
      - symmetry. clear -Hr. induction rest as [|c rest IH]; auto. cbn [flat_map]. rewrite (Hr c) by now left. apply IH. intros; apply Hr; now right. Qed.

    Lemma nan_table idx u rest F : u = mul_cols cols ++ rest -> (forall c, In c rest -> of_kind Mul c = false) ->
      incl cols idx -> incl (na_cols cols) u -> 1 < length (filter (of_kind Sum) u) ->
      (forall r c, In r cols -> In c cols -> F r (Mul, Some c) = Some (Msum (P d r c))
         /\ F r (Sum, Some c) = Some (Ssum (P d c r)) /\ F r (Pow2, Some c) = Some (Qsum (P d c r)) /\ F r (Cnt, Some c) = Some (qlen (P d c r))) ->
      corr_table leqb root min_periods (tab idx u F) = Ok (correlations root min_periods d).
    Proof.
      intros Hu Hr Hi Hna Hs HF. unfold corr_table. rewrite (@named_ok u rest Hu Hr). cbn [dcols tab].
      apply Nat.ltb_lt in Hs. rewrite Hs. rewrite correlations_by_label. f_equal. f_equal.
      apply map_ext_in. intros a Ha. apply map_ext_in. intros b Hb.
      change (mkdf idx u (map (fun l => map (F l) u) idx)) with (tab idx u F).
      assert (Lm : forall r c, In r cols -> In c cols -> loc leqb (tab idx u F) r (Mul, Some c) = Some (Msum (P d r c))).
      { intros r c Hr' Hc'. rewrite (loc_tab leqb leqb_ok); [apply HF; auto|auto|]. subst u. apply in_app_iff. left. now apply (in_map (fun c => (Mul, Some c))). }
      assert (Lk : forall k r c, k <> Mul -> In r cols -> In c cols -> loc leqb (tab idx u F) r (k, Some c) = F r (k, Some c)).
      { intros k r c Hk Hr' Hc'. rewrite (loc_tab leqb leqb_ok); auto. apply Hna. now apply na_cols_in. }
      rewrite !Lm by auto. rewrite !Lk by (auto; discriminate).
      destruct (HF a b Ha Hb) as (_ & -> & -> & ->). destruct (HF b a Hb Ha) as (_ & -> & -> & ->).
      rewrite (qlen_swap d a b), (Qsum_swap d a b). replace (Ssum (P d b a)) with (qsum (map snd (P d a b))) by (symmetry; apply Ssum_swap).
      apply (cell_ok root root_0 (colof d a) (colof d b) min_periods).
    Qed.

    (** one column of totals: the columns are complete, or there is only one *)
    Lemma plain_table idx u rest F cs cp cc l0 idx' : u = mul_cols cols ++ rest -> (forall c, In c rest -> of_kind Mul c = false) ->
      idx = l0 :: idx' -> In l0 cols -> incl cols idx -> length (filter (of_kind Sum) u) <= 1 ->
      first_col Sum (tab idx u F) = Some cs -> first_col Pow2 (tab idx u F) = Some cp -> first_col Cnt (tab idx u F) = Some cc ->
      (forall r c, In r cols -> In c cols -> F r (Mul, Some c) = Some (Msum (P d r c))) ->
      (forall r, In r cols -> F r cs = Some (Ssum (P d r r)) /\ F r cp = Some (Qsum (P d r r)) /\ F r cc = Some (qlen (P d r r))) ->
      (forall a b, In a cols -> In b cols -> Ssum (P d a b) = Ssum (P d a a) /\ Qsum (P d a b) = Qsum (P d a a) /\ qlen (P d a b) = qlen (P d l0 l0)) ->
      corr_table leqb root min_periods (tab idx u F) = Ok (correlations root min_periods d).
    Proof.
      intros Hu Hr Hl H0 Hi Hs Fs Fp Fc HM HF HC. unfold corr_table. rewrite (@named_ok u rest Hu Hr).
      cbn [dcols tab]. assert (1 <? length (filter (of_kind Sum) u) = false) as -> by (apply Nat.ltb_ge; lia).
      rewrite Fs, Fp, Fc. change (mkdf idx u (map (fun l => map (F l) u) idx)) with (tab idx u F). cbn [dindex tab]. 
      destruct idx as [|l0' idx0]; [discriminate|]. injection Hl as -> ->.
      change (mkdf (l0 :: idx') u (map (fun l => map (F l) u) (l0 :: idx'))) with (tab (l0 :: idx') u F). set (t := tab (l0 :: idx') u F) in *.
      assert (Iu : forall k c, first_col k t = Some c -> In c u).
      { intros k c E. unfold first_col in E. cbn [t tab dcols] in E. destruct (filter (of_kind k) u) eqn:Ef; [discriminate|]. injection E as ->.
        apply (filter_In (of_kind k)). rewrite Ef. now left. }
      assert (Lk : forall c r, In c u -> In r cols -> loc leqb t r c = F r c).
      { intros c r Hc Hr'. apply (loc_tab leqb leqb_ok); auto. }
      rewrite correlations_by_label. f_equal. f_equal.
      apply map_ext_in. intros a Ha. apply map_ext_in. intros b Hb.
      assert (Im : In (Mul, Some b) u). { subst u. apply in_app_iff. left. now apply (in_map (fun c => (Mul, Some c))). }
      pose proof (Iu _ _ Fs). pose proof (Iu _ _ Fp). pose proof (Iu _ _ Fc). rewrite !Lk by auto.
      rewrite HM by auto. destruct (HF a Ha) as (-> & -> & _). destruct (HF b Hb) as (-> & -> & _). destruct (HF l0 H0) as (_ & _ & ->).
      destruct (HC a b Ha Hb) as (<- & <- & <-). destruct (HC b a Hb Ha) as (<- & <- & _).
      rewrite corr_of_comm. rewrite (Qsum_swap d a b). replace (Ssum (P d b a)) with (qsum (map snd (P d a b))) by (symmetry; apply Ssum_swap).
      apply (cell_ok root root_0 (colof d a) (colof d b) min_periods).
    Qed.
  End Result.
End CorrProofs4.
