(** Proofs for C58: the whole of [corr], and [cov]. *)
From Verif Require Import Base Table ChunkSpec GridSpec GridModel FrameSpec JoinSpec LabSpec LabModel LabProofs PartSpec PartModel PartProofs
  GridProofs GridProofs2 GridProofs3 GridProofs4 GridProofs5 JoinProofs4
  GroupSpec CorrSpec CorrModel GroupProofs7 CorrProofs CorrProofs2 CorrProofs3 CorrProofs4.
From Verif Require GroupProofs2.
From Coq Require Import QArith Qcanon Permutation Sorted.
Open Scope nat_scope.

Lemma ne_in {X} (l : list X) : l <> [] -> exists x, In x l.
Proof. destruct l as [|x l]; [easy|]. exists x. now left. Qed.
Lemma ne_len {X} (l : list X) : l <> [] -> 1 <= length l.
Proof. destruct l; [easy|cbn; lia]. Qed.
Lemma one_of {X} (l : list X) : l <> [] -> length l <= 1 -> exists x, l = [x].
Proof. destruct l as [|x [|y l]]; [easy|eauto|cbn; lia]. Qed.

Section CorrProofs5.
  Context {L : Type}.
  Variable leqb leb : L -> L -> bool.
  Hypothesis leqb_ok : forall x y, leqb x y = true <-> x = y.
  Hypothesis antisym : forall x y, leb x y = true -> leb y x = true -> x = y.
  Variable root : Qc -> Qc.
  Hypothesis root_0 : root (Q2Qc 0) = Q2Qc 0.
  Variable shared : bool.
  Notation num := (option Qc).
  Notation dframe := (df L L num).
  Notation acol := (akind * option L)%type.
  Notation aframe := (df L acol num).
  Notation val := (val leqb).
  Notation P := (P leqb).
  Notation colof := (colof leqb).

  Section Whole.
    Variable d : dframe.
    Variable ps : list dframe.
    Notation cols := (dcols d).
    Hypothesis Hne : ps <> [].
    Hypothesis Hps : Forall (fun q => wf q /\ dcols q = cols) ps.
    Hypothesis Hd : d = stack cols ps.
    Hypothesis W : wf d.
    Hypothesis N : NoDup cols.
    Hypothesis Hc : cols <> [].

    Lemma part_ok p : In p ps -> wf p /\ dcols p = cols.
    Proof. rewrite Forall_forall in Hps. apply Hps. Qed.

    Lemma P_concat a b : P d a b = concat (map (fun p => P p a b) ps).
    Proof. unfold CorrProofs2.P, CorrProofs2.colof. 
      assert (E : dcells d = concat (map dcells ps)) by (rewrite Hd; reflexivity). rewrite E.
      clear -Hps. induction ps as [|p qs IH]; [reflexivity|]. inversion Hps as [|? ? [Wp Ep] Hq]; subst.
      cbn [map concat]. rewrite !map_app, both_app by now rewrite !map_length. rewrite IH by exact Hq. now rewrite Ep. Qed.

    Lemma sum_parts (g : list (Qc * Qc) -> Qc) a b : (forall x y, g (x ++ y) = (g x + g y)%Qc) -> g [] = Q2Qc 0 ->
      qsum (map (fun p => g (P p a b)) ps) = g (P d a b).
    Proof. intros Ga G0. rewrite P_concat. clear -Ga G0. induction ps as [|p qs IH]; [cbn; now rewrite G0|]. cbn [map concat]. now rewrite Ga, <- IH. Qed.

    Notation tv := (tv leqb cols).
    Notation memb := (memb leqb).
    Definition tot (l : L) (c : acol) : Qc := qsum (map (fun p => tv p l c) ps).

    Lemma memb_mul nan c : In c cols -> memb (Mul, Some c) (acols nan cols) = true.
    Proof. intros H. apply (memb_in leqb leqb_ok). apply in_app_iff. left. now apply (in_map (fun c => (Mul, Some c))). Qed.
    Lemma memb_na k nan c : k <> Mul -> In c cols -> memb (k, Some c) (acols nan cols) = nan.
    Proof. intros Hk H. destruct nan.
      - apply (memb_in leqb leqb_ok). apply in_app_iff. right. now apply na_cols_in.
      - apply (memb_out leqb leqb_ok). unfold acols. rewrite in_app_iff, mul_cols_in. intros [[? _]|E]; [easy|]. apply un_cols_in in E. now destruct E. Qed.
    Lemma memb_un k nan : k <> Mul -> memb (k, None) (acols nan cols) = negb nan.
    Proof. intros Hk. destruct nan; cbn [negb].
      - apply (memb_out leqb leqb_ok). unfold acols. rewrite in_app_iff, mul_cols_in. intros [[? _]|E]; [easy|]. now apply na_cols_un in E.
      - apply (memb_in leqb leqb_ok). apply in_app_iff. right. now apply un_cols_in. Qed.

    Lemma g_M : forall x y, Msum (x ++ y) = (Msum x + Msum y)%Qc. Proof. exact Msum_app. Qed.

    (** the aggregate named [k] *)
    Definition gk (k : akind) (q : list (Qc * Qc)) : Qc := match k with Mul => Q2Qc 0 | Sum => Ssum q | Pow2 => Qsum q | Cnt => qlen q end.
    Lemma gk_app k x y : gk k (x ++ y) = (gk k x + gk k y)%Qc.
    Proof. destruct k; cbn [gk]; [ring|apply Ssum_app|apply Qsum_app|apply qlen_app]. Qed.
    Lemma gk_nil k : gk k [] = Q2Qc 0.
    Proof. destruct k; reflexivity. Qed.
    Lemma val_na k p l c : k <> Mul -> val p l (k, Some c) = gk k (P p c l).
    Proof. destruct k; easy. Qed.
    Lemma val_un k p l : k <> Mul -> val p l (k, None) = gk k (P p l l).
    Proof. destruct k; easy. Qed.

    Lemma tot_mul l c : In c cols -> tot l (Mul, Some c) = Msum (P d l c).
    Proof. intros H. unfold tot. rewrite <- (sum_parts Msum l c Msum_app eq_refl). f_equal. apply map_ext. intros p. unfold CorrProofs3.tv. now rewrite memb_mul. Qed.
    Lemma tot_na k l c : k <> Mul -> In c cols -> forallb (@nanp L) ps = true -> tot l (k, Some c) = gk k (P d c l).
    Proof. intros Hk H F. unfold tot. rewrite <- (sum_parts (gk k) c l (gk_app k) (gk_nil k)). f_equal. apply map_ext_in. intros p Hp. unfold CorrProofs3.tv.
      rewrite memb_na, val_na by auto. rewrite forallb_forall in F. now rewrite (F p Hp). Qed.
    Lemma tot_un k l : k <> Mul -> existsb (@nanp L) ps = false -> tot l (k, None) = gk k (P d l l).
    Proof. intros Hk F. unfold tot. rewrite <- (sum_parts (gk k) l l (gk_app k) (gk_nil k)). f_equal. apply map_ext_in. intros p Hp. unfold CorrProofs3.tv.
      rewrite memb_un, val_un by auto. destruct (nanp p) eqn:E; [|reflexivity]. exfalso. rewrite <- not_true_iff_false in F. apply F. apply existsb_exists. eauto. Qed.
    (** a partition without missing cells *)
    Lemma gk_complete k p a b : In p ps -> nanp p = false -> In a cols -> In b cols -> gk k (P p a b) = gk k (P p a a).
    Proof. intros Hp E Ha Hb. destruct (part_ok p Hp) as [Wp Ep]. rewrite <- Ep in Ha, Hb.
      assert (Np : NoDup (dcols p)) by now rewrite Ep.
      pose proof (nanp_complete leqb leqb_ok Wp Np E a Ha) as Ca. pose proof (nanp_complete leqb leqb_ok Wp Np E b Hb) as Cb.
      assert (El : length (colof p a) = length (colof p b)) by now rewrite !colof_length.
      unfold CorrProofs2.P. destruct k; cbn [gk]; auto.
      - now rewrite !Ssum_complete.
      - now rewrite !Qsum_complete.
      - now rewrite !qlen_complete. Qed.
    Lemma tot_both k l c : k <> Mul -> In l cols -> In c cols -> (tot l (k, Some c) + tot c (k, None))%Qc = gk k (P d c l).
    Proof. intros Hk Hl H. rewrite <- (sum_parts (gk k) c l (gk_app k) (gk_nil k)). unfold tot.
      assert (Q : forall qs, incl qs ps -> (qsum (map (fun p => tv p l (k, Some c)) qs) + qsum (map (fun p => tv p c (k, None)) qs))%Qc
        = qsum (map (fun p => gk k (P p c l)) qs)).
      { induction qs as [|p qs IH]; intros I; [cbn; ring|]. cbn [map]. rewrite !qsum_cons, <- IH by (intros z Hz; apply I; now right).
        assert (Hp : In p ps) by (apply I; now left). unfold CorrProofs3.tv at 1 3. rewrite memb_na, memb_un, val_na, val_un by auto.
        destruct (nanp p) eqn:E; cbn [negb]; [ring|]. rewrite (gk_complete k p c l Hp E H Hl). ring. }
      apply Q. apply incl_refl. Qed.

    Lemma count_kind k : length (filter (of_kind k) (mul_cols cols)) = if akind_eqb k Mul then length cols else 0.
    Proof. unfold mul_cols. clear. induction cols as [|c l IH]; [now destruct k|]. cbn [map filter]. destruct k; cbn in *; auto. Qed.
    Lemma na_sums : length (filter (of_kind Sum) (na_cols cols)) = length cols.
    Proof. unfold na_cols. rewrite !filter_app, !app_length.
      rewrite (filter_all (of_kind Sum)) by (intros x Hx; apply in_map_iff in Hx; destruct Hx as (? & <- & _); reflexivity).
      rewrite !(filter_none (of_kind Sum)) by (intros x Hx; apply in_map_iff in Hx; destruct Hx as (? & <- & _); reflexivity).
      rewrite map_length. cbn. lia. Qed.

    Lemma not_mul_na c : In c (na_cols cols) -> of_kind Mul c = false.
    Proof. destruct c as [k [a|]]; [|intros H; now apply na_cols_un in H]. intros H. apply na_cols_in in H. destruct k; [|reflexivity..]. now destruct H. Qed.
    Lemma not_mul_un c : In c (@un_cols L) -> of_kind Mul c = false.
    Proof. destruct c as [k o]. intros H. apply un_cols_in in H. destruct k; [|reflexivity..]. now destruct H. Qed.

    Notation labels := (sorted_labels leqb leb (concat (map (fun _ : dframe => cols) ps))).
    Lemma labels_in x : In x labels <-> In x cols.
    Proof. rewrite (sorted_in leqb leb leqb_ok). rewrite in_concat. split.
      - intros (m & Hm & Hx). apply in_map_iff in Hm. destruct Hm as (_ & <- & _). exact Hx.
      - intros Hx. destruct ps as [|p qs]; [easy|]. exists cols. split; auto. now left. Qed.
    Lemma labels_cons : exists l0 rest, labels = l0 :: rest /\ In l0 cols.
    Proof. destruct (ne_in Hc) as (c0 & H0). pose proof (proj2 (labels_in c0) H0) as H1. destruct labels as [|l0 rest] eqn:E; [easy|].
      exists l0, rest. split; auto. apply labels_in. rewrite E. now left. Qed.

    Lemma aggs_ok : map (fun p => fst (kernel_map shared p)) ps = map (agg_of leqb cols) ps.
    Proof. apply map_ext_in. intros p Hp. destruct (part_ok p Hp) as [Wp Ep].
      rewrite (kernel_map_ok leqb leqb_ok shared Wp) by now rewrite Ep. now rewrite Ep. Qed.

    Lemma mixed_cases : (existsb (@nanp L) ps = false /\ mixed ps = false /\ ucols cols ps = acols false cols)
      \/ (forallb (@nanp L) ps = true /\ ucols cols ps = acols true cols)
      \/ (existsb (@nanp L) ps = true /\ forallb (@nanp L) ps = false /\ (ucols cols ps = acols true cols ++ un_cols \/ ucols cols ps = acols false cols ++ na_cols cols)).
    Proof. destruct ps as [|p qs]; [easy|]. cbn [existsb forallb mixed ucols].
      destruct (nanp p) eqn:E; cbn [orb andb].
      - destruct (forallb (@nanp L) qs) eqn:Fq.
        + right. left. split; auto. assert (existsb (fun q => negb (Bool.eqb (nanp q) true)) qs = false) as ->.
          { apply not_true_iff_false. intros X. apply existsb_exists in X. destruct X as (q & Hq & X). rewrite forallb_forall in Fq. now rewrite (Fq q Hq) in X. }
          apply app_nil_r.
        + right. right. split; auto. split; auto. left. assert (existsb (fun q => negb (Bool.eqb (nanp q) true)) qs = true) as ->; [|reflexivity].
          clear -Fq. induction qs as [|q qs IH]; [discriminate|]. cbn in *. destruct (nanp q); cbn in *; auto.
      - destruct (existsb (@nanp L) qs) eqn:Fq.
        + right. right. split; auto. split; auto. right. assert (existsb (fun q => negb (Bool.eqb (nanp q) false)) qs = true) as ->; [|reflexivity].
          clear -Fq. induction qs as [|q qs IH]; [discriminate|]. cbn in *. destruct (nanp q); cbn in *; auto.
        + left. split; auto. assert (existsb (fun q => negb (Bool.eqb (nanp q) false)) qs = false) as ->.
          { clear -Fq. induction qs as [|q qs IH]; auto. cbn in *. destruct (nanp q); cbn in *; [discriminate|auto]. }
          split; auto. apply app_nil_r. Qed.

    Lemma na_filter nan : filter na_col (acols nan cols ++ rest cols nan) = na_cols cols.
    Proof. assert (F1 : filter na_col (mul_cols cols) = []). { apply filter_none. intros [k o] H. apply mul_cols_in in H. now destruct H as [-> _]. }
      assert (F2 : filter na_col (@un_cols L) = []) by reflexivity.
      assert (F3 : filter na_col (na_cols cols) = na_cols cols).
      { apply filter_all. intros [k [a|]] H; [|now apply na_cols_un in H]. apply na_cols_in in H. destruct H as [H _]. unfold na_col. destruct k; easy. }
      unfold acols. destruct nan; cbn [rest]; rewrite !filter_app, F1, F2, F3; cbn [app]; now rewrite ?app_nil_r. Qed.

    Variable min_periods : nat.
    Hypothesis Hcase : existsb (@nanp L) ps = false \/ forallb (@nanp L) ps = true \/ ascending leb cols.

    Lemma reduce_ok : kernel_reduce leqb leb root min_periods (concat_outer leqb (map (fun p => fst (kernel_map shared p)) ps))
      = Ok (correlations root min_periods d).
    Proof.
      unfold kernel_reduce. rewrite aggs_ok, (total_ok leqb leb leqb_ok N).
      change (fun (l : L) (c : acol) => Some (qsum (map (fun p => tv p l c) ps))) with (fun (l : L) (c : acol) => Some (tot l c)).
      destruct labels_cons as (l0 & rest0 & El & Hl0).
      destruct mixed_cases as [(F & _ & ->)|[(F & ->)|(F1 & F2 & U)]].
      - (* no missing cells *)
        rewrite (no_combine leqb leqb_ok). 2:{ left. unfold acols. rewrite filter_app, app_length, (count_kind Sum). cbn. lia. }
        cbn [rbind]. eapply (plain_table leqb leqb_ok root root_0 min_periods W N) with (cs := (Sum, None)) (cp := (Pow2, None)) (cc := (Cnt, None)) (l0 := l0);
          [reflexivity|intros c Hx; now apply not_mul_un|exact El|exact Hl0|intros x Hx; now apply labels_in| | | | | | |].
        + unfold acols. rewrite filter_app, app_length, (count_kind Sum). cbn. lia.
        + unfold first_col. cbn [tab dcols]. unfold acols. rewrite filter_app. rewrite filter_none; [reflexivity|]. intros [k o] H. apply mul_cols_in in H. now destruct H as [-> _].
        + unfold first_col. cbn [tab dcols]. unfold acols. rewrite filter_app. rewrite filter_none; [reflexivity|]. intros [k o] H. apply mul_cols_in in H. now destruct H as [-> _].
        + unfold first_col. cbn [tab dcols]. unfold acols. rewrite filter_app. rewrite filter_none; [reflexivity|]. intros [k o] H. apply mul_cols_in in H. now destruct H as [-> _].
        + intros r c Hr Hx. now rewrite tot_mul.
        + intros r Hr. rewrite !tot_un by (auto; discriminate). auto.
        + intros a b Ha Hb.
          assert (Q : forall k a b, In a cols -> In b cols -> gk k (P d a b) = gk k (P d a a)).
          { intros k a' b' Ha' Hb'. rewrite <- !(sum_parts (gk k) _ _ (gk_app k) (gk_nil k)). f_equal. apply map_ext_in. intros p Hp. apply gk_complete; auto.
            destruct (nanp p) eqn:E; auto. exfalso. rewrite <- not_true_iff_false in F. apply F. apply existsb_exists. eauto. }
          repeat split; [apply (Q Sum a b Ha Hb)|apply (Q Pow2 a b Ha Hb)|].
          pose proof (Q Cnt a l0 Ha Hl0) as Q1. pose proof (Q Cnt a b Ha Hb) as Q2. pose proof (Q Cnt l0 a Hl0 Ha) as Q3. cbn [gk] in *.
          rewrite Q2, <- Q1, <- Q3. apply qlen_swap.
      - (* missing cells everywhere *)
        rewrite (no_combine leqb leqb_ok). 2:{ right. intros H. apply (memb_in leqb leqb_ok) in H. rewrite memb_un in H by discriminate. discriminate. }
        cbn [rbind]. destruct (Nat.leb_spec (length cols) 1) as [H1|H1].
        + destruct (one_of Hc H1) as (c0 & E).
          assert (One : forall x, In x cols -> x = c0) by (rewrite E; intros x [<-|[]]; auto).
          eapply (plain_table leqb leqb_ok root root_0 min_periods W N) with (cs := (Sum, Some c0)) (cp := (Pow2, Some c0)) (cc := (Cnt, Some c0)) (l0 := l0);
            [reflexivity|intros c Hx; now apply not_mul_na|exact El|exact Hl0|intros x Hx; now apply labels_in| | | | | | |].
          * unfold acols. rewrite filter_app, app_length, (count_kind Sum), na_sums. cbn. lia.
          * unfold first_col, acols, mul_cols, na_cols. cbn [tab dcols]. rewrite E. reflexivity.
          * unfold first_col, acols, mul_cols, na_cols. cbn [tab dcols]. rewrite E. reflexivity.
          * unfold first_col, acols, mul_cols, na_cols. cbn [tab dcols]. rewrite E. reflexivity.
          * intros r c Hr Hx. now rewrite tot_mul.
          * intros r Hr. rewrite !tot_na by (auto; try discriminate; rewrite E; now left). cbn [gk]. rewrite (One r Hr). auto.
          * intros a b Ha Hb. rewrite (One a Ha), (One b Hb), (One l0 Hl0). auto.
        + apply (nan_table leqb leqb_ok root root_0 min_periods W N) with (rest := na_cols cols); [reflexivity|intros c Hx; now apply not_mul_na| | | |].
          * intros x Hx. now apply labels_in.
          * intros x Hx. apply in_app_iff. now right.
          * unfold acols. rewrite filter_app, app_length, (count_kind Sum), na_sums. cbn. lia.
          * intros r c Hr Hx. rewrite tot_mul by auto. rewrite !tot_na by (auto; discriminate). auto.
      - (* both *)
        assert (A : ascending leb cols). { destruct Hcase as [X|[X|X]]; auto; congruence. }
        rewrite (sorted_copies leqb leqb_ok antisym N A Hne).
        assert (Hu : exists nan, ucols cols ps = acols nan cols ++ rest cols nan) by (destruct U as [-> | ->]; [exists true|exists false]; reflexivity).
        destruct Hu as (nan & Hu). rewrite Hu.
        assert (Iun : incl un_cols (acols nan cols ++ rest cols nan)).
        { intros x Hx. unfold acols. rewrite !in_app_iff. destruct nan; cbn [rest]; auto. }
        assert (Ina : incl (na_cols cols) (acols nan cols ++ rest cols nan)).
        { intros x Hx. unfold acols. rewrite !in_app_iff. destruct nan; cbn [rest]; auto. }
        assert (Lc : 1 <= length cols) by now apply ne_len.
        assert (Hs : 1 < length (filter (of_kind Sum) (acols nan cols ++ rest cols nan))).
        { unfold acols. destruct nan; cbn [rest]; rewrite !filter_app, !app_length, (count_kind Sum), na_sums; cbn; lia. }
        rewrite (combine_ok leqb leqb_ok) by (auto; apply na_filter). cbn [rbind].
        apply (nan_table leqb leqb_ok root root_0 min_periods W N) with (rest := (if nan then na_cols cols else un_cols) ++ rest cols nan).
        + unfold acols. now rewrite app_assoc.
        + intros c Hx. apply in_app_iff in Hx. destruct nan; cbn [rest] in Hx; destruct Hx; auto using not_mul_na, not_mul_un.
        + apply incl_refl.
        + exact Ina.
        + exact Hs.
        + intros r c Hr Hx. cbn [na_col of_kind akind_eqb fst snd negb andb unnamed_col partner nadd nan2].
          unfold na_col; cbn [of_kind akind_eqb fst snd negb andb unnamed_col partner nadd nan2].
          rewrite tot_mul by auto. unfold nadd, nan2. rewrite !tot_both by (auto; discriminate). auto.
    Qed.
  End Whole.
End CorrProofs5.
