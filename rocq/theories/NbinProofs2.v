(** Binary operations of modin.numpy: the three shapes that work. *)
From Verif Require Import Base Table ChunkModel ChunkSpec ChunkProofs GridModel GridSpec FrameSpec GridProofs GridProofs2 GridProofs3 GridProofs4 GridProofs5 SelSpec SelModel
  SelProofs SelProofs4 SelProofs5 JoinSpec JoinModel JoinProofs2 JoinProofs3 JoinProofs6 ShufProofs4 ArrSpec ArrModel ArrProofs NbinSpec NbinModel NbinProofs RemProofs3.

Lemma stretch_same {X} n (l : list X) : length l = n -> stretch n l = l.
Proof. intros <-. destruct l as [|x [|]]; reflexivity. Qed.
Lemma map2_repeat {X Y Z} (g : X -> Y -> Z) b (l : list X) n : length l = n -> map2 g l (repeat b n) = map (fun a => g a b) l.
Proof. intros <-. induction l as [|x l IH]; [reflexivity|]. unfold map2 in *. cbn. now rewrite IH. Qed.
Lemma repeat_map2 {X Y Z} (g : Y -> X -> Z) b (l : list X) n : length l = n -> map2 g (repeat b n) l = map (fun a => g b a) l.
Proof. intros <-. induction l as [|x l IH]; [reflexivity|]. unfold map2 in *. cbn. now rewrite IH. Qed.
Lemma map2_flip {X Y Z} (g : X -> Y -> Z) a : forall b, map2 (fun y x => g x y) b a = map2 g a b.
Proof. induction a as [|x a IH]; intros [|y b]; try reflexivity. unfold map2 in *. cbn. f_equal. apply IH. Qed.
Lemma agree_one n : agree n 1 = Some n.
Proof. unfold agree. destruct (Nat.eqb_spec n 1) as [->|]; reflexivity. Qed.
Lemma one_agree n : agree 1 n = Some n.
Proof. unfold agree. destruct (Nat.eqb_spec 1 n) as [<-|]; reflexivity. Qed.
Lemma agree_same n : agree n n = Some n.
Proof. unfold agree. now rewrite Nat.eqb_refl. Qed.

Section Spec.
  Context {A B : Type}.
  Definition rect (w : nat) (rows : list (list A)) : Prop := Forall (fun r => length r = w) rows.
  Lemma wf_rect w rows : wf (table_of (Mat w rows)) -> rect w rows.
  Proof. intros (_ & Wd). unfold ncols in Wd. cbn [table_of dcols dcells] in Wd. rewrite seq_length in Wd. exact Wd. Qed.
  Lemma spread_self w rows : rect w rows -> spread (length rows) w (Mat w rows) = rows.
  Proof. intros R. unfold spread. cbn [rows_of]. rewrite stretch_same by now rewrite map_length. rewrite <- (map_id rows) at 2. apply map_ext_in. intros r I.
    apply stretch_same. unfold rect in R. rewrite Forall_forall in R. auto. Qed.
  Lemma same_vecs (op : A -> A -> B) l l' : length l = length l' -> np_binary op (Vec l) (Vec l') = Some (Vec (map2 op l l')).
  Proof. intros E. unfold np_binary. cbn [rows_of width_of length]. rewrite E, !agree_same. unfold spread. cbn [rows_of map]. cbn [stretch repeat].
    rewrite !stretch_same by auto. unfold map2 at 1. cbn [combine map concat fst snd]. now rewrite app_nil_r. Qed.
  Lemma same_mats (op : A -> A -> B) w rows rows' : rect w rows -> rect w rows' -> length rows = length rows' ->
    np_binary op (Mat w rows) (Mat w rows') = Some (Mat w (map2 (map2 op) rows rows')).
  Proof. intros R R' E. unfold np_binary. cbn [rows_of width_of]. rewrite <- E, !agree_same. rewrite spread_self by auto. rewrite E, spread_self by auto. reflexivity. Qed.
  Lemma mat_vec (op : A -> A -> B) w rows l : rect w rows -> length l = w ->
    np_binary op (Mat w rows) (Vec l) = Some (Mat w (map (fun r => map2 op r l) rows)).
  Proof. intros R E. unfold np_binary. cbn [rows_of width_of length]. rewrite agree_one, E, agree_same, spread_self by auto.
    unfold spread. cbn [rows_of map]. cbn [stretch]. rewrite (stretch_same l E). now rewrite map2_repeat. Qed.
  Lemma vec_mat (op : A -> A -> B) w rows l : rect w rows -> length l = w ->
    np_binary op (Vec l) (Mat w rows) = Some (Mat w (map (fun r => map2 op l r) rows)).
  Proof. intros R E. unfold np_binary. cbn [rows_of width_of length]. rewrite one_agree, E, agree_same, spread_self by auto.
    unfold spread. cbn [rows_of map]. cbn [stretch]. rewrite (stretch_same l E). now rewrite repeat_map2. Qed.
  Lemma mat_column (op : A -> A -> B) w rows col : rect w rows -> rect 1 col -> length rows = length col ->
    np_binary op (Mat w rows) (Mat 1 col) = Some (Mat w (map2 (fun r b => match b with [b] => map (fun a => op a b) r | _ => [] end) rows col)).
  Proof. intros R R' E. unfold np_binary. cbn [rows_of width_of length]. rewrite agree_one, <- E, agree_same, spread_self by auto. do 2 f_equal.
    unfold spread. cbn [rows_of]. rewrite stretch_same by now rewrite map_length. clear - R R' E. unfold rect in *. revert col R' E. induction R as [|r rows Hr R IH]; intros [|b col] R' E; try discriminate; [reflexivity|].
    inversion R' as [|? ? Hb R'']; subst. injection E as E. destruct b as [|b [|]]; try discriminate. unfold map2 in *. cbn. f_equal; [exact (@map2_repeat _ _ _ op b r (length r) eq_refl)|]. now apply IH. Qed.
End Spec.

Section Nbin.
  Context {A B D : Type}.
  Variables min_row min_col nparts cpus : nat.
  Variable dynamic : bool.
  Hypothesis mr : 0 < min_row.
  Hypothesis mc : 0 < min_col.
  Hypothesis np : 0 < nparts.
  Variable fill : A.
  Variable join : list (list nat) -> list nat * list (list (option nat)).
  Hypothesis join_good : forall a b, NoDup a -> NoDup b -> joins_well join [a; b].
  Notation pfA := (@pframe nat nat A).
  Notation pfB := (@pframe nat nat B).
  Notation dframe := (df nat nat A).
  Notation qc_binary := (qc_binary min_row min_col nparts fill join).

  Lemma slice_one {X Y} (l : list X) (l' : list Y) a b x : length l = length l' -> slice l a b = [x] -> exists y, slice l' a b = [y].
  Proof. clear. intros E S. pose proof (f_equal (@length X) S) as L. rewrite slice_length in L. rewrite E, <- slice_length in L. destruct (slice l' a b) as [|y [|]]; try discriminate. eauto. Qed.

  Lemma same_ok (op : A -> A -> B) (f other : pfA) d e rl cl rk ck : shows f d rl cl -> shows other e rk ck -> dindex d = dindex e -> dcols d = dcols e ->
    NoDup (dindex d) -> NoDup (dcols d) -> Forall (fun n => 0 < n) rl ->
    exists f' rl' cl', qc_binary op false false f other = Ok f' /\ shows f' (zip_cells op d e) rl' cl'.
  Proof.
    intros (Hf & Nr & Nc & Pi & Pc) (Ho & Mr & Mc & _) Ei Ec N1 N2 P. unfold NbinModel.qc_binary. assert (Wd : wf d) by apply Hf. assert (We : wf e) by apply Ho.
    destruct (@n_ary_ok nat nat A B Nat.eqb Nat.eqb Nat.eqb_eq Nat.eqb_eq fill join join nparts min_row min_col op f other d e rl cl rk ck
      (dindex d) (map Some (seq 0 (length (dindex d)))) (map Some (seq 0 (length (dindex d)))) (dcols d) (map Some (seq 0 (length (dcols d)))) (map Some (seq 0 (length (dcols d)))))
      as (f' & rl' & cl' & E & H & N3 & N4 & Q1 & Q2); auto.
    - rewrite <- Ei. now apply join_good.
    - rewrite <- Ei. apply jio_same.
    - rewrite <- Ec. now apply join_good.
    - rewrite <- Ec. apply jio_same.
    - assert (Z1 : pick_cols fill (dcols d) (map Some (seq 0 (length (dcols d)))) (pick_rows fill (dindex d) (map Some (seq 0 (length (dindex d)))) d) = d)
        by (rewrite (pick_rows_id fill Wd); apply (pick_cols_id fill Wd)).
      assert (Z2 : pick_cols fill (dcols d) (map Some (seq 0 (length (dcols d)))) (pick_rows fill (dindex d) (map Some (seq 0 (length (dindex d)))) e) = e)
        by (rewrite Ei, Ec, (pick_rows_id fill We); apply (pick_cols_id fill We)).
      rewrite Z1, Z2 in H. exists f', rl', cl'. split; [exact E|]. unfold shows. split; [exact H|]. split; [exact N3|]. split; [exact N4|].
      destruct H as (_ & [H1|H1] & [H2|H2]); rewrite ?H1, ?H2 in *; rewrite ?Pi, ?Pc in *; try (exfalso; apply Q1; congruence); try (exfalso; apply Q2; congruence); auto. Qed.

  Lemma row_ok (op : A -> A -> B) (f other : pfA) w rows l rl cl rk ck : shows f (table_of (Mat w rows)) rl cl -> shows other (table_of (Vec l)) rk ck -> length l = w -> 0 < w ->
    exists f' rl' cl', qc_binary op true true f other = Ok f' /\ shows f' (table_of (Mat w (map (fun r => map2 op r l) rows))) rl' cl'.
  Proof.
    intros S1 (Ho & Mr & Mc & Oi & Oc) El W. unfold NbinModel.qc_binary. rewrite Oc. cbn [labels rbind table_of dcols length Nat.eqb negb].
    destruct (@transpose_holds nat A other (table_of (Vec l)) rk ck Ho Mr Mc) as (t & r' & c' & Et & Ht & Nr & Nc & _).
    rewrite Et. cbn [rbind].
    assert (Ed : df_T (table_of (Vec l)) = mkdf [0] (seq 0 (length l)) [l]).
    { unfold df_T. cbn [table_of dindex dcols dcells ncols]. f_equal. unfold ncols. cbn [dcols length].
      rewrite <- transp_one_row. change 1 with (length [l]). apply transp_involutive. repeat constructor. }
    rewrite Ed in Ht.
    assert (Wd : rect w rows) by (apply wf_rect; destruct S1 as ((G & _) & _); apply G).
    apply (apply_cols min_row mc np fill join_good _ S1 Ht); auto; cbn [table_of dcols dindex].
    - now rewrite El.
    - apply seq_NoDup.
    - split; cbn [dindex dcells]; [now rewrite seq_length, map_length|]. unfold ncols. cbn [dcols]. rewrite seq_length. apply Forall_map. eapply Forall_impl; [|exact Wd].
      cbn. intros r Hr. rewrite map2_length. lia.
    - now rewrite map_length.
    - intros ri ci. assert (Es : list_sum c' = 1) by (destruct Ht as ((_ & Sr & _) & _); exact Sr). unfold op_row, block. cbn [dcells dindex dcols]. rewrite Es. cbn [fst snd].
      replace (slice [l] 0 1) with [l] by reflexivity. cbn [map].
      assert (Ecells : map (fun row => map2 op row (slice l (fst ci) (snd ci))) (map (fun r => slice r (fst ci) (snd ci)) (slice rows (fst ri) (snd ri)))
        = map (fun r => slice r (fst ci) (snd ci)) (slice (map (fun r => map2 op r l) rows) (fst ri) (snd ri))).
      { rewrite slice_map, !map_map. apply map_ext. intros r. now rewrite slice_map2. }
      rewrite map_length.
      destruct (slice l (fst ci) (snd ci)) as [|b [|b' t']] eqn:Esl.
      + rewrite El, (proj2 (list_eqb_spec Nat.eqb Nat.eqb_eq _ _) eq_refl). now rewrite Ecells.
      + rewrite <- Ecells. do 2 f_equal. rewrite !map_map. apply map_ext_in. intros r I.
        assert (Lr : length r = length l) by (rewrite El; unfold rect in Wd; rewrite Forall_forall in Wd; apply Wd; now apply in_slice in I).
        destruct (@slice_one A A l r _ _ b (eq_sym Lr) Esl) as (y & Ey). now rewrite Ey.
      + rewrite El, (proj2 (list_eqb_spec Nat.eqb Nat.eqb_eq _ _) eq_refl). now rewrite Ecells. Qed.

  Definition by_column (op : A -> A -> B) (r : list A) (b : list A) : list B := match b with [b] => map (fun a => op a b) r | _ => [] end.
  Lemma column_ok (op : A -> A -> B) (f other : pfA) w rows col rl cl rk ck : shows f (table_of (Mat w rows)) rl cl -> shows other (table_of (Mat 1 col)) rk ck -> length rows = length col ->
    exists f' rl' cl', qc_binary op true false f other = Ok f' /\ shows f' (table_of (Mat w (map2 (by_column op) rows col))) rl' cl'.
  Proof.
    intros S1 (Ho & Mr & Mc & Oi & Oc) El. unfold NbinModel.qc_binary. rewrite Oc. cbn [labels rbind table_of dcols length seq Nat.eqb negb].
    assert (Wd : rect w rows) by (apply wf_rect; destruct S1 as ((G & _) & _); apply G).
    assert (We : rect 1 col) by (apply wf_rect; apply Ho).
    assert (L : forall rows col, rect w rows -> rect 1 col -> length rows = length col -> Forall (fun r => length r = w) (map2 (by_column op) rows col) /\ length (map2 (by_column op) rows col) = length rows).
    { clear. intros rows col R. unfold rect in *. revert col. induction R as [|r rows Hr R IH]; intros [|b col] R' E; try discriminate; [split; [constructor|reflexivity]|].
      inversion R' as [|? ? Hb R'']; subst. assert (E2 : length rows = length col) by (cbn in E; lia). destruct b as [|b [|]]; try discriminate. destruct (IH col R'' E2) as (I1 & I2). unfold map2 in *. cbn. split; [|now rewrite I2]. constructor; [now rewrite map_length|exact I1]. }
    destruct (L rows col Wd We El) as (L1 & L2).
    apply (apply_rows min_col mr np fill join_good _ S1 Ho); auto; cbn [table_of dcols dindex].
    - now rewrite El.
    - apply seq_NoDup.
    - split; cbn [dindex dcells]; [now rewrite seq_length|]. unfold ncols. cbn [dcols]. now rewrite seq_length.
    - now rewrite L2.
    - intros ri ci. assert (Es : list_sum ck = 1) by (destruct Ho as ((_ & _ & Sc & _) & _); exact Sc). unfold op_column, block. cbn [table_of dcells dindex dcols]. rewrite Es, L2. cbn [fst snd].
      assert (Ec : map (fun r => slice r 0 1) (slice col (fst ri) (snd ri)) = slice col (fst ri) (snd ri)).
      { rewrite <- (map_id (slice col (fst ri) (snd ri))) at 2. apply map_ext_in. intros r I. apply slice_full. unfold rect in We. rewrite Forall_forall in We. rewrite We; [lia|]. now apply in_slice in I. }
      rewrite Ec.
      assert (Ecells : map2 (by_column op) (map (fun r => slice r (fst ci) (snd ci)) (slice rows (fst ri) (snd ri))) (slice col (fst ri) (snd ri))
        = map (fun r => slice r (fst ci) (snd ci)) (slice (map2 (by_column op) rows col) (fst ri) (snd ri))).
      { rewrite slice_map2. assert (R' : rect 1 (slice col (fst ri) (snd ri))).
        { unfold rect in *. rewrite Forall_forall in *. intros r I. apply We. now apply in_slice in I. }
        assert (Ls : length (slice rows (fst ri) (snd ri)) = length (slice col (fst ri) (snd ri))) by now rewrite !slice_length, El.
        clear - R' Ls. revert R' Ls. generalize (slice rows (fst ri) (snd ri)) (slice col (fst ri) (snd ri)). intros g h. unfold rect. revert h. induction g as [|r g IH]; intros [|b h] R' E; try discriminate; [reflexivity|].
        inversion R' as [|? ? Hb R'']; subst. injection E as E. destruct b as [|b [|]]; try discriminate. unfold map2 in *. cbn [map]. cbn. f_equal; [|now apply IH]. now rewrite slice_map. }
      assert (G : (if list_eqb Nat.eqb (slice (seq 0 (length rows)) (fst ri) (snd ri)) (slice (seq 0 (length col)) (fst ri) (snd ri)) then
        Ok (mkdf (slice (seq 0 (length rows)) (fst ri) (snd ri)) (slice (seq 0 w) (fst ci) (snd ci)) (map2 (by_column op) (map (fun r => slice r (fst ci) (snd ci)) (slice rows (fst ri) (snd ri))) (slice col (fst ri) (snd ri)))) else Err Unmodelled)
        = Ok (mkdf (slice (seq 0 (length rows)) (fst ri) (snd ri)) (slice (seq 0 w) (fst ci) (snd ci)) (map (fun r => slice r (fst ci) (snd ci)) (slice (map2 (by_column op) rows col) (fst ri) (snd ri))))).
      { rewrite El, (proj2 (list_eqb_spec Nat.eqb Nat.eqb_eq _ _) eq_refl). now rewrite Ecells. }
      destruct (slice col (fst ri) (snd ri)) as [|[|b [|b' t]] [|c t']] eqn:Esl; try exact G.
      rewrite <- Ecells. do 2 f_equal. destruct (@slice_one (list A) (list A) col rows _ _ [b] (eq_sym El) Esl) as (y & Ey). rewrite Ey. reflexivity. Qed.
End Nbin.
