(** Proofs for C58: the aggregations of a partition, and their sum over the partitions. *)
From Verif Require Import Base Table GridModel LabModel GroupSpec CorrSpec CorrModel GroupProofs7 CorrProofs.
From Verif Require GroupProofs2.
From Coq Require Import QArith Qcanon Permutation.
Open Scope nat_scope.

Section CorrProofs2.
  Context {L : Type}.
  Variable leqb leb : L -> L -> bool.
  Hypothesis leqb_ok : forall x y, leqb x y = true <-> x = y.
  Variable shared : bool.
  Notation num := (option Qc).
  Notation dframe := (df L L num).
  Notation acol := (akind * option L)%type.
  Notation aframe := (df L acol num).
  Implicit Types (p d : dframe) (cols : list L).

  (** * Columns by label *)
  Fixpoint pos c cols : nat := match cols with [] => 0 | x :: cols => if leqb x c then 0 else Datatypes.S (pos c cols) end.
  Definition colof d c : list num := map (fun row => nth (pos c (dcols d)) row None) (dcells d).

  Lemma leqb_refl c : leqb c c = true.
  Proof. now apply leqb_ok. Qed.
  Lemma leqb_no c a : c <> a -> leqb c a = false.
  Proof. intros N. destruct (leqb c a) eqn:E; auto. apply leqb_ok in E. easy. Qed.

  Lemma map_pos cols : NoDup cols -> map (fun c => pos c cols) cols = seq 0 (length cols).
  Proof. induction 1 as [|c cols Hn _ IH]; auto. cbn [map pos length seq]. rewrite leqb_refl. f_equal.
    rewrite <- seq_shift, <- IH, map_map. apply map_ext_in. intros a Ha. rewrite leqb_no; auto. intros ->. easy. Qed.

  Lemma columns_colof d : wf d -> NoDup (dcols d) -> columns_of d = map (colof d) (dcols d).
  Proof. intros [_ W] N. unfold columns_of, ncols. rewrite (GroupProofs2.transp_col None W), <- (map_pos N), map_map. reflexivity. Qed.

  Lemma colof_length d c : length (colof d c) = length (dcells d).
  Proof. apply map_length. Qed.

  (** * One partition *)
  Definition P p a b := both (colof p a) (colof p b).
  Definition nanp p : bool := existsb (existsb (fun t => t)) (map (map is_nan) (columns_of p)).
  Definition mul_cols cols : list acol := map (fun c => (Mul, Some c)) cols.
  Definition na_cols cols : list acol := map (fun c => (Sum, Some c)) cols ++ map (fun c => (Pow2, Some c)) cols ++ map (fun c => (Cnt, Some c)) cols.
  Definition un_cols : list acol := [(Sum, None); (Pow2, None); (Cnt, None)].
  Definition acols (nan : bool) cols : list acol := mul_cols cols ++ (if nan then na_cols cols else un_cols).
  Definition val p (r : L) (c : acol) : Qc :=
    match c with
    | (Mul, Some c) => Msum (P p r c)
    | (Sum, Some c) => Ssum (P p c r)
    | (Pow2, Some c) => Qsum (P p c r)
    | (Cnt, Some c) => qlen (P p c r)
    | (Sum, None) => Ssum (P p r r)
    | (Pow2, None) => Qsum (P p r r)
    | (Cnt, None) => qlen (P p r r)
    | (Mul, None) => Q2Qc 0
    end.

  Lemma nanp_complete p : wf p -> NoDup (dcols p) -> nanp p = false -> forall c, In c (dcols p) -> complete (colof p c).
  Proof. intros W N E c Hc. unfold nanp in E. rewrite columns_colof in E; auto. unfold complete.
    destruct (existsb is_nan (colof p c)) eqn:F; auto. rewrite <- E. symmetry. apply existsb_exists.
    exists (map is_nan (colof p c)). split; [rewrite map_map; now apply (in_map (fun c => map is_nan (colof p c)))|].
    apply existsb_exists in F. destruct F as (o & Ho & Fo). apply existsb_exists. exists true. split; auto.
    rewrite <- Fo. now apply in_map. Qed.

  Lemma kernel_map_ok p : wf p -> NoDup (dcols p) ->
    fst (kernel_map shared p) = mkdf (dcols p) (acols (nanp p) (dcols p))
      (map (fun r => map (fun c => Some (val p r c)) (acols (nanp p) (dcols p))) (dcols p)).
  Proof.
    intros W N. unfold kernel_map. cbn [fst]. fold (nanp p). pose proof (nanp_complete W N) as C.
    rewrite columns_colof by auto. set (cols := dcols p) in *.
    assert (Ln : forall c, length (colof p c) = nrows p) by (intros; rewrite colof_length; apply (proj1 W)).
    assert (E2 : forall a b, length (colof p a) = length (colof p b)) by (intros; now rewrite !Ln).
    assert (Em : forall a b, In b cols -> Some (dot (map zero_nan (colof p a)) (map zero_nan (colof p b))) = Some (val p a (Mul, Some b))).
    { intros. cbn [val]. now rewrite dot_both. }
    assert (Muls : map (fun x => map (fun y => Some (dot x y)) (map (map zero_nan) (map (colof p) cols))) (map (map zero_nan) (map (colof p) cols))
      = map (fun r => map (fun c => Some (val p r c)) (mul_cols cols)) cols).
    { rewrite !map_map. apply map_ext_in. intros a Ha. unfold mul_cols. rewrite ?map_map. apply map_ext_in. intros b Hb. auto. }
    rewrite Muls. destruct (nanp p).
    - f_equal. unfold nan_aggs. rewrite !map_length. rewrite !map_map.
      rewrite (map_ext_in (fun x => map (fun m => Some (qsum (putmask (map zero_nan (colof p x)) m))) (map (fun x0 => map is_nan (colof p x0)) cols))
                 (fun c => map (fun r => Some (val p r (Sum, Some c))) cols) cols).
      2:{ intros c Hc. rewrite map_map. apply map_ext_in. intros r Hr. rewrite putmask_both; auto. }
      rewrite (map_ext_in (fun x => map (fun m => Some (qsum (square (putmask (map zero_nan (colof p x)) m)))) (map (fun x0 => map is_nan (colof p x0)) cols))
                 (fun c => map (fun r => Some (val p r (Pow2, Some c))) cols) cols).
      2:{ intros c Hc. rewrite map_map. apply map_ext_in. intros r Hr. rewrite putmask_squares; auto. }
      rewrite (map_ext_in (fun x => map (fun m => Some (qz (Z.of_nat (nrows p) - Z.of_nat (length (filter (fun b : bool => b) (map2 orb m (map is_nan (colof p x)))))))) (map (fun x0 => map is_nan (colof p x0)) cols))
                 (fun c => map (fun r => Some (val p r (Cnt, Some c))) cols) cols).
      2:{ intros c Hc. rewrite map_map. apply map_ext_in. intros r Hr. rewrite <- (Ln c). rewrite count_both; auto. }
      rewrite !transp_fun. rewrite !map2_map. apply map_ext. intros r. unfold acols, na_cols. rewrite !map_app, !map_map. now rewrite !app_assoc.
    - f_equal. unfold non_nan_aggs. rewrite !map_map, map2_map. apply map_ext_in. intros r Hr. unfold acols. rewrite map_app. f_equal.
      cbn [un_cols map val]. unfold P. rewrite Ssum_complete, Qsum_complete, qlen_complete by auto. now rewrite Ln.
  Qed.
End CorrProofs2.
