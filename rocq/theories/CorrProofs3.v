(** Proofs for C58: the aggregations summed over the partitions. *)
From Verif Require Import Base Table GridModel LabModel GroupSpec CorrSpec CorrModel GroupProofs7 CorrProofs CorrProofs2.
From Coq Require Import QArith Qcanon Permutation Sorted.
Open Scope nat_scope.

Section Generic.
  Context {X Y : Type}.
  Lemma combine_app (a1 a2 : list X) (b1 b2 : list Y) : length a1 = length b1 -> combine (a1 ++ a2) (b1 ++ b2) = combine a1 b1 ++ combine a2 b2.
  Proof. revert b1. induction a1 as [|x a1 IH]; intros [|y b1] E; try discriminate; auto. cbn. now rewrite IH by now injection E. Qed.
  Lemma filter_all (f : X -> bool) l : (forall x, In x l -> f x = true) -> filter f l = l.
  Proof. induction l as [|x l IH]; intros F; auto. cbn. rewrite (F x) by now left. f_equal. apply IH. intros; apply F; now right. Qed.
  Lemma filter_none (f : X -> bool) l : (forall x, In x l -> f x = false) -> filter f l = [].
  Proof. induction l as [|x l IH]; intros F; auto. cbn. rewrite (F x) by now left. apply IH. intros; apply F; now right. Qed.
End Generic.

Section CorrProofs3.
  Context {L : Type}.
  Variable leqb leb : L -> L -> bool.
  Hypothesis leqb_ok : forall x y, leqb x y = true <-> x = y.
  Notation num := (option Qc).
  Notation dframe := (df L L num).
  Notation acol := (akind * option L)%type.
  Notation aframe := (df L acol num).
  Implicit Types (p d : dframe) (cols : list L).
  Notation acol_eqb := (acol_eqb leqb).
  Notation at_col := (at_col leqb).
  Notation val := (val leqb).

  Lemma acol_eqb_ok (x y : acol) : acol_eqb x y = true <-> x = y.
  Proof. destruct x as [k o], y as [k' o']; unfold CorrModel.acol_eqb; cbn [fst snd]. rewrite andb_true_iff.
    assert (K : akind_eqb k k' = true <-> k = k') by (destruct k, k'; cbn; split; congruence).
    rewrite K. destruct o as [a|], o' as [b|]; rewrite ?leqb_ok; split; try (intros [E F]; congruence); intros E; split; congruence. Qed.
  Lemma acol_refl (x : acol) : acol_eqb x x = true.
  Proof. now apply acol_eqb_ok. Qed.
  Lemma acol_no (x y : acol) : x <> y -> acol_eqb x y = false.
  Proof. intros N. destruct (acol_eqb x y) eqn:E; auto. apply acol_eqb_ok in E. easy. Qed.
  Definition memb (c : acol) (cs : list acol) : bool := existsb (acol_eqb c) cs.
  Lemma memb_in c cs : memb c cs = true <-> In c cs.
  Proof. unfold memb. rewrite existsb_exists. split.
    - intros (x & Hx & E). apply acol_eqb_ok in E. now subst.
    - intros H. exists c. split; auto. apply acol_refl. Qed.
  Lemma memb_out c cs : memb c cs = false <-> ~ In c cs.
  Proof. rewrite <- memb_in. destruct (memb c cs); split; intros H; try easy. Qed.

  Lemma at_col_map (f : acol -> num) c cs : at_col c cs (map f cs) = if memb c cs then f c else None.
  Proof. induction cs as [|x cs IH]; [reflexivity|]. cbn [map CorrModel.at_col]. change (memb c (x :: cs)) with (acol_eqb c x || memb c cs).
    destruct (acol_eqb x c) eqn:E.
    - apply acol_eqb_ok in E. subst. now rewrite acol_refl.
    - rewrite IH. assert (acol_eqb c x = false) as ->; auto. apply acol_no. intros ->. now rewrite acol_refl in E. Qed.

  Definition tab {I C X} (idx : list I) (cs : list C) (f : I -> C -> X) : df I C X := mkdf idx cs (map (fun l => map (f l) cs) idx).

  Lemma row_at_map {X} (f : L -> X) l idx : In l idx -> row_at leqb l idx (map f idx) = Some (f l).
  Proof. induction idx as [|x idx IH]; [easy|]. cbn [map row_at]. intros [->|Hl].
    - now rewrite (leqb_refl leqb leqb_ok).
    - destruct (leqb x l) eqn:E; auto. apply leqb_ok in E. now subst. Qed.
  Lemma loc_tab idx cs (f : L -> acol -> num) l c : In l idx -> In c cs -> loc leqb (tab idx cs f) l c = f l c.
  Proof. intros Hl Hc. unfold loc, tab. cbn [dindex dcells dcols]. rewrite row_at_map by exact Hl. rewrite at_col_map.
    apply memb_in in Hc. now rewrite Hc. Qed.

  (** * Labels *)
  Notation sorted_labels := (sorted_labels leqb leb).
  Notation insert_label := (insert_label leqb leb).
  Lemma insert_in k l x : In x (insert_label k l) <-> x = k \/ In x l.
  Proof. induction l as [|y l IH]; cbn [CorrModel.insert_label]; [cbn; intuition|].
    destruct (leqb k y) eqn:E; [apply leqb_ok in E; subst; cbn; intuition|].
    destruct (leb k y); cbn [In]; [cbn; intuition|]. rewrite IH. cbn. tauto. Qed.
  Lemma sorted_in l x : In x (sorted_labels l) <-> In x l.
  Proof. induction l as [|y l IH]; [reflexivity|]. cbn [CorrModel.sorted_labels fold_right In]. change (fold_right insert_label [] l) with (sorted_labels l).
    rewrite insert_in, IH. intuition. Qed.

  Section Order.
    Hypothesis antisym : forall x y, leb x y = true -> leb y x = true -> x = y.
    Definition ascending (l : list L) : Prop := StronglySorted (fun a b => leb a b = true) l.
    Lemma insert_present k l : NoDup l -> ascending l -> In k l -> insert_label k l = l.
    Proof. induction l as [|x l IH]; [easy|]. intros N S Hk. cbn [CorrModel.insert_label]. inversion S; subst. inversion N; subst.
      destruct (leqb k x) eqn:E; auto. destruct Hk as [->|Hk]; [now rewrite (leqb_refl leqb leqb_ok) in E|].
      destruct (leb k x) eqn:F; [|f_equal; auto]. exfalso. rewrite Forall_forall in H2. pose proof (antisym F (H2 _ Hk)) as ->.
      now rewrite (leqb_refl leqb leqb_ok) in E. Qed.
    Lemma insert_before k l : ~ In k l -> Forall (fun b => leb k b = true) l -> insert_label k l = k :: l.
    Proof. intros N F. destruct l as [|x l]; auto. cbn. inversion F; subst. rewrite H1. now rewrite (leqb_no leqb leqb_ok) by (intros ->; apply N; now left). Qed.
    Lemma sorted_ascending l : NoDup l -> ascending l -> sorted_labels l = l.
    Proof. induction l as [|x l IH]; auto. intros N S. inversion N; inversion S; subst.
      change (sorted_labels (x :: l)) with (insert_label x (sorted_labels l)). rewrite IH by auto. now apply insert_before. Qed.
    Lemma sorted_copies {X} (ps : list X) l : NoDup l -> ascending l -> ps <> [] -> sorted_labels (concat (map (fun _ => l) ps)) = l.
    Proof. intros N S. induction ps as [|p ps IH]; [easy|]. intros _. destruct ps as [|q ps].
      - cbn. rewrite app_nil_r. now apply sorted_ascending.
      - cbn [map concat] in *. unfold CorrModel.sorted_labels in *. rewrite fold_right_app. rewrite IH by discriminate.
        assert (G : forall m, incl m l -> fold_right insert_label l m = l).
        { induction m as [|y m IHm]; auto. intros I. cbn. rewrite IHm by (intros z Hz; apply I; now right). apply insert_present; auto. apply I. now left. }
        apply G. intros z Hz. exact Hz. Qed.
  End Order.

  (** * The aggregations of all partitions *)
  Section Parts.
    Variable cols : list L.
    Hypothesis N : NoDup cols.
    Notation rowf p := (fun r => map (fun c => Some (val p r c)) (acols (nanp p) cols)).
    Definition tv p (l : L) (c : acol) : Qc := if memb c (acols (nanp p) cols) then val p l c else Q2Qc 0.
    Definition agg_of p : aframe := tab cols (acols (nanp p) cols) (fun r c => Some (val p r c)).

    Lemma union_incl ds acc : (forall d : aframe, In d ds -> incl (dcols d) acc) -> union_cols leqb acc ds = acc.
    Proof. revert acc. induction ds as [|d ds IH]; intros acc Hi; auto. cbn [union_cols].
      rewrite filter_none, app_nil_r; [apply IH; intros; apply Hi; now right|].
      intros c Hc. apply negb_false_iff. apply (proj2 (memb_in c acc)). apply (Hi d); [now left|exact Hc]. Qed.

    (** the columns of the concatenation *)
    Definition mixed (ps : list dframe) : bool := match ps with [] => false | p :: ps => existsb (fun q => negb (Bool.eqb (nanp q) (nanp p))) ps end.
    Definition rest (nan : bool) : list acol := if nan then un_cols else na_cols cols.
    Definition ucols (ps : list dframe) : list acol :=
      match ps with [] => [] | p :: _ => acols (nanp p) cols ++ (if mixed ps then rest (nanp p) else []) end.

    Lemma na_cols_in k (c : L) : In (k, Some c) (na_cols cols) <-> k <> Mul /\ In c cols.
    Proof. unfold na_cols. rewrite !in_app_iff, !in_map_iff. split.
      - intros [(x & E & H)|[(x & E & H)|(x & E & H)]]; injection E as <- <-; split; auto; discriminate.
      - intros [E H]. destruct k; [easy| | |]; eauto. Qed.
    Lemma na_cols_un k : ~ In (k, None) (na_cols cols).
    Proof. unfold na_cols. rewrite !in_app_iff, !in_map_iff. intros [(x & E & _)|[(x & E & _)|(x & E & _)]]; discriminate. Qed.
    Lemma mul_cols_in k o : In (k, o) (mul_cols cols) <-> k = Mul /\ exists c, o = Some c /\ In c cols.
    Proof. unfold mul_cols. rewrite in_map_iff. split.
      - intros (c & E & H). injection E as <- <-. eauto.
      - intros (-> & c & -> & H). eauto. Qed.
    Lemma un_cols_in k (o : option L) : In (k, o) un_cols <-> k <> Mul /\ o = None.
    Proof. unfold un_cols. cbn. split; [intros [E|[E|[E|[]]]]; injection E as <- <-; split; auto; discriminate|].
      intros [E ->]. destruct k; intuition. Qed.

    Lemma disjoint_new nan : filter (fun c => negb (existsb (acol_eqb c) (acols nan cols))) (acols (negb nan) cols) = rest nan.
    Proof. unfold acols at 2. rewrite filter_app, filter_none, filter_all; [destruct nan; reflexivity| |].
      - intros [k o] Hc. apply negb_true_iff. apply (proj2 (memb_out _ _)). unfold acols. rewrite in_app_iff, mul_cols_in.
        destruct nan; cbn [negb] in Hc.
        + apply un_cols_in in Hc. destruct Hc as [Hk ->]. intros [[E _]|E]; [easy|]. now apply na_cols_un in E.
        + destruct o as [c|]; [|now apply na_cols_un in Hc]. apply na_cols_in in Hc. intros [[E _]|E]; [easy|]. apply un_cols_in in E. now destruct E.
      - intros c Hc. apply negb_false_iff. apply (proj2 (memb_in _ _)). unfold acols. apply in_app_iff. now left. Qed.

    Lemma acols_incl (nan nan' : bool) : incl (acols nan' cols) (acols nan cols ++ rest nan).
    Proof. intros c Hc. unfold acols in *. rewrite !in_app_iff in *. destruct Hc as [Hc|Hc]; auto. destruct nan, nan'; cbn [rest]; auto. Qed.

    Lemma union_ucols ps : union_cols leqb [] (map agg_of ps) = ucols ps.
    Proof. destruct ps as [|p ps]; auto. cbn [map union_cols]. rewrite filter_all by reflexivity. cbn [app].
      change (dcols (agg_of p)) with (acols (nanp p) cols). cbn [ucols mixed].
      induction ps as [|q ps IH]; [cbn; now rewrite app_nil_r|]. cbn [map union_cols existsb].
      change (dcols (agg_of q)) with (acols (nanp q) cols). destruct (nanp q) eqn:Eq, (nanp p) eqn:Ep; cbn [Bool.eqb negb orb].
      - rewrite filter_none, app_nil_r; [exact IH|]. intros c Hc. apply negb_false_iff. now apply (proj2 (memb_in _ _)).
      - change true with (negb false) at 1. rewrite disjoint_new. apply union_incl. intros d Hd. apply in_map_iff in Hd. destruct Hd as (r & <- & _).
        cbn [dcols agg_of tab]. apply acols_incl.
      - change false with (negb true) at 1. rewrite disjoint_new. apply union_incl. intros d Hd. apply in_map_iff in Hd. destruct Hd as (r & <- & _).
        cbn [dcols agg_of tab]. apply acols_incl.
      - rewrite filter_none, app_nil_r; [exact IH|]. intros c Hc. apply negb_false_iff. now apply (proj2 (memb_in _ _)). Qed.

    Lemma filter_label {X} (g : L -> X) l : In l cols -> filter (fun q => leqb (fst q) l) (combine cols (map g cols)) = [(l, g l)].
    Proof. clear -leqb_ok N. induction cols as [|x m IH]; [easy|]. inversion N; subst. intros [->|Hl]; cbn [map combine filter fst].
      - rewrite (leqb_refl leqb leqb_ok). f_equal. apply filter_none. intros [a v] Ha. cbn. apply in_combine_l in Ha.
        apply (leqb_no leqb leqb_ok). intros ->. easy.
      - rewrite (leqb_no leqb leqb_ok) by (intros ->; easy). now apply IH. Qed.

    Lemma total_ok ps :
      sum_by_label leqb leb (concat_outer leqb (map agg_of ps))
      = tab (sorted_labels (concat (map (fun _ => cols) ps))) (ucols ps) (fun l c => Some (qsum (map (fun p => tv p l c) ps))).
    Proof.
      unfold sum_by_label, concat_outer, tab. cbn [dindex dcols dcells]. rewrite union_ucols. rewrite !map_map.
      change (map (fun x => dindex (agg_of x)) ps) with (map (fun _ : dframe => cols) ps).
      f_equal. apply map_ext_in. intros l Hl. apply (proj1 (sorted_in _ _)) in Hl. apply in_concat in Hl. destruct Hl as (m & Hm & Hl).
      apply in_map_iff in Hm. destruct Hm as (_ & <- & _).
      apply map_ext_in. intros c Hc. apply f_equal.
      assert (F : filter (fun q => leqb (fst q) l) (combine (concat (map (fun _ : dframe => cols) ps))
                   (concat (map (fun x => map (fun row => map (fun c0 => at_col c0 (dcols (agg_of x)) row) (ucols ps)) (dcells (agg_of x))) ps)))
                 = map (fun p => (l, map (fun c0 => at_col c0 (acols (nanp p) cols) (rowf p l)) (ucols ps))) ps).
      { generalize (ucols ps). intros u. clear Hc. induction ps as [|p ps IH]; auto. cbn [map concat].
        rewrite combine_app, filter_app, IH. 2:{ cbn [dcells agg_of tab]. now rewrite !map_length. }
        cbn [dcells agg_of tab dcols]. rewrite map_map. rewrite filter_label by exact Hl. reflexivity. }
      rewrite F, map_map. cbn [snd].
      rewrite (map_ext (fun x => at_col c (ucols ps) _) (fun p => if memb c (acols (nanp p) cols) then Some (val p l c) else None)).
      2:{ intros p. rewrite (at_col_map (fun c0 => at_col c0 (acols (nanp p) cols) (rowf p l))). apply memb_in in Hc. rewrite Hc. apply at_col_map. }
      clear. unfold tv. induction ps as [|p ps IH]; auto. cbn [map].
      rewrite qsum_cons, <- IH.
      destruct (memb c (acols (nanp p) cols)).
      - reflexivity.
      - rewrite Qcplus_0_l. reflexivity.
    Qed.
  End Parts.
End CorrProofs3.
