(** Proofs about cached labels, continued: whole histories.  First the labels alone, in every history. *)
From Verif Require Import Base IndexModel IndexSpec IndexProofs.

Section W.
  Context {X : Type}.
  Variable xeqb : X -> X -> bool.
  Hypothesis xeqb_ok : forall x y, xeqb x y = true <-> x = y.
  Notation state := (@state X).
  Notation fr := (@fr X).
  Notation ixobj := (@ixobj X).

  Definition wobj (n : nat) (LI : nat -> list X) (lab : list X) (f : nat) (x : fr) (o : ixobj) : Prop :=
    iid o < n /\ LI (iid o) = lab
    /\ match ival o with VLabels l => l = lab | VFrame g => g = f /\ fblock x = lab | VNone => False end.
  Definition wgood (s : state) LI lab f (x : fr) : Prop := exists o, nth_error (heap s) (fcache x) = Some o /\ wobj (fresh s) LI lab f x o.
  Definition wothers (P : nat -> Prop) (s : state) LI (t : list (list X)) : Prop :=
    forall f x, P f -> nth_error (frames s) f = Some x -> exists lab, nth_error t f = Some lab /\ wgood s LI lab f x.
  Definition winv (s : state) (t : list (list X)) : Prop := length t = length (frames s) /\ exists LI, wothers (fun _ => True) s LI t.

  Definition grows (s s' : state) : Prop :=
    (forall r o, nth_error (heap s) r = Some o -> nth_error (heap s') r = Some o) /\ fresh s <= fresh s'.
  Lemma grows_snoc s o fs k : fresh s <= k -> grows s (mkst (heap s ++ [o]) fs k).
  Proof. intros H. split; [|exact H]. intros r o' Hr. cbn. rewrite nth_error_app1; [exact Hr|]. apply nth_error_Some. congruence. Qed.
  Lemma grows_frames s fs : grows s (mkst (heap s) fs (fresh s)).
  Proof. split; auto. Qed.

  Lemma wgood_grows s s' LI LI' lab f x : wgood s LI lab f x -> grows s s' -> (forall i, i < fresh s -> LI' i = LI i) -> wgood s' LI' lab f x.
  Proof. intros (o & H1 & H2 & H3 & H4) [G1 G2] HL. exists o. split; [auto|]. split; [lia|]. split; [|exact H4]. now rewrite HL. Qed.

  Definition wargok (s : state) LI (lab : list X) (x : fr) (a : ixarg) : Prop :=
    match a with
    | ANone => fblock x = lab
    | ALabels l => l = lab
    | AObj r => exists o, nth_error (heap s) r = Some o /\ iid o < fresh s /\ LI (iid o) = lab
        /\ match ival o with VLabels l => l = lab | _ => fblock x = lab end
    end.

  Lemma set_cache_wok (s : state) f x a lab LI t :
    nth_error (frames s) f = Some x -> wargok s LI lab x a -> length t = length (frames s) -> wothers (fun g => g <> f) s LI t ->
    exists s' r, set_cache s f a = Ok s' /\ frames s' = upd (frames s) f (mkfr (fblock x) (flens x) r (frl x))
      /\ grows s s' /\ winv s' (replace_at t f lab).
  Proof.
    intros Hf Ha Hl Ho.
    assert (Hlt : f < length (frames s)) by (apply nth_error_Some; congruence).
    assert (Main : forall r s1 LI' o, grows s s1 -> frames s1 = frames s -> (forall i, i < fresh s -> LI' i = LI i) ->
      nth_error (heap s1) r = Some o -> wobj (fresh s1) LI' lab f x o ->
      exists s' r', (do x0 <- frame s1 f; Ok (put_frame s1 f (mkfr (fblock x0) (flens x0) r (frl x0)))) = Ok s'
      /\ frames s' = upd (frames s) f (mkfr (fblock x) (flens x) r' (frl x)) /\ grows s s' /\ winv s' (replace_at t f lab)).
    { intros r s1 LI' o Hg Hfr HL Hr Hok. unfold frame. rewrite Hfr, Hf. cbn [rbind]. eexists _, r. split; [reflexivity|].
      cbn [put_frame frames]. rewrite Hfr. split; [reflexivity|]. split; [exact Hg|].
      split; [cbn [put_frame frames]; rewrite replace_length, upd_length; congruence|].
      exists LI'. intros g y _ Hy. cbn [put_frame frames] in Hy. rewrite Hfr in Hy. rewrite replace_nth.
      destruct (Nat.eqb_spec g f) as [->|Hne].
      - rewrite upd_same in Hy by exact Hlt. injection Hy as <-. exists lab. split.
        + destruct (nth_error t f) eqn:E; [reflexivity|]. apply nth_error_None in E. lia.
        + exists o. split; [exact Hr|]. exact Hok.
      - rewrite upd_other in Hy by exact Hne. destruct (Ho g y Hne Hy) as (lab' & L1 & L2). exists lab'. rewrite L1.
        split; [reflexivity|]. eapply wgood_grows; [exact L2| |exact HL]. destruct Hg as [G1 G2]. split; auto. }
    assert (Fresh : forall v, match v with VLabels l => l = lab | VFrame g => g = f /\ fblock x = lab | VNone => False end ->
       exists s' r, (let '(r, s0) := ix_new s v in do x0 <- frame s0 f; Ok (put_frame s0 f (mkfr (fblock x0) (flens x0) r (frl x0)))) = Ok s'
         /\ frames s' = upd (frames s) f (mkfr (fblock x) (flens x) r (frl x)) /\ grows s s' /\ winv s' (replace_at t f lab)).
    { intros v Hv. cbn [ix_new].
      apply (Main _ _ (fun i => if i =? fresh s then lab else LI i) (mkix v None (fresh s) (S (fresh s)))).
      - apply grows_snoc. lia.
      - reflexivity.
      - intros i Hi. destruct (Nat.eqb_spec i (fresh s)); [lia|reflexivity].
      - cbn. now rewrite nth_error_app2, Nat.sub_diag by lia.
      - split; [cbn; lia|]. split; [cbn; now rewrite Nat.eqb_refl|]. exact Hv. }
    unfold set_cache. destruct a as [|r|l].
    - apply Fresh. auto.
    - destruct Ha as (o & Hr & A1 & A2 & A3). rewrite (@specify_eq X s r f o Hr).
      destruct (ival o) as [l|g|] eqn:Ev; cbn [rbind].
      + apply (Main r s LI o); auto; [split; auto|]. split; [exact A1|]. split; [exact A2|]. now rewrite Ev.
      + apply (Main _ _ LI (mkix (VFrame f) (ilens o) (iid o) (lid o))); auto.
        * apply grows_snoc. lia.
        * cbn. now rewrite nth_error_app2, Nat.sub_diag by lia.
        * split; [cbn; lia|]. split; [exact A2|]. cbn. auto.
      + apply (Main _ _ LI (mkix (VFrame f) (ilens o) (iid o) (lid o))); auto.
        * apply grows_snoc. lia.
        * cbn. now rewrite nth_error_app2, Nat.sub_diag by lia.
        * split; [cbn; lia|]. split; [exact A2|]. cbn. auto.
    - apply Fresh. exact Ha.
  Qed.

  Lemma construct_frame_wok (s : state) t block lens a rl lab LI :
    length t = length (frames s) -> wothers (fun _ => True) s LI t -> wargok s LI lab (mkfr block lens 0 rl) a ->
    exists s' r, construct_frame s block lens a rl = Ok s' /\ winv s' (t ++ [lab]) /\ frames s' = frames s ++ [mkfr block lens r rl] /\ grows s s'.
  Proof.
    intros Hl Ho Ha. unfold construct_frame.
    set (s1 := mkst (heap s) (frames s ++ [mkfr block lens 0 rl]) (fresh s)).
    destruct (@set_cache_wok s1 (length (frames s)) (mkfr block lens 0 rl) a lab LI (t ++ [lab])) as (s' & r & E & Hfr & G & I').
    - cbn. now rewrite nth_error_app2, Nat.sub_diag by lia.
    - exact Ha.
    - cbn. rewrite !app_length. cbn. lia.
    - intros g y Hg Hy. cbn [s1 frames] in Hy.
      assert (Hlt : g < length (frames s)).
      { assert (g < length (frames s ++ [mkfr block lens 0 rl])) by (apply nth_error_Some; congruence). rewrite app_length in H. cbn in H. lia. }
      rewrite nth_error_app1 in Hy by exact Hlt. destruct (Ho g y I Hy) as (lab' & L1 & L2). exists lab'. split; [|exact L2].
      rewrite nth_error_app1 by lia. exact L1.
    - exists s', r. cbn [s1 frames fblock flens frl] in Hfr. rewrite upd_last in Hfr.
      rewrite replace_id in I' by (rewrite nth_error_app2 by lia; now rewrite Hl, Nat.sub_diag). auto.
  Qed.

  Lemma winv_put (s : state) t f x n c : winv s t -> nth_error (frames s) f = Some x ->
    winv (put_frame s f (mkfr (fblock x) n (fcache x) c)) t.
  Proof. intros [Hl (LI & Ho)] Hx. assert (Hlt : f < length (frames s)) by (apply nth_error_Some; congruence).
    split; [cbn; now rewrite upd_length|]. exists LI. intros g y _ Hy. cbn [put_frame frames] in Hy.
    destruct (Nat.eq_dec g f) as [->|Hne].
    - rewrite upd_same in Hy by exact Hlt. injection Hy as <-. exact (Ho f x I Hx).
    - rewrite upd_other in Hy by exact Hne. exact (Ho g y I Hy). Qed.

  Lemma winv_get (s : state) t f x : winv s t -> nth_error (frames s) f = Some x ->
    exists lab n s', nth_error t f = Some lab /\ ix_get s (fcache x) = Ok (lab, n, s') /\ winv s' t /\ frames s' = frames s
      /\ (exists o, nth_error (heap s') (fcache x) = Some o /\ ival o = VLabels lab)
      /\ (forall r o, nth_error (heap s) r = Some o -> exists o', nth_error (heap s') r = Some o' /\ iid o' = iid o
            /\ (forall l, ival o = VLabels l -> o' = o)).
  Proof.
    intros [Hl (LI & Ho)] Hx. destruct (Ho f x I Hx) as (lab & Hlab & o & Hr & O1 & O2 & O3).
    unfold ix_get. unfold obj. rewrite Hr. cbn [rbind]. destruct (ival o) as [l|g|] eqn:Ev.
    - subst l. exists lab, (ilens o), s. split; [exact Hlab|]. split; [reflexivity|]. split; [split; [exact Hl|now exists LI]|].
      split; [reflexivity|]. split; [exists o; auto|]. intros r o' Ho'. exists o'. auto.
    - destruct O3 as [-> Hb]. unfold frame. rewrite Hx. cbn [rbind]. rewrite Hb.
      exists lab, (Some (flens x)), (put_obj s (fcache x) (mkix (VLabels lab) (Some (flens x)) (iid o) (lid o))).
      assert (Hlt : fcache x < length (heap s)) by (apply nth_error_Some; congruence).
      split; [exact Hlab|]. split; [reflexivity|]. split; [|split; [reflexivity|split]].
      + split; [exact Hl|]. exists LI. intros g y _ Hy. cbn [put_obj frames] in Hy.
        destruct (Ho g y I Hy) as (lab' & Hlab' & o' & Hr' & Q1 & Q2 & Q3).
        exists lab'. split; [exact Hlab'|]. unfold wgood. cbn [put_obj heap].
        destruct (Nat.eq_dec (fcache y) (fcache x)) as [Ec|Ec].
        * rewrite Ec, Hr in Hr'. injection Hr' as <-. rewrite Ev in Q3. destruct Q3 as [-> Q3].
          rewrite Hx in Hy. injection Hy as <-. rewrite Hlab in Hlab'. injection Hlab' as <-.
          eexists. split; [apply upd_same; exact Hlt|]. repeat split; auto.
        * exists o'. rewrite upd_other by exact Ec. split; [exact Hr'|]. repeat split; auto.
      + eexists. split; [apply upd_same; exact Hlt|]. auto.
      + intros r o' Ho'. cbn [put_obj heap]. destruct (Nat.eq_dec r (fcache x)) as [->|Ec].
        * eexists. split; [apply upd_same; exact Hlt|]. rewrite Hr in Ho'. injection Ho' as <-. cbn. split; [reflexivity|].
          intros l El. congruence.
        * exists o'. rewrite upd_other by exact Ec. auto.
    - contradiction.
  Qed.

  Lemma ix_equals_wok (s : state) t f g x y lf lg : winv s t ->
    nth_error (frames s) f = Some x -> nth_error (frames s) g = Some y -> nth_error t f = Some lf -> nth_error t g = Some lg ->
    exists s', ix_equals xeqb s (fcache x) (fcache y) = Ok (list_eqb xeqb lf lg, s') /\ winv s' t /\ frames s' = frames s.
  Proof.
    intros Hi Hx Hy Hf Hg. pose proof Hi as [Hl (LI & Ho)].
    destruct (Ho f x I Hx) as (l1 & A1 & o1 & E1 & A2 & A3 & _). destruct (Ho g y I Hy) as (l2 & B1 & o2 & E2 & B2 & B3 & _).
    unfold ix_equals. unfold obj at 1 2. rewrite E1, E2. cbn [rbind]. destruct (Nat.eqb_spec (iid o1) (iid o2)) as [Eq|Ne].
    - exists s. split; [|auto]. do 2 f_equal. assert (lf = lg) as -> by congruence. symmetry. now apply list_eqb_refl.
    - clear A1 A2 A3 B1 B2 B3.
      destruct (winv_get f Hi Hx) as (l1' & n1 & s1 & A1 & A2 & A3 & A4 & A6 & A7). rewrite A2. cbn [rbind].
      rewrite <- A4 in Hy. destruct (winv_get g A3 Hy) as (l2' & n2 & s2 & B1 & B2 & B3 & B4 & B6 & B7). rewrite B2. cbn [rbind].
      destruct A6 as (o & O1 & O2). destruct (B7 _ _ O1) as (o' & O3 & _ & O4). specialize (O4 _ O2). subst o'.
      unfold obj. rewrite O3. cbn [rbind]. rewrite O2. exists s2. split; [|split; [exact B3|congruence]].
      do 3 f_equal; congruence.
  Qed.

  Lemma get_index_wok (s : state) t f x : winv s t -> nth_error (frames s) f = Some x ->
    exists lab s' c, nth_error t f = Some lab /\ get_index s f = Ok (lab, s') /\ winv s' t
      /\ nth_error (frames s') f = Some (mkfr (fblock x) (flens x) (fcache x) c)
      /\ exists o, nth_error (heap s') (fcache x) = Some o /\ ival o = VLabels lab.
  Proof.
    intros Hi Hx. assert (Hlt : f < length (frames s)) by (apply nth_error_Some; congruence).
    destruct (winv_get f Hi Hx) as (lab & n & s1 & H1 & H2 & H3 & H4 & H5 & _). unfold get_index, frame. rewrite Hx. cbn [rbind].
    rewrite H2. cbn [rbind]. exists lab. destruct (frl x) as [k|] eqn:E.
    - exists s1, (frl x). rewrite H4, Hx. repeat split; auto; try apply H3. now destruct x.
    - eexists _, n. split; [exact H1|]. split; [reflexivity|]. split; [apply winv_put; [exact H3|now rewrite H4]|]. cbn [put_frame frames heap].
      rewrite H4, upd_same by exact Hlt. auto.
  Qed.

  Lemma get_lengths_wok (s : state) t f x : winv s t -> nth_error (frames s) f = Some x ->
    exists n s' c, get_lengths s f = Ok (n, s') /\ winv s' t /\ heap s' = heap s /\ fresh s' = fresh s
      /\ frames s' = upd (frames s) f (mkfr (fblock x) (flens x) (fcache x) c).
  Proof. intros Hi Hx. unfold get_lengths, frame. rewrite Hx. cbn [rbind]. destruct (frl x) as [n|] eqn:E.
    - exists n, s, (frl x). split; [reflexivity|]. split; [exact Hi|]. split; [reflexivity|]. split; [reflexivity|].
      apply nth_error_ext. intros j. rewrite upd_nth. destruct (Nat.eqb_spec j f) as [->|]; [|reflexivity].
      rewrite Hx. destruct (f <? length (frames s)); now destruct x.
    - eexists _, _, _. split; [reflexivity|]. split; [now apply winv_put|]. split; [reflexivity|]. split; reflexivity. Qed.

  Lemma compare_wok (s : state) t f g x y : winv s t -> nth_error (frames s) f = Some x -> nth_error (frames s) g = Some y ->
    exists b s', compare_lengths s (fcache x) (fcache y) = Ok (b, s') /\ winv s' t /\ frames s' = frames s.
  Proof.
    intros Hi Hx Hy. pose proof Hi as [Hl (LI & Ho)].
    destruct (Ho f x I Hx) as (l1 & A1 & o1 & E1 & _). destruct (Ho g y I Hy) as (l2 & B1 & o2 & E2 & _).
    unfold compare_lengths. unfold obj at 1 2. rewrite E1, E2. cbn [rbind]. destruct (_ =? _); [exists (Some true), s; auto|].
    destruct (_ && _); [|exists None, s; auto].
    destruct (winv_get f Hi Hx) as (l1' & n1 & s1 & _ & C2 & C3 & C4 & _). rewrite C2. cbn [rbind].
    rewrite <- C4 in Hy. destruct (winv_get g C3 Hy) as (l2' & n2 & s2 & _ & D2 & D3 & D4 & _). rewrite D2. cbn [rbind].
    eexists _, s2. split; [reflexivity|]. split; [exact D3|congruence].
  Qed.

  Lemma axes_identical_wok (s : state) t f g x y lf lg : winv s t ->
    nth_error (frames s) f = Some x -> nth_error (frames s) g = Some y -> nth_error t f = Some lf -> nth_error t g = Some lg ->
    exists b s', axes_identical_cached xeqb s f g = Ok (b && list_eqb xeqb lf lg, s') /\ winv s' t.
  Proof.
    intros Hi Hx Hy Hf Hg. unfold axes_identical_cached. unfold frame at 1 2. rewrite Hx, Hy. cbn [rbind].
    destruct (ix_equals_wok f g Hi Hx Hy Hf Hg) as (s1 & A1 & A2 & A3). rewrite A1. cbn [rbind].
    destruct (list_eqb xeqb lf lg); [|exists false, s1; auto].
    rewrite <- A3 in Hx, Hy. destruct (compare_wok f g A2 Hx Hy) as (b & s2 & B1 & B2 & B3). rewrite B1. cbn [rbind].
    destruct b as [b|]; [exists b, s2; rewrite andb_true_r; auto|]. rewrite <- B3 in Hx, Hy.
    destruct (get_lengths_wok f B2 Hx) as (n1 & s3 & c & C1 & C2 & C3 & C4 & C5). rewrite C1. cbn [rbind].
    assert (Hy' : exists y', nth_error (frames s3) g = Some y').
    { destruct (nth_error (frames s3) g) eqn:E; [eauto|]. apply nth_error_None in E. rewrite C5, upd_length in E.
      assert (g < length (frames s2)) by (apply nth_error_Some; congruence). lia. }
    destruct Hy' as (y' & Hy'). destruct (get_lengths_wok g C2 Hy') as (n2 & s4 & c' & D1 & D2 & _). rewrite D1. cbn [rbind].
    eexists _, s4. rewrite andb_true_r. eauto.
  Qed.

  Lemma set_labels_wok (s s' : state) t cols f l : winv s t -> set_labels xeqb s cols f l = Ok s' -> winv s' (replace_at t f l).
  Proof.
    intros Hi E. unfold set_labels, frame in E. destruct (nth_error (frames s) f) as [x|] eqn:Hx; [|discriminate]. cbn [rbind] in E.
    destruct Hi as [Hl (LI & Ho)]. destruct (Ho f x I Hx) as (lab & Hlab & o & Hr & O1 & O2 & O3).
    unfold obj in E. rewrite Hr in E. cbn [rbind] in E.
    assert (S : set_cache s f (ALabels l) = Ok s' -> winv s' (replace_at t f l)).
    { intros E'. destruct (@set_cache_wok s f x (ALabels l) l LI t) as (s2 & r & E2 & _ & _ & I2); auto.
      - reflexivity.
      - intros g y _ Hy. exact (Ho g y I Hy).
      - rewrite E' in E2. injection E2 as <-. exact I2. }
    destruct (ival o) as [old|h|]; [|now apply S|now apply S].
    destruct (cols && list_eqb xeqb old l) eqn:Ec.
    - injection E as <-. apply andb_true_iff in Ec as [_ Ec]. apply (proj1 (list_eqb_spec xeqb xeqb_ok _ _)) in Ec. subst old l.
      rewrite replace_id by exact Hlab. split; [exact Hl|]. now exists LI.
    - destruct (length old =? length l); [now apply S|discriminate].
  Qed.

  Lemma propagate_wok (s s' : state) t f : winv s t -> propagate s f = Ok s' -> winv s' t.
  Proof.
    intros Hi E. unfold propagate in E. destruct (nth_error (frames s) f) as [x|] eqn:Hx.
    2:{ unfold get_index, frame in E. rewrite Hx in E. discriminate. }
    destruct (get_index_wok f Hi Hx) as (lab & s1 & c & A1 & A2 & A3 & A4 & (o & A6 & A7)). rewrite A2 in E. cbn [rbind] in E.
    unfold frame in E. rewrite A4 in E. cbn [rbind] in E. injection E as <-.
    destruct A3 as [Hl (LI & Ho)]. split; [cbn; now rewrite upd_length|]. exists LI. intros g y _ Hy. cbn [put_frame frames] in Hy.
    destruct (Nat.eq_dec g f) as [->|Hne].
    - rewrite upd_same in Hy by (apply nth_error_Some; congruence). injection Hy as <-.
      destruct (Ho f _ I A4) as (lab' & B1 & o' & B3 & B4). cbn [fcache] in *. exists lab'. split; [exact B1|].
      assert (lab' = lab) as -> by congruence. exists o'. split; [exact B3|].
      rewrite A6 in B3. injection B3 as <-. unfold wobj in *. rewrite A7 in *. exact B4.
    - rewrite upd_other in Hy by exact Hne. exact (Ho g y I Hy).
  Qed.

  Lemma ix_copy_wok (s : state) t r cl o : winv s t -> nth_error (heap s) r = Some o ->
    exists s1, ix_copy s r cl = Ok (length (heap s), s1) /\ frames s1 = frames s /\ grows s s1 /\ winv s1 t
      /\ nth_error (heap s1) (length (heap s)) = Some (mkix (ival o) (if cl then ilens o else None) (iid o) (if cl then lid o else S (fresh s)))
      /\ fresh s1 = S (S (fresh s)).
  Proof. intros [Hl (LI & Ho)] Hr. rewrite (@ix_copy_eq X s r cl o Hr). eexists. split; [reflexivity|]. split; [reflexivity|].
    assert (G : forall p fs, grows s (mkst (heap s ++ [p]) fs (S (S (fresh s))))) by (intros; apply grows_snoc; lia).
    split; [apply G|]. split; [|split; [cbn; now rewrite nth_error_app2, Nat.sub_diag by lia|reflexivity]].
    split; [exact Hl|]. exists LI. intros g y _ Hy. destruct (Ho g y I Hy) as (lab & L1 & L2). exists lab. split; [exact L1|].
    eapply wgood_grows; [exact L2|apply G|auto]. Qed.

  Lemma filter_empties_wok (s s' : state) t f c k e : winv s t -> filter_empties s f c k e = Ok s' -> winv s' t.
  Proof.
    intros Hi E. unfold filter_empties in E. unfold frame at 1 in E. destruct (nth_error (frames s) f) as [x|] eqn:Hx; [|discriminate].
    cbn [rbind] in E. destruct (negb c && _) in E; [now injection E as <-|].
    assert (Hob : exists o, nth_error (heap s) (fcache x) = Some o).
    { destruct Hi as [_ (LI & Ho)]. destruct (Ho f x I Hx) as (? & _ & o & Hr & _). eauto. }
    destruct Hob as (o & Hr). unfold obj in E. rewrite Hr in E. cbn [rbind] in E.
    destruct (_ || e) in E; [now injection E as <-|].
    destruct (get_lengths_wok f Hi Hx) as (n & s1 & c1 & A1 & A2 & A3 & A4 & A5). rewrite A1 in E. cbn [rbind] in E.
    destruct (list_sum n =? 0); [now injection E as <-|].
    assert (Hlt : f < length (frames s)) by (apply nth_error_Some; congruence).
    assert (Hx1 : nth_error (frames s1) f = Some (mkfr (fblock x) (flens x) (fcache x) c1)) by (rewrite A5; now apply upd_same).
    assert (Hlt1 : f < length (frames s1)) by (apply nth_error_Some; congruence).
    unfold frame at 1 in E. rewrite Hx1 in E. cbn [rbind fblock flens fcache frl] in E.
    set (kept := map snd _) in E. set (new := filter _ n) in E.
    pose proof (winv_put f kept c1 A2 Hx1) as I2. cbn [fblock fcache] in I2.
    set (s2 := put_frame s1 f (mkfr (fblock x) kept (fcache x) c1)) in *.
    assert (Hx2 : nth_error (frames s2) f = Some (mkfr (fblock x) kept (fcache x) c1)) by (cbn; now apply upd_same).
    assert (Fin : forall s3 y, winv s3 t -> nth_error (frames s3) f = Some y ->
      (do z <- frame s3 f; Ok (put_frame s3 f (mkfr (fblock z) (flens z) (fcache z) (Some new)))) = Ok s' -> winv s' t).
    { intros s3 y J1 J2 J3. unfold frame in J3. rewrite J2 in J3. cbn [rbind] in J3. injection J3 as <-. now apply winv_put. }
    destruct (list_eqb Nat.eqb new n).
    - cbn [rbind] in E. exact (Fin s2 _ I2 Hx2 E).
    - assert (Hr2 : nth_error (heap s2) (fcache x) = Some o) by (cbn; now rewrite A3).
      destruct (@ix_copy_wok s2 t (fcache x) false o I2 Hr2) as (s3 & B1 & B2 & B3 & B4 & B5 & B6). rewrite B1 in E. cbn [rbind] in E.
      pose proof B4 as [Hl3 (LI3 & Ho3)].
      assert (Hx3 : nth_error (frames s3) f = Some (mkfr (fblock x) kept (fcache x) c1)) by now rewrite B2.
      destruct (Ho3 f _ I Hx3) as (lab & L1 & o3 & L2 & L3 & L4 & L5). cbn [fcache] in L2.
      assert (o3 = o) as -> by (rewrite (proj1 B3 _ _ Hr2) in L2; now injection L2).
      destruct (@set_cache_wok s3 f _ (AObj (length (heap s2))) lab LI3 t Hx3) as (s4 & r & C1 & C2 & _ & C3).
      + cbn [wargok]. eexists. split; [exact B5|]. cbn [iid ival]. split; [lia|]. split; [exact L4|].
        destruct (ival o); [exact L5|cbn; tauto|contradiction].
      + exact Hl3.
      + intros g y _ Hy. exact (Ho3 g y I Hy).
      + rewrite C1 in E. cbn [rbind] in E. rewrite replace_id in C3 by exact L1.
        apply (Fin s4 (mkfr (fblock x) kept r c1) C3); [|exact E]. rewrite C2. apply upd_same. apply nth_error_Some. congruence.
  Qed.

  Lemma winv_nth (s : state) t f x : winv s t -> nth_error (frames s) f = Some x -> exists lab LI o, nth f t [] = lab /\ nth_error t f = Some lab
    /\ wothers (fun _ => True) s LI t /\ nth_error (heap s) (fcache x) = Some o /\ wobj (fresh s) LI lab f x o.
  Proof. intros [_ (LI & Ho)] Hx. destruct (Ho f x I Hx) as (lab & H1 & o & H2 & H3). exists lab, LI, o.
    split; [now apply nth_error_nth|]. auto. Qed.

  Lemma derive_wok (s : state) t f x cl block lens rl : winv s t -> nth_error (frames s) f = Some x -> block = fblock x ->
    exists s1 s2 r q, ix_copy s (fcache x) cl = Ok (r, s1) /\ frames s1 = frames s
      /\ construct_frame s1 block lens (AObj r) rl = Ok s2 /\ winv s2 (t ++ [nth f t []])
      /\ frames s2 = frames s ++ [mkfr block lens q rl] /\ grows s s2.
  Proof.
    intros Hi Hx ->. destruct (winv_nth f Hi Hx) as (lab & LI & o & E1 & E2 & Ho & Hr & W1 & W2 & W3). rewrite E1.
    destruct (@ix_copy_wok s t (fcache x) cl o Hi Hr) as (s1 & B1 & B2 & B3 & B4 & B5 & B6).
    assert (Ho1 : wothers (fun _ => True) s1 LI t).
    { intros g y _ Hy. rewrite B2 in Hy. destruct (Ho g y I Hy) as (l' & L1 & L2). exists l'. split; [exact L1|]. eapply wgood_grows; eauto. }
    destruct (@construct_frame_wok s1 t (fblock x) lens (AObj (length (heap s))) rl lab LI (proj1 B4) Ho1) as (s2 & q & C1 & C2 & C3 & C4).
    - cbn [wargok]. eexists. split; [exact B5|]. cbn [iid ival]. split; [lia|]. split; [exact W2|].
      destruct (ival o); [exact W3|cbn; tauto|contradiction].
    - exists s1, s2, (length (heap s)), q. rewrite B2 in C3. destruct B3 as [Q1 Q2], C4 as [Q3 Q4].
      repeat split; auto; try apply C2. lia.
  Qed.

  Lemma step_wok (s s' : state) t o : winv s t -> step xeqb s o = Ok s' -> winv s' (labels_after t o).
  Proof.
    intros Hi E. destruct o; cbn [step labels_after] in *.
    - destruct Hi as [Hl (LI & Ho)]. destruct (@construct_frame_wok s t l lens (if pass_labels then ALabels l else ANone) (if pass_lengths then Some lens else None) l LI Hl Ho) as (s2 & r & C1 & C2 & _).
      + destruct pass_labels; reflexivity.
      + rewrite C1 in E. now injection E as <-.
    - unfold frame in E. destruct (nth_error (frames s) f) as [x|] eqn:Hx; [|discriminate]. cbn [rbind] in E.
      destruct (@derive_wok s t f x cl (fblock x) (if cl then flens x else lens) (if cl then frl x else None) Hi Hx eq_refl) as (s1 & s2 & r & q & D1 & _ & D2 & D3 & _).
      rewrite D1 in E. cbn [rbind] in E. rewrite D2 in E. now injection E as <-.
    - unfold frame in E. destruct (nth_error (frames s) f) as [x|] eqn:Hx; [|discriminate]. cbn [rbind] in E.
      destruct (winv_nth f Hi Hx) as (lab & LI & o & E1 & E2 & Ho & Hr & W1 & W2 & W3). rewrite E1.
      destruct (@construct_frame_wok s t (fblock x) (flens x) (AObj (fcache x)) (frl x) lab LI (proj1 Hi) Ho) as (s2 & q & C1 & C2 & _).
      + cbn [wargok]. exists o. split; [exact Hr|]. split; [exact W1|]. split; [exact W2|]. destruct (ival o); [exact W3|cbn; tauto|contradiction].
      + rewrite C1 in E. now injection E as <-.
    - eapply set_labels_wok; eauto.
    - unfold frame in E. destruct (nth_error (frames s) f) as [x|] eqn:Hx; [|discriminate]. cbn [rbind] in E.
      destruct (winv_nth f Hi Hx) as (lab & LI & o & E1 & E2 & Ho & Hr & W1 & W2 & W3). rewrite E1.
      unfold obj in E. rewrite Hr in E. cbn [rbind ix_new] in E. unfold put_obj in E. cbn [heap frames fresh] in E. rewrite upd_last in E.
      match type of E with construct_frame ?S1 _ _ _ _ = _ => set (s1 := S1) in * end.
      assert (G : grows s s1) by (apply grows_snoc; lia).
      destruct (@construct_frame_wok s1 t (fblock x) (flens x) (AObj (length (heap s))) (frl x) lab LI) as (s2 & q & C1 & C2 & _).
      + exact (proj1 Hi).
      + intros g y _ Hy. destruct (Ho g y I Hy) as (l' & L1 & L2). exists l'. split; [exact L1|]. eapply wgood_grows; eauto.
      + cbn [wargok]. eexists. split; [cbn; now rewrite nth_error_app2, Nat.sub_diag by lia|]. cbn [iid ival]. split; [cbn; lia|]. split; [exact W2|].
        destruct (ival o); [exact W3|cbn; tauto|contradiction].
      + rewrite C1 in E. now injection E as <-.
    - destruct (nth_error (frames s) f) as [x|] eqn:Hx; [|unfold get_index, frame in E; rewrite Hx in E; discriminate].
      destruct (get_index_wok f Hi Hx) as (lab & s1 & c & _ & A2 & A3 & _). rewrite A2 in E. cbn in E. now injection E as <-.
    - destruct (nth_error (frames s) f) as [x|] eqn:Hx; [|unfold get_lengths, frame in E; rewrite Hx in E; discriminate].
      destruct (get_lengths_wok f Hi Hx) as (n & s1 & c & A2 & A3 & _). rewrite A2 in E. cbn in E. now injection E as <-.
    - destruct (nth_error (frames s) f) as [x|] eqn:Hx; [|unfold axes_identical_cached, frame in E; rewrite Hx in E; discriminate].
      destruct (nth_error (frames s) g) as [y|] eqn:Hy; [|unfold axes_identical_cached, frame in E; rewrite Hx, Hy in E; discriminate].
      destruct (winv_nth f Hi Hx) as (lf & _ & _ & _ & Ef & _). destruct (winv_nth g Hi Hy) as (lg & _ & _ & _ & Eg & _).
      destruct (axes_identical_wok f g Hi Hx Hy Ef Eg) as (b & s1 & A1 & A2). rewrite A1 in E. cbn in E. now injection E as <-.
    - eapply filter_empties_wok; eauto.
    - eapply propagate_wok; eauto.
    - unfold frame in E. destruct (nth_error (frames s) f) as [x|] eqn:Hx; [|discriminate]. cbn [rbind] in E.
      destruct (@derive_wok s t f x false (fblock x) lens None Hi Hx eq_refl) as (s1 & s2 & r & q & D1 & _ & D2 & D3 & D4 & _).
      rewrite D1 in E. cbn [rbind] in E. rewrite D2 in E. cbn [rbind] in E.
      assert (Hlt : f < length (frames s)) by (apply nth_error_Some; congruence).
      assert (Hx2 : nth_error (frames s2) f = Some x) by (rewrite D4, nth_error_app1; auto).
      destruct (@derive_wok s2 (t ++ [nth f t []]) f x true (fblock x) lens None D3 Hx2 eq_refl) as (s3 & s4 & r' & q' & F1 & _ & F2 & F3 & _).
      rewrite F1 in E. cbn [rbind] in E. rewrite F2 in E. injection E as <-.
      rewrite app_nth1 in F3 by (destruct Hi as [-> _]; exact Hlt). now rewrite <- app_assoc in F3.
  Qed.

  Lemma play_wok ops : forall s t, winv s t -> winv (fst (play xeqb (s, t) ops)) (snd (play xeqb (s, t) ops)).
  Proof. induction ops as [|o ops IH]; intros s t Hi; [exact Hi|]. cbn [play fst snd].
    destruct (step xeqb s o) as [s'|] eqn:E; [|now apply IH]. apply IH. eapply step_wok; eauto. Qed.
  Lemma winv_init : winv init [].
  Proof. split; [reflexivity|]. exists (fun _ => []). intros f x _ Hf. now destruct f. Qed.

  (** The lengths too, in histories without the two-axis repartitioning. *)
  Lemma inv_winv (s : state) t : inv s t -> winv s t.
  Proof. intros [Hl (LI & LN & Ho)]. split; [exact Hl|]. exists LI. intros f x _ Hx. destruct (Ho f x I Hx) as (lab & H1 & _ & o & H2 & H3 & _ & H4 & _ & H5 & _).
    exists lab. split; [exact H1|]. exists o. repeat split; auto. Qed.

  Lemma step_ok (s s' : state) t o : inv s t -> repartitions_both o = false -> step xeqb s o = Ok s' -> inv s' (labels_after t o).
  Proof.
    intros Hi Hrep E. destruct o; cbn [step labels_after] in *; try discriminate.
    - destruct Hi as [Hl (LI & LN & Ho)]. destruct (@construct_frame_ok X s t l lens (if pass_labels then ALabels l else ANone) (if pass_lengths then Some lens else None) l LI LN Hl Ho) as (s2 & r & C1 & C2 & _).
      + destruct pass_lengths; auto.
      + destruct pass_labels; reflexivity.
      + rewrite C1 in E. now injection E as <-.
    - unfold frame in E. destruct (nth_error (frames s) f) as [x|] eqn:Hx; [|discriminate]. cbn [rbind] in E.
      destruct Hi as [Hl (LI & LN & Ho)]. destruct (Ho f x I Hx) as (lab & Hlab & Hrl & o & Hr & O1 & O2 & O3 & O4 & O5 & O6).
      rewrite (nth_error_nth _ _ [] Hlab). rewrite (@ix_copy_eq X s (fcache x) cl o Hr) in E. cbn [rbind] in E.
      match type of E with construct_frame ?S1 _ _ _ _ = _ => set (s1 := S1) in * end.
      set (LN' := fun i => if i =? S (fresh s) then (if cl then LN i else lens) else LN i).
      destruct (@construct_frame_ok X s1 t (fblock x) (if cl then flens x else lens) (AObj (length (heap s))) (if cl then frl x else None) lab LI LN' Hl) as (s2 & q & C1 & C2 & _).
      + eapply others_extend; [exact Ho|reflexivity| | | |]; auto.
        * intros q p Hp. cbn. rewrite nth_error_app1; [exact Hp|]. apply nth_error_Some. congruence.
        * cbn. lia.
        * intros i Hi'. unfold LN'. destruct (Nat.eqb_spec i (S (fresh s))); [lia|reflexivity].
      + destruct cl; auto.
      + cbn [argok]. eexists. split; [cbn; now rewrite nth_error_app2, Nat.sub_diag by lia|]. cbn [iid ival ilens lid flens fblock].
        split; [cbn; lia|]. split; [cbn; destruct cl; lia|]. split; [exact O3|]. split; [|split].
        * unfold LN'. destruct cl.
          -- destruct (Nat.eqb_spec (lid o) (S (fresh s))); [lia|exact O4].
          -- now rewrite Nat.eqb_refl.
        * destruct (ival o); [exact O5|cbn; tauto|contradiction].
        * destruct cl; [exact O6|exact I].
      + rewrite C1 in E. now injection E as <-.
    - unfold frame in E. destruct (nth_error (frames s) f) as [x|] eqn:Hx; [|discriminate]. cbn [rbind] in E.
      destruct Hi as [Hl (LI & LN & Ho)]. destruct (Ho f x I Hx) as (lab & Hlab & Hrl & o & Hr & O1 & O2 & O3 & O4 & O5 & O6).
      rewrite (nth_error_nth _ _ [] Hlab).
      destruct (@construct_frame_ok X s t (fblock x) (flens x) (AObj (fcache x)) (frl x) lab LI LN Hl Ho Hrl) as (s2 & q & C1 & C2 & _).
      + cbn [argok]. exists o. split; [exact Hr|]. cbn. repeat split; auto. destruct (ival o); [exact O5|tauto|contradiction].
      + rewrite C1 in E. now injection E as <-.
    - eapply set_labels_ok; eauto.
    - unfold frame in E. destruct (nth_error (frames s) f) as [x|] eqn:Hx; [|discriminate]. cbn [rbind] in E.
      destruct Hi as [Hl (LI & LN & Ho)]. destruct (Ho f x I Hx) as (lab & Hlab & Hrl & o & Hr & O1 & O2 & O3 & O4 & O5 & O6).
      rewrite (nth_error_nth _ _ [] Hlab).
      unfold obj in E. rewrite Hr in E. cbn [rbind ix_new] in E. unfold put_obj in E. cbn [heap frames fresh] in E. rewrite upd_last in E.
      match type of E with construct_frame ?S1 _ _ _ _ = _ => set (s1 := S1) in * end.
      destruct (@construct_frame_ok X s1 t (fblock x) (flens x) (AObj (length (heap s))) (frl x) lab LI LN Hl) as (s2 & q & C1 & C2 & _).
      + eapply others_extend; [exact Ho|reflexivity| | | |]; auto.
        * intros q p Hp. cbn. rewrite nth_error_app1; [exact Hp|]. apply nth_error_Some. congruence.
        * cbn. lia.
      + exact Hrl.
      + cbn [argok]. eexists. split; [cbn; now rewrite nth_error_app2, Nat.sub_diag by lia|]. cbn [iid ival ilens lid flens fblock].
        split; [cbn; lia|]. split; [cbn; lia|]. repeat split; auto. destruct (ival o); [exact O5|tauto|contradiction].
      + rewrite C1 in E. now injection E as <-.
    - destruct (nth_error (frames s) f) as [x|] eqn:Hx; [|unfold get_index, frame in E; rewrite Hx in E; discriminate].
      destruct (get_index_ok f Hi Hx) as (lab & s1 & _ & A2 & A3 & _). rewrite A2 in E. cbn in E. now injection E as <-.
    - destruct (nth_error (frames s) f) as [x|] eqn:Hx; [|unfold get_lengths, frame in E; rewrite Hx in E; discriminate].
      destruct (get_lengths_ok f Hi Hx) as (s1 & A2 & A3 & _). rewrite A2 in E. cbn in E. now injection E as <-.
    - destruct (nth_error (frames s) f) as [x|] eqn:Hx; [|unfold axes_identical_cached, frame in E; rewrite Hx in E; discriminate].
      destruct (nth_error (frames s) g) as [y|] eqn:Hy; [|unfold axes_identical_cached, frame in E; rewrite Hx, Hy in E; discriminate].
      destruct (winv_nth f (inv_winv Hi) Hx) as (lf & _ & _ & _ & Ef & _). destruct (winv_nth g (inv_winv Hi) Hy) as (lg & _ & _ & _ & Eg & _).
      destruct (axes_identical_ok xeqb xeqb_ok f g Hi Hx Hy Ef Eg) as (s1 & A1 & A2). rewrite A1 in E. cbn in E. now injection E as <-.
    - eapply filter_empties_ok; eauto.
    - eapply propagate_ok; eauto.
  Qed.

  Lemma play_ok ops : forall s t, forallb (fun o => negb (repartitions_both o)) ops = true -> inv s t ->
    inv (fst (play xeqb (s, t) ops)) (snd (play xeqb (s, t) ops)).
  Proof. induction ops as [|o ops IH]; intros s t Hn Hi; [exact Hi|]. cbn [forallb] in Hn. apply andb_true_iff in Hn as [Hn1 Hn2].
    cbn [play fst snd]. destruct (step xeqb s o) as [s'|] eqn:E; [|now apply IH]. apply IH; [exact Hn2|]. eapply step_ok; eauto.
    now destruct (repartitions_both o). Qed.
  Lemma inv_init : @inv X init [].
  Proof. split; [reflexivity|]. exists (fun _ => []), (fun _ => []). intros f x _ Hf. now destruct f. Qed.
End W.
