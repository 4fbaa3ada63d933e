(** Proofs about cached labels: equal ids mean equal labels, in every reachable state. *)
From Verif Require Import Base IndexModel IndexSpec.

Section P.
  Context {X : Type}.
  Variable xeqb : X -> X -> bool.
  Hypothesis xeqb_ok : forall x y, xeqb x y = true <-> x = y.
  Notation state := (@state X).
  Notation fr := (@fr X).
  Notation ixobj := (@ixobj X).

  Lemma upd_length {Y} (l : list Y) i y : length (upd l i y) = length l.
  Proof. unfold upd. destruct (nth_error l i) eqn:E; [|reflexivity].
    assert (i < length l) by (apply nth_error_Some; congruence).
    rewrite app_length, firstn_length. cbn [length]. rewrite skipn_length. lia. Qed.
  Lemma upd_nth {Y} (l : list Y) i y j : nth_error (upd l i y) j = if (j =? i) && (i <? length l) then Some y else nth_error l j.
  Proof. unfold upd. destruct (nth_error l i) eqn:E.
    - assert (i < length l) by (apply nth_error_Some; congruence).
      destruct (Nat.ltb_spec i (length l)); [|lia]. rewrite andb_true_r.
      destruct (Nat.eqb_spec j i) as [->|Hne].
      + rewrite nth_error_app2; rewrite firstn_length; [|lia]. now replace (i - Nat.min i (length l)) with 0 by lia.
      + destruct (le_lt_dec i j).
        * rewrite nth_error_app2; rewrite firstn_length; [|lia]. replace (j - Nat.min i (length l)) with (S (j - S i)) by lia. cbn.
          rewrite <- (firstn_skipn (S i) l) at 2. rewrite nth_error_app2; rewrite firstn_length; [|lia]. f_equal. lia.
        * rewrite nth_error_app1; [|rewrite firstn_length; lia].
          rewrite <- (firstn_skipn i l) at 2. rewrite nth_error_app1; [reflexivity|rewrite firstn_length; lia].
    - apply nth_error_None in E. destruct (Nat.ltb_spec i (length l)); [lia|]. now rewrite andb_false_r. Qed.
  Lemma upd_same {Y} (l : list Y) i y : i < length l -> nth_error (upd l i y) i = Some y.
  Proof. intros Hi. rewrite upd_nth, Nat.eqb_refl. destruct (Nat.ltb_spec i (length l)); [reflexivity|lia]. Qed.
  Lemma upd_other {Y} (l : list Y) i y j : j <> i -> nth_error (upd l i y) j = nth_error l j.
  Proof. intros Hi. rewrite upd_nth. destruct (Nat.eqb_spec j i); [contradiction|reflexivity]. Qed.
  Lemma upd_last {Y} (l : list Y) a y : upd (l ++ [a]) (length l) y = l ++ [y].
  Proof. unfold upd. rewrite nth_error_app2, Nat.sub_diag by lia. cbn [nth_error].
    rewrite firstn_app, firstn_all, Nat.sub_diag. cbn [firstn]. rewrite app_nil_r. f_equal.
    rewrite skipn_all2; [reflexivity|]. rewrite app_length. cbn. lia. Qed.

  Lemma replace_length {Y} (l : list Y) i y : length (replace_at l i y) = length l.
  Proof. unfold replace_at. rewrite map_length, combine_length, seq_length. lia. Qed.
  Lemma combine_seq_nth {Y} (l : list Y) a j : nth_error (combine (seq a (length l)) l) j = option_map (fun y => (a + j, y)) (nth_error l j).
  Proof. revert a j. induction l as [|z l IH]; intros a [|j]; cbn; try reflexivity.
    - now rewrite Nat.add_0_r.
    - rewrite IH. destruct (nth_error l j); cbn; [|reflexivity]. do 2 f_equal. lia. Qed.
  Lemma replace_nth {Y} (l : list Y) i y j : nth_error (replace_at l i y) j = option_map (fun z => if j =? i then y else z) (nth_error l j).
  Proof. unfold replace_at. rewrite nth_error_map, combine_seq_nth. destruct (nth_error l j); reflexivity. Qed.

  (** The object [o] is right for a frame [x] with number [f] and labels [lab]. *)
  Definition objok (n : nat) (LI : nat -> list X) (LN : nat -> list nat) (lab : list X) (f : nat) (x : fr) (o : ixobj) : Prop :=
    iid o < n /\ lid o < n /\ LI (iid o) = lab /\ LN (lid o) = flens x
    /\ match ival o with VLabels l => l = lab | VFrame g => g = f /\ fblock x = lab | VNone => False end
    /\ match ilens o with Some k => k = flens x | None => True end.
  Definition good (s : state) LI LN (lab : list X) (f : nat) (x : fr) : Prop :=
    match frl x with Some k => k = flens x | None => True end
    /\ exists o, nth_error (heap s) (fcache x) = Some o /\ objok (fresh s) LI LN lab f x o.
  Definition others_ok (P : nat -> Prop) (s : state) LI LN (t : list (list X)) : Prop :=
    forall f x, P f -> nth_error (frames s) f = Some x -> exists lab, nth_error t f = Some lab /\ good s LI LN lab f x.
  Definition inv (s : state) (t : list (list X)) : Prop :=
    length t = length (frames s) /\ exists LI LN, others_ok (fun _ => True) s LI LN t.

  (** Extending heap and ids keeps frames that were right. *)
  Lemma good_extend (s s' : state) LI LN LI' LN' lab f x :
    good s LI LN lab f x -> (forall r o, nth_error (heap s) r = Some o -> nth_error (heap s') r = Some o) ->
    fresh s <= fresh s' -> (forall i, i < fresh s -> LI' i = LI i) -> (forall i, i < fresh s -> LN' i = LN i) ->
    good s' LI' LN' lab f x.
  Proof. intros [H1 (o & Ho & O1 & O2 & O3 & O4 & O5 & O6)] Hh Hf HL HN. split; [exact H1|].
    exists o. split; [auto|]. repeat split; auto; try lia.
    - now rewrite HL.
    - now rewrite HN. Qed.

  Lemma ix_copy_eq (s : state) r cl o : nth_error (heap s) r = Some o ->
    ix_copy s r cl = Ok (length (heap s),
      mkst (heap s ++ [mkix (ival o) (if cl then ilens o else None) (iid o) (if cl then lid o else S (fresh s))])
           (frames s) (S (S (fresh s)))).
  Proof. intros H. unfold ix_copy, obj. rewrite H. cbn [rbind ix_new heap].
    rewrite nth_error_app2, Nat.sub_diag by lia. cbn [nth_error rbind]. unfold put_obj. cbn [heap frames fresh].
    rewrite upd_last. now destruct cl. Qed.

  Lemma specify_eq (s : state) r f o : nth_error (heap s) r = Some o ->
    specify s r f = match ival o with
      | VLabels _ => Ok (r, s)
      | _ => Ok (length (heap s), mkst (heap s ++ [mkix (VFrame f) (ilens o) (iid o) (lid o)]) (frames s) (S (S (fresh s))))
      end.
  Proof. intros H. unfold specify. unfold obj at 1. rewrite H. cbn [rbind]. rewrite (@ix_copy_eq s r true o H). cbn [rbind].
    unfold obj. cbn [heap]. rewrite nth_error_app2, Nat.sub_diag by lia. cbn [nth_error rbind]. unfold put_obj. cbn [heap frames fresh ilens iid lid].
    rewrite upd_last. now destruct (ival o). Qed.

  (** The donor object handed to [set_cache] fits the frame. *)
  Definition argok (s : state) LI LN (lab : list X) (x : fr) (a : ixarg) : Prop :=
    match a with
    | ANone => fblock x = lab
    | ALabels l => l = lab
    | AObj r => exists o, nth_error (heap s) r = Some o
        /\ iid o < fresh s /\ lid o < fresh s /\ LI (iid o) = lab /\ LN (lid o) = flens x
        /\ match ival o with VLabels l => l = lab | _ => fblock x = lab end
        /\ match ilens o with Some k => k = flens x | None => True end
    end.

  Lemma ix_new_frames s (v : @value X) : frames (snd (ix_new s v)) = frames s.
  Proof. reflexivity. Qed.

  Lemma set_cache_ok (s : state) f x a lab LI LN t :
    nth_error (frames s) f = Some x -> match frl x with Some k => k = flens x | None => True end ->
    argok s LI LN lab x a -> others_ok (fun g => g <> f) s LI LN t ->
    exists s' r LI' LN', set_cache s f a = Ok s' /\ frames s' = upd (frames s) f (mkfr (fblock x) (flens x) r (frl x))
      /\ fresh s <= fresh s' /\ (forall i, i < fresh s -> LI' i = LI i) /\ (forall i, i < fresh s -> LN' i = LN i)
      /\ good s' LI' LN' lab f (mkfr (fblock x) (flens x) r (frl x))
      /\ others_ok (fun g => g <> f) s' LI' LN' t.
  Proof.
    intros Hf Hrl Ha Ho.
    assert (Hlt : f < length (frames s)) by (apply nth_error_Some; congruence).
    assert (Main : forall r s1 LI' LN' o,
      (forall q o, nth_error (heap s) q = Some o -> nth_error (heap s1) q = Some o) -> frames s1 = frames s ->
      fresh s <= fresh s1 -> (forall i, i < fresh s -> LI' i = LI i) -> (forall i, i < fresh s -> LN' i = LN i) ->
      nth_error (heap s1) r = Some o -> objok (fresh s1) LI' LN' lab f x o ->
      (do x0 <- frame s1 f; Ok (put_frame s1 f (mkfr (fblock x0) (flens x0) r (frl x0)))) =
        Ok (mkst (heap s1) (upd (frames s) f (mkfr (fblock x) (flens x) r (frl x))) (fresh s1))
      /\ good (mkst (heap s1) (upd (frames s) f (mkfr (fblock x) (flens x) r (frl x))) (fresh s1)) LI' LN' lab f (mkfr (fblock x) (flens x) r (frl x))
      /\ others_ok (fun g => g <> f) (mkst (heap s1) (upd (frames s) f (mkfr (fblock x) (flens x) r (frl x))) (fresh s1)) LI' LN' t).
    { intros r s1 LI' LN' o Hh Hfr Hfs HL HN Hr Hok. split; [|split].
      - unfold frame. rewrite Hfr, Hf. cbn [rbind]. unfold put_frame. now rewrite Hfr.
      - split; [exact Hrl|]. exists o. split; [exact Hr|]. exact Hok.
      - intros g y Hg Hy. cbn [frames] in Hy. rewrite upd_other in Hy by exact Hg.
        destruct (Ho g y Hg Hy) as (lab' & Hl & G). exists lab'. split; [exact Hl|].
        eapply good_extend; [exact G| | | |]; cbn [heap fresh]; auto. }
    assert (Hext : forall o q o', nth_error (heap s) q = Some o' -> nth_error (heap s ++ [o]) q = Some o').
    { intros o q o' Hq. rewrite nth_error_app1; [exact Hq|]. apply nth_error_Some. congruence. }
    assert (Fresh : forall v, match v with VLabels l => l = lab | VFrame g => g = f /\ fblock x = lab | VNone => False end ->
       exists s' r LI' LN', (let '(r, s0) := ix_new s v in do x0 <- frame s0 f; Ok (put_frame s0 f (mkfr (fblock x0) (flens x0) r (frl x0)))) = Ok s'
         /\ frames s' = upd (frames s) f (mkfr (fblock x) (flens x) r (frl x))
         /\ fresh s <= fresh s' /\ (forall i, i < fresh s -> LI' i = LI i) /\ (forall i, i < fresh s -> LN' i = LN i)
         /\ good s' LI' LN' lab f (mkfr (fblock x) (flens x) r (frl x)) /\ others_ok (fun g => g <> f) s' LI' LN' t).
    { intros v Hv. cbn [ix_new].
      set (s1 := mkst (heap s ++ [mkix v None (fresh s) (S (fresh s))]) (frames s) (S (S (fresh s)))).
      destruct (Main (length (heap s)) s1 (fun i => if i =? fresh s then lab else LI i)
         (fun i => if i =? S (fresh s) then flens x else LN i) (mkix v None (fresh s) (S (fresh s)))) as (M1 & M2 & M3).
      - cbn. apply Hext.
      - reflexivity.
      - cbn. lia.
      - intros i Hi. destruct (Nat.eqb_spec i (fresh s)); [lia|reflexivity].
      - intros i Hi. destruct (Nat.eqb_spec i (S (fresh s))); [lia|reflexivity].
      - cbn. now rewrite nth_error_app2, Nat.sub_diag by lia.
      - unfold s1. repeat split; cbn [iid lid ival ilens fresh]; try lia; auto.
        + now rewrite Nat.eqb_refl.
        + now rewrite Nat.eqb_refl.
      - eexists _, _, _, _. split; [exact M1|]. split; [reflexivity|]. split; [cbn; lia|].
        split; [|split; [|split; [exact M2|exact M3]]].
        + intros i Hi. cbn. destruct (Nat.eqb_spec i (fresh s)); [lia|reflexivity].
        + intros i Hi. cbn. destruct (Nat.eqb_spec i (S (fresh s))); [lia|reflexivity]. }
    unfold set_cache. destruct a as [|r|l].
    - cbn [rbind]. apply Fresh. split; [reflexivity|exact Ha].
    - destruct Ha as (o & Hr & A1 & A2 & A3 & A4 & A5 & A6). rewrite (@specify_eq s r f o Hr).
      destruct (ival o) as [l|g|] eqn:Ev.
      + cbn [rbind]. destruct (Main r s LI LN o) as (M1 & M2 & M3); auto.
        { repeat split; auto. now rewrite Ev. }
        eexists _, _, _, _. split; [exact M1|]. split; [reflexivity|]. split; [cbn; lia|]. auto.
      + cbn [rbind]. destruct (Main (length (heap s)) (mkst (heap s ++ [mkix (VFrame f) (ilens o) (iid o) (lid o)]) (frames s) (S (S (fresh s)))) LI LN (mkix (VFrame f) (ilens o) (iid o) (lid o))) as (M1 & M2 & M3); cbn; auto.
        { now rewrite nth_error_app2, Nat.sub_diag by lia. }
        { repeat split; cbn; auto. }
        eexists _, _, _, _. split; [exact M1|]. split; [reflexivity|]. split; [cbn; lia|]. auto.
      + cbn [rbind]. destruct (Main (length (heap s)) (mkst (heap s ++ [mkix (VFrame f) (ilens o) (iid o) (lid o)]) (frames s) (S (S (fresh s)))) LI LN (mkix (VFrame f) (ilens o) (iid o) (lid o))) as (M1 & M2 & M3); cbn; auto.
        { now rewrite nth_error_app2, Nat.sub_diag by lia. }
        { repeat split; cbn; auto. }
        eexists _, _, _, _. split; [exact M1|]. split; [reflexivity|]. split; [cbn; lia|]. auto.
    - cbn [rbind]. apply Fresh. exact Ha.
  Qed.

  (** Building a frame. *)
  Lemma construct_frame_ok (s : state) t block lens a rl lab LI LN :
    length t = length (frames s) -> others_ok (fun _ => True) s LI LN t ->
    match rl with Some k => k = lens | None => True end ->
    argok s LI LN lab (mkfr block lens 0 rl) a ->
    exists s' r, construct_frame s block lens a rl = Ok s' /\ inv s' (t ++ [lab])
      /\ frames s' = frames s ++ [mkfr block lens r rl].
  Proof.
    intros Hl Ho Hrl Ha. unfold construct_frame.
    set (s1 := mkst (heap s) (frames s ++ [mkfr block lens 0 rl]) (fresh s)).
    destruct (@set_cache_ok s1 (length (frames s)) (mkfr block lens 0 rl) a lab LI LN (t ++ [lab])) as (s' & r & LI' & LN' & E & Hfr & Hfs & HL & HN & G & O).
    - cbn. now rewrite nth_error_app2, Nat.sub_diag by lia.
    - exact Hrl.
    - exact Ha.
    - intros g y Hg Hy. cbn [s1 frames] in Hy.
      assert (Hlt : g < length (frames s)).
      { assert (g < length (frames s ++ [mkfr block lens 0 rl])) by (apply nth_error_Some; congruence). rewrite app_length in H. cbn in H. lia. }
      rewrite nth_error_app1 in Hy by exact Hlt. destruct (Ho g y I Hy) as (lab' & L1 & L2). exists lab'. split; [|exact L2].
      rewrite nth_error_app1 by lia. exact L1.
    - exists s', r. split; [exact E|]. cbn [s1 frames fblock flens frl] in Hfr. rewrite upd_last in Hfr. split; [|exact Hfr].
      split; [rewrite app_length, Hfr, app_length; cbn; lia|]. exists LI', LN'. intros g y _ Hy.
      destruct (Nat.eq_dec g (length (frames s))) as [->|Hne].
      + exists lab. rewrite nth_error_app2, Hl, Nat.sub_diag by lia. split; [reflexivity|].
        rewrite Hfr, nth_error_app2, Nat.sub_diag in Hy by lia. injection Hy as <-. exact G.
      + exact (O g y Hne Hy).
  Qed.

  Lemma others_extend P (s s' : state) LI LN LI' LN' t : others_ok P s LI LN t -> frames s' = frames s ->
    (forall r o, nth_error (heap s) r = Some o -> nth_error (heap s') r = Some o) ->
    fresh s <= fresh s' -> (forall i, i < fresh s -> LI' i = LI i) -> (forall i, i < fresh s -> LN' i = LN i) ->
    others_ok P s' LI' LN' t.
  Proof. intros Ho Hfr Hh Hf HL HN f x Hp Hx. rewrite Hfr in Hx. destruct (Ho f x Hp Hx) as (lab & L1 & L2). exists lab. split; [exact L1|].
    eapply good_extend; eauto. Qed.

  (** Changing the object of a frame (materialising it), and the frame's cached lengths. *)
  Lemma inv_get (s : state) t f x : inv s t -> nth_error (frames s) f = Some x ->
    exists lab n s', nth_error t f = Some lab /\ ix_get s (fcache x) = Ok (lab, n, s') /\ inv s' t /\ frames s' = frames s
      /\ (n = None \/ n = Some (flens x))
      /\ (exists o, nth_error (heap s') (fcache x) = Some o /\ ival o = VLabels lab /\ ilens o = n)
      /\ (forall r o, nth_error (heap s) r = Some o -> exists o', nth_error (heap s') r = Some o' /\ iid o' = iid o /\ lid o' = lid o
            /\ (forall l, ival o = VLabels l -> o' = o))
      /\ (forall o, nth_error (heap s) (fcache x) = Some o -> can_extract o = true -> n = Some (flens x)).
  Proof.
    intros [Hl (LI & LN & Ho)] Hx. destruct (Ho f x I Hx) as (lab & Hlab & Hrl & o & Hr & O1 & O2 & O3 & O4 & O5 & O6).
    unfold ix_get. unfold obj. rewrite Hr. cbn [rbind]. destruct (ival o) as [l|g|] eqn:Ev.
    - subst l. exists lab, (ilens o), s. split; [exact Hlab|]. split; [reflexivity|]. split; [split; [exact Hl|now exists LI, LN]|].
      split; [reflexivity|]. split; [destruct (ilens o); [subst; auto|auto]|]. split; [exists o; auto|]. split.
      + intros r o' Ho'. exists o'. auto.
      + intros o' Ho' Hc. assert (o' = o) as -> by congruence. unfold can_extract in Hc. rewrite Ev in Hc.
        destruct (ilens o); [now subst|discriminate].
    - destruct O5 as [-> Hb]. unfold frame. rewrite Hx. cbn [rbind]. rewrite Hb.
      exists lab, (Some (flens x)), (put_obj s (fcache x) (mkix (VLabels lab) (Some (flens x)) (iid o) (lid o))).
      assert (Hlt : fcache x < length (heap s)) by (apply nth_error_Some; congruence).
      split; [exact Hlab|]. split; [reflexivity|]. split; [|split; [reflexivity|split; [now right|split; [|split]]]].
      + split; [exact Hl|]. exists LI, LN. intros g y _ Hy. cbn [put_obj frames] in Hy.
        destruct (Ho g y I Hy) as (lab' & Hlab' & Hrl' & o' & Hr' & Q1 & Q2 & Q3 & Q4 & Q5 & Q6).
        exists lab'. split; [exact Hlab'|]. split; [exact Hrl'|]. cbn [put_obj heap].
        destruct (Nat.eq_dec (fcache y) (fcache x)) as [Ec|Ec].
        * rewrite Ec, Hr in Hr'. injection Hr' as <-. rewrite Ev in Q5. destruct Q5 as [-> Q5].
          rewrite Hx in Hy. injection Hy as <-. rewrite Hlab in Hlab'. injection Hlab' as <-.
          eexists. split; [apply upd_same; exact Hlt|]. repeat split; auto.
        * exists o'. rewrite upd_other by exact Ec. split; [exact Hr'|]. repeat split; auto.
      + eexists. split; [apply upd_same; exact Hlt|]. auto.
      + intros r o' Ho'. cbn [put_obj heap]. destruct (Nat.eq_dec r (fcache x)) as [->|Ec].
        * eexists. split; [apply upd_same; exact Hlt|]. rewrite Hr in Ho'. injection Ho' as <-. cbn. repeat split.
          intros l El. congruence.
        * exists o'. rewrite upd_other by exact Ec. auto.
      + auto.
    - contradiction.
  Qed.

  Lemma inv_put_rl (s : state) t f x : inv s t -> nth_error (frames s) f = Some x ->
    inv (put_frame s f (mkfr (fblock x) (flens x) (fcache x) (Some (flens x)))) t.
  Proof. intros [Hl (LI & LN & Ho)] Hx. assert (Hlt : f < length (frames s)) by (apply nth_error_Some; congruence).
    split; [cbn; now rewrite upd_length|]. exists LI, LN. intros g y _ Hy. cbn [put_frame frames] in Hy.
    destruct (Nat.eq_dec g f) as [->|Hne].
    - rewrite upd_same in Hy by exact Hlt. injection Hy as <-. destruct (Ho f x I Hx) as (lab & H1 & H2 & o & H3 & H4).
      exists lab. split; [exact H1|]. split; [reflexivity|]. exists o. auto.
    - rewrite upd_other in Hy by exact Hne. exact (Ho g y I Hy). Qed.

  Lemma get_lengths_ok (s : state) t f x : inv s t -> nth_error (frames s) f = Some x ->
    exists s', get_lengths s f = Ok (flens x, s') /\ inv s' t /\ heap s' = heap s /\ fresh s' = fresh s
      /\ frames s' = upd (frames s) f (mkfr (fblock x) (flens x) (fcache x) (Some (flens x))).
  Proof. intros Hi Hx. unfold get_lengths, frame. rewrite Hx. cbn [rbind]. destruct (frl x) as [n|] eqn:E.
    - destruct (Hi) as [Hl (LI & LN & Ho)]. destruct (Ho f x I Hx) as (lab & H1 & H2 & _). rewrite E in H2. subst n.
      exists s. do 4 (split; [auto|]). destruct x as [b l c r]; cbn in *. subst r.
      apply nth_error_ext. intros j. rewrite upd_nth. destruct (Nat.eqb_spec j f) as [->|]; [|reflexivity].
      rewrite Hx. now destruct (f <? length (frames s)).
    - eexists. split; [reflexivity|]. split; [now apply inv_put_rl|]. auto. Qed.

  Lemma get_index_ok (s : state) t f x : inv s t -> nth_error (frames s) f = Some x ->
    exists lab s', nth_error t f = Some lab /\ get_index s f = Ok (lab, s') /\ inv s' t
      /\ (exists c, nth_error (frames s') f = Some (mkfr (fblock x) (flens x) (fcache x) c)
          /\ frames s' = upd (frames s) f (mkfr (fblock x) (flens x) (fcache x) c))
      /\ exists o, nth_error (heap s') (fcache x) = Some o /\ ival o = VLabels lab.
  Proof.
    intros Hi Hx. assert (Hlt : f < length (frames s)) by (apply nth_error_Some; congruence).
    assert (Hid : upd (frames s) f (mkfr (fblock x) (flens x) (fcache x) (frl x)) = frames s).
    { apply nth_error_ext. intros j. rewrite upd_nth. destruct (Nat.eqb_spec j f) as [->|]; [|reflexivity].
      rewrite Hx. destruct (Nat.ltb_spec f (length (frames s))); [now destruct x|lia]. }
    destruct (inv_get f Hi Hx) as (lab & n & s1 & H1 & H2 & H3 & H4 & H5 & H6 & _). unfold get_index, frame. rewrite Hx. cbn [rbind].
    rewrite H2. cbn [rbind]. exists lab. destruct (frl x) as [k|] eqn:E.
    - exists s1. split; [exact H1|]. split; [reflexivity|]. split; [exact H3|]. split.
      + exists (Some k). rewrite H4. split; [rewrite Hx; destruct x; cbn in *; now subst|].
        now rewrite Hid.
      + destruct H6 as (o & O1 & O2 & _). eauto.
    - destruct H5 as [-> | ->].
      + exists s1. split; [exact H1|]. split.
        * do 2 f_equal. unfold put_frame. rewrite H4, Hid. destruct s1; cbn in *. now subst.
        * split; [exact H3|]. split.
          { exists None. rewrite H4, Hid. split; [rewrite Hx; destruct x; cbn in *; now subst|reflexivity]. }
          destruct H6 as (o & O1 & O2 & _). eauto.
      + eexists. split; [exact H1|]. split; [reflexivity|]. split; [apply inv_put_rl; [exact H3|now rewrite H4]|]. split.
        * exists (Some (flens x)). cbn [put_frame frames]. rewrite H4. split; [now apply upd_same|reflexivity].
        * destruct H6 as (o & O1 & O2 & _). exists o. auto.
  Qed.

  Lemma inv_obj (s : state) t f x : inv s t -> nth_error (frames s) f = Some x -> exists o, nth_error (heap s) (fcache x) = Some o.
  Proof. intros [_ (LI & LN & Ho)] Hx. destruct (Ho f x I Hx) as (lab & _ & _ & o & Hr & _). eauto. Qed.

  Lemma ix_equals_ok (s : state) t f g x y lf lg : inv s t ->
    nth_error (frames s) f = Some x -> nth_error (frames s) g = Some y -> nth_error t f = Some lf -> nth_error t g = Some lg ->
    exists s', ix_equals xeqb s (fcache x) (fcache y) = Ok (list_eqb xeqb lf lg, s') /\ inv s' t /\ frames s' = frames s.
  Proof.
    intros Hi Hx Hy Hf Hg. destruct (inv_obj f Hi Hx) as (o1 & E1). destruct (inv_obj g Hi Hy) as (o2 & E2).
    unfold ix_equals. unfold obj at 1 2. rewrite E1, E2. cbn [rbind]. destruct (Nat.eqb_spec (iid o1) (iid o2)) as [Eq|Ne].
    - exists s. split; [|auto]. do 2 f_equal. destruct Hi as [_ (LI & LN & Ho)].
      destruct (Ho f x I Hx) as (l1 & A1 & _ & o1' & A2 & A3). destruct (Ho g y I Hy) as (l2 & B1 & _ & o2' & B2 & B3).
      rewrite E1 in A2. injection A2 as <-. rewrite E2 in B2. injection B2 as <-.
      destruct A3 as (_ & _ & A3 & _). destruct B3 as (_ & _ & B3 & _).
      assert (lf = lg) as -> by congruence. symmetry. now apply list_eqb_refl.
    - destruct (inv_get f Hi Hx) as (l1 & n1 & s1 & A1 & A2 & A3 & A4 & A5 & A6 & A7 & _). rewrite A2. cbn [rbind].
      rewrite <- A4 in Hy. destruct (inv_get g A3 Hy) as (l2 & n2 & s2 & B1 & B2 & B3 & B4 & B5 & B6 & B7 & _). rewrite B2. cbn [rbind].
      destruct A6 as (o & O1 & O2 & _). destruct (B7 _ _ O1) as (o' & O3 & _ & _ & O4). specialize (O4 _ O2). subst o'.
      unfold obj. rewrite O3. cbn [rbind]. rewrite O2. exists s2. split; [|split; [exact B3|congruence]].
      do 3 f_equal; congruence.
  Qed.

  Lemma compare_ok (s : state) t f g x y : inv s t ->
    nth_error (frames s) f = Some x -> nth_error (frames s) g = Some y ->
    exists b s', compare_lengths s (fcache x) (fcache y) = Ok (b, s') /\ inv s' t /\ frames s' = frames s
      /\ (b = None \/ b = Some (list_eqb Nat.eqb (flens x) (flens y))).
  Proof.
    intros Hi Hx Hy. destruct (inv_obj f Hi Hx) as (o1 & E1). destruct (inv_obj g Hi Hy) as (o2 & E2).
    unfold compare_lengths. unfold obj at 1 2. rewrite E1, E2. cbn [rbind]. destruct (Nat.eqb_spec (lid o1) (lid o2)) as [Eq|Ne].
    - exists (Some true), s. split; [reflexivity|]. split; [exact Hi|]. split; [reflexivity|]. right. f_equal.
      destruct Hi as [_ (LI & LN & Ho)].
      destruct (Ho f x I Hx) as (l1 & A1 & _ & o1' & A2 & A3). destruct (Ho g y I Hy) as (l2 & B1 & _ & o2' & B2 & B3).
      rewrite E1 in A2. injection A2 as <-. rewrite E2 in B2. injection B2 as <-.
      destruct A3 as (_ & _ & _ & A3 & _). destruct B3 as (_ & _ & _ & B3 & _).
      replace (flens y) with (flens x) by congruence. symmetry. apply list_eqb_refl. intros; apply Nat.eqb_eq.
    - destruct (can_extract o1 && can_extract o2) eqn:Ec; [|exists None, s; auto].
      apply andb_true_iff in Ec as [C1 C2].
      destruct (inv_get f Hi Hx) as (l1 & n1 & s1 & A1 & A2 & A3 & A4 & A5 & A6 & A7 & A8). rewrite A2. cbn [rbind].
      rewrite (A8 _ E1 C1) in *.
      rewrite <- A4 in Hy. destruct (inv_get g A3 Hy) as (l2 & n2 & s2 & B1 & B2 & B3 & B4 & B5 & B6 & B7 & B8). rewrite B2. cbn [rbind].
      assert (n2 = Some (flens y)) as ->.
      { destruct (A7 _ _ E2) as (o2' & Q1 & _). apply (B8 _ Q1).
        (* the object was extractable before the first get, so it still is *)
        destruct (Nat.eq_dec (fcache y) (fcache x)) as [Ec|Ec].
        - destruct A6 as (o & O1 & O2 & O3). rewrite Ec, O1 in Q1. injection Q1 as <-. unfold can_extract. now rewrite O3.
        - unfold ix_get, obj in A2. rewrite E1 in A2. cbn [rbind] in A2. destruct (ival o1) as [l|h|]; [| |discriminate].
          + injection A2 as _ _ <-. rewrite E2 in Q1. now injection Q1 as <-.
          + destruct (frame s h); [|discriminate]. cbn [rbind] in A2. injection A2 as _ _ <-. cbn [put_obj heap] in Q1.
            rewrite upd_other in Q1 by exact Ec. rewrite E2 in Q1. now injection Q1 as <-. }
      cbn [olens_eqb]. exists (Some (list_eqb Nat.eqb (flens x) (flens y))), s2. split; [reflexivity|]. split; [exact B3|]. split; [congruence|now right].
  Qed.

  Lemma axes_identical_ok (s : state) t f g x y lf lg : inv s t ->
    nth_error (frames s) f = Some x -> nth_error (frames s) g = Some y -> nth_error t f = Some lf -> nth_error t g = Some lg ->
    exists s', axes_identical_cached xeqb s f g = Ok (list_eqb xeqb lf lg && list_eqb Nat.eqb (flens x) (flens y), s') /\ inv s' t.
  Proof.
    intros Hi Hx Hy Hf Hg. unfold axes_identical_cached. unfold frame at 1 2. rewrite Hx, Hy. cbn [rbind].
    destruct (ix_equals_ok f g Hi Hx Hy Hf Hg) as (s1 & A1 & A2 & A3). rewrite A1. cbn [rbind].
    destruct (list_eqb xeqb lf lg); [|exists s1; auto]. cbn [andb].
    rewrite <- A3 in Hx, Hy. destruct (compare_ok f g A2 Hx Hy) as (b & s2 & B1 & B2 & B3 & B4). rewrite B1. cbn [rbind].
    destruct B4 as [-> | ->]; [|eauto]. rewrite <- B3 in Hx, Hy.
    destruct (get_lengths_ok f B2 Hx) as (s3 & C1 & C2 & C3 & C4 & C5). rewrite C1. cbn [rbind].
    assert (Hy' : exists y', nth_error (frames s3) g = Some y' /\ flens y' = flens y).
    { rewrite C5. destruct (Nat.eq_dec g f) as [->|Hne].
      - rewrite upd_same by (apply nth_error_Some; congruence). eexists. split; [reflexivity|]. cbn. congruence.
      - rewrite upd_other by exact Hne. eauto. }
    destruct Hy' as (y' & Hy' & <-). destruct (get_lengths_ok g C2 Hy') as (s4 & D1 & D2 & _). rewrite D1. cbn [rbind]. eauto.
  Qed.

  Lemma set_cache_inv (s : state) t f x a lab LI LN :
    length t = length (frames s) -> nth_error (frames s) f = Some x -> match frl x with Some k => k = flens x | None => True end ->
    argok s LI LN lab x a -> others_ok (fun g => g <> f) s LI LN t ->
    exists s' r, set_cache s f a = Ok s' /\ inv s' (replace_at t f lab) /\ frames s' = upd (frames s) f (mkfr (fblock x) (flens x) r (frl x)).
  Proof.
    intros Hl Hx Hrl Ha Ho. destruct (@set_cache_ok s f x a lab LI LN t Hx Hrl Ha Ho) as (s' & r & LI' & LN' & E & Hfr & Hfs & HL & HN & G & O).
    exists s', r. split; [exact E|]. split; [|exact Hfr]. split; [rewrite replace_length, Hfr, upd_length; exact Hl|].
    exists LI', LN'. intros g y _ Hy. assert (Hlt : f < length (frames s)) by (apply nth_error_Some; congruence).
    rewrite replace_nth. destruct (Nat.eqb_spec g f) as [->|Hne].
    - rewrite Hfr, upd_same in Hy by exact Hlt. injection Hy as <-. exists lab. split; [|exact G].
      destruct (nth_error t f) eqn:E'; [reflexivity|]. apply nth_error_None in E'. lia.
    - destruct (O g y Hne Hy) as (lab' & H1 & H2). exists lab'. rewrite H1. auto.
  Qed.

  Lemma replace_id {Y} (t : list Y) f l : nth_error t f = Some l -> replace_at t f l = t.
  Proof. intros H. apply nth_error_ext. intros j. rewrite replace_nth. destruct (Nat.eqb_spec j f) as [->|]; [now rewrite H|]. now destruct (nth_error t j). Qed.

  Lemma set_labels_ok (s s' : state) t cols f l : inv s t -> set_labels xeqb s cols f l = Ok s' -> inv s' (replace_at t f l).
  Proof.
    intros Hi E. unfold set_labels, frame in E. destruct (nth_error (frames s) f) as [x|] eqn:Hx; [|discriminate]. cbn [rbind] in E.
    destruct Hi as [Hl (LI & LN & Ho)]. destruct (Ho f x I Hx) as (lab & Hlab & Hrl & o & Hr & O1 & O2 & O3 & O4 & O5 & O6).
    unfold obj in E. rewrite Hr in E. cbn [rbind] in E.
    assert (S : set_cache s f (ALabels l) = Ok s' -> inv s' (replace_at t f l)).
    { intros E'. destruct (@set_cache_inv s t f x (ALabels l) l LI LN) as (s2 & r & E2 & I2 & _); auto.
      - reflexivity.
      - intros g y _ Hy. exact (Ho g y I Hy).
      - rewrite E' in E2. injection E2 as <-. exact I2. }
    destruct (ival o) as [old|h|]; [|now apply S|now apply S].
    destruct (cols && list_eqb xeqb old l) eqn:Ec.
    - injection E as <-. apply andb_true_iff in Ec as [_ Ec]. apply (proj1 (list_eqb_spec xeqb xeqb_ok _ _)) in Ec. subst old l.
      rewrite replace_id by exact Hlab. split; [exact Hl|]. now exists LI, LN.
    - destruct (length old =? length l); [now apply S|discriminate].
  Qed.

  Lemma propagate_ok (s s' : state) t f : inv s t -> propagate s f = Ok s' -> inv s' t.
  Proof.
    intros Hi E. unfold propagate in E. destruct (nth_error (frames s) f) as [x|] eqn:Hx.
    2:{ unfold get_index, frame in E. rewrite Hx in E. discriminate. }
    destruct (get_index_ok f Hi Hx) as (lab & s1 & A1 & A2 & A3 & (c & A4 & A5) & (o & A6 & A7)). rewrite A2 in E. cbn [rbind] in E.
    unfold frame in E. rewrite A4 in E. cbn [rbind] in E. injection E as <-.
    destruct A3 as [Hl (LI & LN & Ho)]. split; [cbn; now rewrite upd_length|]. exists LI, LN. intros g y _ Hy. cbn [put_frame frames] in Hy.
    destruct (Nat.eq_dec g f) as [->|Hne].
    - rewrite upd_same in Hy by (apply nth_error_Some; congruence). injection Hy as <-.
      destruct (Ho f _ I A4) as (lab' & B1 & B2 & o' & B3 & B4). cbn [fcache fblock flens frl] in *. exists lab'. split; [exact B1|].
      assert (lab' = lab) as -> by congruence. split; [exact B2|]. exists o'. split; [exact B3|].
      rewrite A6 in B3. injection B3 as <-. unfold objok in *. cbn [flens fblock] in *. rewrite A7 in *. exact B4.
    - rewrite upd_other in Hy by exact Hne. exact (Ho g y I Hy).
  Qed.

  (** The frame's cached lengths do not matter to [set_cache]. *)
  Lemma set_cache_frl (s : state) f b n0 c0 q o : nth_error (heap s) q = Some o -> f < length (frames s) ->
    exists r h k, forall c, set_cache (mkst (heap s) (upd (frames s) f (mkfr b n0 c0 c)) (fresh s)) f (AObj q)
      = Ok (mkst h (upd (upd (frames s) f (mkfr b n0 c0 c)) f (mkfr b n0 r c)) k).
  Proof. intros Ho Hf. unfold set_cache.
    assert (S : forall c, specify (mkst (heap s) (upd (frames s) f (mkfr b n0 c0 c)) (fresh s)) q f = match ival o with
      | VLabels _ => Ok (q, mkst (heap s) (upd (frames s) f (mkfr b n0 c0 c)) (fresh s))
      | _ => Ok (length (heap s), mkst (heap s ++ [mkix (VFrame f) (ilens o) (iid o) (lid o)]) (upd (frames s) f (mkfr b n0 c0 c)) (S (S (fresh s))))
      end) by (intros c; now apply specify_eq).
    destruct (ival o); eexists _, _, _; intros c; rewrite S; cbn [rbind]; unfold frame; cbn [frames];
      rewrite upd_same by exact Hf; cbn [rbind]; unfold put_frame; cbn [heap frames fresh fblock flens frl]; reflexivity. Qed.

  Lemma kept_nonzero (rl : list nat) : map snd (filter (fun p => negb (fst p =? 0)) (combine rl rl)) = filter (fun n => negb (n =? 0)) rl.
  Proof. induction rl as [|n rl IH]; [reflexivity|]. cbn. destruct (n =? 0); cbn; now rewrite ?IH. Qed.

  Lemma filter_empties_ok (s s' : state) t f c k e : inv s t -> filter_empties s f c k e = Ok s' -> inv s' t.
  Proof.
    intros Hi E. unfold filter_empties in E. unfold frame at 1 in E. destruct (nth_error (frames s) f) as [x|] eqn:Hx; [|discriminate].
    cbn [rbind] in E. destruct (negb c && _) in E; [now injection E as <-|].
    destruct (inv_obj f Hi Hx) as (o & Hr). unfold obj in E. rewrite Hr in E. cbn [rbind] in E.
    destruct (_ || e) in E; [now injection E as <-|].
    destruct (get_lengths_ok f Hi Hx) as (s1 & A1 & A2 & A3 & A4 & A5). rewrite A1 in E. cbn [rbind] in E.
    destruct (list_sum (flens x) =? 0); [now injection E as <-|].
    assert (Hlt : f < length (frames s)) by (apply nth_error_Some; congruence).
    assert (Hx1 : nth_error (frames s1) f = Some (mkfr (fblock x) (flens x) (fcache x) (Some (flens x)))) by (rewrite A5; now apply upd_same).
    unfold frame at 1 in E. rewrite Hx1 in E. cbn [rbind fblock flens fcache frl] in E.
    rewrite kept_nonzero in E. set (new := filter (fun n => negb (n =? 0)) (flens x)) in *.
    destruct (list_eqb Nat.eqb new (flens x)) eqn:En.
    - apply (proj1 (list_eqb_spec Nat.eqb Nat.eqb_eq _ _)) in En. rewrite En in E. cbn [rbind] in E.
      unfold frame in E. cbn [put_frame frames] in E. rewrite upd_same in E by (apply nth_error_Some; congruence). cbn [rbind] in E. injection E as <-.
      unfold put_frame. cbn [heap frames fresh].
      destruct A2 as [Hl (LI & LN & Ho)]. split; [cbn; now rewrite !upd_length|]. exists LI, LN. intros g y _ Hy. cbn [frames] in Hy.
      destruct (Nat.eq_dec g f) as [->|Hne].
      + rewrite upd_same in Hy by (rewrite upd_length; apply nth_error_Some; congruence). injection Hy as <-. exact (Ho f _ I Hx1).
      + rewrite !upd_other in Hy by exact Hne. exact (Ho g y I Hy).
    - clear En. set (s2 := put_frame s1 f (mkfr (fblock x) new (fcache x) (Some (flens x)))) in *.
      destruct A2 as [Hl (LI & LN & Ho)]. destruct (Ho f _ I Hx1) as (lab & Hlab & _ & o' & Hr' & O1 & O2 & O3 & O4 & O5 & O6).
      cbn [fcache fblock flens] in *.
      rewrite (@ix_copy_eq s2 (fcache x) false o') in E by exact Hr'. cbn [rbind] in E.
      set (n' := mkix (ival o') None (iid o') (S (fresh s2))) in *.
      set (s3 := mkst (heap s2 ++ [n']) (frames s2) (S (S (fresh s2)))) in *.
      set (x2 := mkfr (fblock x) new (fcache x) (Some (flens x))) in *.
      assert (Hx3 : nth_error (frames s3) f = Some x2).
      { cbn. apply upd_same. apply nth_error_Some. congruence. }
      (* [frl] is only wrong until the end of the method; go through the state with it corrected *)
      set (x3 := mkfr (fblock x) new (fcache x) (Some new)).
      set (s3' := mkst (heap s3) (upd (frames s1) f x3) (fresh s3)).
      destruct (@set_cache_inv s3' t f x3 (AObj (length (heap s2))) lab LI (fun i => if i =? S (fresh s2) then new else LN i)) as (s4 & r & B1 & B2 & B3).
      + cbn. now rewrite upd_length.
      + cbn. apply upd_same. apply nth_error_Some. congruence.
      + reflexivity.
      + cbn [argok]. exists n'. split; [cbn; now rewrite nth_error_app2, Nat.sub_diag by lia|]. cbn [n' iid lid ival ilens s3' s3 fresh].
        split; [cbn; lia|]. split; [lia|]. split; [exact O3|]. split; [now rewrite Nat.eqb_refl|]. split; [|exact I].
        destruct (ival o'); [exact O5|cbn; tauto|contradiction].
      + intros g y Hg Hy. cbn [s3' frames] in Hy. rewrite upd_other in Hy by exact Hg.
        destruct (Ho g y I Hy) as (lab' & L1 & L2). exists lab'. split; [exact L1|].
        eapply good_extend; [exact L2| | | |].
        * intros q p Hp. cbn. rewrite nth_error_app1; [exact Hp|]. apply nth_error_Some. congruence.
        * cbn. lia.
        * auto.
        * intros i Hi'. cbn. destruct (Nat.eqb_spec i (S (fresh s1))); [lia|reflexivity].
      + rewrite replace_id in B2 by exact Hlab.
        (* the real run differs from this one only in [frl] of frame f, which is overwritten at the end *)
        assert (Sim : exists s5, set_cache s3 f (AObj (length (heap s2))) = Ok s5 /\ heap s5 = heap s4 /\ fresh s5 = fresh s4
                  /\ frames s5 = upd (frames s3) f (mkfr (fblock x) new r (Some (flens x)))).
        { destruct (@set_cache_frl s3 f (fblock x) new (fcache x) (length (heap s2)) n') as (r0 & h & k0 & Hc).
          - cbn. now rewrite nth_error_app2, Nat.sub_diag by lia.
          - apply nth_error_Some. congruence.
          - assert (Es3 : forall c, upd (frames s3) f (mkfr (fblock x) new (fcache x) c) = upd (frames s1) f (mkfr (fblock x) new (fcache x) c)).
            { intros c0. apply nth_error_ext. intros j. cbn [s3 s2 put_frame frames]. rewrite !upd_nth, upd_length.
              destruct ((j =? f) && _) eqn:Ej; [reflexivity|]. reflexivity. }
            pose proof (Hc (Some new)) as C1. rewrite Es3 in C1. fold x3 in C1. fold s3' in C1. rewrite B1 in C1. injection C1 as ->.
            cbn [frames] in B3. assert (r0 = r) as ->.
            { assert (Q := f_equal (fun l => nth_error l f) B3). cbv beta in Q. cbn [s3' frames] in Q.
              assert (Hlt1 : f < length (frames s1)) by (apply nth_error_Some; congruence).
              rewrite !upd_same in Q by (rewrite ?upd_length; exact Hlt1). now injection Q. }
            pose proof (Hc (Some (flens x))) as C2. fold x2 in C2.
            assert (Ex2 : upd (frames s3) f x2 = frames s3).
            { apply nth_error_ext. intros j. rewrite upd_nth. destruct (Nat.eqb_spec j f) as [->|]; [|reflexivity].
              rewrite Hx3. destruct (Nat.ltb_spec f (length (frames s3))); reflexivity. }
            rewrite Ex2 in C2. replace (mkst (heap s3) (frames s3) (fresh s3)) with s3 in C2 by reflexivity.
            eexists. split; [exact C2|]. cbn [heap fresh frames]. auto. }
        destruct Sim as (s5 & C1 & C2 & C3 & C4). rewrite C1 in E. cbn [rbind] in E. unfold frame in E. rewrite C4 in E.
        rewrite upd_same in E by (apply nth_error_Some; congruence). cbn [rbind fblock flens fcache] in E. injection E as <-.
        destruct B2 as [Hl4 (LI4 & LN4 & Ho4)]. cbn [x3 fblock flens frl] in B3.
        assert (Heq : forall g, nth_error (upd (upd (frames s3) f (mkfr (fblock x) new r (Some (flens x)))) f (mkfr (fblock x) new r (Some new))) g = nth_error (frames s4) g).
        { intros g. rewrite B3. cbn [s3 s2 put_frame frames s3']. destruct (Nat.eq_dec g f) as [->|Hne].
          - rewrite !upd_same; [reflexivity| |]; rewrite ?upd_length; apply nth_error_Some; congruence.
          - now rewrite !upd_other by exact Hne. }
        split; [cbn [put_frame frames]; rewrite C4, !upd_length; cbn; rewrite upd_length; congruence|].
        exists LI4, LN4. intros g y _ Hy. cbn [put_frame frames] in Hy. rewrite C4, Heq in Hy.
        destruct (Ho4 g y I Hy) as (lab' & L1 & L2). exists lab'. split; [exact L1|].
        unfold good in *. cbn [put_frame heap fresh]. now rewrite C2, C3.
  Qed.
End P.
