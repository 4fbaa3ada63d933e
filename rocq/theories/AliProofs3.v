(** Careful histories: modin's objects read what pandas' objects read. *)
From Verif Require Import Base AliSpec AliModel AliProofs AliProofs2.

Section Sim.
Variables (L A : Type) (nan : A).
Notation table := (table L A).
Notation op := (op L A).
Notation mst := (mst L A).
Notation pst := (pst L A).
Notation pread := (pread nan).

Definition refs (p : pst) (o : nat) := p_refs (pobject p o).
Definition wf_refs (buf : list (list A)) (rs : list (nat * list nat)) : Prop :=
  NoDup (map fst rs) /\
  forall r, In r rs -> fst r < length buf /\ snd r = seq 0 (length (nth (fst r) buf [])).

Record sim (sf : list nat) (p : pst) (s : mst) : Prop := {
  s_size : length (p_objs p) = size s;
  s_kind : forall o, p_kind (pobject p o) = mkind s o;
  s_noarr : forall o, mkind s o <> Arr;
  s_nopar : forall o, parent s o = None;
  s_read : forall o, pread p o = mread s o;
  s_proper : forall o, proper (mread s o);
  s_refs : forall o, wf_refs (p_buf p) (refs p o);
  s_same : forall x y, x < size s -> y < size s -> nth x sf 0 = nth y sf 0 ->
             refs p x = refs p y /\ mread s x = mread s y;
  s_apart : forall x y r r', x < size s -> y < size s -> nth x sf 0 <> nth y sf 0 ->
             In r (refs p x) -> In r' (refs p y) -> fst r <> fst r'
}.

Lemma cells_whole (p : pst) r : snd r = seq 0 (length (nth (fst r) (p_buf p) [])) ->
  cells nan p r = nth (fst r) (p_buf p) [].
Proof. unfold cells. intros ->. generalize (nth (fst r) (p_buf p) []) as l. intros l.
  apply nth_ext with (d := nan) (d' := nan); [now rewrite map_length, seq_length|].
  intros i Hi. rewrite map_length, seq_length in Hi.
  rewrite nth_indep with (d' := nth 0 l nan) by (now rewrite map_length, seq_length).
  rewrite map_nth with (f := fun i => nth i l nan). now rewrite seq_nth. Qed.

Lemma read_whole (p : pst) o : wf_refs (p_buf p) (refs p o) ->
  t_cols (pread p o) = map (fun r => nth (fst r) (p_buf p) []) (refs p o).
Proof. intros [_ W]. cbn [t_cols AliSpec.pread]. apply map_ext_in. intros r Hr. apply cells_whole. now apply W. Qed.

(** Reading does not mind more buffers. *)
Lemma cells_more buf ext objs r : fst r < length buf ->
  cells (L := L) nan (PSt (buf ++ ext) objs) r = cells (L := L) nan (PSt buf objs) r.
Proof. intros H. unfold cells. cbn [p_buf]. now rewrite app_nth1. Qed.
Lemma cells_objs buf objs objs' r : cells (L := L) nan (PSt buf objs) r = cells (L := L) nan (PSt buf objs') r.
Proof. reflexivity. Qed.
Lemma wf_more buf ext rs : wf_refs buf rs -> wf_refs (buf ++ ext) rs.
Proof. intros [N W]. split; auto. intros r Hr. destruct (W r Hr) as [W1 W2]. rewrite app_length, app_nth1 by auto.
  split; [lia | auto]. Qed.

(** ** A new object on the pandas side *)

Lemma pobj_snoc buf objs (x : pobj L) o :
  pobject (PSt (A := A) buf (objs ++ [x])) o = if o =? length objs then x else nth o objs (dead Frame).
Proof. unfold pobject. cbn [p_objs]. destruct (Nat.eqb_spec o (length objs)) as [->|N].
  - now rewrite app_nth2, Nat.sub_diag by lia.
  - destruct (Nat.lt_ge_cases o (length objs)) as [H|H]; [now rewrite app_nth1|].
    rewrite !nth_overflow; auto. rewrite app_length. cbn. lia. Qed.

Lemma fresh_fst (p : pst) cs : map fst (fresh p cs) = seq (length (p_buf p)) (length cs).
Proof. unfold fresh. generalize (length (p_buf p)) as a. induction cs as [|c cs IH]; intros a; cbn; auto.
  now rewrite IH. Qed.
Lemma fresh_nth : forall (cs buf0 : list (list A)) r,
  In r (combine (seq (length buf0) (length cs)) (map (fun c => seq 0 (length c)) cs)) ->
  length buf0 <= fst r < length buf0 + length cs /\ snd r = seq 0 (length (nth (fst r) (buf0 ++ cs) [])).
Proof. induction cs as [|c cs IH]; intros buf0 r H; cbn in H; [destruct H|]. destruct H as [<- | H].
  - cbn. split; [lia|]. now rewrite app_nth2, Nat.sub_diag by lia.
  - replace (buf0 ++ c :: cs) with ((buf0 ++ [c]) ++ cs) by (now rewrite <- app_assoc).
    assert (E : length (buf0 ++ [c]) = S (length buf0)) by (rewrite app_length; cbn; lia).
    destruct (IH (buf0 ++ [c]) r) as [I1 I2]; [now rewrite E|]. rewrite E in I1. split; [cbn; lia | exact I2]. Qed.

Lemma fresh_wf (p : pst) cs : wf_refs (p_buf p ++ cs) (fresh p cs) /\
  forall r, In r (fresh p cs) -> length (p_buf p) <= fst r.
Proof. split; [split|].
  - rewrite fresh_fst. apply seq_NoDup.
  - intros r H. destruct (fresh_nth cs (p_buf p) r H) as [I1 I2]. rewrite app_length. split; [lia | exact I2].
  - intros r H. now destruct (fresh_nth cs (p_buf p) r H). Qed.

Lemma fresh_cells : forall (cs buf0 : list (list A)) (objs : list (pobj L)),
  map (cells nan (PSt (buf0 ++ cs) objs)) (combine (seq (length buf0) (length cs)) (map (fun c => seq 0 (length c)) cs)) = cs.
Proof. induction cs as [|c cs IH]; intros buf0 objs; [reflexivity|]. cbn [length seq map combine]. f_equal.
  - rewrite cells_whole; cbn [fst snd p_buf]; now rewrite app_nth2, Nat.sub_diag by lia.
  - replace (buf0 ++ c :: cs) with ((buf0 ++ [c]) ++ cs) by (now rewrite <- app_assoc).
    assert (E : length (buf0 ++ [c]) = S (length buf0)) by (rewrite app_length; cbn; lia).
    rewrite <- E. apply IH. Qed.

Lemma wf_nil buf : wf_refs buf [].
Proof. split; [constructor | now intros r []]. Qed.

(** Reads in modin's state after a new object. *)
Lemma mread_app (s : mst) qs x o : pointed s ->
  mread (appended s qs x) o = if o =? size s then nth (m_qc x) (m_qcs s ++ qs) (empty_table L A) else mread s o.
Proof. intros Pt. unfold mread, known. fold (size (appended s qs x)) (size s). rewrite app_size, app_obj.
  destruct (Nat.eqb_spec o (size s)) as [->|N].
  - destruct (Nat.ltb_spec (size s) (S (size s))); [reflexivity | lia].
  - destruct (Nat.ltb_spec o (size s)) as [H|H], (Nat.ltb_spec o (S (size s))) as [H'|H']; try lia; [|reflexivity].
    unfold appended. cbn [m_qcs]. rewrite app_nth1; [reflexivity | apply (Pt o H)]. Qed.
Lemma mread_but (s s' : mst) o : but_sibs s s' -> mread s' o = mread s o.
Proof. intros (E1 & E2 & E3). unfold mread, known. fold (size s') (size s). rewrite E1, E2.
  destruct (E3 o) as (_ & E & _). unfold qc in E. now rewrite E. Qed.

Lemma mkind_app (s : mst) qs x o : mkind (appended s qs x) o = if o =? size s then m_kind x else mkind s o.
Proof. unfold mkind. rewrite app_obj. now destruct (o =? size s). Qed.
Lemma par_app (s : mst) qs x o : parent (appended s qs x) o = if o =? size s then m_parent x else parent s o.
Proof. unfold parent. rewrite app_obj. now destruct (o =? size s). Qed.

Lemma refs_out (p : pst) o : length (p_objs p) <= o -> refs p o = [].
Proof. intros H. unfold refs, pobject. now rewrite nth_overflow. Qed.

(** The new object, in both: [share] says what it shares. *)
Lemma sim_snoc sf (p : pst) (s s1 : mst) ext (x : pobj L) k t a :
  sim sf p s -> length sf = size s ->
  size s1 = S (size s) ->
  (forall o, mkind s1 o = if o =? size s then k else mkind s o) ->
  (forall o, parent s1 o = if o =? size s then None else parent s o) ->
  (forall o, mread s1 o = if o =? size s then t else mread s o) ->
  p_kind x = k -> k <> Arr -> proper t ->
  p_rows x = t_rows t -> p_names x = t_names t ->
  map (cells nan (PSt (p_buf p ++ ext) (p_objs p ++ [x]))) (p_refs x) = t_cols t ->
  wf_refs (p_buf p ++ ext) (p_refs x) ->
  (exists o, o < size s /\ a = nth o sf 0 /\ p_refs x = refs p o /\ t = mread s o \/
             a = size s /\ (forall y, y < size s -> nth y sf 0 <> size s) /\
             (forall r, In r (p_refs x) -> length (p_buf p) <= fst r)) ->
  sim (sf ++ [a]) (PSt (p_buf p ++ ext) (p_objs p ++ [x])) s1.
Proof. intros [c1 c2 c3 c4 c5 c6 c7 c8 c9] Lsf Hs Hk Hp Hr Kx Ka Pt Rx Nx Cx Wx Sh.
  set (p1 := PSt (p_buf p ++ ext) (p_objs p ++ [x])).
  assert (O : forall o, pobject p1 o = if o =? size s then x else pobject p o).
  { intros o. unfold p1. rewrite pobj_snoc, c1. reflexivity. }
  assert (R : forall o, refs p1 o = if o =? size s then p_refs x else refs p o).
  { intros o. unfold refs. rewrite O. now destruct (o =? size s). }
  assert (Rd : forall o, pread p1 o = if o =? size s then t else pread p o).
  { intros o. unfold AliSpec.pread. rewrite O. destruct (Nat.eqb_spec o (size s)) as [->|N].
    - destruct t as [tr tn tc]. cbn in *. unfold p1. now rewrite Rx, Nx, Cx.
    - f_equal. apply map_ext_in. intros r Hr'. unfold p1. rewrite cells_more; [reflexivity|].
      now apply (c7 o). }
  assert (Sn : nth (size s) (sf ++ [a]) 0 = a) by (rewrite <- Lsf; apply nth_snoc_new).
  assert (So : forall y, y < size s -> nth y (sf ++ [a]) 0 = nth y sf 0) by (intros y H; apply nth_snoc_old; lia).
  split.
  - cbn. rewrite app_length. cbn. lia.
  - intros o. rewrite O, Hk. destruct (o =? size s); auto.
  - intros o. rewrite Hk. destruct (o =? size s); auto.
  - intros o. rewrite Hp. destruct (o =? size s); auto.
  - intros o. rewrite Rd, Hr. destruct (o =? size s); auto.
  - intros o. rewrite Hr. destruct (o =? size s); auto.
  - intros o. rewrite R. destruct (o =? size s); [exact Wx | now apply wf_more].
  - assert (G : forall y, y < size s -> nth y sf 0 = a -> p_refs x = refs p y /\ t = mread s y).
    { intros y Hy E. destruct Sh as (o & [(Ho & -> & Er & Et)|(-> & F & _)]); [|now elim (F y Hy)].
      destruct (c8 y o Hy Ho E) as [E1 E2]. now rewrite Er, Et, E1, E2. }
    intros y z Hy Hz E. rewrite Hs in *. rewrite !R, !Hr.
    destruct (Nat.eqb_spec y (size s)) as [->|Ny], (Nat.eqb_spec z (size s)) as [->|Nz]; auto.
    + rewrite Sn, So in E by lia. apply G; [lia | easy].
    + rewrite Sn, So in E by lia. destruct (G y) as [-> ->]; [lia | easy | auto].
    + rewrite !So in E by lia. apply c8; auto; lia.
  - assert (G : forall y r r', y < size s -> nth y sf 0 <> a -> In r (p_refs x) -> In r' (refs p y) -> fst r <> fst r').
    { intros y r r' Hy E I I'. destruct Sh as (o & [(Ho & -> & Er & Et)|(-> & F & Fr)]).
      - rewrite Er in I. exact (c9 o y r r' Ho Hy (fun e => E (eq_sym e)) I I').
      - pose proof (Fr r I). destruct (c7 y) as [_ W]. destruct (W r' I'). lia. }
    intros y z r r' Hy Hz E. rewrite Hs in *. rewrite !R.
    destruct (Nat.eqb_spec y (size s)) as [->|Ny], (Nat.eqb_spec z (size s)) as [->|Nz]; intros I I'.
    + now elim E.
    + rewrite Sn, So in E by lia. apply (G z); auto; lia.
    + rewrite Sn, So in E by lia. intros C. apply (G y r' r); auto; lia.
    + rewrite !So in E by lia. apply (c9 y z); auto; lia. Qed.

(** ** An in-place call on an object alone *)

Lemma pobj_put buf objs (x : pobj L) o y :
  pobject (PSt (A := A) buf (put o x objs)) y = if (y =? o) && (o <? length objs) then x else nth y objs (dead Frame).
Proof. unfold pobject. cbn [p_objs]. destruct (Nat.eqb_spec y o) as [->|N]; cbn [andb].
  - destruct (Nat.ltb_spec o (length objs)) as [H|H]; [now apply nth_put_same|]. now rewrite put_out.
  - now apply nth_put_other. Qed.

Lemma sim_alone sf (p : pst) (s s1 : mst) ext (x : pobj L) o t :
  sim sf p s -> o < size s ->
  (forall y, y < size s -> nth y sf 0 = nth o sf 0 -> y = o) ->
  size s1 = size s -> (forall y, mkind s1 y = mkind s y) -> (forall y, parent s1 y = parent s y) ->
  mread s1 o = t -> (forall y, y <> o -> mread s1 y = mread s y) ->
  proper t -> p_kind x = mkind s o -> p_rows x = t_rows t -> p_names x = t_names t ->
  map (cells nan (PSt (p_buf p ++ ext) (put o x (p_objs p)))) (p_refs x) = t_cols t ->
  wf_refs (p_buf p ++ ext) (p_refs x) ->
  (forall r, In r (p_refs x) -> In (fst r) (map fst (refs p o)) \/ length (p_buf p) <= fst r) ->
  sim sf (PSt (p_buf p ++ ext) (put o x (p_objs p))) s1.
Proof. intros [c1 c2 c3 c4 c5 c6 c7 c8 c9] Ho Al Hs Hk Hp Ro Ry Pt Kx Rx Nx Cx Wx Fr.
  set (p1 := PSt (p_buf p ++ ext) (put o x (p_objs p))).
  assert (O : forall y, pobject p1 y = if y =? o then x else pobject p y).
  { intros y. unfold p1. rewrite pobj_put, c1. destruct (Nat.ltb_spec o (size s)); [|lia]. now rewrite andb_true_r. }
  assert (R : forall y, refs p1 y = if y =? o then p_refs x else refs p y).
  { intros y. unfold refs. rewrite O. now destruct (y =? o). }
  assert (Rd : forall y, pread p1 y = if y =? o then t else pread p y).
  { intros y. unfold AliSpec.pread. rewrite O. destruct (Nat.eqb_spec y o) as [->|N].
    - destruct t as [tr tn tc]. cbn in *. unfold p1. now rewrite Rx, Nx, Cx.
    - f_equal. apply map_ext_in. intros r Hr'. unfold p1. rewrite cells_more; [reflexivity|]. now apply (c7 y). }
  assert (G : forall y r r', y < size s -> y <> o -> In r (p_refs x) -> In r' (refs p y) -> fst r <> fst r').
  { intros y r r' Hy N I I'. destruct (Fr r I) as [F|F].
    - apply in_map_iff in F. destruct F as (r0 & E0 & I0). rewrite <- E0.
      assert (Ne : nth o sf 0 <> nth y sf 0) by (intros E; apply N; apply Al; auto).
      exact (c9 o y r0 r' Ho Hy Ne I0 I').
    - destruct (c7 y) as [_ W]. destruct (W r' I'). lia. }
  split.
  - cbn. rewrite length_put. lia.
  - intros y. rewrite O, Hk. destruct (Nat.eqb_spec y o) as [->|]; auto.
  - intros y. rewrite Hk. apply c3.
  - intros y. rewrite Hp. apply c4.
  - intros y. rewrite Rd. destruct (Nat.eqb_spec y o) as [->|N]; [now symmetry|]. rewrite Ry by exact N. apply c5.
  - intros y. destruct (Nat.eq_dec y o) as [->|N]; [now rewrite Ro | now rewrite Ry].
  - intros y. rewrite R. destruct (y =? o); [exact Wx | now apply wf_more].
  - intros y z Hy Hz E. rewrite Hs in *. rewrite !R.
    destruct (Nat.eq_dec y o) as [->|Ny].
    + rewrite (Al z) by auto. auto.
    + destruct (Nat.eq_dec z o) as [->|Nz]; [now elim Ny; apply Al|].
      apply Nat.eqb_neq in Ny as Ny', Nz as Nz'. rewrite Ny', Nz', !Ry by auto. now apply c8.
  - intros y z r r' Hy Hz E. rewrite Hs in *. rewrite !R.
    destruct (Nat.eqb_spec y o) as [->|Ny], (Nat.eqb_spec z o) as [->|Nz]; intros I I'.
    + now elim E.
    + apply (G z); auto.
    + intros C. apply (G y r' r); auto.
    + apply (c9 y z); auto. Qed.

(** ** Writing a cell *)

Lemma map_put X Y (f g : X -> Y) rs j y : NoDup rs ->
  (forall r, nth_error rs j = Some r -> g r = y) ->
  (forall k r, k <> j -> nth_error rs k = Some r -> g r = f r) ->
  map g rs = put j y (map f rs).
Proof. revert j; induction rs as [|r rs IH]; intros [|j] ND H1 H2; cbn [map put]; auto.
  - f_equal; [now apply H1|]. apply map_ext_in. intros r' I. apply In_nth_error in I. destruct I as [k Hk].
    apply (H2 (S k)); auto.
  - f_equal; [now apply (H2 0)|]. inversion ND; subst. apply IH; auto.
    intros k r' N E. apply (H2 (S k)); auto. Qed.

Lemma sim_write sf (p : pst) (s s1 : mst) o i j v :
  sim sf p s -> o < size s -> in_table i j (mread s o) = true ->
  size s1 = size s -> (forall y, mkind s1 y = mkind s y) -> (forall y, parent s1 y = parent s y) ->
  (forall y, y < size s -> nth y sf 0 = nth o sf 0 -> mread s1 y = cell_set i j v (mread s o)) ->
  (forall y, ~ (y < size s /\ nth y sf 0 = nth o sf 0) -> mread s1 y = mread s y) ->
  let r := nth j (refs p o) (0, []) in
  sim sf (PSt (put (fst r) (put (nth i (snd r) 0) v (nth (fst r) (p_buf p) [])) (p_buf p)) (p_objs p)) s1.
Proof. intros [c1 c2 c3 c4 c5 c6 c7 c8 c9] Ho It Hs Hk Hp Rn Ro r.
  unfold in_table in It. apply andb_true_iff in It. destruct It as [Hi Hj]. apply Nat.ltb_lt in Hi, Hj.
  assert (Lr : length (refs p o) = length (t_cols (mread s o))) by (rewrite <- c5; cbn; now rewrite map_length).
  assert (Er : nth_error (refs p o) j = Some r) by (apply nth_error_nth'; lia).
  pose proof (nth_error_In _ _ Er) as Ir.
  destruct (c7 o) as [ND W]. destruct (W r Ir) as [Hr Sr].
  assert (Lc : length (nth (fst r) (p_buf p) []) = length (t_rows (mread s o))).
  { destruct (c6 o) as [_ F]. rewrite Forall_forall in F. apply F. rewrite <- c5, read_whole by apply c7.
    apply in_map_iff. exists r. auto. }
  assert (Ei : nth i (snd r) 0 = i) by (rewrite Sr, seq_nth by lia; reflexivity).
  rewrite Ei. set (buf1 := put (fst r) (put i v (nth (fst r) (p_buf p) [])) (p_buf p)).
  set (p1 := PSt buf1 (p_objs p)).
  assert (Lb : length buf1 = length (p_buf p)) by apply length_put.
  assert (Nb : forall b, nth b buf1 [] = if b =? fst r then put i v (nth (fst r) (p_buf p) []) else nth b (p_buf p) []).
  { intros b. unfold buf1. destruct (Nat.eqb_spec b (fst r)) as [->|N]; [now apply nth_put_same | now apply nth_put_other]. }
  assert (Wf : forall rs, wf_refs (p_buf p) rs -> wf_refs buf1 rs).
  { intros rs [N' W']. split; auto. intros q Iq. destruct (W' q Iq) as [W1 W2]. rewrite Lb. split; auto.
    rewrite Nb. destruct (Nat.eqb_spec (fst q) (fst r)) as [E|_]; [|exact W2]. rewrite length_put, <- E. exact W2. }
  assert (Rd : forall y, pread p1 y = if (y <? size s) && (nth y sf 0 =? nth o sf 0) then cell_set i j v (mread s o) else mread s y).
  { intros y. destruct (Nat.ltb_spec y (size s)) as [Hy|Hy]; cbn [andb].
    2: { rewrite <- c5. unfold AliSpec.pread.
         change (pobject p1 y) with (pobject p y). unfold pobject. rewrite nth_overflow by lia. reflexivity. }
    destruct (Nat.eqb_spec (nth y sf 0) (nth o sf 0)) as [E|N].
    - destruct (c8 y o Hy Ho E) as [E1 E2]. unfold AliSpec.pread, cell_set. rewrite <- E2, <- c5.
      change (pobject p1 y) with (pobject p y). cbn [AliSpec.pread t_rows t_names t_cols]. f_equal.
      change (p_refs (pobject p y)) with (refs p y). rewrite E1.
      apply map_put; [now apply NoDup_map_inv with (f := fst)| |].
      + intros q Eq. assert (q = r) as -> by congruence.
        rewrite cells_whole by (exact (proj2 (proj2 (Wf (refs p o) (c7 o)) r Ir))). unfold p1. cbn [p_buf].
        rewrite Nb, Nat.eqb_refl. f_equal. symmetry.
        rewrite nth_indep with (d' := cells nan p (0, [])) by (rewrite map_length; lia).
        rewrite map_nth. fold r. now apply cells_whole.
      + intros k q Nk Ek. assert (Iq : In q (refs p o)) by now apply nth_error_In in Ek.
        rewrite (cells_whole p q) by now apply W.
        rewrite cells_whole by (exact (proj2 (proj2 (Wf (refs p o) (c7 o)) q Iq))).
        unfold p1. cbn [p_buf]. rewrite Nb. destruct (Nat.eqb_spec (fst q) (fst r)) as [C|_]; [|reflexivity].
        exfalso. apply Nk. assert (K : nth_error (map fst (refs p o)) k = nth_error (map fst (refs p o)) j).
        { rewrite !nth_error_map, Ek, Er. cbn. now rewrite C. }
        apply (proj1 (NoDup_nth_error _) ND) in K; auto. rewrite map_length.
        apply nth_error_Some. congruence.
    - rewrite <- c5. unfold AliSpec.pread. change (pobject p1 y) with (pobject p y). f_equal.
      apply map_ext_in. intros q Iq. destruct (c7 y) as [_ Wy].
      rewrite (cells_whole p q) by now apply Wy.
      rewrite cells_whole by (exact (proj2 (proj2 (Wf (refs p y) (c7 y)) q Iq))).
      unfold p1. cbn [p_buf]. rewrite Nb. destruct (Nat.eqb_spec (fst q) (fst r)) as [C|_]; [|reflexivity].
      exfalso. exact (c9 y o q r Hy Ho N Iq Ir C). }
  assert (Rm : forall y, mread s1 y = if (y <? size s) && (nth y sf 0 =? nth o sf 0) then cell_set i j v (mread s o) else mread s y).
  { intros y. destruct (Nat.ltb_spec y (size s)) as [Hy|Hy]; cbn [andb].
    - destruct (Nat.eqb_spec (nth y sf 0) (nth o sf 0)) as [E|N]; [now apply Rn|]. apply Ro. tauto.
    - apply Ro. lia. }
  split.
  - cbn. lia.
  - intros y. rewrite Hk. apply c2.
  - intros y. rewrite Hk. apply c3.
  - intros y. rewrite Hp. apply c4.
  - intros y. now rewrite Rd, Rm.
  - intros y. rewrite Rm. destruct (_ && _); [|apply c6].
    destruct (c6 o) as [N1 F1]. unfold cell_set. split; cbn [t_names t_cols t_rows]; [now rewrite length_put|].
    rewrite Forall_forall in *. intros c Ic. apply In_nth with (d := []) in Ic. destruct Ic as (k & Hk' & <-).
    rewrite length_put in Hk'. destruct (Nat.eq_dec k j) as [->|Nk].
    + rewrite nth_put_same, length_put by exact Hk'. apply F1. now apply nth_In.
    + rewrite nth_put_other by exact Nk. apply F1. now apply nth_In.
  - intros y. apply Wf. apply (c7 y).
  - intros y z Hy Hz E. rewrite Hs in *. rewrite !Rm, E. split; [now apply c8|].
    apply Nat.ltb_lt in Hy as Hy', Hz as Hz'. rewrite Hy', Hz'. cbn [andb].
    destruct (_ =? _); auto. now apply c8.
  - intros y z q q'. rewrite Hs. apply c9. Qed.

End Sim.
