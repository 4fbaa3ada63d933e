(** Proofs for C92. *)
From Verif Require Import Base Table ChunkModel ChunkSpec GridModel GridSpec FrameSpec SelSpec SelModel SelProofs SelProofs5 SetModel InsModel ItmModel ItmProofs FltSpec FltModel.

Section Lists.
  Context {H A : Type}.
  (** the positions of the headers that pass *)
  Definition at_ (test : H -> bool) (k : nat) (cols : list H) : list nat :=
    map fst (filter (fun kh => test (snd kh)) (combine (seq k (length cols)) cols)).
  Lemma at_cons test k c (cols : list H) : at_ test k (c :: cols) = (if test c then [k] else []) ++ at_ test (S k) cols.
  Proof. unfold at_. cbn. destruct (test c); reflexivity. Qed.
  Lemma at_headers test (pre cols : list H) : Forall2 (fun c p => nth_error (pre ++ cols) p = Some c) (filter test cols) (at_ test (length pre) cols).
  Proof. revert pre. induction cols as [|c cols IH]; intros pre; [constructor|]. rewrite at_cons. cbn [filter].
    specialize (IH (pre ++ [c])). rewrite app_length, Nat.add_comm, <- app_assoc in IH. cbn [length app Nat.add] in IH.
    destruct (test c); [|exact IH]. cbn [app]. constructor; [|exact IH]. now rewrite nth_error_app2, Nat.sub_diag by lia. Qed.
  Lemma at_pick test (cols : list H) : forall (pre r : list A), length r = length cols ->
    pick (pre ++ r) (at_ test (length pre) cols) = map snd (filter (fun hx => test (fst hx)) (combine cols r)).
  Proof. induction cols as [|c cols IH]; intros pre [|x r] E; try discriminate; [reflexivity|]. rewrite at_cons. injection E as E.
    specialize (IH (pre ++ [x]) r E). rewrite app_length, Nat.add_comm, <- app_assoc in IH. cbn [length app Nat.add] in IH.
    cbn [combine filter fst]. destruct (test c); cbn [app map snd]; [|exact IH].
    unfold pick in *. cbn [map concat]. rewrite nth_error_app2, Nat.sub_diag by lia. cbn [nth_error app]. now rewrite IH. Qed.
  Lemma at_headers_pick test (cols : list H) : pick cols (at_ test 0 cols) = filter test cols.
  Proof. pose proof (@at_headers test [] cols) as F. cbn [app length] in F. unfold pick. induction F as [|c p cs ps E _ IH]; [reflexivity|].
    cbn [map concat]. rewrite E, IH. reflexivity. Qed.
  Lemma at_unique (cols cs : list H) ps qs : NoDup cols -> Forall2 (fun c p => nth_error cols p = Some c) cs ps ->
    Forall2 (fun c p => nth_error cols p = Some c) cs qs -> ps = qs.
  Proof. intros N F. revert qs. induction F as [|c p cs ps E _ IH]; intros qs G; inversion G; subst; [reflexivity|]. f_equal; [|now apply IH].
    apply (proj1 (NoDup_nth_error cols) N); [apply nth_error_Some; congruence|congruence]. Qed.

  Variable heqb : H -> H -> bool.
  Hypothesis heqb_ok : forall x y, heqb x y = true <-> x = y.
  Lemma mem_in h hs : mem heqb h hs = true <-> In h hs.
  Proof. unfold mem. rewrite existsb_exists. split; [intros (x & I & E); apply heqb_ok in E; now subst|]. intros I. exists h. split; [assumption|now apply heqb_ok]. Qed.
  Lemma under_filter test (cols : list H) : NoDup cols -> forall r : list A, length r = length cols ->
    flat_map (under heqb cols r) (filter test cols) = map snd (filter (fun hx => test (fst hx)) (combine cols r)).
  Proof. induction 1 as [|c cols Nc N IH]; intros [|x r] E; try discriminate; [reflexivity|]. injection E as E. cbn [filter combine fst].
    assert (R : flat_map (under heqb (c :: cols) (x :: r)) (filter test cols) = flat_map (under heqb cols r) (filter test cols)).
    { rewrite !flat_map_concat_map. f_equal. apply map_ext_in. intros h Hh. apply filter_In in Hh as [Hh _]. unfold under. cbn [combine find fst].
      destruct (heqb c h) eqn:X; [|reflexivity]. apply heqb_ok in X. subst. contradiction. }
    destruct (test c); cbn [flat_map map snd].
    - rewrite R, IH by assumption. unfold under at 1. cbn [combine find fst]. rewrite (proj2 (heqb_ok c c) eq_refl). reflexivity.
    - rewrite R. now apply IH. Qed.
End Lists.

Lemma marked_headers {H} (test : H -> bool) cols : map fst (filter (fun hm : H * bool => snd hm) (combine cols (map test cols))) = filter test cols.
Proof. induction cols as [|c cols IH]; [reflexivity|]. cbn. destruct (test c); cbn; now rewrite IH. Qed.

Lemma take_columns {L H A} (d : df L H A) test : wf d -> take2d (seq 0 (nrows d)) (at_ test 0 (dcols d)) d = p_filter test d.
Proof. intros [W1 W2]. unfold take2d, p_filter. unfold nrows. rewrite pick_all, at_headers_pick by auto. rewrite W1 at 1 || idtac. f_equal.
  rewrite pick_all by auto. apply map_ext_in. intros r Hr. rewrite Forall_forall in W2. specialize (W2 r Hr). exact (@at_pick H A test (dcols d) [] r W2). Qed.
