(** Names and directories. *)
From Verif Require Import Base Table GridSpec SaveSpec.

Lemma name_cmp_eq a b : name_cmp a b = Eq <-> a = b.
Proof. revert b. induction a as [|x a IH]; intros [|y b]; cbn; try easy.
  destruct (Nat.compare_spec x y) as [->|Hl|Hl].
  - rewrite IH. split; [now intros ->|now intros [= ->]].
  - split; [easy|]. intros [= -> ->]. lia.
  - split; [easy|]. intros [= -> ->]. lia. Qed.
Lemma name_cmp_refl a : name_cmp a a = Eq.
Proof. now apply name_cmp_eq. Qed.
Lemma name_cmp_opp a b : name_cmp b a = CompOpp (name_cmp a b).
Proof. revert b. induction a as [|x a IH]; intros [|y b]; cbn; try easy.
  rewrite (Nat.compare_antisym x y). destruct (Nat.compare x y); cbn; auto. Qed.
Lemma name_lt_trans a b c : name_lt a b -> name_lt b c -> name_lt a c.
Proof. unfold name_lt. revert b c. induction a as [|x a IH]; intros [|y b] [|z c]; cbn; try easy.
  destruct (Nat.compare_spec x y) as [->|Hl|Hl]; [| |easy].
  - destruct (Nat.compare_spec y z); try easy. apply IH.
  - intros _. destruct (Nat.compare_spec y z) as [->|Hl2|Hl2]; [| |easy]; intros _.
    + destruct (Nat.compare_spec x z); easy || lia.
    + destruct (Nat.compare_spec x z); easy || lia. Qed.
Lemma name_lt_irrefl a : ~ name_lt a a.
Proof. unfold name_lt. now rewrite name_cmp_refl. Qed.
Lemma name_cmp_prefix p a b : name_cmp (p ++ a) (p ++ b) = name_cmp a b.
Proof. induction p as [|x p IH]; [reflexivity|]. cbn. now rewrite Nat.compare_refl. Qed.
Lemma name_eq_dec (a b : name) : {a = b} + {a <> b}.
Proof. apply list_eq_dec, Nat.eq_dec. Qed.

Section Dirs.
  Context {K : Type}.
  Notation dir := (dir K).

  Lemma file_at_cons p (d : dir) n : file_at (p :: d) n = if name_eq_dec (fst p) n then Some (snd p) else file_at d n.
  Proof. unfold file_at. cbn [find]. destruct (name_cmp (fst p) n) eqn:E.
    - apply name_cmp_eq in E. destruct (name_eq_dec (fst p) n); easy.
    - destruct (name_eq_dec (fst p) n) as [X|]; [rewrite X, name_cmp_refl in E; discriminate|reflexivity].
    - destruct (name_eq_dec (fst p) n) as [X|]; [rewrite X, name_cmp_refl in E; discriminate|reflexivity]. Qed.

  Lemma file_at_write n c (d : dir) m : file_at (dir_write n c d) m = if name_eq_dec n m then Some c else file_at d m.
  Proof. induction d as [|p d IH]; cbn [dir_write].
    - rewrite file_at_cons. reflexivity.
    - destruct (name_cmp n (fst p)) eqn:E; rewrite !file_at_cons; cbn [fst snd].
      + apply name_cmp_eq in E. subst. destruct (name_eq_dec (fst p) m); reflexivity.
      + reflexivity.
      + rewrite IH. destruct (name_eq_dec (fst p) m) as [<-|]; [|reflexivity].
        destruct (name_eq_dec n (fst p)) as [->|]; [|reflexivity]. rewrite name_cmp_refl in E. discriminate. Qed.

  Lemma dir_write_in n c (d : dir) p : In p (dir_write n c d) -> p = (n, c) \/ In p d.
  Proof. induction d as [|q d IH]; cbn [dir_write].
    - intros [<-|[]]. now left.
    - destruct (name_cmp n (fst q)); cbn [In]; intuition. Qed.

  Lemma dir_write_ok n c (d : dir) : dir_ok d -> dir_ok (dir_write n c d).
  Proof. unfold dir_ok. induction d as [|p d IH]; cbn [dir_write]; intros S.
    - repeat constructor.
    - apply StronglySorted_inv in S as [S F]. destruct (name_cmp n (fst p)) eqn:E.
      + apply name_cmp_eq in E. subst. constructor; assumption.
      + constructor; [now constructor|]. constructor; [exact E|]. eapply Forall_impl; [|exact F].
        cbn. intros q Hq. eapply name_lt_trans; eauto.
      + constructor; [auto|]. apply Forall_forall. intros q Hq. apply dir_write_in in Hq as [->|Hq].
        * unfold name_lt. cbn. rewrite name_cmp_opp, E. reflexivity.
        * rewrite Forall_forall in F. auto. Qed.

  Lemma file_at_none (d : dir) n : (forall p, In p d -> fst p <> n) -> file_at d n = None.
  Proof. induction d as [|p d IH]; intros Hn; [reflexivity|]. rewrite file_at_cons.
    destruct (name_eq_dec (fst p) n) as [E|]; [exfalso; eapply Hn; [now left|exact E]|]. apply IH. intros q Hq. apply Hn. now right. Qed.
  Lemma file_at_in (d : dir) n c : file_at d n = Some c -> In (n, c) d.
  Proof. induction d as [|p d IH]; [discriminate|]. rewrite file_at_cons.
    destruct (name_eq_dec (fst p) n) as [<-|]; [intros [= <-]; left; now destruct p|]. right. auto. Qed.
  Lemma dir_ok_in (d : dir) n c : dir_ok d -> In (n, c) d -> file_at d n = Some c.
  Proof. intros S. induction S as [|p d S IH F]; intros I; [easy|]. rewrite file_at_cons. destruct I as [->|I].
    - destruct (name_eq_dec (fst (n, c)) n); easy.
    - rewrite Forall_forall in F. specialize (F _ I). cbn in F.
      destruct (name_eq_dec (fst p) n) as [<-|]; [now apply name_lt_irrefl in F|]. auto. Qed.

  (** A directory is determined by its files. *)
  Lemma dir_ext (d e : dir) : dir_ok d -> dir_ok e -> (forall n, file_at d n = file_at e n) -> d = e.
  Proof. intros Sd. revert e. induction Sd as [|p d Sd IH Fd]; intros e Se E.
    - destruct e as [|q e]; [reflexivity|]. specialize (E (fst q)). rewrite file_at_cons in E.
      destruct (name_eq_dec (fst q) (fst q)); easy.
    - destruct e as [|q e].
      { specialize (E (fst p)). rewrite file_at_cons in E. destruct (name_eq_dec (fst p) (fst p)); easy. }
      apply StronglySorted_inv in Se as [Se Fe]. rewrite Forall_forall in Fd, Fe.
      assert (Ep := E (fst p)). assert (Eq := E (fst q)). rewrite !file_at_cons in Ep, Eq.
      destruct (name_eq_dec (fst p) (fst p)) as [_|]; [|easy]. destruct (name_eq_dec (fst q) (fst q)) as [_|]; [|easy].
      destruct (name_eq_dec (fst q) (fst p)) as [Hn|Hn].
      + assert (p = q) as <- by (destruct p, q; cbn in *; congruence). f_equal. apply IH; [exact Se|].
        intros n. specialize (E n). rewrite !file_at_cons in E. destruct (name_eq_dec (fst p) n) as [<-|]; [|exact E].
        rewrite !file_at_none; [reflexivity| |]; intros r Hr Hx.
        * specialize (Fe _ Hr). rewrite Hx in Fe. now apply name_lt_irrefl in Fe.
        * specialize (Fd _ Hr). rewrite Hx in Fd. now apply name_lt_irrefl in Fd.
      + exfalso. destruct (name_eq_dec (fst p) (fst q)) as [X|_]; [now rewrite X in Hn|].
        symmetry in Ep. apply file_at_in in Ep. apply file_at_in in Eq. specialize (Fe _ Ep). specialize (Fd _ Eq). cbn in Fe, Fd.
        apply (@name_lt_irrefl (fst p)). eapply name_lt_trans; eauto. Qed.
End Dirs.

(** ** Numbers in names *)
Fixpoint value (s : name) (acc : nat) : nat := match s with [] => acc | c :: r => value r (10 * acc + (c - 48)) end.
Lemma value_app s t acc : value (s ++ t) acc = value t (value s acc).
Proof. revert acc. induction s; cbn [value app]; auto. Qed.
Lemma value_zeros k acc : value (repeat 48 k) acc = 10 ^ k * acc.
Proof. revert acc. induction k as [|k IH]; intros acc; cbn [repeat value]; [cbn; lia|].
  rewrite IH. cbn [Nat.pow]. lia. Qed.
Lemma value_digits fuel n : n < fuel -> value (map (fun d => 48 + d) (digits_fuel fuel n)) 0 = n.
Proof. revert n. induction fuel as [|k IH]; intros n Hn; [lia|]. cbn [digits_fuel].
  destruct (Nat.ltb_spec n 10) as [Hs|Hs].
  - cbn [map value]. lia.
  - rewrite map_app, value_app. rewrite IH.
    + cbn [map value]. pose proof (Nat.div_mod n 10). lia.
    + pose proof (Nat.div_lt n 10). lia. Qed.
Lemma value_str n : value (str_of n) 0 = n.
Proof. apply value_digits. lia. Qed.
Lemma value_str4 n : value (str4 n) 0 = n.
Proof. unfold str4. rewrite value_app, value_zeros, Nat.mul_0_r. apply value_str. Qed.
Lemma str_of_inj i j : str_of i = str_of j -> i = j.
Proof. intros E. rewrite <- (value_str i), <- (value_str j). now rewrite E. Qed.
Lemma str4_inj i j : str4 i = str4 j -> i = j.
Proof. intros E. rewrite <- (value_str4 i), <- (value_str4 j). now rewrite E. Qed.

(** Padded to four digits, numbers below 10000 sort like their names. *)
Lemma str4_next : forallb (fun i => match name_cmp (str4 i) (str4 (S i)) with Lt => true | _ => false end) (seq 0 (100 * 100 - 1)) = true.
Proof. vm_cast_no_check (eq_refl true). Qed.
Lemma str4_sorted_step i : i < 100 * 100 - 1 -> name_lt (str4 i) (str4 (S i)).
Proof. intros Hi. pose proof str4_next as E. rewrite forallb_forall in E. specialize (E i).
  unfold name_lt. destruct (name_cmp (str4 i) (str4 (S i))); try reflexivity;
    (assert (X : false = true) by (apply E, in_seq; lia); discriminate X). Qed.
Lemma str4_sorted i j : i < j -> j < 100 * 100 -> name_lt (str4 i) (str4 j).
Proof. intros Hij. induction Hij as [|j Hij IH]; intros Hj.
  - apply str4_sorted_step. lia.
  - eapply name_lt_trans; [apply IH; lia|]. apply str4_sorted_step. lia. Qed.
