(** to_parquet: invariant over interleavings; reading the directory back. *)
From Coq Require Import ZArith.
From Verif Require Import Base Table ChunkSpec GridSpec GridModel WriteSpec WriteModel WriteProofs WriteProofs2 SaveSpec SaveModel SaveProofs SaveProofs2.

Section Parquet.
  Context {L H A : Type}.
  Notation dframe := (df L H A).
  Variable suffix : name.
  Variable pieces : list dframe.
  Variable d0 : dir dframe.

  Lemma part_name_inj i j : part_name suffix i = part_name suffix j -> i = j.
  Proof. unfold part_name. cbn [app]. intros E. injection E as E. apply app_inv_tail in E. now apply str4_inj. Qed.

  Definition pinv (s : pstate (L:=L) (H:=H) (A:=A)) : Prop :=
    length (ptasks s) = length pieces /\ dir_ok (pdir s)
    /\ (forall i p, nth_error (ptasks s) i = Some (PNamed p) -> nth_error (pvars s) p = Some (part_name suffix i))
    /\ (forall i j p, nth_error (ptasks s) i = Some (PNamed p) -> nth_error (ptasks s) j = Some (PNamed p) -> i = j)
    /\ (forall i d, nth_error (ptasks s) i = Some PDone -> nth_error pieces i = Some d ->
          file_at (pdir s) (part_name suffix i) = Some d)
    /\ (forall n, (forall i, i < length pieces -> n <> part_name suffix i) -> file_at (pdir s) n = file_at d0 n).

  Lemma running_none p ts : running p ts < 1 -> forall i : nat, nth_error ts i <> Some (PNamed p).
  Proof. unfold running. intros E i Hi. apply nth_error_In in Hi.
    assert (X : In (PNamed p) (filter (fun t => match t with PNamed q => q =? p | _ => false end) ts)).
    { apply filter_In. split; [exact Hi|]. apply Nat.eqb_refl. }
    destruct (filter _ ts); [easy|]. cbn in E. lia. Qed.

  Lemma pinv_start nprocs : dir_ok d0 -> pinv (parquet_start nprocs d0 pieces).
  Proof. intros Hd. unfold parquet_start, pinv. cbn [ptasks pdir pvars].
    assert (X : forall i p, nth_error (repeat PStart (length pieces)) i = Some p -> p = PStart).
    { intros i p E. apply nth_error_In in E. now apply repeat_spec in E. }
    rewrite repeat_length. split; [reflexivity|]. split; [exact Hd|].
    split; [intros i p E; apply X in E; discriminate|]. split; [intros i j p E; apply X in E; discriminate|].
    split; [intros i d E; apply X in E; discriminate|]. reflexivity. Qed.

  Lemma pinv_step i s s' : pinv s -> parquet_step suffix pieces 1 i s s' -> pinv s'.
  Proof. intros (Hl & Hd & Hv & Hu & Hf & Ho) St. inversion St; subst; unfold pinv; cbn [ptasks pdir pvars].
    - (* p_name *)
      assert (Li : i < length (ptasks s)) by (eapply nth_error_lt; eauto).
      assert (Nr := @running_none _ _ H2).
      split; [now rewrite upd_length|]. split; [exact Hd|]. split; [|split; [|split; [|exact Ho]]].
      + intros j q Ej. apply upd_nth in Ej as [[-> [= ->]]|[Nj Ej]]; [now apply upd_same| |easy].
        assert (q <> p) by (intros ->; now apply (Nr j)). rewrite upd_other by easy. now apply Hv.
      + intros j k q Ej Ek. apply upd_nth in Ej as [[-> Ej]|[Nj Ej]]; [| |easy];
          (apply upd_nth in Ek as [[-> Ek]|[Nk Ek]]; [| |easy]); try reflexivity.
        * injection Ej as ->. now apply Nr in Ek.
        * injection Ek as ->. now apply Nr in Ej.
        * eauto.
      + intros j d Ej Ed. apply upd_nth in Ej as [[-> Ej]|[Nj Ej]]; [discriminate| |easy]. eauto.
    - (* p_write *)
      assert (Li : i < length (ptasks s)) by (eapply nth_error_lt; eauto).
      rewrite (Hv _ _ H0) in H2. injection H2 as <-.
      split; [now rewrite upd_length|]. split; [now apply dir_write_ok|]. split; [|split; [|split]].
      + intros j q Ej. apply upd_nth in Ej as [[_ Ej]|[Nj Ej]]; [discriminate| |easy]. eauto.
      + intros j k q Ej Ek. apply upd_nth in Ej as [[_ Ej]|[Nj Ej]]; [discriminate| |easy].
        apply upd_nth in Ek as [[_ Ek]|[Nk Ek]]; [discriminate| |easy]. eauto.
      + intros j d' Ej Ed. rewrite file_at_write. apply upd_nth in Ej as [[-> _]|[Nj Ej]]; [| |easy].
        * destruct (name_eq_dec (part_name suffix i) (part_name suffix i)); congruence.
        * destruct (name_eq_dec (part_name suffix i) (part_name suffix j)) as [E|_]; [apply part_name_inj in E; congruence|]. eauto.
      + intros n Hn. rewrite file_at_write. destruct (name_eq_dec (part_name suffix i) n) as [E|_]; [|auto].
        exfalso. eapply Hn; [rewrite <- Hl; exact Li|]. now symmetry.
    - (* p_crash *)
      assert (Li : i < length (ptasks s)) by (eapply nth_error_lt; eauto).
      split; [now rewrite upd_length|]. split; [exact Hd|]. split; [|split; [|split; [|exact Ho]]].
      + intros j q Ej. apply upd_nth in Ej as [[_ Ej]|[Nj Ej]]; [discriminate| |easy]. eauto.
      + intros j k q Ej Ek. apply upd_nth in Ej as [[_ Ej]|[Nj Ej]]; [discriminate| |easy].
        apply upd_nth in Ek as [[_ Ek]|[Nk Ek]]; [discriminate| |easy]. eauto.
      + intros j d' Ej Ed. apply upd_nth in Ej as [[_ Ej]|[Nj Ej]]; [discriminate| |easy]. eauto.
    - (* p_crash_writing *)
      assert (Li : i < length (ptasks s)) by (eapply nth_error_lt; eauto).
      rewrite (Hv _ _ H0) in H1. injection H1 as <-.
      split; [now rewrite upd_length|]. split; [now apply dir_write_ok|]. split; [|split; [|split]].
      + intros j q Ej. apply upd_nth in Ej as [[_ Ej]|[Nj Ej]]; [discriminate| |easy]. eauto.
      + intros j k q Ej Ek. apply upd_nth in Ej as [[_ Ej]|[Nj Ej]]; [discriminate| |easy].
        apply upd_nth in Ek as [[_ Ek]|[Nk Ek]]; [discriminate| |easy]. eauto.
      + intros j d' Ej Ed. rewrite file_at_write. apply upd_nth in Ej as [[_ Ej]|[Nj Ej]]; [discriminate| |easy].
        destruct (name_eq_dec (part_name suffix i) (part_name suffix j)) as [E|_]; [apply part_name_inj in E; congruence|]. eauto.
      + intros n Hn. rewrite file_at_write. destruct (name_eq_dec (part_name suffix i) n) as [E|_]; [|auto].
        exfalso. eapply Hn; [rewrite <- Hl; exact Li|]. now symmetry. Qed.

  Lemma pinv_reach nprocs s : dir_ok d0 -> reaches (parquet_run suffix pieces 1) (parquet_start nprocs d0 pieces) s -> pinv s.
  Proof. intros Hd R. induction R as [|a b R IH [i St]]; [now apply pinv_start|]. eapply pinv_step; eauto. Qed.

  (** the vars keep their number, and a waiting task can always go on when there is a process *)
  Lemma pvars_length threads nprocs s : reaches (parquet_run suffix pieces threads) (parquet_start nprocs d0 pieces) s ->
    length (pvars s) = nprocs /\ length (ptasks s) = length pieces.
  Proof. intros R. induction R as [|a b R [IH1 IH2] [i St]].
    - cbn. now rewrite !repeat_length.
    - inversion St; subst; cbn [pvars ptasks]; rewrite ?upd_length; auto; eapply nth_error_lt; eauto. Qed.

  Lemma parquet_can_go_on nprocs s : 0 < nprocs -> dir_ok d0 ->
    reaches (parquet_run suffix pieces 1) (parquet_start nprocs d0 pieces) s ->
    ~ parquet_returned s -> exists s', parquet_run suffix pieces 1 s s'.
  Proof. intros Hp Hd R Nt. assert (I := pinv_reach Hd R). destruct (pvars_length R) as [Lv Lt].
    destruct I as (Hl & _ & Hv & _).
    assert (X : (exists i p, nth_error (ptasks s) i = Some (PNamed p)) \/ forall i p, nth_error (ptasks s) i <> Some (PNamed p)).
    { clear. induction (ptasks s) as [|t ts IH].
      - right. intros [|i]; discriminate.
      - destruct t as [|p|]; [|left; exists 0, p; reflexivity|];
          (destruct IH as [(i & p & E)|IH]; [left; exists (S i), p; exact E|right; intros [|i] p; cbn; [discriminate|apply IH]]). }
    destruct X as [(i & p & E)|X].
    - assert (Li := nth_error_lt _ _ E). destruct (nth_error pieces i) as [d|] eqn:Ed; [|apply nth_error_None in Ed; lia].
      eexists. exists i. eapply p_write; eauto.
    - assert (Y : exists p, In p (ptasks s) /\ p <> PDone).
      { unfold parquet_returned in Nt. rewrite <- Exists_Forall_neg in Nt.
        - apply Exists_exists in Nt. exact Nt.
        - intros [| |]; (now left) || (right; discriminate). }
      destruct Y as (q & Hq & Nq). apply In_nth_error in Hq as [i Ei].
      destruct q as [|p|]; [|now apply X in Ei|easy].
      eexists. exists i. eapply p_name with (p := 0); [exact Ei|lia|].
      unfold running. destruct (filter _ (ptasks s)) as [|t ts] eqn:Ef; [cbn; lia|]. exfalso.
      assert (Ht : In t (t :: ts)) by now left. rewrite <- Ef in Ht. apply filter_In in Ht as [Ht Hm].
      destruct t as [|r|]; try discriminate. apply In_nth_error in Ht as [k Ek]. now apply X in Ek. Qed.

  (** the final directory *)
  Definition all_parts : dir dframe := combine (map (part_name suffix) (seq 0 (length pieces))) pieces.

  Lemma parts_sorted k (l : list dframe) : k + length l <= 100 * 100 ->
    dir_ok (combine (map (part_name suffix) (seq k (length l))) l).
  Proof. revert k. induction l as [|d l IH]; intros k Hk; cbn [length seq map combine]; [constructor|].
    cbn [length] in Hk. constructor; [apply IH; lia|]. apply Forall_forall. intros [n c] Hn. apply in_combine_l in Hn.
    apply in_map_iff in Hn as (j & <- & Hj). apply in_seq in Hj. cbn [fst].
    unfold name_lt, part_name. cbn [app name_cmp Nat.compare].
    assert (S4 := @str4_sorted k j). assert (Le : forall a b : name, length a = length b -> name_lt a b -> name_cmp (a ++ suffix) (b ++ suffix) = Lt).
    { clear. induction a as [|x a IH]; intros [|y b] El Hl; cbn in *; try easy. unfold name_lt in Hl. cbn in Hl.
      destruct (Nat.compare x y); try easy. apply IH; [lia|exact Hl]. }
    assert (Ln : forall i, i < 100 * 100 -> length (str4 i) = 4).
    { intros i Hi. assert (C : forallb (fun i => length (str4 i) =? 4) (seq 0 (100 * 100)) = true) by (vm_cast_no_check (eq_refl true)).
      rewrite forallb_forall in C. apply Nat.eqb_eq, C, in_seq. lia. }
    apply Le; [rewrite !Ln by lia; reflexivity|]. apply S4; lia. Qed.

  Lemma parts_at n : file_at all_parts n = match find (fun i => if name_eq_dec (part_name suffix i) n then true else false) (seq 0 (length pieces)) with
    | Some i => nth_error pieces i | None => None end.
  Proof. unfold all_parts.
    assert (X : forall k (l : list dframe), (forall j, nth_error l j = nth_error pieces (k + j)) ->
      file_at (combine (map (part_name suffix) (seq k (length l))) l) n =
      match find (fun i => if name_eq_dec (part_name suffix i) n then true else false) (seq k (length l)) with
      | Some i => nth_error pieces i | None => None end).
    { intros k l. revert k. induction l as [|d l IH]; intros k E; [reflexivity|]. cbn [length seq map combine find].
      rewrite file_at_cons. cbn [fst snd]. destruct (name_eq_dec (part_name suffix k) n).
      - specialize (E 0). rewrite Nat.add_0_r in E. now rewrite <- E.
      - apply IH. intros j. specialize (E (S j)). cbn in E. rewrite E. f_equal. lia. }
    apply X. reflexivity. Qed.

  Lemma final_dir s : pinv s -> parquet_returned s -> d0 = [] -> length pieces <= 100 * 100 -> pdir s = all_parts.
  Proof. intros (Hl & Hd & _ & _ & Hf & Ho) Rt -> Hn. apply dir_ext; [exact Hd|now apply parts_sorted|].
    intros n. rewrite parts_at. destruct (find _ (seq 0 (length pieces))) as [i|] eqn:Ef.
    - apply find_some in Ef as [Hi E]. apply in_seq in Hi. destruct (name_eq_dec (part_name suffix i) n) as [<-|]; [|discriminate].
      destruct (nth_error pieces i) as [d|] eqn:Ed; [|apply nth_error_None in Ed; lia]. apply Hf; [|exact Ed].
      destruct (nth_error (ptasks s) i) as [p|] eqn:Ep; [|apply nth_error_None in Ep; lia].
      unfold parquet_returned in Rt. rewrite Forall_forall in Rt. apply nth_error_In in Ep. now rewrite (Rt _ Ep).
    - rewrite Ho; [reflexivity|]. intros i Hi ->. eapply find_none in Ef; [|apply in_seq; split; [apply Nat.le_0_l|exact Hi]].
      cbn beta in Ef. destruct (name_eq_dec (part_name suffix i) (part_name suffix i)); congruence. Qed.

  Lemma all_parts_contents : map snd all_parts = pieces.
  Proof. unfold all_parts. generalize 0. induction pieces as [|d l IH]; intros k; [reflexivity|]. cbn [length seq map combine snd]. f_equal. apply IH. Qed.
End Parquet.

(** ** Range labels *)
Lemma range_back start step rl : parquet_range_labels (range_slice start step 0 (hd 0 rl)) (list_sum rl)
  = if ((Z.of_nat (hd 0%nat rl) * step) =? Z.of_nat (list_sum rl) * step)%Z
    then map (fun k => (start + step * Z.of_nat k)%Z) (seq 0 (list_sum rl)) else map Z.of_nat (seq 0 (list_sum rl)).
Proof. unfold parquet_range_labels, range_slice, range_labels. cbn [rstart rstop rstep].
  replace (start + step * Z.of_nat (hd 0%nat rl) - (start + step * Z.of_nat 0))%Z with (Z.of_nat (hd 0%nat rl) * step)%Z by lia.
  destruct (_ =? _)%Z; [|reflexivity]. apply map_ext. intros k. lia. Qed.
