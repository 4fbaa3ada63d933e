From Coq Require Import ZArith.
From Verif Require Import Base Table ChunkSpec ChunkModel ChunkProofs GridModel FrameSpec GridProofs GridProofs2 GridProofs3 GridProofs5 ReadSpec ReadModel.

(** * Row groups *)
(** What is left to read in state [st]. *)
Definition remaining (counts : list nat) (st : nat * nat * nat) : list (nat * nat) :=
  let '(f, g, n) := st in named (f, g, g + n) ++ groups_from (S f) (skipn (S f) counts).

Lemma groups_from_skipn counts : forall f n, nth_error counts f = Some n ->
  forall k, groups_from (k + f) (skipn f counts) = named (k + f, 0, n) ++ groups_from (S (k + f)) (skipn (S f) counts).
Proof. induction counts as [|c cs IH]; intros f n E k; [destruct f; discriminate|]. destruct f as [|f].
  - injection E as ->. cbn. now rewrite Nat.sub_0_r.
  - cbn [skipn]. rewrite Nat.add_succ_r. change (S (k + f)) with (S k + f). now rewrite (IH f n E (S k)). Qed.

Lemma named_split f g n k : k <= n -> named (f, g, g + n) = named (f, g, g + k) ++ named (f, g + k, g + k + (n - k)).
Proof. intros Hk. cbn. rewrite <- map_app. f_equal. replace (g + n - g) with (k + (n - k)) by lia. rewrite seq_app.
  f_equal; f_equal; lia. Qed.
Lemma named_length f g n : length (named (f, g, g + n)) = n.
Proof. cbn. rewrite map_length, seq_length. lia. Qed.
Lemma groups_from_length counts : forall k, length (groups_from k counts) = list_sum counts.
Proof. induction counts as [|c cs IH]; intros k; [reflexivity|]. cbn [groups_from]. rewrite app_length, map_length, seq_length, IH. lsum. reflexivity. Qed.

Definition st_ok (counts : list nat) (st : nat * nat * nat) : Prop :=
  let '(f, g, n) := st in nth_error counts f = Some (g + n).

Lemma take_part_ok counts size : forall fuel taken st acc, st_ok counts st -> taken <= size ->
  size - taken <= length (remaining counts st) ->
  (size - taken) + (length counts - fst (fst st)) < fuel ->
  exists reqs st', take_part fuel counts size taken st acc = Ok (acc ++ reqs, st')
    /\ st_ok counts st' /\ (size <> taken -> reqs <> [])
    /\ flat_map named reqs ++ remaining counts st' = remaining counts st
    /\ length (flat_map named reqs) = size - taken.
Proof.
  induction fuel as [|fuel IH]; intros taken [[f g] n] acc Ok1 Ht Hr Hf; [lia|]. cbn [take_part].
  destruct (Nat.eqb_spec taken size) as [->|Ne].
  { exists [], (f, g, n). rewrite app_nil_r. repeat split; auto; cbn; lia. }
  cbn [fst] in Hf.
  assert (Lf : f < length counts) by (apply nth_error_Some; cbn in Ok1; congruence).
  assert (Step : forall f' g' n', st_ok counts (f', g', n') -> remaining counts (f', g', n') = remaining counts (f, g, n) ->
            (n' <> 0 \/ f < f') -> f <= f' ->
            exists reqs st', take_part fuel counts size (taken + Nat.min (size - taken) n')
               (f', g' + Nat.min (size - taken) n', n' - Nat.min (size - taken) n')
               (acc ++ [(f', g', g' + Nat.min (size - taken) n')]) = Ok (acc ++ reqs, st')
              /\ st_ok counts st' /\ (size <> taken -> reqs <> [])
              /\ flat_map named reqs ++ remaining counts st' = remaining counts (f, g, n)
              /\ length (flat_map named reqs) = size - taken).
  { intros f' g' n' O' R' D' Ff. set (k := Nat.min (size - taken) n'). assert (Hk : k <= n' /\ k <= size - taken) by lia.
    assert (Lf' : f' < length counts) by (apply nth_error_Some; cbn in O'; congruence).
    destruct (IH (taken + k) (f', g' + k, n' - k) (acc ++ [(f', g', g' + k)])) as (reqs & st' & E & O2 & _ & R2 & L2).
    - cbn in O' |- *. rewrite O'. f_equal. lia.
    - lia.
    - rewrite <- R' in Hr. cbn [remaining] in Hr |- *. rewrite app_length in Hr |- *. rewrite named_length in Hr |- *. lia.
    - cbn [fst]. unfold k. lia.
    - exists ((f', g', g' + k) :: reqs), st'. rewrite <- app_assoc in E. split; [exact E|]. split; [exact O2|]. split; [discriminate|]. split.
      + cbn [flat_map]. rewrite <- app_assoc, R2. rewrite <- R'. cbn [remaining]. rewrite app_assoc. f_equal. symmetry. apply named_split. lia.
      + cbn [flat_map]. rewrite app_length, L2, named_length. lia. }
  destruct (Nat.ltb_spec n 1) as [Hn|Hn].
  - assert (n = 0) by lia. subst n. destruct (nth_error counts (S f)) as [m|] eqn:Em.
    + cbn [rbind]. apply Step; auto. cbn [remaining]. rewrite Nat.add_0_r.
      pose proof (groups_from_skipn counts (S f) Em 0) as Gs; rewrite Nat.add_0_l in Gs; rewrite Gs. cbn. rewrite Nat.sub_diag. cbn. now rewrite Nat.sub_0_r.
    + exfalso. cbn [remaining] in Hr. rewrite app_length, named_length in Hr. rewrite skipn_all2 in Hr by (now apply nth_error_None). cbn in Hr. lia.
  - cbn [rbind]. apply Step; auto; lia.
Qed.

Lemma take_parts_ok counts : forall sizes st, st_ok counts st -> Forall (fun s => 0 < s) sizes ->
  list_sum sizes = length (remaining counts st) ->
  exists parts, take_parts counts sizes st = Ok parts
    /\ concat (map (flat_map named) parts) = remaining counts st
    /\ map (fun p => length (flat_map named p)) parts = sizes
    /\ Forall (fun p => p <> []) parts.
Proof. induction sizes as [|s sizes IH]; intros st O P E.
  - exists []. cbn. repeat split; auto. symmetry. apply length_zero_iff_nil. now rewrite <- E.
  - lsum. inversion P; subst. destruct (@take_part_ok counts s (s + length counts + 1) 0 st []) as (reqs & st' & T & O' & N & R & Ln); auto; try lia.
    rewrite Nat.sub_0_r in Ln. destruct (IH st') as (parts & T2 & C2 & S2 & N2); auto.
    { rewrite <- R in E. rewrite app_length in E. lia. }
    cbn [take_parts]. cbn [app] in T. rewrite T. cbn [rbind snd fst]. rewrite T2. cbn [rbind]. exists (reqs :: parts). cbn. rewrite C2, Ln, S2. repeat split; auto.
    constructor; auto. apply N. lia. Qed.

Lemma determine_ok nparts counts : 0 < nparts ->
  exists parts, determine_partitioning nparts counts = Ok parts
    /\ concat (map (flat_map named) parts) = all_groups counts
    /\ length parts = Nat.min nparts (list_sum counts)
    /\ Forall (fun p => p <> []) parts
    /\ Forall (fun p => let q := list_sum counts / Nat.min nparts (list_sum counts) in
                 q <= length (flat_map named p) <= S q) parts.
Proof. intros Hn. unfold determine_partitioning. destruct (Nat.eqb_spec (list_sum counts) 0) as [Z|Z].
  - exists []. repeat split; auto; [|rewrite Z; cbn; lia]. cbn. symmetry. apply length_zero_iff_nil. unfold all_groups. now rewrite groups_from_length.
  - set (N := list_sum counts) in *. set (k := Nat.min nparts N). assert (Hk : 0 < k <= N) by lia.
    destruct (Nat.eqb_spec k 0); [lia|]. set (sizes := _ ++ _).
    assert (Hc : exists c cs, counts = c :: cs) by (destruct counts; [now cbn in Z|eauto]).
    destruct Hc as (c & cs & Hc).
    assert (Hq : 0 < N / k) by (apply Nat.div_str_pos; lia).
    assert (Rem : remaining counts (0, 0, nth 0 counts 0) = all_groups counts).
    { rewrite Hc. cbn [remaining nth]. unfold all_groups. cbn. now rewrite Nat.sub_0_r. }
    destruct (@take_parts_ok counts sizes (0, 0, nth 0 counts 0)) as (parts & T & C & S & Ne).
    + rewrite Hc. reflexivity.
    + unfold sizes. apply Forall_app. split; apply Forall_forall; intros x Hx; apply repeat_spec in Hx; subst; lia.
    + rewrite Rem. unfold all_groups. rewrite groups_from_length. fold N. unfold sizes. rewrite list_sum_app, !list_sum_repeat.
      pose proof (Nat.div_mod N k ltac:(lia)). pose proof (Nat.mod_upper_bound N k ltac:(lia)). nia.
    + exists parts. rewrite T, C, Rem. split; [reflexivity|]. split; [reflexivity|].
      pose proof (Nat.mod_upper_bound N k ltac:(lia)) as Mb.
      split; [rewrite <- (map_length (fun p => length (flat_map named p))), S; unfold sizes; rewrite app_length, !repeat_length; lia|].
      split; [exact Ne|]. cbv zeta. apply Forall_forall. intros p Hp.
      assert (I : In (length (flat_map named p)) sizes) by (rewrite <- S; apply in_map_iff; eauto).
      unfold sizes in I. apply in_app_iff in I as [I|I]; apply repeat_spec in I; lia. Qed.
