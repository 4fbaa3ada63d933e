From Verif Require Import Base Table JoinSpec XchgSpec XchgModel.

Lemma rmap_seq {X} (f : nat -> res X) (l : list X) n : length l = n ->
  (forall i x, nth_error l i = Some x -> f i = Ok x) -> rmap f (seq 0 n) = Ok l.
Proof. intros <- Hf.
  assert (G : forall k, (forall i x, nth_error l i = Some x -> f (k + i) = Ok x) -> rmap f (seq k (length l)) = Ok l).
  { clear Hf. induction l as [|x l IH]; intros k Hf; [reflexivity|]. cbn [length seq rmap].
    pose proof (Hf 0 x eq_refl) as E. rewrite Nat.add_0_r in E. rewrite E. cbn [rbind].
    rewrite IH; [reflexivity|]. intros i y Hy. rewrite Nat.add_succ_comm. now apply (Hf (S i)). }
  now apply (G 0). Qed.

Lemma nth_error_firstn_lt {X} (l : list X) n i : i < n -> nth_error (firstn n l) i = nth_error l i.
Proof. revert n l; induction i as [|i IH]; intros [|n] [|x l] Hi; try lia; try reflexivity. cbn. apply IH. lia. Qed.
Lemma nth_error_skipn' {X} (l : list X) n i : nth_error (skipn n l) i = nth_error l (n + i).
Proof. revert l; induction n as [|n IH]; intros l; [reflexivity|]. destruct l; [now destruct i|]. cbn. apply IH. Qed.
Lemma nth_error_slice {X} (l : list X) a b i : i < b - a -> nth_error (slice l a b) i = nth_error l (a + i).
Proof. intros Hi. unfold slice. rewrite nth_error_firstn_lt by lia. now rewrite nth_error_skipn'. Qed.

(** an entry of the buffer itself is read correctly at any offset *)
Lemma buffer_nth {X} (c after : list X) o n i : o + i < length c ->
  nth_error (buffer_to_ndarray c after o n) i = nth_error c (o + i).
Proof. intros Hi. unfold buffer_to_ndarray. rewrite nth_error_firstn_lt by lia. rewrite nth_error_skipn'.
  now apply nth_error_app1. Qed.
Lemma buffer_own {X} (c after : list X) n : buffer_to_ndarray c after 0 n = c.
Proof. unfold buffer_to_ndarray. cbn [skipn]. rewrite firstn_app, Nat.sub_diag, firstn_all. cbn. apply app_nil_r. Qed.

Section Strings.
  Variable encode : list Z -> res (list Z).
  Variable decode : list Z -> res (list Z).
  Hypothesis codec : forall s b, encode s = Ok b -> decode b = Ok s.
  Definition encodable (s : list Z) : Prop := exists b, encode s = Ok b.

  Definition enc (v : value) : list Z := match v with VStr s => match encode s with Ok b => b | Err _ => [] end | _ => [] end.
  Notation okv := (fits encodable SStr).

  Lemma string_data_ok vs : Forall okv vs -> string_data encode vs = Ok (concat (map enc vs)).
  Proof. induction 1 as [|v vs Hv _ IH]; [reflexivity|]. destruct Hv as [-> | (s & -> & b & Eb)]; cbn; [exact IH|].
    rewrite Eb, IH. reflexivity. Qed.
  Lemma offsets_ok vs : Forall okv vs -> string_offsets encode vs = Ok (cumsum0 (map (fun v => length (enc v)) vs)).
  Proof. intros F. unfold string_offsets, cumsum0.
    assert (G : forall p, offsets_loop encode p vs = Ok (tl (cumsum_from p (map (fun v => length (enc v)) vs)))).
    { induction F as [|v vs Hv _ IH]; intros p; [reflexivity|].
      cbn [offsets_loop map cumsum_from tl].
      assert (E : match v with VStr s => do b <- encode s; Ok (p + length b) | _ => Ok p end = Ok (p + length (enc v))).
      { destruct Hv as [-> | (s & -> & b & Eb)]; cbn; [f_equal; lia|]. now rewrite Eb. }
      rewrite E. cbn [rbind]. rewrite IH. cbn [rbind]. destruct (map _ vs); reflexivity. }
    rewrite G. cbn [rbind]. destruct (map _ vs); reflexivity. Qed.
  Lemma validity_ok vs : Forall okv vs -> string_validity vs = map (fun v => match v with VMissing => false | _ => true end) vs.
  Proof. induction 1 as [|v vs Hv _ IH]; [reflexivity|]. cbn. f_equal; [|exact IH].
    destruct Hv as [-> | (s & -> & _)]; reflexivity. Qed.

  Lemma cut_nth vs i v : nth_error vs i = Some v ->
    let cum := cumsum0 (map (fun v => length (enc v)) vs) in
    exists a b, nth_error cum i = Some a /\ nth_error cum (S i) = Some b /\ slice (concat (map enc vs)) a b = enc v.
  Proof.
    intros Hv cum.
    assert (Hlen : length cum = S (length vs)).
    { unfold cum, cumsum0. rewrite cumsum_from_length, map_length. reflexivity. }
    assert (Hi : i < length vs) by (apply nth_error_Some; congruence).
    destruct (nth_error cum i) as [a|] eqn:Ea; [|apply nth_error_None in Ea; lia].
    destruct (nth_error cum (S i)) as [b|] eqn:Eb; [|apply nth_error_None in Eb; lia].
    exists a, b. split; [reflexivity|]. split; [reflexivity|].
    pose proof (cut_concat (map enc vs)) as C. rewrite map_map in C. rewrite <- slices_at_cumsum in C. fold cum in C.
    assert (E : nth_error (slices_at (concat (map enc vs)) cum) i = Some (enc v)) by (rewrite C; now apply map_nth_error).
    unfold slices_at in E. rewrite Hlen in E. replace (S (length vs) - 1) with (length vs) in E by lia.
    rewrite nth_error_map in E.
    rewrite (nth_error_nth' (seq 0 (length vs)) 0) in E by (rewrite seq_length; lia). rewrite seq_nth in E by lia. cbn [option_map Nat.add] in E.
    injection E as E. rewrite (nth_error_nth cum i 0 Ea), (nth_error_nth cum (S i) 0 Eb) in E. exact E.
  Qed.

  (** Decoding any window of an encoded column, with whatever lies behind the buffers. *)
  Lemma string_window vs data offs offset size dafter oafter vafter : Forall okv vs -> offset + size <= length vs ->
    string_data encode vs = Ok data -> string_offsets encode vs = Ok offs ->
    string_column decode (data, dafter) (map Z.of_nat offs, oafter) (Some (string_validity vs, vafter)) false offset size
    = Ok (slice vs offset (offset + size)).
  Proof.
    intros F Hw Ed Eo. rewrite (string_data_ok F) in Ed. rewrite (offsets_ok F) in Eo. injection Ed as <-. injection Eo as <-.
    set (cum := cumsum0 _). unfold string_column. cbn [fst snd]. rewrite buffer_own.
    apply rmap_seq; [rewrite slice_length; lia|]. intros i v Hv.
    assert (Hi : i < size). { assert (i < length (slice vs offset (offset + size))) by (apply nth_error_Some; congruence). rewrite slice_length in *. lia. }
    rewrite nth_error_slice in Hv by lia.
    assert (Hlen : length cum = S (length vs)).
    { unfold cum, cumsum0. rewrite cumsum_from_length, map_length. reflexivity. }
    assert (Hov : okv v). { rewrite Forall_forall in F. apply F. eapply nth_error_In; eauto. }
    unfold inverse_null_buf. rewrite nth_error_map. rewrite buffer_nth by (unfold string_validity; rewrite map_length; lia).
    rewrite (validity_ok F), nth_error_map, Hv. cbn [option_map rbind].
    destruct Hov as [-> | (s & -> & b & Eb)]; [reflexivity|]. cbn [negb].
    destruct (cut_nth _ _ Hv) as (x & y & X1 & X2 & X3). fold cum in X1, X2.
    rewrite !buffer_nth by (rewrite map_length; lia). rewrite !nth_error_map, X1.
    replace (offset + S i) with (S (offset + i)) by lia. rewrite X2. cbn [option_map].
    rewrite !Nat2Z.id, X3. cbn [enc]. rewrite Eb. rewrite (codec Eb). reflexivity.
  Qed.

  Lemma simple_ok k vs : width_ok k -> Forall (fits encodable k) vs -> simple_round_trip encode decode k vs = Ok vs.
  Proof.
    intros Hk F. destruct k as [p b| |]; cbn [simple_round_trip].
    - assert (np_type p b = true) as ->.
      { destruct p; cbn in Hk; repeat (destruct Hk as [Hk|Hk]); subst b; reflexivity. }
      now rewrite buffer_own.
    - assert (E : rmap store_time vs = Ok (map (fun v => match v with VNum z => z | _ => nat_time end) vs)).
      { apply rmap_ok. intros v Hv. rewrite Forall_forall in F. destruct (F v Hv) as [->|(z & -> & _)]; reflexivity. }
      rewrite E. cbn [rbind]. rewrite buffer_own, !map_map. f_equal. rewrite <- (map_id vs) at 2. apply map_ext_in.
      intros v Hv. rewrite Forall_forall in F. destruct (F v Hv) as [->|(z & -> & Hz)]; [reflexivity|].
      unfold as_datetime, as_unsigned, nat_time in *.
      assert (D : ((0 <= z /\ z mod 2 ^ 64 = z) \/ (z < 0 /\ z mod 2 ^ 64 = z + 2 ^ 64))%Z).
      { destruct (Z.neg_nonneg_cases z) as [Hn|Hn]; [right|left]; (split; [exact Hn|]).
        - symmetry. apply Z.mod_unique with (q := (-1)%Z); [left; lia|lia].
        - apply Z.mod_small. lia. }
      destruct D as [[D1 ->]|[D1 ->]].
      + rewrite (proj2 (Z.leb_gt _ _)) by lia. rewrite (proj2 (Z.eqb_neq _ _)) by lia. reflexivity.
      + rewrite (proj2 (Z.leb_le _ _)) by lia. replace (z + 2 ^ 64 - 2 ^ 64)%Z with z by lia.
        rewrite (proj2 (Z.eqb_neq _ _)) by lia. reflexivity.
    - rewrite (string_data_ok F), (offsets_ok F). cbn [rbind].
      erewrite string_window; eauto using string_data_ok, offsets_ok.
      cbn. now rewrite slice_full by lia.
  Qed.
End Strings.

Lemma value_eqb_ok a b : value_eqb a b = true <-> a = b.
Proof. destruct a, b; cbn; try (split; congruence).
  - rewrite Z.eqb_eq. split; congruence.
  - rewrite (list_eqb_spec Z.eqb Z.eqb_eq). split; congruence.
  - rewrite (list_eqb_spec Z.eqb Z.eqb_eq). split; congruence.
  - rewrite Nat.eqb_eq. split; congruence. Qed.

Lemma position_in {X} (eqb : X -> X -> bool) (Heq : forall x y, eqb x y = true <-> x = y) x l : In x l ->
  exists p, position eqb x l = Some p /\ nth_error l p = Some x.
Proof. induction l as [|y l IH]; [easy|]. intros Hin. cbn [position]. destruct (eqb x y) eqn:E.
  - apply Heq in E as ->. now exists 0.
  - assert (Hl : In x l). { destruct Hin as [Hxy|Hl]; [|exact Hl]. subst y. pose proof (proj2 (Heq x x) eq_refl). congruence. }
    destruct (IH Hl) as (p & -> & Hp). now exists (S p). Qed.

Section Cat.
  Variable encode : list Z -> res (list Z).
  Variable decode : list Z -> res (list Z).
  Hypothesis codec : forall s b, encode s = Ok b -> decode b = Ok s.
  (** what the consumer gets right: no missing entry in a categorical column, no category -1 *)
  Definition exact (k : kind) (vs : list value) : Prop :=
    match k with KSimple _ => True | KCat cats _ => ~ In VMissing vs /\ ~ In (VNum (-1)) cats end.

  Lemma column_ok k vs : kind_ok (encodable encode) k -> Forall (belongs (encodable encode) k) vs -> exact k vs ->
    column_round_trip encode decode k vs = Ok vs.
  Proof.
    intros Hk F Hx. destruct k as [k|cats k]; cbn [column_round_trip]; [now apply simple_ok|].
    destruct Hk as (Hw & Hnd & Hf). destruct Hx as (Hm & Hneg).
    rewrite simple_ok; auto. 2:{ eapply Forall_impl; [|exact Hf]. intros a Ha. apply Ha. }
    cbn [rbind]. rewrite buffer_own. unfold categorical_column.
    assert (Hin : forall v, In v vs -> In v cats).
    { intros v Hv. rewrite Forall_forall in F. destruct (F v Hv) as [->|]; [easy|assumption]. }
    assert (E : rmap (fun c => match nth_error cats (Z.to_nat (c mod Z.of_nat (length cats))) with Some v => Ok v | None => Err IndexError end)
                  (map (code cats) vs) = Ok vs).
    { clear F Hm. induction vs as [|v vs IH]; [reflexivity|]. cbn [map rmap]. unfold code at 1.
      destruct (@position_in _ value_eqb value_eqb_ok v cats (Hin v (or_introl eq_refl))) as (p & -> & Hp).
      assert (p < length cats) by (apply nth_error_Some; congruence).
      rewrite Z.mod_small by lia. rewrite Nat2Z.id, Hp. cbn [rbind]. rewrite IH; [reflexivity|]. intros; apply Hin; now right. }
    rewrite E. cbn [rbind]. f_equal. rewrite <- (map_id vs) at 2. apply map_ext_in. intros v Hv.
    destruct (value_eqb v (VNum (-1))) eqn:Ev; [|reflexivity]. apply value_eqb_ok in Ev as ->. exfalso. auto.
  Qed.
End Cat.

(** ** Bit masks *)
Lemma map_nth_lt {X Y} (f : X -> Y) l d0 d i : i < length l -> nth i (map f l) d = f (nth i l d0).
Proof. intros Hi. rewrite (nth_indep _ d (f d0)) by (rewrite map_length; lia). apply map_nth. Qed.
Lemma testbit_bits v from n : bits v from n = map (fun j => Nat.testbit v (j + from)) (seq 0 n).
Proof. reflexivity. Qed.

Lemma bitmask_ok bytes n off : off < 8 -> 0 < n -> length bytes = (off + n + 7) / 8 ->
  bitmask_to_bool bytes n off = Ok (map (mask_bit bytes off) (seq 0 n)).
Proof.
  intros Ho Hn Hl. unfold bitmask_to_bool. rewrite Nat.div_small, Nat.mod_small by lia. cbn [skipn].
  destruct bytes as [|b0 bs]; [cbn in Hl; lia|]. set (bytes := b0 :: bs) in *.
  set (first := Nat.min (8 - off) n). set (q := (n - first) / 8). set (r := (n - first) mod 8).
  assert (Hd : n - first = 8 * q + r) by (apply Nat.div_mod; lia). assert (Hr : r < 8) by (apply Nat.mod_upper_bound; lia).
  assert (Hbytes : 0 < q + r -> first = 8 - off /\ length bytes = 1 + q + (if r =? 0 then 0 else 1)).
  { intros Hp. assert (first = 8 - off) by lia. split; [assumption|]. rewrite Hl.
    destruct (Nat.eqb_spec r 0); [|]; symmetry; apply Nat.div_unique with (r := (off + n + 7) - 8 * (1 + q + (if r =? 0 then 0 else 1)));
      destruct (Nat.eqb_spec r 0); lia. }
  assert (E : rmap (fun i => match nth_error bytes (i + 1) with Some v => Ok (bits v 0 8) | None => Err IndexError end) (seq 0 q)
              = Ok (map (fun i => map (mask_bit bytes off) (seq (first + 8 * i) 8)) (seq 0 q))).
  { apply rmap_ok. intros i Hi%in_seq. destruct Hbytes as (Hf & Hb); [lia|].
    rewrite (nth_error_nth' bytes 0) by (destruct (r =? 0); lia). f_equal. unfold bits.
    apply nth_ext with (d := false) (d' := false); rewrite !map_length, !seq_length; [reflexivity|]. intros j Hj.
    rewrite (map_nth_lt _ _ 0), (map_nth_lt _ _ 0) by (rewrite seq_length; lia). rewrite !seq_nth by lia.
    unfold mask_bit. assert (X1 : (off + (first + 8 * i + j)) / 8 = i + 1) by (symmetry; apply Nat.div_unique with (r := j); lia).
    assert (X2 : (off + (first + 8 * i + j)) mod 8 = j) by (symmetry; apply Nat.mod_unique with (q := i + 1); lia).
    rewrite X1, X2. cbn [Nat.add]. rewrite Nat.add_0_r. reflexivity. }
  rewrite E. cbn [rbind]. f_equal.
  assert (D : bits b0 off first ++ concat (map (fun i => map (mask_bit bytes off) (seq (first + 8 * i) 8)) (seq 0 q))
              = map (mask_bit bytes off) (seq 0 (first + 8 * q))).
  { rewrite seq_app, map_app. f_equal.
    - unfold bits. apply map_ext_in. intros j Hj%in_seq. unfold mask_bit. rewrite Nat.div_small, Nat.mod_small by lia. cbn. f_equal. lia.
    - cbn [Nat.add]. clear. induction q as [|q IH]; [now rewrite Nat.mul_0_r|]. rewrite seq_S, map_app, concat_app, IH. cbn [map concat Nat.add].
      rewrite app_nil_r, <- map_app, <- seq_app. do 2 f_equal. lia. }
  rewrite D, map_length, seq_length. replace (n - (first + 8 * q)) with r by lia.
  assert (Sn : seq 0 n = seq 0 (first + 8 * q) ++ seq (0 + (first + 8 * q)) r) by (rewrite <- seq_app; f_equal; lia).
  rewrite Sn, map_app. f_equal.
  destruct (Nat.eqb_spec r 0) as [Er|Hr0]; [rewrite Er; destruct (1 <? length bytes); reflexivity|].
  destruct Hbytes as (Hf & Hb); [lia|]. rewrite (proj2 (Nat.ltb_lt _ _)) by lia.
  assert (EL : last bytes 0 = nth (1 + q) bytes 0).
  { assert (length bytes = S (1 + q)) by lia. clear -H. revert H. generalize (1 + q). generalize bytes. clear.
    induction bytes as [|x l IH]; intros k Hk; [discriminate|]. destruct l as [|y l]; [cbn in Hk; now replace k with 0 by lia|].
    destruct k; [discriminate|]. cbn [last nth]. apply IH. cbn [length] in *. lia. }
  rewrite EL. unfold bits. apply nth_ext with (d := false) (d' := false); rewrite !map_length, !seq_length; [reflexivity|]. intros j Hj.
  rewrite (map_nth_lt _ _ 0), (map_nth_lt _ _ 0) by (rewrite seq_length; lia). rewrite !seq_nth by lia.
  unfold mask_bit. assert (X1 : (off + (0 + (first + 8 * q) + j)) / 8 = 1 + q) by (symmetry; apply Nat.div_unique with (r := j); lia).
  assert (X2 : (off + (0 + (first + 8 * q) + j)) mod 8 = j) by (symmetry; apply Nat.mod_unique with (q := S q); lia).
  rewrite X1, X2. cbn [Nat.add]. rewrite Nat.add_0_r. reflexivity.
Qed.
