(** C36, C37, C48, C49: the dataframe interchange protocol.

    [shows f d rl cl] (SelProofs5.v): the partitioned frame [f] stands for the table [d], cut at row lengths [rl]
    and column widths [cl].  [tile], [fits], [belongs], [kind_ok], [mask_bit] are in XchgSpec.v. *)
From Verif Require Import Base Table ChunkModel ChunkSpec ChunkProofs GridModel GridSpec FrameSpec GridProofs GridProofs2 GridProofs3 GridProofs5
  SelSpec SelModel SelProofs SelProofs2 SelProofs3 SelProofs4 SelProofs5 SelProofs6 JoinSpec JoinProofs XchgSpec XchgModel XchgProofs XchgProofs2 XchgProofs3.

(** C36: [get_chunks(n)] for no [n], for the current number of chunks, or for a positive multiple of it up to the
    number of rows: the chunks tile the frame, there are as many as asked for, and when the frame had to be
    repartitioned every chunk but the last has [rows // n] rows (and none is empty). *)
Theorem C36_chunks :
  forall (L H A : Type) (leqb : L -> L -> bool) (heqb : H -> H -> bool),
    (forall x y, leqb x y = true <-> x = y) -> (forall x y, heqb x y = true <-> x = y) ->
    forall (min_row min_col nparts : nat), 0 < min_row -> 0 < min_col -> 0 < nparts ->
    forall (known_l known_w : nat -> nat -> bool) (argsort : list Z -> list nat),
      (forall l, sorts l (argsort l)) ->
    forall (big : nat -> bool) (f : pframe) (d : df L H A) (rl cl : list nat) (n : option Z),
      shows f d rl cl ->
      match n with
      | None => True
      | Some n => n = Z.of_nat (length rl) \/ (0 < n <= Z.of_nat (nrows d) /\ n mod Z.of_nat (length rl) = 0)%Z
      end ->
      exists chunks ts,
        get_chunks leqb heqb min_row min_col nparts known_l known_w argsort big n f = Ok chunks
        /\ rmap (pf_to_pandas leqb heqb) chunks = Ok ts
        /\ tile ts d
        /\ match n with
           | None => map nrows ts = rl
           | Some n => length ts = Z.to_nat n
               /\ (n <> Z.of_nat (length rl) ->
                   map nrows ts = repeat (nrows d / Z.to_nat n) (Z.to_nat n - 1)
                                  ++ [nrows d mod Z.to_nat n + nrows d / Z.to_nat n]
                   /\ Forall (fun t => 0 < nrows t) ts)
           end.
Proof.
  intros L H A leqb heqb Hl Hh mr mc np H1 H2 H3 kl kw ag Hag big f d rl cl n Hs Hn.
  destruct (@get_chunks_ok L H A leqb heqb Hl Hh mr mc np H1 H2 H3 kl kw ag Hag big f d rl cl n Hs Hn) as (fs & lens & E & F & Hsum & Hlen).
  assert (W : wf d) by (destruct Hs as (((W & _) & _) & _); exact W).
  exists fs, (map (fun iv => iloc_rows d (fst iv) (snd iv)) (bounds 0 lens)). split; [exact E|].
  assert (R : rmap (pf_to_pandas leqb heqb) fs = Ok (map (fun iv => iloc_rows d (fst iv) (snd iv)) (bounds 0 lens))).
  { clear -F. induction F as [|iv g ivs fs (E & _) _ IH]; [reflexivity|]. cbn. rewrite E. cbn. rewrite IH. reflexivity. }
  assert (Sz : map nrows (map (fun iv => iloc_rows d (fst iv) (snd iv)) (bounds 0 lens)) = lens).
  { rewrite map_map. rewrite <- (bounds_diffs 0 lens) at 2. apply map_ext_in. intros iv Hin. unfold nrows. cbn [iloc_rows dindex]. rewrite slice_length.
    pose proof (bounds_within 0 lens) as Fw. rewrite Forall_forall in Fw. specialize (Fw _ Hin). unfold nrows in Hsum. lia. }
  split; [exact R|]. split; [eapply chunks_tile; eauto|]. rewrite Sz, map_length, bounds_length. destruct n as [n|]; [|exact Hlen].
  destruct Hlen as [L1 L2]. split; [exact L1|]. intros Hne. destruct (Z.eqb_spec n (Z.of_nat (length rl))); [easy|].
  split; [exact L2|]. destruct Hn as [Hn|((N1 & N2) & _)]; [easy|].
  destruct (@even_lengths_ok (nrows d) (Z.to_nat n)) as (_ & _ & X); [lia|lia|]. rewrite <- L2, <- Sz in X. exact (proj1 (Forall_map nrows _ _) X).
Qed.
Print Assumptions C36_chunks.

(** C36: every other number of chunks is refused. *)
Theorem C36_refused :
  forall (L H A : Type) (leqb : L -> L -> bool) (heqb : H -> H -> bool) (min_row min_col nparts : nat)
         (known_l known_w : nat -> nat -> bool) (argsort : list Z -> list nat) (big : nat -> bool)
         (f : pframe) (d : df L H A) (rl cl : list nat) (n : Z),
    shows f d rl cl -> n <> Z.of_nat (length rl) ->
    (n mod Z.of_nat (length rl) <> 0 \/ Z.of_nat (nrows d) < n)%Z ->
    get_chunks leqb heqb min_row min_col nparts known_l known_w argsort big (Some n) f = Err RuntimeError.
Proof. intros. eapply get_chunks_rejects; eauto. Qed.
Print Assumptions C36_refused.

(** C36 (partial): the chunks of a single column.  Missing, because the code fails there
    ([C36_column_chunks_refuted]): asking for the chunks as they are. *)
Theorem C36_column_chunks_partial :
  forall (L H A : Type) (leqb : L -> L -> bool) (heqb : H -> H -> bool),
    (forall x y, leqb x y = true <-> x = y) -> (forall x y, heqb x y = true <-> x = y) ->
    forall (min_row min_col nparts : nat), 0 < min_row -> 0 < min_col -> 0 < nparts ->
    forall (known_l known_w : nat -> nat -> bool) (argsort : list Z -> list nat),
      (forall l, sorts l (argsort l)) ->
    forall (big : nat -> bool) (f : pframe) (d : df L H A) (rl cl : list nat) (n : Z),
      shows f d rl cl -> n <> Z.of_nat (length rl) ->
      (0 < n <= Z.of_nat (nrows d))%Z -> (n mod Z.of_nat (length rl) = 0)%Z ->
      exists chunks ts,
        column_get_chunks leqb heqb min_row min_col nparts known_l known_w argsort big (Some n) f = Ok chunks
        /\ rmap (pf_to_pandas leqb heqb) chunks = Ok ts /\ tile ts d /\ length ts = Z.to_nat n.
Proof.
  intros L H A leqb heqb Hl Hh mr mc np H1 H2 H3 kl kw ag Hag big f d rl cl n Hs Hne Hn Hm.
  destruct (@C36_chunks L H A leqb heqb Hl Hh mr mc np H1 H2 H3 kl kw ag Hag big f d rl cl (Some n) Hs) as (cs & ts & E & R & T & Hl2 & _); [now right|].
  exists cs, ts. split; [|auto]. unfold column_get_chunks, get_chunks in *.
  assert (HN : num_chunks f = length rl) by (destruct Hs as (((_ & _ & _ & Hgr & _) & _) & _); unfold num_chunks; rewrite Hgr; apply cut_table_length).
  rewrite HN in *. destruct (Z.eqb_spec n (Z.of_nat (length rl))); [easy|]. exact E.
Qed.
Print Assumptions C36_column_chunks_partial.

(** C36 refuted for columns: [get_chunks()] of the protocol column raises AttributeError for every column. *)
Theorem C36_column_chunks_refuted :
  forall (L H A : Type) (leqb : L -> L -> bool) (heqb : H -> H -> bool),
    (forall x y, leqb x y = true <-> x = y) -> (forall x y, heqb x y = true <-> x = y) ->
    forall (min_row min_col nparts : nat), 0 < min_row -> 0 < min_col -> 0 < nparts ->
    forall (known_l known_w : nat -> nat -> bool) (argsort : list Z -> list nat),
      (forall l, sorts l (argsort l)) ->
    forall (big : nat -> bool) (f : pframe) (d : df L H A) (rl cl : list nat),
      shows f d rl cl ->
      column_get_chunks leqb heqb min_row min_col nparts known_l known_w argsort big None f = Err AttributeError.
Proof.
  intros L H A leqb heqb Hl Hh mr mc np H1 H2 H3 kl kw ag Hag big f d rl cl Hs. unfold column_get_chunks.
  destruct (@yield_ok L H A leqb heqb Hl Hh mr mc np H1 H2 H3 kl kw ag Hag big f d rl cl Hs) as (fs & -> & _).
  destruct Hs as ((Hg & _) & Hr & Hc & _). rewrite (gridded_row_lengths Hg Hc). destruct rl; [easy|reflexivity].
Qed.
Print Assumptions C36_column_chunks_refuted.

(** C37: a column exported by modin and read back by modin is the same column, for numbers, booleans, timestamps
    and strings, for every UTF-8 codec that decodes what it encodes. *)
Theorem C37_column_round_trip :
  forall (encode decode : list Z -> res (list Z)), (forall s b, encode s = Ok b -> decode b = Ok s) ->
  forall (k : skind) (vs : list value), width_ok k -> Forall (fits (fun s => exists b, encode s = Ok b) k) vs ->
    column_round_trip encode decode (KSimple k) vs = Ok vs.
Proof. intros enc dec Hc k vs Hk Hf. now apply simple_ok. Qed.
Print Assumptions C37_column_round_trip.

(** C37: the string buffers stay right when a consumer looks at a window of the column, whatever lies behind the
    buffers in memory. *)
Theorem C37_string_window :
  forall (encode decode : list Z -> res (list Z)), (forall s b, encode s = Ok b -> decode b = Ok s) ->
  forall (vs : list value) (data : list Z) (offs : list nat) (offset size : nat) (behind1 behind2 : list Z) (behind3 : list bool),
    Forall (fits (fun s => exists b, encode s = Ok b) SStr) vs -> offset + size <= length vs ->
    string_data encode vs = Ok data -> string_offsets encode vs = Ok offs ->
    string_column decode (data, behind1) (map Z.of_nat offs, behind2) (Some (string_validity vs, behind3)) false offset size
    = Ok (slice vs offset (offset + size)).
Proof. intros enc dec Hc vs data offs o n b1 b2 b3 F Hw Ed Eo. eapply string_window_ok; eauto. Qed.
Print Assumptions C37_string_window.

(** C37: the whole frame.  [from_dataframe] of an exported frame gives back the frame, whatever number of chunks
    it is carried in, for unique string column names, at least one column and no empty row block, every column
    holding values of its type ([column_good]: for categorical columns only without missing entries and without a
    category -1, see C48). *)
Theorem C37_frame_round_trip :
  forall (L H : Type) (leqb : L -> L -> bool) (heqb : H -> H -> bool),
    (forall x y, leqb x y = true <-> x = y) -> (forall x y, heqb x y = true <-> x = y) ->
    forall (min_row min_col nparts : nat), 0 < min_row -> 0 < min_col -> 0 < nparts ->
    forall (known_l known_w : nat -> nat -> bool) (argsort : list Z -> list nat),
      (forall l, sorts l (argsort l)) ->
    forall (encode decode : list Z -> res (list Z)), (forall s b, encode s = Ok b -> decode b = Ok s) ->
    forall (big : nat -> bool) (is_str : H -> bool) (kind_of : H -> kind)
           (f : pframe) (d : df L H value) (rl cl : list nat) (n : option Z),
      shows f d rl cl -> Forall (fun k => 0 < k) rl -> 0 < ncols d ->
      NoDup (dcols d) -> Forall (fun h => is_str h = true) (dcols d) ->
      (forall p name, nth_error (dcols d) p = Some name ->
         let values := map (fun row => nth p row VMissing) (dcells d) in
         kind_ok (fun s => exists b, encode s = Ok b) (kind_of name)
         /\ Forall (belongs (fun s => exists b, encode s = Ok b) (kind_of name)) values
         /\ match kind_of name with
            | KSimple _ => True
            | KCat cats _ => ~ In VMissing values /\ ~ In (VNum (-1)) cats
            end) ->
      match n with
      | None => True
      | Some n => n = Z.of_nat (length rl) \/ (0 < n <= Z.of_nat (nrows d) /\ n mod Z.of_nat (length rl) = 0)%Z
      end ->
      from_dataframe leqb heqb min_row min_col nparts known_l known_w argsort big encode decode is_str kind_of n f = Ok d.
Proof.
  intros L H leqb heqb Hl Hh mr mc np H1 H2 H3 kl kw ag Hag enc dec Hcd big is_str kind_of f d rl cl n Hs Hp Hc Hnd Hst HG Hn.
  eapply from_dataframe_ok; eauto.
Qed.
Print Assumptions C37_frame_round_trip.

(** C37 refuted for object columns that hold anything but exact strings: a [str] subclass comes back as the empty
    string, another object as missing. *)
Theorem C37_object_values_refuted :
  exists (encode decode : list Z -> res (list Z)),
    (forall s b, encode s = Ok b -> decode b = Ok s)
    /\ column_round_trip encode decode (KSimple SStr) [VStr [97%Z]; VStrSub [98%Z]; VNum 7; VObj 3]
       = Ok [VStr [97%Z]; VStr []; VMissing; VMissing].
Proof. exists Ok, Ok. split; [congruence|reflexivity]. Qed.
Print Assumptions C37_object_values_refuted.

(** C48 (partial): categorical columns.  Missing, because the code is wrong there: missing entries and a category
    equal to -1. *)
Theorem C48_categorical_round_trip_partial :
  forall (encode decode : list Z -> res (list Z)), (forall s b, encode s = Ok b -> decode b = Ok s) ->
  forall (cats : list value) (k : skind) (vs : list value),
    width_ok k -> NoDup cats ->
    Forall (fun v => fits (fun s => exists b, encode s = Ok b) k v /\ present v) cats ->
    Forall (fun v => In v cats) vs -> ~ In (VNum (-1)) cats ->
    column_round_trip encode decode (KCat cats k) vs = Ok vs.
Proof.
  intros enc dec Hc cats k vs Hw Hnd Hf Hin Hneg. apply column_ok; auto.
  - repeat split; auto.
  - eapply Forall_impl; [|exact Hin]. cbn. auto.
  - split; [|exact Hneg]. intros Hm. rewrite Forall_forall in Hin. apply Hin in Hm. rewrite Forall_forall in Hf. apply (Hf _ Hm). reflexivity.
Qed.
Print Assumptions C48_categorical_round_trip_partial.

(** C48 refuted: a missing entry comes back as the last category ... *)
Theorem C48_missing_category_refuted :
  forall (encode decode : list Z -> res (list Z)), (forall s b, encode s = Ok b -> decode b = Ok s) ->
  forall (cats : list value) (k : skind) (last : value),
    width_ok k -> Forall (fun v => fits (fun s => exists b, encode s = Ok b) k v /\ present v) (cats ++ [last]) ->
    last <> VNum (-1) ->
    column_round_trip encode decode (KCat (cats ++ [last]) k) [VMissing] = Ok [last].
Proof.
  intros enc dec Hc cats k last Hw Hf Hl. cbn [column_round_trip]. rewrite (@simple_ok enc dec Hc k (cats ++ [last])); auto.
  2:{ eapply Forall_impl; [|exact Hf]. intros a Ha. apply Ha. }
  cbn [rbind]. rewrite buffer_own. unfold categorical_column, code. cbn [map].
  assert (P : position value_eqb VMissing (cats ++ [last]) = None).
  { clear -Hf. induction Hf as [|v l (_ & Hp) _ IH]; [reflexivity|]. cbn [position].
    destruct (value_eqb VMissing v) eqn:E; [apply value_eqb_ok in E; now subst|]. now rewrite IH. }
  rewrite P. cbn [rmap]. rewrite app_length. cbn [length]. replace ((-1) mod Z.of_nat (length cats + 1))%Z with (Z.of_nat (length cats)).
  2:{ apply Z.mod_unique with (q := (-1)%Z); lia. }
  rewrite Nat2Z.id, nth_error_app2, Nat.sub_diag by lia. cbn [nth_error rbind map].
  destruct (value_eqb last (VNum (-1))) eqn:E; [apply value_eqb_ok in E; now subst|reflexivity].
Qed.
Print Assumptions C48_missing_category_refuted.

(** ... and an entry that is the number -1 comes back as missing. *)
Theorem C48_minus_one_refuted :
  column_round_trip Ok Ok (KCat [VNum (-1); VNum 5] (SPrim PInt 64)) [VNum 5; VNum (-1)] = Ok [VNum 5; VMissing].
Proof. reflexivity. Qed.
Print Assumptions C48_minus_one_refuted.

(** C49 (partial): a bit mask is read entry by entry when the buffer has exactly the bytes the mask needs ... *)
Theorem C49_bit_mask_partial :
  forall (bytes : list nat) (n offset : nat), offset < 8 -> 0 < n -> length bytes = (offset + n + 7) / 8 ->
    bitmask_to_bool bytes n offset = Ok (map (mask_bit bytes offset) (seq 0 n)).
Proof. exact bitmask_ok. Qed.
Print Assumptions C49_bit_mask_partial.

(** ... and then a foreign column that fills its buffers is read with exactly the entries missing whose bit is 0. *)
Theorem C49_foreign_column_partial :
  forall (data behind : list value) (mask mask_behind : list nat),
    data <> [] -> length mask = (length data + 7) / 8 ->
    foreign_column data behind mask mask_behind 0 (length data)
    = Ok (map (fun p => if mask_bit mask 0 (fst p) then snd p else VMissing) (combine (seq 0 (length data)) data)).
Proof. exact foreign_ok. Qed.
Print Assumptions C49_foreign_column_partial.

(** C49 refuted: with a padded mask (two bytes needed, three present) the last entries are read from the
    padding ... *)
Theorem C49_padded_mask_refuted :
  exists bytes n, map (mask_bit bytes 0) (seq 0 n) = repeat true 10
    /\ bitmask_to_bool bytes n 0 = Ok (repeat true 8 ++ [false; false]).
Proof. exists [255; 3; 0], 10. split; vm_compute; reflexivity. Qed.
Print Assumptions C49_padded_mask_refuted.

(** ... and a column that is a window (entries 1 and 2 of four) of a larger buffer is read with all the
    entries of the buffer and memory behind it. *)
Theorem C49_window_refuted :
  exists data behind mask, slice data 1 3 = [VNum 11; VNum 12]
    /\ foreign_column data behind mask [] 1 2 = Ok [VNum 11; VNum 12; VNum 13; VNum 99].
Proof. exists [VNum 10; VNum 11; VNum 12; VNum 13], [VNum 99], [15]. split; vm_compute; reflexivity. Qed.
Print Assumptions C49_window_refuted.

(** ** The hypotheses can be met *)
Section Examples.
  Definition ascii (s : list Z) : res (list Z) :=
    if forallb (fun c => (0 <=? c) && (c <? 128))%Z s then Ok s else Err ValueError.
  Definition ex_vs : list value := [VStr [104; 105]%Z; VMissing; VStr []; VStr [120]%Z].
  Example ex_buffers : string_data ascii ex_vs = Ok [104; 105; 120]%Z /\ string_offsets ascii ex_vs = Ok [0; 2; 2; 2; 3]
    /\ string_validity ex_vs = [true; false; true; true].
  Proof. repeat split. Qed.
  Example ex_window : string_column ascii ([104; 105; 120; 1; 2]%Z, []) ([0; 2; 2; 2; 3]%Z, [77]%Z) (Some (string_validity ex_vs, [])) false 1 3
    = Ok [VMissing; VStr []; VStr [120]%Z].
  Proof. reflexivity. Qed.
  Example ex_fits : Forall (fits (fun s => exists b, ascii s = Ok b) SStr) ex_vs.
  Proof.
    repeat (apply Forall_cons || apply Forall_nil); cbn; try (left; reflexivity);
      right; eexists; (split; [reflexivity|]); eexists; vm_compute; reflexivity.
  Qed.

  (** two chunks of two rows, asked for as four *)
  Definition ex_d : df nat nat value :=
    mkdf [7; 8; 9; 10] [0; 1] [[VNum 1; VStr [97%Z]]; [VNum 2; VMissing]; [VNum (-3); VStr []]; [VNum 4; VStr [98%Z; 99%Z]]].
  Definition ex_f : pframe := mkpf (cut_table [2; 2] [1; 1] ex_d) (Some (dindex ex_d)) (Some (dcols ex_d)) None None.
  Definition ex_kind (h : nat) : kind := if h =? 0 then KSimple (SPrim PInt 64) else KSimple SStr.
  Example ex_shows : shows ex_f ex_d [2; 2] [1; 1].
  Proof. repeat split; cbn; auto; try discriminate; try (intros ? [= <-]; reflexivity). Qed.
  Example ex_round_trip : from_dataframe Nat.eqb Nat.eqb 1 1 4 (fun _ _ => false) (fun _ _ => false)
      (fun l => seq 0 (length l)) (fun _ => false) ascii ascii (fun _ => true) ex_kind (Some 4%Z) ex_f = Ok ex_d.
  Proof. vm_compute. reflexivity. Qed.
  Example ex_chunks : match get_chunks Nat.eqb Nat.eqb 1 1 4 (fun _ _ => false) (fun _ _ => false)
      (fun l => seq 0 (length l)) (fun _ => false) (Some 4%Z) ex_f with Ok cs => length cs = 4 | _ => False end.
  Proof. vm_compute. reflexivity. Qed.
  Example ex_mask : bitmask_to_bool [180; 5] 9 3 = Ok (map (mask_bit [180; 5] 3) (seq 0 9)).
  Proof. reflexivity. Qed.
End Examples.
