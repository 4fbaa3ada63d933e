(** C78: filling, testing and locating missing values; cumulative functions, clip, isin and mode.
    [shows f d rl cl]: the frame [f] displays the table [d] and its blocks are [d] cut into [rl] rows and [cl] columns. *)
From Coq Require Import ZArith.
From Verif Require Import Base Table GridSpec ChunkSpec ChunkModel ChunkProofs GridModel FrameSpec GridProofs GridProofs3 GridProofs5 SelProofs5
  RemSpec RemModel RemProofs2 FilSpec FilModel FilProofs FilProofs2 FilProofs3.

Section Props.
  Context {L H V : Type}.
  Variables (leqb : L -> L -> bool) (heqb : H -> H -> bool).
  Hypothesis leqb_ok : forall x y, leqb x y = true <-> x = y.
  Hypothesis heqb_ok : forall x y, heqb x y = true <-> x = y.
  Variables (dynamic : bool) (cpus nparts min_row min_col : nat).
  Hypothesis (nparts_pos : 0 < nparts) (min_row_pos : 0 < min_row) (min_col_pos : 0 < min_col).
  Notation cell := (option V).
  Notation pf := (@pframe L H cell).

  (** The frame a call returned displays the table [D]. *)
  Definition returns {X} (r : res (@pframe L H X)) (D : df L H X) : Prop :=
    exists f' rl cl, r = Ok f' /\ shows f' D rl cl /\ pf_to_pandas leqb heqb f' = Ok D.
  Lemma returns_intro {X} (r : res (@pframe L H X)) D : (exists f' rl cl, r = Ok f' /\ shows f' D rl cl) -> returns r D.
  Proof. intros (f' & rl & cl & E & S). exists f', rl, cl. split; auto. split; auto. now apply (@shown_pandas L H leqb heqb leqb_ok heqb_ok X f' D rl cl). Qed.

  (** df.fillna(value | method=..., axis=, limit=), df.ffill and df.bfill are pandas', however the frame is
      partitioned; where pandas raises, so does Modin *)
  Theorem C78_fillna w (is_method : bool) is_dict axis limit (f : pf) d rl cl : shows f d rl cl -> limit <> Some 0 ->
    let call := api_fillna leqb heqb dynamic cpus nparts min_row min_col (if is_method then None else Some w) (if is_method then Some w else None) is_dict axis limit f in
    match p_fillna heqb axis limit w d with
    | Ok D => returns call D
    | Err _ => exists e, call = Err e
    end.
  Proof. intros S N0. assert (X := @qc_fillna_ok L H V leqb heqb leqb_ok heqb_ok dynamic cpus nparts min_row min_col nparts_pos min_row_pos min_col_pos is_dict axis limit w f d rl cl S).
    cbv zeta. unfold api_fillna. destruct is_method; (destruct limit as [[|k]|]; [easy| |]); destruct (p_fillna heqb axis _ w d); auto; now apply returns_intro. Qed.
  (** both a value and a method, neither, or a limit of 0: ValueError *)
  Theorem C78_fillna_arguments v m w is_dict axis limit (f : pf) :
    api_fillna leqb heqb dynamic cpus nparts min_row min_col (Some v) (Some m) is_dict axis limit f = Err ValueError
    /\ api_fillna leqb heqb dynamic cpus nparts min_row min_col None None is_dict axis limit f = Err ValueError
    /\ api_fillna leqb heqb dynamic cpus nparts min_row min_col (Some w) None is_dict axis (Some 0) f = Err ValueError.
  Proof. repeat split. Qed.

  (** cumsum, cumprod, cummax, cummin, diff: each whole line, for any function that keeps the length of a line *)
  Theorem C78_cumulative axis (g : list cell -> list cell) (f : pf) d rl cl : shows f d rl cl -> (forall l, length (g l) = length l) ->
    returns (cumulative leqb heqb nparts min_row min_col axis g f) (along axis g d).
  Proof. intros S Lg. apply returns_intro. now apply along_ok with (rl := rl) (cl := cl). Qed.

  (** df.isin(list | dict | Series | DataFrame) *)
  Theorem C78_isin veqb w (f : pf) d rl cl : shows f d rl cl ->
    match p_isin leqb heqb veqb w d with
    | Ok D => returns (qc_isin leqb heqb veqb dynamic cpus nparts min_row min_col w f) D
    | Err _ => exists e, qc_isin leqb heqb veqb dynamic cpus nparts min_row min_col w f = Err e
    end.
  Proof. intros S. assert (X := @qc_isin_ok L H V leqb heqb leqb_ok heqb_ok dynamic cpus nparts min_row min_col nparts_pos min_row_pos min_col_pos veqb w f d rl cl S).
    destruct (p_isin leqb heqb veqb w d); auto. now apply returns_intro. Qed.

  (** df.clip(lower, upper, axis=).  Missing: lists of bounds of which one is NaN (see [C78_clip_nan_refuted]). *)
  Theorem C78_clip_partial trim (axis : bool) (lo up : @bound V) (f : pf) d rl cl : shows f d rl cl ->
    (forall vs, lo = Each vs \/ up = Each vs -> ~ In None vs /\ length vs = if axis then ncols d else nrows d) ->
    returns (api_clip leqb heqb dynamic cpus nparts min_row min_col trim axis lo up (if axis then ncols d else nrows d) f) (p_clip trim axis lo up d).
  Proof. intros S F. apply returns_intro. apply (@api_clip_ok L H V leqb heqb leqb_ok heqb_ok dynamic cpus nparts min_row min_col nparts_pos min_row_pos min_col_pos trim axis lo up f d rl cl S).
    - intros vs E. now apply F; left.
    - intros vs E. now apply F; right.
    - intros vs E. now apply F. Qed.

  (** df.first_valid_index() and df.last_valid_index().  Missing: frames with a column of missing values only (see
      [C78_missing_column_refuted], [C78_all_missing_refuted]). *)
  Theorem C78_valid_index_partial ul uh (f : pf) d rl cl : shows f d rl cl -> 0 < ncols d -> Forall some_valid (columns d) ->
    (exists l, first_valid d = Some l /\ valid_index leqb heqb dynamic cpus nparts min_row min_col ul uh false f (dindex d) (dcols d) = Ok l)
    /\ (exists l, last_valid d = Some l /\ valid_index leqb heqb dynamic cpus nparts min_row min_col ul uh true f (dindex d) (dcols d) = Ok l).
  Proof. intros S P F. split.
    - apply (@valid_index_ok L H V leqb heqb leqb_ok heqb_ok dynamic cpus nparts min_row min_col ul uh nparts_pos min_row_pos min_col_pos false f d rl cl S P F).
    - apply (@valid_index_ok L H V leqb heqb leqb_ok heqb_ok dynamic cpus nparts min_row min_col ul uh nparts_pos min_row_pos min_col_pos true f d rl cl S P F). Qed.

  (** df.mode().  Missing: modes that are missing values themselves, as with dropna=False (see
      [C78_mode_missing_refuted]). *)
  Theorem C78_mode_partial modes (f : pf) d rl cl : shows f d rl cl -> (forall c, ~ In None (modes c)) -> (forall c, length (modes c) <= length c) ->
    exists f' rl' cl', qc_mode leqb heqb nparts min_row min_col modes f (dindex d) (dcols d) = Ok f' /\ holds f' (p_mode modes d) rl' cl'
      /\ shown Nat.eqb heqb f' = Ok (p_mode modes d).
  Proof. intros S V1 V2. destruct (@mode_ok L H V leqb heqb heqb_ok nparts min_row min_col nparts_pos min_row_pos min_col_pos modes V1 V2 f d rl cl S) as (f' & rl' & cl' & E & Hf & N1 & N2).
    exists f', rl', cl'. split; auto. split; auto. now apply (shown_holds Nat.eqb heqb Nat.eqb_eq heqb_ok Hf). Qed.
End Props.
Print Assumptions C78_fillna.
Print Assumptions C78_fillna_arguments.
Print Assumptions C78_cumulative.
Print Assumptions C78_isin.
Print Assumptions C78_clip_partial.
Print Assumptions C78_valid_index_partial.
Print Assumptions C78_mode_partial.

Section FilConcrete.
  Open Scope Z_scope.
  (** three rows in two row blocks, three columns in two column blocks *)
  Definition fil_d : df nat nat (option Z) := mkdf [5;6;7]%nat [1;2;3]%nat [[None;Some 12;Some 13];[None;None;Some 23];[Some 31;None;Some 33]].
  Definition fil_cut (d : df nat nat (option Z)) : @pframe nat nat (option Z) :=
    mkpf (cut_table [2;1]%nat [2;1]%nat d) (Some (dindex d)) (Some (dcols d)) (Some [2;1]%nat) (Some [2;1]%nat).
  Definition fil_f := fil_cut fil_d.
  Lemma fil_shows : shows fil_f fil_d [2;1]%nat [2;1]%nat.
  Proof. split; [|repeat split; easy]. apply holds_intro; cbn; auto. split; [reflexivity|repeat constructor]. Qed.
  Definition fil_show {X} (x : res (@pframe nat nat X)) := do f <- x; pf_to_pandas Nat.eqb Nat.eqb f.
  Definition fil_fill w := fun axis limit => fil_show (qc_fillna Nat.eqb Nat.eqb true 4 2 1 1 true axis limit w fil_f).

  (** the limit counts over the whole column, across row blocks *)
  Example C78_limit_case : fil_fill (Value 0) false (Some 1%nat) = Ok (mkdf [5;6;7]%nat [1;2;3]%nat [[Some 0;Some 12;Some 13];[None;Some 0;Some 23];[Some 31;None;Some 33]]).
  Proof. vm_compute. reflexivity. Qed.
  Example C78_forward_case : fil_fill Forward false None = Ok (mkdf [5;6;7]%nat [1;2;3]%nat [[None;Some 12;Some 13];[None;Some 12;Some 23];[Some 31;Some 12;Some 33]]).
  Proof. vm_compute. reflexivity. Qed.
  Example C78_by_label_case : fil_fill (ByLabel [(2%nat, Some 9);(8%nat, Some 1)]) false None = Ok (mkdf [5;6;7]%nat [1;2;3]%nat [[None;Some 12;Some 13];[None;Some 9;Some 23];[Some 31;Some 9;Some 33]]).
  Proof. vm_compute. reflexivity. Qed.
  Example C78_fillna_hypotheses : returns Nat.eqb Nat.eqb (api_fillna Nat.eqb Nat.eqb true 4 2 1 1 (Some (ByLabel [(2%nat, Some 9)])) None true false (Some 1%nat) fil_f)
    (mkdf [5;6;7]%nat [1;2;3]%nat [[None;Some 12;Some 13];[None;Some 9;Some 23];[Some 31;None;Some 33]]).
  Proof. assert (N : Some 1%nat <> Some 0%nat) by discriminate.
    exact (@C78_fillna nat nat Z Nat.eqb Nat.eqb Nat.eqb_eq Nat.eqb_eq true 4 2 1 1 Nat.lt_0_2 Nat.lt_0_1 Nat.lt_0_1 (ByLabel [(2%nat, Some 9)]) false true false (Some 1%nat) fil_f fil_d _ _ fil_shows N). Qed.
  Example C78_isin_case : fil_show (qc_isin Nat.eqb Nat.eqb Z.eqb true 4 2 1 1 (PerRow [(7%nat, Some 33);(5%nat, Some 12)]) fil_f)
    = Ok (mkdf [5;6;7]%nat [1;2;3]%nat [[false;true;false];[false;false;false];[false;false;true]]).
  Proof. vm_compute. reflexivity. Qed.
  Example C78_valid_hypotheses : Forall some_valid (columns fil_d) /\ first_valid fil_d = Some 5%nat /\ last_valid fil_d = Some 7%nat.
  Proof. repeat split; repeat constructor. Qed.
  Definition fil_modes (c : list (option Z)) : list (option Z) := filter valid c.
  Example C78_mode_case : fil_show (qc_mode Nat.eqb Nat.eqb 2 1 1 fil_modes fil_f [5;6;7]%nat [1;2;3]%nat)
    = Ok (mkdf [0;1;2]%nat [1;2;3]%nat [[Some 31;Some 12;Some 13];[None;None;Some 23];[None;None;Some 33]]).
  Proof. vm_compute. reflexivity. Qed.
  Example C78_mode_hypotheses : (forall c, ~ In None (fil_modes c)) /\ (forall c, length (fil_modes c) <= length c)%nat.
  Proof. split.
    - intros c I. apply filter_In in I as [_ I]. discriminate.
    - intros c. unfold fil_modes. induction c as [|[x|] c IH]; cbn; lia. Qed.

  (** pandas' clip of a number *)
  Definition fil_trim (lo up c : option Z) : option Z :=
    match c with
    | None => None
    | Some x => let x := match lo with Some l => Z.max l x | None => x end in Some (match up with Some u => Z.min u x | None => x end)
    end.
  Example C78_clip_case : fil_show (api_clip Nat.eqb Nat.eqb true 4 2 1 1 fil_trim false (Each [Some 13;Some 0;Some 32]) (One (Some 32)) 3 fil_f)
    = Ok (mkdf [5;6;7]%nat [1;2;3]%nat [[None;Some 13;Some 13];[None;None;Some 23];[Some 32;None;Some 32]]).
  Proof. vm_compute. reflexivity. Qed.
  (** one NaN in a list of bounds: pandas ignores that bound only, Modin all of them *)
  Theorem C78_clip_nan_refuted :
    p_clip fil_trim false (Each [Some 20;None;Some 40]) NoBound fil_d
      = mkdf [5;6;7]%nat [1;2;3]%nat [[None;Some 20;Some 20];[None;None;Some 23];[Some 40;None;Some 40]]
    /\ fil_show (api_clip Nat.eqb Nat.eqb true 4 2 1 1 fil_trim false (Each [Some 20;None;Some 40]) NoBound 3 fil_f) = Ok fil_d.
  Proof. split; vm_compute; reflexivity. Qed.
  Print Assumptions C78_clip_nan_refuted.

  (** a column without valid cells beside one that has some: the positions become floats, which are no index *)
  Definition fil_gap : df nat nat (option Z) := mkdf [5;6;7]%nat [1;2;3]%nat [[None;Some 12;Some 13];[None;None;Some 23];[None;None;Some 33]].
  Definition fil_index last d := valid_index Nat.eqb Nat.eqb true 4 2 1 1 0%nat 0%nat last (fil_cut d) (dindex d) (dcols d).
  Theorem C78_missing_column_refuted :
    first_valid (mkdf [5;6;7]%nat [1;2]%nat (map (firstn 2) (dcells fil_gap))) = Some 5%nat
    /\ valid_index Nat.eqb Nat.eqb true 4 2 1 1 0%nat 0%nat false
         (mkpf (cut_table [2;1]%nat [2]%nat (mkdf [5;6;7]%nat [1;2]%nat (map (firstn 2) (dcells fil_gap)))) (Some [5;6;7]%nat) (Some [1;2]%nat) (Some [2;1]%nat) (Some [2]%nat)) [5;6;7]%nat [1;2]%nat = Err IndexError.
  Proof. split; vm_compute; reflexivity. Qed.
  Print Assumptions C78_missing_column_refuted.
  (** no valid cell at all: pandas returns None, Modin raises *)
  Definition fil_none : df nat nat (option Z) := mkdf [5;6;7]%nat [1;2;3]%nat (repeat (repeat None 3) 3).
  Theorem C78_all_missing_refuted :
    first_valid fil_none = None /\ last_valid fil_none = None
    /\ (exists e, fil_index false fil_none = Err e) /\ (exists e, fil_index true fil_none = Err e).
  Proof. repeat split; try (eexists; vm_compute; reflexivity). Qed.
  Print Assumptions C78_all_missing_refuted.
  Example C78_valid_case : fil_index false fil_d = Ok 5%nat /\ fil_index true fil_d = Ok 7%nat.
  Proof. split; vm_compute; reflexivity. Qed.

  (** mode(dropna=False) of columns where a missing value is the mode: pandas returns a row of missing values,
      Modin no row *)
  Definition fil_modes_na (c : list (option Z)) : list (option Z) := if existsb (fun x => negb (valid x)) c then [None] else firstn 1 c.
  Definition fil_all (x : res (@pframe nat nat (option Z))) := do f <- x; shown Nat.eqb Nat.eqb f.
  Theorem C78_mode_missing_refuted :
    p_mode fil_modes_na fil_none = mkdf [0]%nat [1;2;3]%nat [[None;None;None]]
    /\ fil_all (qc_mode Nat.eqb Nat.eqb 2 1 1 fil_modes_na (fil_cut fil_none) [5;6;7]%nat [1;2;3]%nat) = Ok (mkdf [] [1;2;3]%nat []).
  Proof. split; vm_compute; reflexivity. Qed.
  Print Assumptions C78_mode_missing_refuted.
End FilConcrete.
