(** C77: registering attributes on the classes and on the module. *)
From Verif Require Import Base ExtSpec ExtModel ExtProofs ExtProofs2.

Section Claims.
Variables (norm : nat -> nat) (reserved no_lookup : nat -> bool) (own : cls -> nat -> option attr).
Notation run := (run norm reserved own).

(** After any history of registrations, [obj.name] is the last thing registered for the object's class and backend,
    else the last default for its class, else what the class defines, and so on for the class above. *)
Theorem C77_lookup_partial : forall (h : list reg) (c : cls) (b n : nat) (column in_pandas : bool),
  no_lookup n = false -> reserved n = false -> tidy norm reserved own h c b n column ->
  access no_lookup (run h) c b n column false in_pandas = promised norm reserved own h c b n column.
Proof. intros. now apply access_tidy. Qed.

(** Objects without rows or columns: the same, for names that pandas does not have. *)
Theorem C77_empty_partial : forall (h : list reg) (c : cls) (b n : nat) (column empty : bool),
  no_lookup n = false -> reserved n = false -> tidy norm reserved own h c b n column ->
  access no_lookup (run h) c b n column empty false = promised norm reserved own h c b n column.
Proof. intros. rewrite <- (access_tidy no_lookup false H H0 H1).
  unfold access. rewrite !andb_false_r. reflexivity. Qed.

(** A registration for one backend changes nothing on another, unless it makes up a function under a new name. *)
Theorem C77_isolated_partial : forall (h : list reg) (r : reg) (b' : nat) (c : cls) (b n : nat) (column empty in_pandas : bool),
  r_backend r = Some b' -> norm b' <> b ->
  r_name r <> n \/ is_value (r_attr r) = true \/
    (exists k, in_mro (r_cls r) k /\ own k n <> None) \/ method_registered h (r_cls r) n ->
  access no_lookup (run (h ++ [r])) c b n column empty in_pandas =
  access no_lookup (run h) c b n column empty in_pandas.
Proof. intros. now apply other_backend with (b' := b'). Qed.

(** A reserved name is refused and nothing changes. *)
Theorem C77_reserved : forall (h : list reg) (r : reg), reserved (r_name r) = true ->
  register norm reserved (run h) r = Err ValueError /\ run (h ++ [r]) = run h.
Proof. intros h r R. rewrite run_snoc, step_reserved by assumption. split; auto. destruct r. cbn in *. now rewrite R. Qed.

(** [df.name = value], when only properties have this name. *)
Theorem C77_assign_frame_partial : forall (h : list reg) (b n : nat) (column : bool),
  (forall r, In r h -> in_mro FrameClass (r_cls r) -> r_name r = n -> exists i, r_attr r = Property i) ->
  (forall k a, in_mro FrameClass k -> own k n = Some a -> exists i, a = Property i) ->
  registered norm reserved h FrameClass b n <> None \/ registered norm reserved h BaseClass b n = None \/
    (own FrameClass n = None /\ (column = false \/ own BaseClass n <> None)) ->
  set_frame (run h) b n column = promised_set norm reserved own h FrameClass b n column.
Proof. intros h b n column Rg O Q. assert (N : FrameClass <> BaseClass) by discriminate. exact (@assign norm reserved own h FrameClass b n column N Rg O Q). Qed.
Theorem C77_assign_series_partial : forall (h : list reg) (b n : nat),
  (forall r, In r h -> in_mro SeriesClass (r_cls r) -> r_name r = n -> exists i, r_attr r = Property i) ->
  (forall k a, in_mro SeriesClass k -> own k n = Some a -> exists i, a = Property i) ->
  registered norm reserved h SeriesClass b n <> None \/ registered norm reserved h BaseClass b n = None \/
    own SeriesClass n = None ->
  set_series (run h) b n = promised_set norm reserved own h SeriesClass b n false.
Proof. intros h b n Rg O Q. assert (N : SeriesClass <> BaseClass) by discriminate.
  assert (Q' : registered norm reserved h SeriesClass b n <> None \/ registered norm reserved h BaseClass b n = None \/
    (own SeriesClass n = None /\ (false = false \/ own BaseClass n <> None))) by tauto.
  pose proof (@assign norm reserved own h SeriesClass b n false N Rg O Q') as E. cbn in E. rewrite E.
  unfold promised_set. destruct (wanted norm reserved own h SeriesClass b n); reflexivity. Qed.

Variable own_pd : nat -> option attr.

(** [pd.name], when the name is a function throughout, and when it is never one. *)
Theorem C77_module_functions_partial : forall (h : list mod_reg) (b n : nat),
  (forall a, own_pd n = Some a -> is_method a = true) ->
  (forall b' a, In (b', n, a) h -> is_method a = true) ->
  pd_access (pd_run norm reserved own_pd h) b n = promised_pd norm reserved own_pd h b n.
Proof. intros. now apply pd_functions. Qed.
Theorem C77_module_values_partial : forall (h : list mod_reg) (b n : nat),
  (forall a, own_pd n = Some a -> is_method a = false) ->
  (forall b' a, In (b', n, a) h -> is_value a = true \/ exists i, a = Cls i) ->
  pd_access (pd_run norm reserved own_pd h) b n = promised_pd norm reserved own_pd h b n.
Proof. intros. now apply pd_values. Qed.
End Claims.

Print Assumptions C77_lookup_partial.
Print Assumptions C77_empty_partial.
Print Assumptions C77_isolated_partial.
Print Assumptions C77_reserved.
Print Assumptions C77_assign_frame_partial.
Print Assumptions C77_assign_series_partial.
Print Assumptions C77_module_functions_partial.
Print Assumptions C77_module_values_partial.

(** ** Concrete classes
    Names: 0 [head] (a function of the base class), 1 [shape] (a property of DataFrame), 2 [from_dict] (a class
    method of DataFrame), 3 [index] (a property of the base class), 4 [__init__]-like: reserved, 5 [_pinned]: never looked up,
    6 [join] (a function of DataFrame alone), others free. Backends: 0 and 10 are two spellings of the same. *)
Definition ext_own (c : cls) (n : nat) : option attr :=
  match c, n with
  | BaseClass, 0 => Some (Meth 100)
  | FrameClass, 1 => Some (Property 101)
  | FrameClass, 2 => Some (Stat 102)
  | BaseClass, 3 => Some (Property 103)
  | FrameClass, 6 => Some (Meth 106)
  | _, _ => None
  end.
Definition ext_norm (b : nat) : nat := if b =? 10 then 0 else b.
Definition ext_reserved (n : nat) : bool := n =? 4.
Definition ext_no_lookup (n : nat) : bool := (n =? 4) || (n =? 5).
Definition ext_see (h : list reg) (c : cls) (b n : nat) (column empty in_pandas : bool) : seen :=
  access ext_no_lookup (run ext_norm ext_reserved ext_own h) c b n column empty in_pandas.
Definition ext_promised := promised ext_norm ext_reserved ext_own.

(** [head] replaced on backend 0 for data frames and by default for everything; a new function and a new property. *)
Definition ext_history : list reg :=
  [ Reg FrameClass (Some 10) 0 (Meth 1); Reg BaseClass None 0 (Meth 2); Reg FrameClass (Some 0) 0 (Meth 3);
    Reg BaseClass None 7 (Meth 4); Reg FrameClass (Some 1) 8 (Property 5); Reg FrameClass None 8 (Val 6);
    Reg BaseClass (Some 1) 9 (Property 7) ].
Ltac ext_tidy :=
  constructor;
  [ intros r I _ _; cbn in I; repeat (destruct I as [<- | I]; [reflexivity|]); destruct I
  | first [ left; intros k a [-> | K] E; [|injection K as <-]; vm_compute in E; first [discriminate E | injection E as <-; reflexivity]
          | right; intros k K (r & I & _ & N & M); cbn in I; repeat (destruct I as [<- | I]; [discriminate|]); destruct I ]
  | intros k K (a & E & V); injection K as <-; vm_compute in E;
    first [discriminate E | injection E as <-; first [discriminate V | left; reflexivity | right; eexists; split; reflexivity]]
  | intros k K N (r & I & C & Nn & M) _; injection K as <-; cbn in I;
    first [ specialize (N BaseClass (or_intror eq_refl)); vm_compute in N; discriminate N
          | repeat (destruct I as [<- | I]; [discriminate|]); destruct I ]
  | intros k K O (r & I & C & Nn & M) A; injection K as <-; cbn in I;
    first [ vm_compute in O; discriminate O | vm_compute in A; discriminate A | vm_compute; reflexivity
          | repeat (destruct I as [<- | I]; [discriminate|]); destruct I ]
  | intros k K M W; vm_compute in W; first [discriminate W | reflexivity] ].
Example C77_tidy_head : tidy ext_norm ext_reserved ext_own ext_history FrameClass 0 0 true.
Proof. ext_tidy. Qed.
Example C77_head : ext_see ext_history FrameClass 0 0 true false true = Calls 3.
Proof. vm_compute. reflexivity. Qed.
Example C77_head_else : ext_see ext_history FrameClass 1 0 true false true = Calls 2.
Proof. vm_compute. reflexivity. Qed.
Example C77_tidy_new : tidy ext_norm ext_reserved ext_own ext_history SeriesClass 2 7 true.
Proof. ext_tidy. Qed.
Example C77_new : ext_see ext_history SeriesClass 2 7 true false false = Calls 4.
Proof. vm_compute. reflexivity. Qed.
Example C77_tidy_property : tidy ext_norm ext_reserved ext_own ext_history FrameClass 2 8 true.
Proof. ext_tidy. Qed.
Example C77_property : ext_see ext_history FrameClass 2 8 true false false = Object 6 /\
  ext_see ext_history FrameClass 1 8 true true false = Reads 5.
Proof. split; vm_compute; reflexivity. Qed.
Example C77_isolated_case :
  ext_see (ext_history ++ [Reg FrameClass (Some 10) 6 (Meth 8)]) FrameClass 0 6 false false true = Calls 8 /\
  ext_see (ext_history ++ [Reg FrameClass (Some 10) 6 (Meth 8)]) FrameClass 1 6 false false true = Calls 106.
Proof. split; vm_compute; reflexivity. Qed.
Example C77_assign_case :
  set_frame (run ext_norm ext_reserved ext_own [Reg FrameClass (Some 1) 8 (Property 5)]) 1 8 true = ByProperty 5 /\
  set_frame (run ext_norm ext_reserved ext_own [Reg FrameClass (Some 1) 8 (Property 5)]) 2 8 true = InColumn /\
  set_series (run ext_norm ext_reserved ext_own [Reg BaseClass None 8 (Property 5)]) 2 8 = ByProperty 5.
Proof. repeat split; vm_compute; reflexivity. Qed.

(** The module: 0 [concat] (a function), 1 [Index] (a class), 2 [NA] (a value), others free. *)
Definition ext_own_pd (n : nat) : option attr :=
  match n with 0 => Some (Meth 200) | 1 => Some (Cls 201) | 2 => Some (Val 202) | _ => None end.
Definition ext_pd (h : list mod_reg) (b n : nat) : seen := pd_access (pd_run ext_norm ext_reserved ext_own_pd h) b n.
Definition ext_pd_promised := promised_pd ext_norm ext_reserved ext_own_pd.
Example C77_module_case :
  let h := [(Some 1, 0, Meth 1); (Some 1, 1, Cls 2); (None, 7, Meth 3); (Some 10, 7, Meth 4)] in
  map (fun n => ext_pd h 1 n) [0; 1; 2; 7] = [Calls 1; ClassOf 2; Object 202; Calls 3] /\
  map (fun n => ext_pd h 0 n) [0; 1; 2; 7] = [Calls 200; ClassOf 201; Object 202; Calls 4].
Proof. split; vm_compute; reflexivity. Qed.

(** ** Where it fails *)
(** A class registered on DataFrame (the usual accessor, [df.geo]) is accepted and cannot be reached. *)
Theorem C77_class_refuted : exists h n, ext_promised h FrameClass 0 n false = ClassOf 1 /\
  ext_see h FrameClass 0 n false false false = Missing.
Proof. exists [Reg FrameClass None 7 (Cls 1)], 7. vm_compute. auto. Qed.

(** A function registered over a property of the class is ignored. *)
Theorem C77_over_property_refuted : exists h n, ext_promised h FrameClass 0 n false = Calls 1 /\
  ext_see h FrameClass 0 n false false true = Reads 101.
Proof. exists [Reg FrameClass None 1 (Meth 1)], 1. vm_compute. auto. Qed.

(** A function registered over a class method is ignored. *)
Theorem C77_class_method_refuted : exists h n, ext_promised h FrameClass 0 n false = Calls 1 /\
  ext_see h FrameClass 0 n false false true = Calls 102.
Proof. exists [Reg FrameClass None 2 (Meth 1)], 2. vm_compute. auto. Qed.

(** A property registered for the base class wins over what DataFrame itself defines under that name. *)
Theorem C77_base_wins_refuted : exists h n, ext_promised h FrameClass 0 n false = Calls 106 /\
  ext_see h FrameClass 0 n false false true = Reads 1.
Proof. exists [Reg BaseClass None 6 (Property 1)], 6. vm_compute. auto. Qed.

(** A function for DataFrame on one backend hides the default function of the base class on the others. *)
Theorem C77_shadow_refuted : exists h n, ext_promised h FrameClass 1 n false = Calls 1 /\
  ext_see h FrameClass 1 n false false false = Missing.
Proof. exists [Reg FrameClass (Some 0) 7 (Meth 2); Reg BaseClass None 7 (Meth 1)], 7. vm_compute. auto. Qed.

(** A new function registered for the base class first is the one that is called, though DataFrame has its own. *)
Theorem C77_base_first_refuted : exists h n, ext_promised h FrameClass 0 n false = Calls 2 /\
  ext_see h FrameClass 0 n false false false = Calls 1.
Proof. exists [Reg BaseClass None 7 (Meth 1); Reg FrameClass None 7 (Meth 2)], 7. vm_compute. auto. Qed.

(** ... so the order of two registrations for different classes matters. *)
Theorem C77_order_refuted : exists r1 r2 n,
  r_cls r1 <> r_cls r2 /\
  ext_promised [r1; r2] FrameClass 0 n false = ext_promised [r2; r1] FrameClass 0 n false /\
  ext_see [r1; r2] FrameClass 0 n false false false <> ext_see [r2; r1] FrameClass 0 n false false false.
Proof. exists (Reg BaseClass None 7 (Meth 1)), (Reg FrameClass None 7 (Meth 2)), 7. vm_compute. repeat split; discriminate. Qed.

(** A new function registered for one backend hides the column of that name on another. *)
Theorem C77_hides_column_refuted : exists h n, ext_promised h FrameClass 1 n true = Column /\
  ext_see [] FrameClass 1 n true false false = Column /\ ext_see h FrameClass 1 n true false false = Missing.
Proof. exists [Reg FrameClass (Some 0) 7 (Meth 1)], 7. vm_compute. auto. Qed.

(** A function registered over a pandas method is not called on an empty object. *)
Theorem C77_empty_refuted : exists h n, ext_promised h FrameClass 0 n false = Calls 1 /\
  ext_see h FrameClass 0 n false false true = Calls 1 /\ ext_see h FrameClass 0 n false true true = ByPandas n.
Proof. exists [Reg FrameClass None 0 (Meth 1)], 0. vm_compute. auto. Qed.

(** A name that is not reserved but never looked up: the registration is accepted and ignored. *)
Theorem C77_never_looked_up_refuted : exists h n, ext_reserved n = false /\
  ext_promised h FrameClass 0 n false = Reads 1 /\ ext_see h FrameClass 0 n false false false = Missing.
Proof. exists [Reg FrameClass None 5 (Property 1)], 5. vm_compute. auto. Qed.

(** [df.head = value] raises, although nothing was registered; on a Series it is stored. *)
Theorem C77_assign_function_refuted : exists n,
  promised_set ext_norm ext_reserved ext_own [] FrameClass 0 n false = InObject /\
  set_frame (run ext_norm ext_reserved ext_own []) 0 n false = Refused /\
  set_series (run ext_norm ext_reserved ext_own []) 0 n = InObject.
Proof. exists 0. vm_compute. auto. Qed.

(** [series.a = value] does not change the entry [a]. *)
Theorem C77_assign_entry_refuted : exists n,
  promised_set ext_norm ext_reserved ext_own [] SeriesClass 0 n true = InColumn /\
  set_series (run ext_norm ext_reserved ext_own []) 0 n = InObject.
Proof. exists 7. vm_compute. auto. Qed.

(** A property of the base class with the name of a column: reading gives the property, assigning sets the column. *)
Theorem C77_assign_column_refuted : exists h n,
  ext_see h FrameClass 0 n true false false = Reads 1 /\
  promised_set ext_norm ext_reserved ext_own h FrameClass 0 n true = ByProperty 1 /\
  set_frame (run ext_norm ext_reserved ext_own h) 0 n true = InColumn.
Proof. exists [Reg BaseClass None 7 (Property 1)], 7. vm_compute. auto. Qed.

(** A function registered on the module for one backend over a class takes the class away on every other. *)
Theorem C77_module_class_lost_refuted : exists h n, ext_pd_promised h 1 n = ClassOf 201 /\ ext_pd h 1 n = Missing.
Proof. exists [(Some 0, 1, Meth 1)], 1. vm_compute. auto. Qed.

(** A value for one backend is hidden by a function for another. *)
Theorem C77_module_value_hidden_refuted : exists h n, ext_pd_promised h 0 n = Object 1 /\ ext_pd h 0 n = NotCallable 1.
Proof. exists [(Some 0, 7, Val 1); (Some 1, 7, Meth 2)], 7. vm_compute. auto. Qed.

(** A default value registered over a function of the module is not seen. *)
Theorem C77_module_default_refuted : exists h n, ext_pd_promised h 0 n = Object 1 /\ ext_pd h 0 n = NotCallable 1.
Proof. exists [(None, 0, Val 1)], 0. vm_compute. auto. Qed.

Print Assumptions C77_class_refuted.
Print Assumptions C77_over_property_refuted.
Print Assumptions C77_class_method_refuted.
Print Assumptions C77_base_wins_refuted.
Print Assumptions C77_shadow_refuted.
Print Assumptions C77_base_first_refuted.
Print Assumptions C77_order_refuted.
Print Assumptions C77_hides_column_refuted.
Print Assumptions C77_empty_refuted.
Print Assumptions C77_never_looked_up_refuted.
Print Assumptions C77_assign_function_refuted.
Print Assumptions C77_assign_entry_refuted.
Print Assumptions C77_assign_column_refuted.
Print Assumptions C77_module_class_lost_refuted.
Print Assumptions C77_module_value_hidden_refuted.
Print Assumptions C77_module_default_refuted.
