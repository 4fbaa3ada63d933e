(** The extension system: modin/pandas/api/extensions/extensions.py and the lookup in
    modin/core/storage_formats/pandas/query_compiler_caster.py, modin/pandas/base.py, dataframe.py, series.py.

    Simplified: objects have no instance attributes of their own under the name that is looked up; the calls are
    made with one object, so that no argument is cast to another backend (that is C31 and C47) and backends do not
    switch by themselves (C35); the group-by classes, which look names up in the same way, are left out. *)
From Verif Require Import Base ExtSpec.

Section Model.
Variables (norm : nat -> nat) (reserved no_lookup : nat -> bool) (own : cls -> nat -> option attr).

(** A value of [klass._extensions[backend]]: what was registered or defined, or the dispatching wrapper that a
    class inherits from the class above. *)
Inductive impl := Direct (a : attr) | Inherited (c : cls).
(** A value of the class dictionary: the dispatching wrapper made for a class, or the attribute itself. *)
Inductive entry := Wrapper (c : cls) | Plain (a : attr).
Record st := St { ext : cls -> option nat -> nat -> option impl; dict : cls -> nat -> option entry }.

(** query_compiler_caster.py [apply_argument_cast_to_class] 541-594: functions and class methods become default
    extensions, and functions, the inherited ones too, are replaced by wrappers; reserved names are left alone
    545-548. *)
Definition native_impl (c : cls) (n : nat) : option impl :=
  if reserved n then None else
  match own c n with
  | Some (Meth i) => Some (Direct (Meth i))
  | Some (Stat i) => Some (Direct (Stat i))
  | Some _ => None
  | None => match above c with
            | Some k => match own k n with Some (Meth _) => Some (Inherited k) | _ => None end
            | None => None
            end
  end.
Definition native_entry (c : cls) (n : nat) : option entry :=
  if reserved n then option_map Plain (own c n) else
  match own c n with
  | Some (Meth _) => Some (Wrapper c)
  | Some a => Some (Plain a)
  | None => match above c with
            | Some k => match own k n with Some (Meth _) => Some (Wrapper c) | _ => None end
            | None => None
            end
  end.
Definition start : st :=
  St (fun c b n => match b with None => native_impl c n | Some _ => None end) native_entry.

(** Python's own lookup along the classes; [name in dir(obj)]. *)
Definition find (s : st) (c : cls) (n : nat) : option entry :=
  match dict s c n with
  | Some e => Some e
  | None => match above c with Some k => dict s k n | None => None end
  end.

Definition callable (a : attr) : bool := match a with Property _ | Val _ => false | _ => true end.
Definition is_class (a : attr) : bool := match a with Cls _ => true | _ => false end.

(** extensions.py [_set_attribute_on_obj] 68-127 *)
Definition register (s : st) (r : reg) : res st :=
  let '(Reg c b n a) := r in
  if reserved n then Err ValueError else
  let b := option_map norm b in
  let ext' := fun c' b' n' => if cls_eqb c c' && opt_eqb b b' && (n =? n') then Some (Direct a) else ext s c' b' n' in
  let new := callable a && negb (match find s c n with Some _ => true | None => false end) && negb (is_class a) in
  Ok (St ext' (fun c' n' => if new && cls_eqb c c' && (n =? n') then Some (Wrapper c) else dict s c' n')).
(** A registration that raises changes nothing. *)
Definition step (s : st) (r : reg) : st := match register s r with Ok s' => s' | Err _ => s end.
Definition run (h : list reg) : st := fold_left step h start.

(** query_compiler_caster.py [_get_extension] 344-350 *)
Definition get_extension (s : st) (c : cls) (b n : nat) : option impl :=
  match ext s c (Some b) n with Some x => Some x | None => ext s c None n end.
(** [_getattribute__from_extension_impl] 373-390: functions and classes are not returned *)
Definition from_extension (s : st) (c : cls) (b n : nat) : option seen :=
  match get_extension s c b n with
  | Some (Direct (Property i)) => Some (Reads i)
  | Some (Direct (Val i)) => Some (Object i)
  | _ => None
  end.

(** [f_to_apply(...)] 1046 for a function, a class, and something that cannot be called *)
Definition call (a : attr) : seen :=
  match a with Meth i | Stat i => Calls i | Cls i => Builds i | Property i | Val i => NotCallable i end.
(** [_get_extension_for_method] 905-922, and calling what it returns *)
Definition call_wrapper (s : st) (c : cls) (b n : nat) : seen :=
  match get_extension s c b n with
  | Some (Direct a) => call a
  | Some (Inherited k) => match get_extension s k b n with Some (Direct a) => call a | _ => Missing end
  | None => Missing
  end.

(** dataframe.py and series.py [__getattribute__] 2653-2661, 368-377; base.py 4358-4380; then [__getattr__]:
    dataframe.py 2685-2687, series.py 400-402. [empty] and [in_pandas] decide whether a callable is replaced by the
    pandas method of that name (base.py 4367-4379; names in _DEFAULT_BEHAVIOUR count as not in pandas). *)
Definition access (s : st) (c : cls) (b n : nat) (column empty in_pandas : bool) : seen :=
  let by_extension :=
    if no_lookup n then None else
    match from_extension s c b n with
    | Some v => Some v
    | None => match above c with Some k => from_extension s k b n | None => None end
    end in
  match by_extension with
  | Some v => v
  | None =>
      match find s c n with
      | Some (Wrapper k) => if empty && in_pandas then ByPandas n else call_wrapper s k b n
      | Some (Plain a) => if empty && in_pandas && callable a then ByPandas n else seen_as a
      | None => if column && negb (no_lookup n) then Column else Missing
      end
  end.

(** dataframe.py [__setattr__] 2715-2730: whatever extension there is must have a [__set__] *)
Definition set_frame (s : st) (b n : nat) (column : bool) : stored :=
  match get_extension s FrameClass b n with
  | Some (Direct (Property i)) => ByProperty i
  | Some _ => Refused
  | None =>
      match find s FrameClass n, column with
      | None, true => InColumn
      | _, _ =>                              (* base.py [__setattr__] 4618-4622, then object.__setattr__ *)
          match get_extension s BaseClass b n with
          | Some (Direct (Property i)) => ByProperty i
          | _ => match find s FrameClass n with Some (Plain (Property i)) => ByProperty i | _ => InObject end
          end
      end
  end.
(** series.py [__setattr__] 563-567, base.py 4618-4622; the entries of the Series are not considered *)
Definition set_series (s : st) (b n : nat) : stored :=
  match get_extension s SeriesClass b n with
  | Some (Direct (Property i)) => ByProperty i
  | _ => match get_extension s BaseClass b n with
         | Some (Direct (Property i)) => ByProperty i
         | _ => match find s SeriesClass n with Some (Plain (Property i)) => ByProperty i | _ => InObject end
         end
  end.
End Model.

(** ** The module modin.pandas *)
Section Module_.
Variables (norm : nat -> nat) (reserved : nat -> bool) (own_pd : nat -> option attr).

Inductive pd_entry := PdWrapper | PdPlain (a : attr).
Record pd_st := PdSt { pd_ext : option nat -> nat -> option attr; pd_dict : nat -> option pd_entry;
                       reexports : nat -> option pd_entry }.

(** pandas/__init__.py 97-102 and [wrap_free_function_in_argument_caster] 1207-1218: functions are wrapped, and are
    the default extensions *)
Definition pd_start : pd_st :=
  PdSt (fun b n => match b, own_pd n with None, Some (Meth i) => Some (Meth i) | _, _ => None end)
       (fun n => match own_pd n with Some (Meth _) => Some PdWrapper | Some a => Some (PdPlain a) | None => None end)
       (fun _ => None).

(** extensions.py [register_pd_accessor] 286-297 (the backend is not normalized there) and
    [_set_attribute_on_obj] 68-127 *)
Definition pd_register (s : pd_st) (r : mod_reg) : pd_st :=
  let '(b, n, a) := r in
  if reserved n then s else
  let set_reexport := match pd_ext s b n, pd_dict s n with None, Some _ => true | _, _ => false end in
  let reex := fun n' => if set_reexport && (n =? n') then pd_dict s n else reexports s n' in
  let dict1 := fun n' => if set_reexport && (n =? n') then None else pd_dict s n' in
  let ext' := fun b' n' => if opt_eqb (option_map norm b) b' && (n =? n') then Some a else pd_ext s b' n' in
  let new := callable a && match dict1 n with None => true | Some _ => false end && negb (is_class a) in
  PdSt ext' (fun n' => if new && (n =? n') then Some PdWrapper else dict1 n') reex.
Definition pd_run (h : list mod_reg) : pd_st := fold_left pd_register h pd_start.

Definition pd_call_wrapper (s : pd_st) (b n : nat) : seen :=
  match pd_ext s (Some b) n with
  | Some a => call a
  | None => match pd_ext s None n with Some a => call a | None => Missing end
  end.
Definition pd_entry_seen (s : pd_st) (b n : nat) (e : pd_entry) : seen :=
  match e with PdWrapper => pd_call_wrapper s b n | PdPlain a => seen_as a end.
(** [pd.name]: the module's dictionary, then extensions.py [__getattr___impl] 300-328 *)
Definition pd_access (s : pd_st) (b n : nat) : seen :=
  match pd_dict s n with
  | Some e => pd_entry_seen s b n e
  | None =>
      match pd_ext s (Some b) n with
      | Some a => seen_as a
      | None =>
          match pd_ext s None n with
          | Some a => seen_as a
          | None => match reexports s n with Some e => pd_entry_seen s b n e | None => Missing end
          end
      end
  end.
End Module_.
