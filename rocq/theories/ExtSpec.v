(** What registering attributes on modin's classes and on the module promises (C77): the documentation of
    [register_dataframe_accessor], [register_series_accessor], [register_base_accessor], [register_pd_accessor]
    ("assigns a new attribute to ...; If None, this accessor will become the default for all backends") together
    with Python's own rule that a class wins over the class it inherits from.
    Names, backends and the attributes themselves are numbers. *)
From Verif Require Import Base.

Inductive cls := BaseClass | FrameClass | SeriesClass.
Definition cls_eqb (a b : cls) : bool :=
  match a, b with BaseClass, BaseClass | FrameClass, FrameClass | SeriesClass, SeriesClass => true | _, _ => false end.
Definition above (c : cls) : option cls := match c with BaseClass => None | _ => Some BaseClass end.
Definition in_mro (c k : cls) : Prop := k = c \/ above c = Some k.

(** A function, a property, some other object, a class, a class method. *)
Inductive attr := Meth (i : nat) | Property (i : nat) | Val (i : nat) | Cls (i : nat) | Stat (i : nat).
Definition is_method (a : attr) : bool := match a with Meth _ => true | _ => false end.
Definition is_value (a : attr) : bool := match a with Property _ | Val _ => true | _ => false end.

(** One registration: the class, the backend as the user writes it (or [None]), the name and the attribute. *)
Record reg := Reg { r_cls : cls; r_backend : option nat; r_name : nat; r_attr : attr }.

(** What the user gets from [obj.name] (and from calling it, when it is a function). *)
Inductive seen :=
| Calls (i : nat)        (* the function number i runs *)
| Reads (i : nat)        (* the value of property i *)
| Object (i : nat)       (* the object i *)
| ClassOf (i : nat)      (* the class i *)
| Builds (i : nat)       (* a callable that makes instances of class i *)
| NotCallable (i : nat)  (* a callable that raises TypeError although i was registered *)
| Column                 (* the column (of a Series: the entry) with that name *)
| ByPandas (n : nat)     (* the method n of the pandas object of the same contents *)
| Missing.               (* AttributeError, at once or when it is called *)

Definition seen_as (a : attr) : seen :=
  match a with Meth i | Stat i => Calls i | Property i => Reads i | Val i => Object i | Cls i => ClassOf i end.

Definition opt_eqb (a b : option nat) : bool :=
  match a, b with Some x, Some y => x =? y | None, None => true | _, _ => false end.

Section Spec.
Variable norm : nat -> nat.            (* [Backend.normalize]: "pandas" and "Pandas" are the same backend *)
Variable reserved : nat -> bool.       (* names that cannot be registered *)

(** The last registration for a class, a backend and a name. *)
Definition latest (h : list reg) (c : cls) (b : option nat) (n : nat) : option attr :=
  fold_left (fun found r =>
    if cls_eqb (r_cls r) c && opt_eqb (option_map norm (r_backend r)) b && (r_name r =? n) && negb (reserved n)
    then Some (r_attr r) else found) h None.

Definition first {X} (a b : option X) : option X := match a with Some _ => a | None => b end.

(** What is registered for an object of backend [b]: its own backend first, then the default. *)
Definition registered h c b n := first (latest h c (Some b) n) (latest h c None n).

Variable own : cls -> nat -> option attr.     (* what the class statements themselves define *)

Definition at_class h c b n := first (registered h c b n) (own c n).
Definition wanted h c b n :=
  first (at_class h c b n) (match above c with Some k => at_class h k b n | None => None end).

Definition promised h c b n (column : bool) : seen :=
  match wanted h c b n with Some a => seen_as a | None => if column then Column else Missing end.

(** [h] registers a function under this name for the class, whatever the backend. *)
Definition method_registered (h : list reg) (c : cls) (n : nat) : Prop :=
  exists r, In r h /\ r_cls r = c /\ r_name r = n /\ is_method (r_attr r) = true.
Definition new_name (c : cls) (n : nat) : Prop := forall k, in_mro c k -> own k n = None.
Definition value_registered h c b n : Prop := exists a, registered h c b n = Some a /\ is_value a = true.

(** Names for which [df.name] is what was promised:
    - no class is registered;
    - a function is registered only where the name was free or a function before;
    - the base class gives an object of this backend a property only if its own class gives it nothing or a
      property;
    - a new function is registered for the object's class or for the base class, not both; and if the object's
      class has one for other backends only, then there is no other meaning of the name. *)
Record tidy (h : list reg) (c : cls) (b n : nat) (column : bool) : Prop := Tidy {
  no_class : forall r, In r h -> in_mro c (r_cls r) -> r_name r = n -> is_method (r_attr r) || is_value (r_attr r) = true;
  functions : (forall k a, in_mro c k -> own k n = Some a -> is_method a = true) \/
              (forall k, in_mro c k -> ~ method_registered h k n);
  base_values : forall k, above c = Some k -> value_registered h k b n ->
                at_class h c b n = None \/ value_registered h c b n;
  one_class : forall k, above c = Some k -> new_name c n -> method_registered h c n -> ~ method_registered h k n;
  hides : forall k, above c = Some k -> own k n = None -> method_registered h c n -> at_class h c b n = None ->
          registered h k b n = None;
  hides_column : forall k, in_mro c k -> method_registered h k n -> wanted h c b n = None -> column = false }.

(** The module modin.pandas: the same without classes above. *)
Variable own_pd : nat -> option attr.
Definition mod_reg := (option nat * nat * attr)%type.
Definition latest_pd (h : list mod_reg) (b : option nat) (n : nat) : option attr :=
  fold_left (fun found r =>
    if opt_eqb (option_map norm (fst (fst r))) b && (snd (fst r) =? n) && negb (reserved n) then Some (snd r) else found) h None.
Definition promised_pd (h : list mod_reg) (b n : nat) : seen :=
  match first (latest_pd h (Some b) n) (first (latest_pd h None n) (own_pd n)) with
  | Some a => seen_as a
  | None => Missing
  end.

(** [obj.name = value] *)
Inductive stored := ByProperty (i : nat) | InColumn | InObject | Refused.
Definition promised_set h c b n (column : bool) : stored :=
  match wanted h c b n with
  | Some (Property i) => ByProperty i
  | Some _ => InObject
  | None => if column then InColumn else InObject
  end.
End Spec.
