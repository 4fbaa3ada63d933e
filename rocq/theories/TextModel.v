(** Model of modin/config/pubsub.py [_TYPE_PARAMS] 122-177 for texts: what a text given in an
    environment variable becomes ([decode]) and what the same text passed to [put] becomes
    ([verify] then [normalize]).  Texts are ASCII strings; [dict] is left out. *)
From Coq Require Import String Ascii ZArith.
From Verif Require Import Base.

Definition text := list ascii.
Definition chars (s : string) : text := list_ascii_of_string s.

(** str.strip *)
Definition blank (c : ascii) : bool :=
  let n := nat_of_ascii c in (n =? 32) || ((9 <=? n) && (n <=? 13)) || ((28 <=? n) && (n <=? 31)).
Fixpoint lstrip (t : text) : text :=
  match t with [] => [] | c :: r => if blank c then lstrip r else t end.
Definition strip (t : text) : text := rev (lstrip (rev (lstrip t))).

Definition upper_letter (c : ascii) : bool := let n := nat_of_ascii c in (65 <=? n) && (n <=? 90).
Definition lower_letter (c : ascii) : bool := let n := nat_of_ascii c in (97 <=? n) && (n <=? 122).
Definition to_lower (c : ascii) : ascii := if upper_letter c then ascii_of_nat (nat_of_ascii c + 32) else c.
Definition to_upper (c : ascii) : ascii := if lower_letter c then ascii_of_nat (nat_of_ascii c - 32) else c.
(** str.lower, str.title (upper after a non-letter, lower after a letter) *)
Definition lower (t : text) : text := map to_lower t.
Fixpoint title_from (inside : bool) (t : text) : text :=
  match t with
  | [] => []
  | c :: r => if upper_letter c || lower_letter c
              then (if inside then to_lower c else to_upper c) :: title_from true r
              else c :: title_from false r
  end.
Definition title (t : text) : text := title_from false t.

Definition digit (c : ascii) : option Z :=
  let n := nat_of_ascii c in if (48 <=? n) && (n <=? 57) then Some (Z.of_nat (n - 48)) else None.
(** str.isdigit *)
Definition isdigit (t : text) : bool :=
  negb (length t =? 0) && forallb (fun c => match digit c with Some _ => true | None => false end) t.
Fixpoint digits_value (acc : Z) (t : text) : option Z :=
  match t with
  | [] => Some acc
  | c :: r => match digit c with Some d => digits_value (acc * 10 + d)%Z r | None => None end
  end.
(** int(text): white space around is allowed, then an optional sign (underscores are left out) *)
Definition py_int (t : text) : option Z :=
  match strip t with
  | [] => None
  | c :: r =>
      if nat_of_ascii c =? 45 then (if length r =? 0 then None else option_map Z.opp (digits_value 0 r))
      else if nat_of_ascii c =? 43 then (if length r =? 0 then None else digits_value 0 r)
      else digits_value 0 (c :: r)
  end.

Inductive vtype := TStr | TExact | TBool | TInt.
Inductive pyval := PText (t : text) | PBool (b : bool) | PInt (z : Z).

Definition text_eqb (a b : text) : bool := String.eqb (string_of_list_ascii a) (string_of_list_ascii b).
Definition one_of (l : list string) (t : text) : bool := existsb (fun s => text_eqb (chars s) t) l.

(** the text in an environment variable; None = the decoder raises *)
Definition decode (ty : vtype) (t : text) : option pyval :=
  match ty with
  | TStr => Some (PText (title (strip t)))
  | TExact => Some (PText t)
  | TBool => Some (PBool (one_of ["true"; "yes"; "1"]%string (lower (strip t))))
  | TInt => option_map PInt (py_int (strip t))
  end.

(** [verify] on a text *)
Definition verify_text (ty : vtype) (t : text) : bool :=
  match ty with
  | TStr | TExact => true
  | TBool => one_of ["true"; "yes"; "1"; "false"; "no"; "0"]%string (lower (strip t))
  | TInt => isdigit (strip t)
  end.

(** [normalize] on a text: [bool(text)] is true of every non-empty text *)
Definition normalize_text (ty : vtype) (t : text) : option pyval :=
  match ty with
  | TStr => Some (PText (title (strip t)))
  | TExact => Some (PText t)
  | TBool => Some (PBool (negb (length t =? 0)))
  | TInt => option_map PInt (py_int t)
  end.

(** The value in force when the text comes from the environment: envvars.py
    [EnvironmentVariable._get_value_from_config] 43-62 *)
Definition from_environment (ty : vtype) (t : text) : option pyval :=
  if verify_text ty t then decode ty t else None.
(** The value in force after [put(text)]: pubsub.py [_put_nocallback] 412-432 *)
Definition from_put (ty : vtype) (t : text) : option pyval :=
  if verify_text ty t then normalize_text ty t else None.

Lemma lstrip_idem t : lstrip (lstrip t) = lstrip t.
Proof. induction t as [|c r IH]; cbn; [reflexivity|]. destruct (blank c) eqn:E; [exact IH|]. cbn. now rewrite E. Qed.
Lemma lstrip_suffix t : exists p, t = p ++ lstrip t.
Proof. induction t as [|c r [p IH]]; [now exists []|]. cbn. destruct (blank c); [exists (c :: p); cbn; now f_equal|now exists []]. Qed.
Lemma lstrip_fix_prefix a b : lstrip (a ++ b) = a ++ b -> a <> [] -> lstrip a = a.
Proof. destruct a as [|c a]; cbn; [congruence|]. destruct (blank c) eqn:E; [|reflexivity]. intros H _.
  destruct (lstrip_suffix (a ++ b)) as [p Hp]. exfalso. apply (f_equal (@length _)) in H. apply (f_equal (@length _)) in Hp.
  cbn [length] in H. rewrite (app_length p) in Hp. lia. Qed.
Lemma strip_idem t : strip (strip t) = strip t.
Proof. unfold strip. set (u := lstrip t). assert (Hu : lstrip u = u) by apply lstrip_idem.
  destruct (lstrip_suffix (rev u)) as [p Hp].
  assert (E : u = rev (lstrip (rev u)) ++ rev p) by (rewrite <- rev_app_distr, <- Hp; now rewrite rev_involutive).
  set (w := lstrip (rev u)) in *. assert (Hw : lstrip w = w) by apply lstrip_idem.
  destruct (list_eq_dec ascii_dec (rev w) []) as [Er|Er]; [now rewrite Er|].
  assert (L : lstrip (rev w) = rev w).
  { apply lstrip_fix_prefix with (b := rev p). 2: exact Er. rewrite <- E. exact Hu. }
  rewrite L, rev_involutive, Hw. reflexivity. Qed.

Lemma text_meaning ty t : ty <> TBool -> from_put ty t = from_environment ty t.
Proof. intros N. unfold from_put, from_environment. destruct (verify_text ty t); [|reflexivity].
  destruct ty; try reflexivity; [congruence|]. cbn. unfold py_int. now rewrite strip_idem. Qed.
