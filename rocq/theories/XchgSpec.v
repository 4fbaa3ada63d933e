(** The interchange protocol: what a consumer should see.  Independent of the model. *)
From Verif Require Import Base Table.

(** [ts] are consecutive row ranges of [d], disjoint, in order and together all of it. *)
Definition tile {L H A} (ts : list (df L H A)) (d : df L H A) : Prop :=
  concat (map dindex ts) = dindex d /\ concat (map dcells ts) = dcells d
  /\ Forall (fun t => dcols t = dcols d /\ length (dcells t) = length (dindex t)) ts.

(** Cell values.  [VMissing] is NaN, NaT or None; [VStrSub] an instance of a proper subclass of [str];
    [VObj] any other Python object. *)
Inductive value :=
  | VNum (z : Z)
  | VStr (s : list Z)
  | VStrSub (s : list Z)
  | VMissing
  | VObj (id : nat).

(** Column types. *)
Inductive prim := PInt | PUInt | PFloat | PBool.
Inductive skind := SPrim (p : prim) (bits : nat) | SDate | SStr.
Inductive kind := KSimple (k : skind) | KCat (cats : list value) (k : skind).

Section Spec.
  (** the strings UTF-8 can encode (all but those with lone surrogates) *)
  Variable encodable : list Z -> Prop.
  Definition present (v : value) : Prop := v <> VMissing.
  (** The values a column of the given type holds. *)
  Definition fits (k : skind) (v : value) : Prop :=
    match k with
    | SPrim p _ => (exists z, v = VNum z) \/ (p = PFloat /\ v = VMissing)
    | SDate => v = VMissing \/ exists z, v = VNum z /\ (- 2 ^ 63 < z < 2 ^ 63)%Z
    | SStr => v = VMissing \/ exists s, v = VStr s /\ encodable s
    end.
  Definition belongs (k : kind) (v : value) : Prop :=
    match k with
    | KSimple k => fits k v
    | KCat cats _ => v = VMissing \/ In v cats
    end.
  (** Column widths NumPy and the protocol share; category values are unique and not missing. *)
  Definition width_ok (k : skind) : Prop :=
    match k with
    | SPrim PFloat b => b = 32 \/ b = 64
    | SPrim PBool b => b = 8
    | SPrim _ b => b = 8 \/ b = 16 \/ b = 32 \/ b = 64
    | _ => True
    end.
  Definition kind_ok (k : kind) : Prop :=
    match k with
    | KSimple k => width_ok k
    | KCat cats k => width_ok k /\ NoDup cats /\ Forall (fun v => fits k v /\ present v) cats
    end.
End Spec.

(** The bit for entry [k] of a mask that starts [offset] bits into [bytes], least significant bit first. *)
Definition mask_bit (bytes : list nat) (offset k : nat) : bool :=
  Nat.testbit (nth ((offset + k) / 8) bytes 0) ((offset + k) mod 8).
