(** What pandas returns for Series.case_when (C85).  A Series is a list of labels and cells. *)
From Verif Require Import Base Table.

Section Case.
  Context {L A : Type}.
  Variable leqb : L -> L -> bool.
  Variable na : A.
  Definition series X := list (L * X).

  (** A condition or replacement: a function of the Series, a list or array, a pandas Series, a Modin Series, a scalar *)
  Inductive arg X := Fun (f : series A -> list X) | Items (l : list X) | Ser (t : series X) | Mod (t : series X) | Val (x : X).

  (** the element labelled [l], the first if there are several; [fill] if there is none *)
  Definition at_label {X} (fill : X) (t : series X) (l : L) : X :=
    match find (fun lx => leqb l (fst lx)) t with Some lx => snd lx | None => fill end.
  Definition unique (ls : list L) : bool := (fix go ls := match ls with [] => true | l :: ls => negb (existsb (leqb l) ls) && go ls end) ls.
  (** a Series brought to the labels [idx]; repeated labels are an error unless the labels are those wanted *)
  Definition aligned_to {X} (fill : X) (idx : list L) (t : series X) : res (list X) :=
    if list_eqb leqb (map fst t) idx then Ok (map snd t)
    else if unique (map fst t) then Ok (map (at_label fill t) idx) else Err ValueError.

  Definition as_long_as {X} (s : series A) (l : list X) : res (list X) := if length l =? length s then Ok l else Err ValueError.
  (** the elements an argument stands for; a condition cannot be a scalar *)
  Definition elements {X} (scalar : bool) (fill : X) (s : series A) (a : arg X) : res (list X) :=
    match a with
    | Fun f => as_long_as s (f s)
    | Items l => as_long_as s l
    | Ser t | Mod t => aligned_to fill (map fst s) t
    | Val x => if scalar then Ok (repeat x (length s)) else Err ValueError
    end.
  Definition case := (arg bool * arg A)%type.
  (** a row without an entry in the condition counts as true, without an entry in the replacement it is missing *)
  Definition resolve (s : series A) (c : case) : res (list (bool * A)) :=
    do b <- elements false true s (fst c); do r <- elements true na s (snd c); Ok (combine b r).
  (** the cell of a row: the replacement of the first case whose condition holds there *)
  Definition choose (cs : list (list (bool * A))) (s : series A) : list A :=
    fold_right (fun c xs => map2 (fun (br : bool * A) x => if fst br then snd br else x) c xs) (map snd s) cs.
  Definition p_case_when (s : series A) (cases : list case) : res (list A) :=
    match cases with
    | [] => Err ValueError
    | _ => do cs <- rmap (resolve s) cases; Ok (choose cs s)
    end.
End Case.
Arguments Fun {L A X}. Arguments Items {L A X}. Arguments Ser {L A X}. Arguments Mod {L A X}. Arguments Val {L A X}.
