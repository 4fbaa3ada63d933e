(** The flat list of a task and what the worker makes of it. *)
From Verif Require Import Base DefSpec DefModel.

Section Worker.
  Context {V : Type}.
  Variable call : nat -> V -> forest V -> list nat -> forest V -> res V.
  Variables vlen vwid : V -> nat.
  Variable store : list (res V).
  Notation obj := (obj V).
  Notation tok := (token obj).
  Notation wstate := (wstate V).
  Notation resolve := (resolve store).

  (** The tree a flat list stands for.  [p] is the position of the reference id of a step. *)
  Inductive chain := CObj (o : obj) | CRef (p : nat) | CStep (c : chain) (f : nat) (a : cargs) (ks : list nat) (k : cargs) (p : nat)
  with cargs := AFlat (l : list obj) | AItems (i : items)
  with items := INil | IObj (o : obj) (i : items) | IRef (p : nat) (i : items) | IChain (c : chain) (i : items) | IList (i1 i2 : items).
  Scheme chain_mind := Induction for chain Sort Prop with cargs_mind := Induction for cargs Sort Prop
    with items_mind := Induction for items Sort Prop.
  Combined Scheme tree_ind from chain_mind, cargs_mind, items_mind.

  Inductive atok := AT (t : tok) | ASlot (p : nat) | ARet (p : nat).
  Definition int (n : nat) : tok := TInt (Z.of_nat n).
  Fixpoint iwidth (i : items) : nat :=
    match i with INil => 0 | IObj _ i | IRef _ i | IChain _ i | IList _ i => S (iwidth i) end.
  Definition awidth (a : cargs) : nat := match a with AFlat l => length l | AItems i => iwidth i end.
  Fixpoint fchain (c : chain) : list atok :=
    match c with
    | CObj o => [AT (TObj o)]
    | CRef p => [AT (TTag REF); AT (int p)]
    | CStep c f a ks k p =>
        fchain c ++ AT (TFun f) :: fargs a
        ++ match k with
           | AFlat l => AT (int (length l)) :: flat_map (fun ko => [AT (TKey (fst ko)); AT (TObj (snd ko))]) (combine ks l)
           | AItems i => AT (TInt (-1)) :: fitems i ++ map (fun k => AT (TKey k)) ks
           end
        ++ [ASlot p; ARet p]
    end
  with fargs (a : cargs) : list atok :=
    match a with
    | AFlat l => AT (int (length l)) :: map (fun o => AT (TObj o)) l
    | AItems i => AT (TInt (-1)) :: fitems i
    end
  with fitems (i : items) : list atok :=
    match i with
    | INil => [AT (TTag END)]
    | IObj o i => AT (TObj o) :: fitems i
    | IRef p i => AT (TTag REF) :: AT (int p) :: fitems i
    | IChain c i => AT (TTag CHAIN) :: fchain c ++ AT (TTag END) :: fitems i
    | IList i1 i2 => AT (TTag LIST) :: fitems i1 ++ fitems i2
    end.
  Definition fkw (ks : list nat) (k : cargs) : list atok :=
    match k with
    | AFlat l => AT (int (length l)) :: flat_map (fun ko => [AT (TKey (fst ko)); AT (TObj (snd ko))]) (combine ks l)
    | AItems i => AT (TInt (-1)) :: fitems i ++ map (fun k => AT (TKey k)) ks
    end.
  Fixpoint wfc (c : chain) : Prop :=
    match c with CStep c f a ks k p => wfc c /\ wfa a /\ wfa k /\ awidth k = length ks | _ => True end
  with wfa (a : cargs) : Prop := match a with AFlat _ => True | AItems i => wfi i end
  with wfi (i : items) : Prop :=
    match i with INil => True | IObj _ i | IRef _ i => wfi i | IChain c i => wfc c /\ wfi i | IList i1 i2 => wfi i1 /\ wfi i2 end.

  (** Which reference ids are set and which results are returned. *)
  Variables mref mret : nat -> bool.
  Definition interp (t : atok) : tok :=
    match t with
    | AT t => t
    | ASlot p => if mref p then int p else TInt 0
    | ARet p => if mret p then TInt 1 else TInt 0
    end.

  (** What the tree computes. *)
  Definition ecall (f : nat) (d : V) (a : forest V) (ks : list nat) (k : forest V) (p : nat) (w : wstate) : wstate * res V :=
    let w := WS (refs w) (wmeta w) (yields w) (calls w ++ [f]) in
    match call f d a ks k with
    | Err e => (w, Err e)
    | Ok v =>
        let w := if mref p && negb (p =? 0) then WS ((p, v) :: refs w) (wmeta w) (yields w) (calls w) else w in
        (if mret p then WS (refs w) (wmeta w ++ [vlen v; vwid v]) (yields w ++ [v]) (calls w) else w, Ok v)
    end.
  Fixpoint echain (c : chain) (w : wstate) : wstate * res V :=
    match c with
    | CObj o => (w, resolve o)
    | CRef p => (w, lookup p (refs w))
    | CStep c f a ks k p =>
        wbind (echain c w) (fun w d => wbind (eargs a w) (fun w a => wbind (eargs k w) (fun w k => ecall f d a ks k p w)))
    end
  with eargs (a : cargs) (w : wstate) : wstate * res (forest V) :=
    match a with
    | AFlat l => (w, do vs <- rmap resolve l; Ok (fold_right (@Atom V) Nil vs))
    | AItems i => eitems i w
    end
  with eitems (i : items) (w : wstate) : wstate * res (forest V) :=
    match i with
    | INil => (w, Ok Nil)
    | IObj o i => wbind (w, resolve o) (fun w v => wbind (eitems i w) (fun w r => (w, Ok (Atom v r))))
    | IRef p i => wbind (w, lookup p (refs w)) (fun w v => wbind (eitems i w) (fun w r => (w, Ok (Atom v r))))
    | IChain c i => wbind (echain c w) (fun w v => wbind (eitems i w) (fun w r => (w, Ok (Atom v r))))
    | IList i1 i2 => wbind (eitems i1 w) (fun w r1 => wbind (eitems i2 w) (fun w r => (w, Ok (Nest false r1 r))))
    end.

  Lemma wbind_assoc {A B C} (c : wstate * res A) (f : wstate -> A -> wstate * res B) (g : wstate -> B -> wstate * res C) :
    wbind (wbind c f) g = wbind c (fun w a => wbind (f w a) g).
  Proof. now destruct c as [w [a|e]]. Qed.
  Lemma wbind_ext {A B} (c : wstate * res A) (f g : wstate -> A -> wstate * res B) :
    (forall w a, c = (w, Ok a) -> f w a = g w a) -> wbind c f = wbind c g.
  Proof. destruct c as [w [a|e]]; cbn; auto. Qed.

  Notation fl := (map interp).
  Lemma take_objects_flat l rest : take_objects store (length l) (map (fun o => TObj o) l ++ rest)
    = do vs <- rmap resolve l; Ok (fold_right (@Atom V) Nil vs, rest).
  Proof. induction l as [|o l IH]; cbn; [easy|]. rewrite IH. destruct (resolve o); cbn; [|easy]. now destruct (rmap resolve l). Qed.
  Lemma take_items_flat l : forall ks rest, length l = length ks ->
    take_items store (length l) (flat_map (fun ko => [TKey (fst ko); TObj (snd ko)]) (combine ks l) ++ rest)
    = do vs <- rmap resolve l; Ok (ks, fold_right (@Atom V) Nil vs, rest).
  Proof. induction l as [|o l IH]; intros [|k ks] rest E; try discriminate; cbn; [easy|]. rewrite IH by (cbn in E; lia).
    destruct (resolve o); cbn; [|easy]. now destruct (rmap resolve l). Qed.
  Lemma take_keys_flat ks (rest : list tok) : take_keys (length ks) (map (fun k => TKey k) ks ++ rest) = Ok (ks, rest).
  Proof. induction ks as [|k ks IH]; cbn; [easy|]. now rewrite IH. Qed.
  Lemma width_eitems i : forall w w' r, eitems i w = (w', Ok r) -> width r = iwidth i.
  Proof. induction i; intros w w' r; cbn [eitems].
    - now intros [= _ <-].
    - destruct (resolve o); cbn; [|easy]. destruct (eitems i w) as [w1 [r1|]] eqn:E; cbn; [|easy]. intros [= _ <-]. cbn. eauto.
    - destruct (lookup p (refs w)); cbn; [|easy]. destruct (eitems i w) as [w1 [r1|]] eqn:E; cbn; [|easy]. intros [= _ <-]. cbn. eauto.
    - destruct (echain c w) as [w0 [v|]]; cbn; [|easy]. destruct (eitems i w0) as [w1 [r1|]] eqn:E; cbn; [|easy]. intros [= _ <-]. cbn. eauto.
    - destruct (eitems i1 w) as [w0 [v|]]; cbn; [|easy]. destruct (eitems i2 w0) as [w1 [r1|]] eqn:E; cbn; [|easy]. intros [= _ <-]. cbn. eauto.
  Qed.
  Lemma after_call_slots f d a ks k p rest (w : wstate) :
    after_call call vlen vwid f d a ks k (fl [ASlot p; ARet p] ++ rest) w = wbind (ecall f d a ks k p w) (fun w v => (w, Ok (v, rest))).
  Proof. unfold after_call, ecall. cbn [map app interp]. destruct (call f d a ks k) as [v|]; [|easy].
    destruct (mref p); cbn [andb].
    - unfold int. destruct (Nat.eqb_spec p 0) as [->|N]; cbn [negb].
      + cbn [Z.of_nat Z.eqb]. now destruct (mret 0).
      + destruct (Z.eqb_spec (Z.of_nat p) 0); [lia|]. rewrite Nat2Z.id. now destruct (mret p).
    - cbn. now destruct (mret p). Qed.

  Ltac len := cbn [length] in *; repeat (progress (rewrite ?app_length, ?map_length in *; cbn [length] in *)).
  Notation cloop := (construct_loop call vlen vwid store).
  Notation clist := (construct_list call vlen vwid store).
  Lemma cloop_fun fuel x f z ts w : cloop (S fuel) x (TFun f :: TInt z :: ts) w =
    wbind (if (0 <=? z)%Z then (w, take_objects store (Z.to_nat z) ts) else clist fuel ts w) (fun w at_ =>
            match snd at_ with
            | TInt z :: ts =>
                wbind (if (0 <=? z)%Z then (w, take_items store (Z.to_nat z) ts)
                       else wbind (clist fuel ts w) (fun w vt =>
                            (w, do kt <- take_keys (width (fst vt)) (snd vt); Ok (fst kt, fst vt, snd kt)))) (fun w kvt =>
                let '(ks, vs, ts) := kvt in
                wbind (after_call call vlen vwid f x (fst at_) ks vs ts w) (fun w r =>
                cloop fuel (fst r) (snd r) w))
            | _ => (w, Err InternalBug)
            end).
  Proof. reflexivity. Qed.
  Lemma cloop_end fuel x ts w : cloop (S fuel) x (TTag END :: ts) w = (w, Ok (Some x, ts)).
  Proof. reflexivity. Qed.
  Lemma clist_chain fuel ts w : clist (S fuel) (TTag CHAIN :: ts) w =
            wbind (construct_head store ts w) (fun w r =>
            wbind (cloop fuel (fst r) (snd r) w) (fun w r =>
            wbind (clist fuel (snd r) w) (fun w rest =>
            (w, Ok (match fst r with Some v => Atom v (fst rest) | None => fst rest end, snd rest))))).
  Proof. reflexivity. Qed.
  Lemma clist_list fuel ts w : clist (S fuel) (TTag LIST :: ts) w =
            wbind (clist fuel ts w) (fun w inner =>
            wbind (clist fuel (snd inner) w) (fun w rest => (w, Ok (Nest false (fst inner) (fst rest), snd rest)))).
  Proof. reflexivity. Qed.
  Lemma clist_ref fuel z ts w : clist (S fuel) (TTag REF :: TInt z :: ts) w =
            wbind (w, lookup (Z.to_nat z) (refs w)) (fun w v =>
            wbind (clist fuel ts w) (fun w rest => (w, Ok (Atom v (fst rest), snd rest)))).
  Proof. reflexivity. Qed.
  Lemma clist_obj fuel o ts w : clist (S fuel) (TObj o :: ts) w =
            wbind (w, resolve o) (fun w v =>
            wbind (clist fuel ts w) (fun w rest => (w, Ok (Atom v (fst rest), snd rest)))).
  Proof. reflexivity. Qed.
  Lemma decode :
    (forall c, wfc c -> forall rest w fuel, length (fl (fchain c) ++ rest) < fuel ->
       exists fuel', length rest < fuel' /\
       wbind (construct_head store (fl (fchain c) ++ rest) w) (fun w r => cloop fuel (fst r) (snd r) w)
       = wbind (echain c w) (fun w v => cloop fuel' v rest w))
    /\ (forall a, wfa a -> forall i, a = AItems i -> forall rest w fuel, length (fl (fitems i) ++ rest) < fuel ->
       clist fuel (fl (fitems i) ++ rest) w = wbind (eitems i w) (fun w r => (w, Ok (r, rest))))
    /\ (forall i, wfi i -> forall rest w fuel, length (fl (fitems i) ++ rest) < fuel ->
       clist fuel (fl (fitems i) ++ rest) w = wbind (eitems i w) (fun w r => (w, Ok (r, rest)))).
  Proof. apply tree_ind.
    - intros o _ rest w fuel F. exists fuel. cbn in *. split; [lia|]. destruct (resolve o); easy.
    - intros p _ rest w fuel F. exists fuel. cbn in *. split; [lia|]. rewrite Nat2Z.id. destruct (lookup p (refs w)); easy.
    - intros c IHc f a IHa ks k IHk p (Wc & Wa & Wk & Wn) rest w fuel F.
      change (fchain (CStep c f a ks k p)) with (fchain c ++ AT (TFun f) :: fargs a ++ fkw ks k ++ [ASlot p; ARet p]) in *.
      rewrite map_app, <- app_assoc in *.
      destruct (IHc Wc (fl (AT (TFun f) :: fargs a ++ fkw ks k ++ [ASlot p; ARet p]) ++ rest) w fuel F) as (fuel' & F' & E).
      rewrite E. clear E F fuel. destruct fuel' as [|fuel]; [lia|].
      exists fuel. split; [len; lia|]. cbn [echain]. rewrite wbind_assoc. apply wbind_ext. intros w1 d _. clear w IHc.
      assert (Es : exists sl, sl = [ASlot p; ARet p]) by now eexists. destruct Es as [sl Es]. rewrite <- Es in *.
      change (fl (AT (TFun f) :: fargs a ++ fkw ks k ++ sl)) with (TFun f :: fl (fargs a ++ fkw ks k ++ sl)) in *.
      rewrite !map_app, <- app_comm_cons, <- !app_assoc in *. len.
      assert (Ea : forall ts w, length ts + length (fl (fargs a)) < S fuel ->
        exists z, fl (fargs a) ++ ts = TInt z :: tl (fl (fargs a) ++ ts) /\
        (if (0 <=? z)%Z then (w, take_objects store (Z.to_nat z) (tl (fl (fargs a) ++ ts))) else clist fuel (tl (fl (fargs a) ++ ts)) w)
        = wbind (eargs a w) (fun w r => (w, Ok (r, ts)))).
      { intros ts w' F. destruct a as [l|i].
        - exists (Z.of_nat (length l)). cbn. split; [easy|]. destruct (0 <=? Z.of_nat (length l))%Z eqn:Z; [|lia].
          rewrite Nat2Z.id, map_map. cbn. rewrite take_objects_flat. now destruct (rmap resolve l).
        - exists (-1)%Z. cbn. split; [easy|]. apply (IHa Wa i eq_refl). cbn in F. len. lia. }
      destruct (Ea (fl (fkw ks k) ++ fl sl ++ rest) w1) as (z & E1 & E2).
      { len. lia. }
      rewrite E1, cloop_fun, E2. rewrite !wbind_assoc. apply wbind_ext. intros w2 av Hav.
      cbn [wbind fst snd]. clear E1 E2 Ea.
      assert (Ek : forall ts w, length ts + length (fl (fkw ks k)) < S fuel ->
        exists z, fl (fkw ks k) ++ ts = TInt z :: tl (fl (fkw ks k) ++ ts) /\
        (if (0 <=? z)%Z then (w, take_items store (Z.to_nat z) (tl (fl (fkw ks k) ++ ts)))
         else wbind (clist fuel (tl (fl (fkw ks k) ++ ts)) w) (fun w vt =>
              (w, do kt <- take_keys (width (fst vt)) (snd vt); Ok (fst kt, fst vt, snd kt))))
        = wbind (eargs k w) (fun w r => (w, Ok (ks, r, ts)))).
      { intros ts w' F. destruct k as [l|i].
        - exists (Z.of_nat (length l)). cbn. split; [easy|]. destruct (0 <=? Z.of_nat (length l))%Z eqn:Z; [|lia].
          rewrite Nat2Z.id.
          replace (fl (flat_map (fun ko => [AT (TKey (fst ko)); AT (TObj (snd ko))]) (combine ks l)))
            with (flat_map (fun ko : nat * obj => [TKey (fst ko); TObj (snd ko)]) (combine ks l)).
          2:{ clear. induction (combine ks l) as [|x xs IH]; cbn; [easy|]. now rewrite IH. }
          rewrite take_items_flat by exact Wn. now destruct (rmap resolve l).
        - exists (-1)%Z. cbn. split; [easy|]. rewrite map_app, <- app_assoc. rewrite (IHk Wk i eq_refl).
          2:{ cbn in F. len. lia. }
          rewrite wbind_assoc. apply wbind_ext. intros w3 r Hr. cbn. rewrite (width_eitems _ _ Hr). cbn in Wn. rewrite Wn.
          rewrite map_map. cbn. now rewrite take_keys_flat. }
      destruct (Ek (fl sl ++ rest) w2) as (z' & E1 & E2).
      { len. lia. }
      rewrite E1. cbv beta iota. rewrite E2. rewrite !wbind_assoc. apply wbind_ext. intros w3 kv _. cbn [wbind].
      subst sl. rewrite (after_call_slots f d av ks kv p rest w3). rewrite wbind_assoc. now apply wbind_ext.
    - discriminate.
    - intros i IH W i' [= <-]. now apply IH.
    - intros _ rest w [|fuel] F; [lia|]. reflexivity.
    - intros o i IH W rest w [|fuel] F; [lia|]. cbn [fitems map interp app eitems] in *. len. rewrite clist_obj.
      destruct (resolve o) as [v|]; cbn [wbind]; [|easy]. rewrite IH by (first [assumption | len; lia]). rewrite !wbind_assoc. now apply wbind_ext.
    - intros p i IH W rest w [|fuel] F; [lia|]. cbn [fitems map interp app eitems int] in *. len. unfold int. rewrite clist_ref, Nat2Z.id.
      destruct (lookup p (refs w)) as [v|]; cbn [wbind]; [|easy]. rewrite IH by (first [assumption | len; lia]). rewrite !wbind_assoc. now apply wbind_ext.
    - intros c IHc i IH [Wc W] rest w [|fuel] F; [lia|].
      change (fitems (IChain c i)) with (AT (TTag CHAIN) :: fchain c ++ AT (TTag END) :: fitems i) in *.
      cbn [map interp app eitems] in *. rewrite map_app, <- app_assoc in *. cbn [map interp app] in *. len.
      rewrite clist_chain.
      destruct (IHc Wc (TTag END :: fl (fitems i) ++ rest) w fuel) as (fuel' & F' & E).
      { len. lia. }
      rewrite <- wbind_assoc, E. rewrite !wbind_assoc. apply wbind_ext. intros w1 v _. destruct fuel' as [|fuel']; [lia|].
      rewrite cloop_end. cbn [wbind fst snd]. rewrite IH by (first [assumption | len; lia]). rewrite !wbind_assoc. now apply wbind_ext.
    - intros i1 IH1 i2 IH2 [W1 W2] rest w [|fuel] F; [lia|].
      change (fitems (IList i1 i2)) with (AT (TTag LIST) :: fitems i1 ++ fitems i2) in *.
      cbn [map interp app eitems] in *. rewrite map_app, <- app_assoc in *. len. rewrite clist_list.
      rewrite IH1 by (first [assumption | len; lia]). rewrite !wbind_assoc. apply wbind_ext. intros w1 r1 _. cbn [wbind fst snd].
      rewrite IH2 by (first [assumption | len; lia]). rewrite !wbind_assoc. now apply wbind_ext. Qed.

  (** The worker computes what the tree computes. *)
  Theorem construct_tree c : wfc c ->
    construct call vlen vwid store (fl (fchain c)) = wbind (echain c (WS [] [] [] [])) (fun w _ => (w, Ok tt)).
  Proof. intros W. unfold construct. rewrite <- wbind_assoc.
    destruct (proj1 decode c W [] (WS [] [] [] []) (S (length (fl (fchain c))))) as (fuel & F & E).
    { rewrite app_nil_r. lia. }
    rewrite app_nil_r in E. rewrite E. rewrite wbind_assoc. apply wbind_ext. intros w v _. destruct fuel; [cbn in F; lia|]. easy. Qed.
End Worker.
