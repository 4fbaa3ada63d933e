From Verif Require Import Base Table ChunkModel ChunkSpec ChunkProofs GridModel GridSpec FrameSpec
  GridProofs GridProofs2 GridProofs3 GridProofs5 JoinModel JoinProofs3 ReadProofs2 RemModel RemProofs2 FilProofs2 SelProofs5
  ResetSpec ResetModel ResetProofs ExplSpec ExplModel.

(** * Tables below each other *)
Section Stack.
  Context {L H A : Type}.
  Notation dframe := (df L H A).
  Definition vcat (cols : list H) (ts : list dframe) : dframe :=
    mkdf (concat (map (@dindex L H A) ts)) cols (concat (map (@dcells L H A) ts)).

  Lemma combine_slices {X Y} (l : list X) (m : list Y) bs : combine (map (fun iv => slice l (fst iv) (snd iv)) bs) (map (fun iv => slice m (fst iv) (snd iv)) bs)
    = map (fun iv => (slice l (fst iv) (snd iv), slice m (fst iv) (snd iv))) bs.
  Proof. induction bs as [|b bs IH]; [reflexivity|]. cbn [map combine]. now rewrite IH. Qed.

  Lemma wf_vcat cols ts : Forall (fun t => wf t /\ dcols t = cols) ts -> wf (vcat cols ts).
  Proof. intros F. unfold vcat. split; cbn [dindex dcols dcells].
    - induction F as [|t ts [W E] _ IH]; [reflexivity|]. cbn [map concat]. rewrite !app_length, IH. f_equal. apply W.
    - induction F as [|t ts [W E] _ IH]; [constructor|]. cbn [map concat]. apply Forall_app. split; [|exact IH]. rewrite <- E. apply W. Qed.
  Lemma nrows_vcat cols ts : nrows (vcat cols ts) = list_sum (map (@nrows L H A) ts).
  Proof. unfold nrows, vcat. cbn [dindex]. induction ts as [|t ts IH]; [reflexivity|]. cbn [map concat]. rewrite app_length, IH. now lsum. Qed.

  Lemma cut_vcat cols (ts : list dframe) cl : Forall (fun t => wf t /\ dcols t = cols) ts ->
    map (fun t => map (fun ci => iloc_cols t (fst ci) (snd ci)) (bounds 0 cl)) ts = cut_table (map (@nrows L H A) ts) cl (vcat cols ts).
  Proof. intros F. unfold cut_table.
    assert (E1 := slices_of_concat (map (@dindex L H A) ts)). assert (E2 := slices_of_concat (map (@dcells L H A) ts)).
    assert (Ln : map (@length _) (map (@dcells L H A) ts) = map (@nrows L H A) ts).
    { rewrite map_map. apply map_ext_in. intros t I. rewrite Forall_forall in F. now apply (F t I). }
    rewrite map_map in E1. change (map (fun x => length (dindex x)) ts) with (map (@nrows L H A) ts) in E1. rewrite Ln in E2.
    assert (E3 : map (fun iv => (slice (dindex (vcat cols ts)) (fst iv) (snd iv), slice (dcells (vcat cols ts)) (fst iv) (snd iv))) (bounds 0 (map (@nrows L H A) ts))
                 = map (fun t => (dindex t, dcells t)) ts).
    { rewrite <- combine_slices. unfold vcat at 1 2. cbn [dindex dcells]. rewrite E1, E2. clear. induction ts as [|t ts IH]; [reflexivity|]. cbn [map combine]. now rewrite IH. }
    transitivity (map (fun p => map (fun ci => mkdf (fst p) (slice cols (fst ci) (snd ci)) (map (fun r => slice r (fst ci) (snd ci)) (snd p))) (bounds 0 cl)) (map (fun t => (dindex t, dcells t)) ts)).
    - rewrite map_map. apply map_ext_in. intros t I. rewrite Forall_forall in F. destruct (F t I) as [_ <-]. reflexivity.
    - rewrite <- E3, map_map. reflexivity. Qed.
End Stack.

Lemma rmap_app {X Y} (f : X -> res Y) a b : rmap f (a ++ b) = (do x <- rmap f a; do y <- rmap f b; Ok (x ++ y)).
Proof. induction a as [|u a IH]; cbn [app rmap].
  - cbn [rbind]. now destruct (rmap f b).
  - rewrite IH. destruct (f u); cbn [rbind]; [|reflexivity]. destruct (rmap f a); cbn [rbind]; [|reflexivity]. now destruct (rmap f b). Qed.
Lemma rmap_length {X Y} (f : X -> res Y) l m : rmap f l = Ok m -> length m = length l.
Proof. revert m. induction l as [|x l IH]; intros m; cbn [rmap].
  - now intros [= <-].
  - destruct (f x); cbn [rbind]; [|discriminate]. destruct (rmap f l) as [ys|]; cbn [rbind]; [|discriminate]. intros [= <-]. cbn. now rewrite (IH ys). Qed.
Lemma rmap_some_err {X Y} (f : X -> res Y) l x e : In x l -> f x = Err e -> exists e', rmap f l = Err e'.
Proof. induction l as [|y l IH]; [easy|]. intros [-> |I] E; cbn [rmap].
  - rewrite E. cbn. eauto.
  - destruct (f y); cbn [rbind]; [|eauto]. destruct (IH I E) as (e' & ->). cbn. eauto. Qed.
Lemma rmap_err_in {X Y} (f : X -> res Y) l e : rmap f l = Err e -> exists x, In x l /\ f x = Err e.
Proof. induction l as [|y l IH]; cbn [rmap]; [discriminate|]. destruct (f y) eqn:E; cbn [rbind].
  - destruct (rmap f l); cbn [rbind]; [discriminate|]. intros [= ->]. destruct (IH eq_refl) as (x & I & Ex). exists x. split; [now right|exact Ex].
  - intros [= ->]. exists y. split; [now left|exact E]. Qed.
Lemma rmap_iff {X Y} (f : X -> res Y) l m : rmap f l = Ok m <-> map f l = map (@Ok Y) m.
Proof. revert m. induction l as [|x l IH]; intros m; cbn [rmap map].
  - split; [now intros [= <-]|]. destruct m; [reflexivity|discriminate].
  - destruct (f x) as [y|e] eqn:E; cbn [rbind].
    + destruct (rmap f l) as [ys|e] eqn:El; cbn [rbind].
      * split; [intros [= <-]; cbn [map]; f_equal; now apply IH|]. destruct m as [|y' m]; [discriminate|]. cbn [map]. intros [= -> Em]. apply IH in Em. now injection Em as ->.
      * split; [discriminate|]. destruct m as [|y' m]; [discriminate|]. cbn [map]. intros [= _ Em]. now apply IH in Em.
    + split; [discriminate|]. destruct m; discriminate. Qed.
Lemma rmap_slice {X Y} (f : X -> res Y) l m a b : rmap f l = Ok m -> rmap f (slice l a b) = Ok (slice m a b).
Proof. rewrite !rmap_iff, <- !slice_map. now intros ->. Qed.
