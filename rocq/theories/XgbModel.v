(** Distribution of training data over XGBoost actors: experimental/xgboost/xgboost_ray.py. *)
From Coq Require Import Lia.
From Verif Require Import Base WriteModel.

Section XgbModel.
  (** addresses of nodes, partitions of the features and of the labels *)
  Context {IP P Q : Type}.
  Variable ipeqb : IP -> IP -> bool.

  (** Insertion-ordered dictionaries of lists (defaultdict(list)): reading a missing key inserts it. *)
  Definition ddict (V : Type) := list (IP * list V).
  Definition dget {V} (ip : IP) (d : ddict V) : list V :=
    match find (fun e => ipeqb ip (fst e)) d with Some e => snd e | None => [] end.
  Fixpoint dset {V} (ip : IP) (v : list V) (d : ddict V) : ddict V :=
    match d with
    | [] => [(ip, v)]
    | e :: d => if ipeqb ip (fst e) then (fst e, v) :: d else e :: dset ip v d
    end.
  (** [d[ip].append(v)] *)
  Definition dappend {V} (d : ddict V) (e : IP * V) : ddict V := dset (fst e) (dget (fst e) d ++ [snd e]) d.

  Definition divup (n k : nat) : nat := n / k + (if n mod k =? 0 then 0 else 1).

  (** xgboost_ray.py [_assign_row_partitions_to_actors] 385-414: the actors [ranks] on one node, whose
      partitions are [avail]; [acc] holds what every actor has, [r] is [num_actors_with_max_parts]. *)
  Fixpoint fill_node (mn mx : nat) (ranks : list nat) (avail : list (P * nat)) (r : nat)
      (acc : list (list (P * nat))) : list (P * nat) * nat * list (list (P * nat)) :=
    match ranks with
    | [] => (avail, r, acc)
    | rank :: ranks =>
        let n := length avail in
        if n =? 0 then (avail, r, acc)
        else
          let give k r := fill_node mn mx ranks (skipn k avail) r
                            (upd rank (nth rank acc [] ++ firstn k avail) acc) in
          if mn <=? n then
            if (mx <=? n) && (0 <? r) then give mx (r - 1) else give mn r
          else give n r
    end.
  (** 383-414 *)
  Fixpoint fill_nodes (mn mx : nat) (nodes : ddict nat) (dist : ddict (P * nat)) (r : nat)
      (acc : list (list (P * nat))) : ddict (P * nat) * nat * list (list (P * nat)) :=
    match nodes with
    | [] => (dist, r, acc)
    | (ip, ranks) :: nodes =>
        let '(avail, r, acc) := fill_node mn mx ranks (dget ip dist) r acc in
        fill_nodes mn mx nodes (dset ip avail dist) r acc
    end.
  (** 427-443: the actors in order of rank take from what is left *)
  Fixpoint fill_rest (mn mx : nat) (acc : list (list (P * nat))) (avail : list (P * nat)) (r : nat)
      : list (list (P * nat)) * list (P * nat) :=
    match acc with
    | [] => ([], avail)
    | c :: acc =>
        let n := length c in
        if (n =? mx) || ((n =? mn) && (r =? 0)) then
          let '(acc, avail) := fill_rest mn mx acc avail r in (c :: acc, avail)
        else
          let k := (if 0 <? r then mx else mn) - n in
          let r := if 0 <? r then r - 1 else r in
          let '(acc, rest) := fill_rest mn mx acc (skipn k avail) r in ((c ++ firstn k avail) :: acc, rest)
    end.

  (** xgboost_ray.py [_assign_row_partitions_to_actors] 361-453: [actors] by rank with their node; the
      partitions and positions of every actor.  [zip] of nothing cannot be unpacked: ValueError. *)
  Definition assign_row_partitions (actors : list IP) (parts : list (IP * P)) : res (list (list P * list nat)) :=
    match parts with
    | [] => Err ValueError
    | _ =>
      let nodes := fold_left dappend (combine actors (seq 0 (length actors))) [] in
      let dist := fold_left dappend (map (fun e => (fst (fst e), (snd (fst e), snd e))) (combine parts (seq 0 (length parts)))) [] in
      let n := length parts in
      let k := length actors in
      if k =? 0 then Err ZeroDivisionError else
      let mn := n / k in
      let mx := divup n k in
      let '(dist, r, acc) := fill_nodes mn mx nodes dist (n mod k) (repeat [] k) in
      let avail := concat (map snd dist) in
      let '(acc, avail) := fill_rest mn mx acc avail r in
      if negb (length avail =? 0) then Err RuntimeError
      else rmap (fun pairs => match pairs with
                              | [] => Err ValueError
                              | _ => Ok (map fst pairs, map snd pairs)
                              end) acc
    end.

  (** 455-460: the labels follow the order of the features *)
  Definition align (order : list (list P * list nat)) (parts : list Q) : res (list (list Q)) :=
    rmap (fun o => rmap (fun i => match nth_error parts i with Some p => Ok p | None => Err IndexError end) (snd o)) order.

  (** [create_actors] 257-294: the nodes of the actors, by rank *)
  Definition create_actors (nodes : list IP) (num_actors : nat) : list IP :=
    flat_map (fun ip => repeat ip (Nat.max (num_actors / length nodes) 1)) nodes.
End XgbModel.

Section Train.
  Context {IP R S : Type}.
  Variable ipeqb : IP -> IP -> bool.
  (** a set of features and labels: row partitions, the first with their node (DMatrix: xgboost.py 60-120,
      [unwrap_partitions(axis=0)]) *)
  Definition dmatrix := (list (IP * list R) * list (list S))%type.

  (** xgboost_ray.py [_split_data_across_actors] 297-329 and the actor's [_get_dmatrix] 64-94: every
      actor joins its partitions; XGBoost refuses features and labels of different lengths. *)
  Definition split_data (actors : list IP) (m : dmatrix) : res (list (list R * list S)) :=
    do xs <- assign_row_partitions ipeqb actors (fst m);
    do ys <- align xs (snd m);
    rmap (fun p => let '(x, y) := p in
                   if length (concat (fst x)) =? length (concat y) then Ok (concat (fst x), concat y)
                   else Err ValueError)
         (combine xs ys).

  (** [_train] 508-559 with [set_train_data] 96-115 and [add_eval_data] 117-131: the training data of
      every actor, the evaluation sets of the actors in the order the actors keep them (name, data of every
      actor), and the caller's list afterwards.  [evals]: name and data, [None] for the training set
      itself ([eval_data is dtrain]).  [requested]: what [_get_num_actors] 229-254 returns.
      Simplified: the actors exist and run their calls in order; DMatrix parameters are left out. *)
  Definition train_data {N} (nodes : list IP) (requested : nat) (train : dmatrix) (evals : list (N * option dmatrix))
    : res (list (list R * list S) * list (N * list (list R * list S)) * list (N * option dmatrix)) :=
    if negb (length (fst train) =? length (snd train)) then Err AssertionError
    else
      let size e := length (fst (match snd e with Some m => m | None => train end)) in
      let num_actors := fold_left (fun n e => if size e <? n then size e else n) evals
                          (if length (fst train) <? requested then length (fst train) else requested) in
      let actors := create_actors nodes num_actors in
      let add_as_eval := fold_left (fun found (e : N * option dmatrix) => match snd e with None => Some (fst e) | Some _ => found end) evals None in
      let kept := filter (fun e : N * option dmatrix => match snd e with None => false | Some _ => true end) evals in
      do es <- rmap (fun e => match snd e with
                              | Some m => do d <- split_data actors m; Ok (fst e, d)
                              | None => Err InternalBug
                              end) kept;
      do t <- split_data actors train;
      Ok (t, es ++ match add_as_eval with Some name => [(name, t)] | None => [] end, kept).
End Train.
