(** * graphlib.TopologicalSorter (CPython standard library), as used by
    graph_manager.py:170-171, 180, 184, 236 *)

From Verif.Model Require Import Base.

(** [_NodeInfo]: number of predecessors not yet done (-1 once handed out, -2 once
    done) and successors.  [so_order] is the insertion order of [_node2info]. *)
Record sorter := Sorter {
  so_info : gmap bytes (Z * list bytes);
  so_order : list bytes;
  so_ready : list bytes;
  so_passed : Z;
  so_finished : Z }.

Definition so_empty : sorter := Sorter ∅ [] [] 0 0.

(** [_get_nodeinfo]: create on first use. *)
Definition so_touch (s : sorter) (n : bytes) : sorter :=
  match so_info s !! n with
  | Some _ => s
  | None => Sorter (<[n := (0, [])]> (so_info s)) (so_order s ++ [n]) (so_ready s) (so_passed s) (so_finished s)
  end.

Definition so_alter (f : Z * list bytes → Z * list bytes) (n : bytes) (s : sorter) : sorter :=
  Sorter (alter f n (so_info s)) (so_order s) (so_ready s) (so_passed s) (so_finished s).

(** [add(node, *predecessors)]. *)
Definition so_add (s : sorter) (n : bytes) (preds : list bytes) : sorter :=
  let s := so_alter (λ p, (p.1 + Z.of_nat (length preds), p.2)) n (so_touch s n) in
  foldl (λ s p, so_alter (λ i, (i.1, i.2 ++ [n])) p (so_touch s p)) s preds.

(** [TopologicalSorter(graph)] for a dictionary given by its items. *)
Definition so_of_graph (g : list (bytes * list bytes)) : sorter :=
  foldl (λ s p, so_add s p.1 p.2) so_empty g.

(** [_find_cycle], replaced by an equivalent test: repeatedly drop the nodes all of
    whose predecessors have been dropped; there is a cycle iff some node is never
    dropped.  [length order] rounds suffice. *)
Fixpoint eliminate (rounds : nat) (g : list (bytes * list bytes)) (gone : gset bytes) (order : list bytes) : list bytes :=
  match rounds with
  | O => order
  | S r =>
      let blocked n := existsb (λ p, String.eqb p.1 n && existsb (λ q, negb (bool_decide (q ∈ gone))) p.2) g in
      let stay := List.filter blocked order in
      let go := List.filter (λ n, negb (blocked n)) order in
      eliminate r g (gone ∪ list_to_set go) stay
  end.
Definition has_cycle (g : list (bytes * list bytes)) (order : list bytes) : bool :=
  match eliminate (length order) g ∅ order with [] => false | _ => true end.

(** [prepare()]. *)
Definition so_prepare (g : list (bytes * list bytes)) (s : sorter) : res sorter :=
  let ready := List.filter (λ n, match so_info s !! n with Some (0, _) => true | _ => false end) (so_order s) in
  if has_cycle g (so_order s) then Raise CycleError
  else Ok (Sorter (so_info s) (so_order s) ready (so_passed s) (so_finished s)).

(** [is_active()]. *)
Definition so_is_active (s : sorter) : bool :=
  (so_finished s <? so_passed s) || match so_ready s with [] => false | _ => true end.

(** [get_ready()]. *)
Definition so_get_ready (s : sorter) : sorter * list bytes :=
  (Sorter (foldr (λ n m, alter (λ i, (-1, i.2)) n m) (so_info s) (so_ready s)) (so_order s) []
          (so_passed s + Z.of_nat (length (so_ready s))) (so_finished s),
   so_ready s).

(** One successor in [done]: decrement, append when it reaches zero. *)
Definition so_release (s : sorter) (n : bytes) : sorter :=
  match so_info s !! n with
  | None => s
  | Some (k, succ) =>
      Sorter (<[n := (k - 1, succ)]> (so_info s)) (so_order s)
             (if k - 1 =? 0 then so_ready s ++ [n] else so_ready s) (so_passed s) (so_finished s)
  end.

(** [done(node)]. *)
Definition so_done (s : sorter) (n : bytes) : res sorter :=
  match so_info s !! n with
  | None => Raise ValueError
  | Some (k, succ) =>
      if k =? -1 then
        let s := so_alter (λ i, (-2, i.2)) n s in
        let s := foldl so_release s succ in
        Ok (Sorter (so_info s) (so_order s) (so_ready s) (so_passed s) (so_finished s + 1))
      else Raise ValueError
  end.
