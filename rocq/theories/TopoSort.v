(** Model of src/realtime/topological_sort.rs *)
From stdpp Require Import gmap list.
From Verif Require Import Base Graph.

Section sort.
Context {ND ED : Type}.
Implicit Types (g : graph ND ED).

(** topological_sort.rs l.29-32: fill [dependency_count], iterating over the
    hash map of nodes in the order [ids] *)
Definition init_counts g (ids : list id) : res (gmap id nat) :=
  rfold (λ dc n, let? c := connection_count g n Incoming in Ok (<[n := c]> dc)) ids ∅.

(** topological_sort.rs l.52-57: first key with count 0 in the map's iteration
    order [order] *)
Definition node_without_dependencies (order : list id) (dc : gmap id nat) : option id :=
  find (λ n, match dc !! n with Some c => Nat.eqb c 0 | None => false end) order.

(** topological_sort.rs l.39-43: body of the inner loop for one node.  The
    count is decremented once, however many connections join the two nodes. *)
Definition decrement g (next : id) (dc : gmap id nat) (n : id) : res (gmap id nat) :=
  let? conn := is_connected_to g next n in
  if conn then
    let? v := runwrap (dc !! n) UnwrapNone in
    rassert (Nat.ltb 0 v) AssertFailed (Ok (<[n := v - 1]> dc))
  else Ok dc.

(** topological_sort.rs l.34-45.  Iteration [k] of the while loop performs the
    hash-map iterations numbered 2k+1 (find) and 2k+2 (for). *)
Fixpoint sort_loop (fuel : nat) (shuffle : oracle) (k : nat) g
    (dc : gmap id nat) (order : list id) : res (list id) :=
  match fuel with
  | O => Panic OutOfFuel
  | S fuel =>
      match node_without_dependencies (shuffle (2 * k + 1) (elements (dom dc))) dc with
      | None => Ok order
      | Some next =>
          let? dc' := rfold (decrement g next) (shuffle (2 * k + 2) (all_node_ids g))
                        (delete next dc) in
          sort_loop fuel shuffle (S k) g dc' (order ++ [next])
      end
  end.

(** topological_sort.rs l.24-50 *)
Definition sort (shuffle : oracle) g : res (list id) :=
  let? dc := init_counts g (shuffle 0 (all_node_ids g)) in
  let? order := sort_loop (S (node_count g)) shuffle 0 g dc [] in
  rassert (Nat.eqb (length order) (node_count g)) CycleDetected (Ok order).

End sort.
