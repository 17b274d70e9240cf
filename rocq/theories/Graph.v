(** Model of src/realtime/graph.rs, node.rs and edge.rs: a directed multigraph
    stored as two hash maps whose edges form two intrusive linked lists. *)
From stdpp Require Import gmap list.
From Verif Require Import Base.

(** src/commands/id.rs l.1-15: ids are a [usize] taken from a global atomic
    counter.  Modelled as [nat]; freshness is a hypothesis on histories. *)
Definition id := nat.

(** src/realtime/graph.rs l.11-14 *)
Inductive direction := Outgoing | Incoming.

(** src/realtime/node.rs l.3-7 *)
Record node (ND : Type) := Node {
  node_data : ND;
  outgoing : option id;
  incoming : option id;
}.
Arguments Node {ND}.
Arguments node_data {ND}.
Arguments outgoing {ND}.
Arguments incoming {ND}.

(** src/realtime/edge.rs l.3-9 *)
Record edge (ED : Type) := Edge {
  from_node_id : id;
  to_node_id : id;
  edge_data : ED;
  next_out : option id;
  next_in : option id;
}.
Arguments Edge {ED}.
Arguments from_node_id {ED}.
Arguments to_node_id {ED}.
Arguments edge_data {ED}.
Arguments next_out {ED}.
Arguments next_in {ED}.

(** src/realtime/graph.rs l.16-19 *)
Record graph (ND ED : Type) := Graph {
  nodes : gmap id (node ND);
  edges : gmap id (edge ED);
}.
Arguments Graph {ND ED}.
Arguments nodes {ND ED}.
Arguments edges {ND ED}.

Section graph.
Context {ND ED : Type}.
Implicit Types (g : graph ND ED).

(** graph.rs l.22-27: capacity is irrelevant *)
Definition empty_graph : graph ND ED := Graph ∅ ∅.

(** graph.rs l.236-239: first edge of a node in a direction *)
Definition node_first (d : direction) (n : node ND) : option id :=
  match d with Outgoing => outgoing n | Incoming => incoming n end.

(** graph.rs l.231-234: next edge in a direction *)
Definition edge_after (d : direction) (e : edge ED) : option id :=
  match d with Outgoing => next_out e | Incoming => next_in e end.

(** graph.rs l.306-309: the node at the far end *)
Definition far_end (d : direction) (e : edge ED) : id :=
  match d with Outgoing => to_node_id e | Incoming => from_node_id e end.

(** graph.rs l.218-245 EdgeIterator::next.  The iterator's only mutable state
    is [edge_id], which becomes the returned value. *)
Definition edge_next g (n : id) (cur : option id) (d : direction) : option id :=
  match nodes g !! n with
  | None => None
  | Some nd =>
      match cur with
      | Some e =>
          match edges g !! e with
          | Some ed => edge_after d ed
          | None => None
          end
      | None => node_first d nd
      end
  end.

(** Draining an EdgeIterator (`for`, `last`, ...): calls next until None.
    A cyclic list would loop forever: [OutOfFuel]. *)
Fixpoint edge_walk (fuel : nat) g (n : id) (cur : option id) (d : direction)
  : res (list id) :=
  match fuel with
  | O => Panic OutOfFuel
  | S fuel =>
      match edge_next g n cur d with
      | None => Ok []
      | Some e => let? rest := edge_walk fuel g n (Some e) d in Ok (e :: rest)
      end
  end.

(** An acyclic list visits at most [size edges] edges plus one dangling id. *)
Definition walk_fuel g : nat := S (S (size (edges g))).

(** graph.rs l.120-126 edge_iterator, fully drained *)
Definition edge_iterator g (n : id) (d : direction) : res (list id) :=
  edge_walk (walk_fuel g) g n None d.

(** graph.rs l.294-317 NodeIterator::next; returns the new [edge_id] and the
    yielded node *)
Definition node_next g (n : id) (cur : option id) (d : direction)
  : option id * option id :=
  let e := edge_next g n cur d in
  (e, match e with
      | Some e =>
          match edges g !! e with
          | Some ed => Some (far_end d ed)
          | None => None
          end
      | None => None
      end).

Fixpoint node_walk (fuel : nat) g (n : id) (cur : option id) (d : direction)
  : res (list id) :=
  match fuel with
  | O => Panic OutOfFuel
  | S fuel =>
      match node_next g n cur d with
      | (_, None) => Ok []
      | (cur', Some m) => let? rest := node_walk fuel g n cur' d in Ok (m :: rest)
      end
  end.

(** graph.rs l.116-118 node_iter, fully drained *)
Definition node_iter g (n : id) (d : direction) : res (list id) :=
  node_walk (walk_fuel g) g n None d.

(** graph.rs l.29-31 *)
Definition get_last_connected_edge_id g (n : id) (d : direction) : res (option id) :=
  let? l := edge_iterator g n d in Ok (last l).

(** graph.rs l.132-134 *)
Definition connection_count g (n : id) (d : direction) : res nat :=
  let? l := node_iter g n d in Ok (length l).

(** graph.rs l.111-114.  [any] stops at the first match; draining the iterator
    instead makes no difference when the walk terminates. *)
Definition is_connected_to g (a b : id) : res bool :=
  let? l := node_iter g a Outgoing in Ok (existsb (Nat.eqb b) l).

(** graph.rs l.136-138; a HashMap iteration: the order is given by the
    caller's shuffle, see [shuffled] *)
Definition all_node_ids g : list id := elements (dom (nodes g)).

(** graph.rs l.140-142 *)
Definition node_count g : nat := size (nodes g).

(** graph.rs l.128-130 *)
Definition get_edge g (e : id) : option (edge ED) := edges g !! e.

(** graph.rs l.102-104: read access; [set_node_data] writes through the &mut *)
Definition get_node g (n : id) : option ND := node_data <$> nodes g !! n.
Definition set_node_data g (n : id) (x : ND) : graph ND ED :=
  Graph (alter (λ nd, Node x (outgoing nd) (incoming nd)) n (nodes g)) (edges g).

(** graph.rs l.42, 47, 55, 60 *)
Definition set_next_out (x : option id) (e : edge ED) : edge ED :=
  Edge (from_node_id e) (to_node_id e) (edge_data e) x (next_in e).
Definition set_next_in (x : option id) (e : edge ED) : edge ED :=
  Edge (from_node_id e) (to_node_id e) (edge_data e) (next_out e) x.
Definition set_outgoing (x : option id) (n : node ND) : node ND :=
  Node (node_data n) x (incoming n).
Definition set_incoming (x : option id) (n : node ND) : node ND :=
  Node (node_data n) (outgoing n) x.

(** graph.rs l.39-50 *)
Definition link_out g (a eid : id) : res (graph ND ED) :=
  let? l := get_last_connected_edge_id g a Outgoing in
  Ok match l with
     | Some last => Graph (nodes g) (alter (set_next_out (Some eid)) last (edges g))
     | None => Graph (alter (set_outgoing (Some eid)) a (nodes g)) (edges g)
     end.

(** graph.rs l.52-63 *)
Definition link_in g (b eid : id) : res (graph ND ED) :=
  let? l := get_last_connected_edge_id g b Incoming in
  Ok match l with
     | Some last => Graph (nodes g) (alter (set_next_in (Some eid)) last (edges g))
     | None => Graph (alter (set_incoming (Some eid)) b (nodes g)) (edges g)
     end.

(** graph.rs l.33-68; [eid] is the result of Id::generate() on l.37 *)
Definition add_edge g (eid a b : id) (x : ED) : res (graph ND ED) :=
  rassert (bool_decide (is_Some (nodes g !! a))) AssertFailed (
  rassert (bool_decide (is_Some (nodes g !! b))) AssertFailed (
  let? g1 := link_out g a eid in
  let? g2 := link_in g1 b eid in
  Ok (Graph (nodes g2) (<[eid := Edge a b x None None]> (edges g2))))).

(** graph.rs l.70-75.  [order] is the hash map's iteration order, a
    permutation of the edge ids. *)
Definition edge_matches g (a b : id) (e : id) : bool :=
  match edges g !! e with
  | Some ed => Nat.eqb (from_node_id ed) a && Nat.eqb (to_node_id ed) b
  | None => false
  end.
Definition find_edge_between_nodes g (order : list id) (a b : id) : option id :=
  find (edge_matches g a b) order.

(** graph.rs l.145-205 *)
Definition replace_ptr (old : id) (new p : option id) : option id :=
  match p with
  | Some q => if Nat.eqb q old then new else p
  | None => None
  end.
Definition replace_edge_connections g (d : direction) (old : id) (new : option id) :=
  Graph (nodes g)
    ((λ e, match d with
           | Outgoing => set_next_out (replace_ptr old new (next_out e)) e
           | Incoming => set_next_in (replace_ptr old new (next_in e)) e
           end) <$> edges g).
Definition replace_node_connections g (d : direction) (old : id) (new : option id) :=
  Graph ((λ n, match d with
               | Outgoing => set_outgoing (replace_ptr old new (outgoing n)) n
               | Incoming => set_incoming (replace_ptr old new (incoming n)) n
               end) <$> nodes g)
    (edges g).
Definition replace_connections g (d : direction) (old : id) (new : option id) :=
  replace_node_connections (replace_edge_connections g d old new) d old new.

(** graph.rs l.77-90 *)
Definition remove_edge g (order : list id) (a b : id) : graph ND ED * option ED :=
  match find_edge_between_nodes g order a b with
  | Some eid =>
      match edges g !! eid with
      | Some ed =>
          let g1 := Graph (nodes g) (delete eid (edges g)) in
          let g2 := replace_connections g1 Outgoing eid (next_out ed) in
          let g3 := replace_connections g2 Incoming eid (next_in ed) in
          (g3, Some (edge_data ed))
      | None => (g, None)
      end
  | None => (g, None)
  end.

(** graph.rs l.92-100 *)
Definition remove_node g (n : id) : res (graph ND ED * option ND) :=
  match nodes g !! n with
  | Some nd =>
      rassert (match incoming nd with None => true | _ => false end) AssertFailed (
      rassert (match outgoing nd with None => true | _ => false end) AssertFailed (
      Ok (Graph (delete n (nodes g)) (edges g), Some (node_data nd))))
  | None => Ok (g, None)
  end.

(** graph.rs l.106-109 *)
Definition add_node_with_id g (n : id) (x : ND) : res (graph ND ED) :=
  rassert (bool_decide (nodes g !! n = None)) AssertFailed (
  Ok (Graph (<[n := Node x None None]> (nodes g)) (edges g))).

(** The operations of the public interface.  [AddEdge] carries the id that
    Id::generate returns. *)
Inductive gop :=
| AddNode (n : id) (x : ND)
| RemoveNode (n : id)
| AddEdge (eid a b : id) (x : ED)
| RemoveEdge (a b : id).

(** Iteration order of a hash map with the given keys, at iteration [k] *)
Definition oracle := nat -> list id -> list id.

Definition gstep (shuffle : oracle) (k : nat) g (o : gop) : res (graph ND ED) :=
  match o with
  | AddNode n x => add_node_with_id g n x
  | RemoveNode n => let? r := remove_node g n in Ok (fst r)
  | AddEdge eid a b x => add_edge g eid a b x
  | RemoveEdge a b => Ok (fst (remove_edge g (shuffle k (elements (dom (edges g)))) a b))
  end.

(** A history of operations from a state; [k] numbers the operations *)
Fixpoint grun (shuffle : oracle) (k : nat) g (os : list gop) : res (graph ND ED) :=
  match os with
  | [] => Ok g
  | o :: os => let? g' := gstep shuffle k g o in grun shuffle (S k) g' os
  end.

End graph.
Arguments gop : clear implicits.
