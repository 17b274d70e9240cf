(** What the graph is for a user: a set of nodes and the list of live
    connections in the order they were made.  Nothing here mentions linked
    lists, hash maps' iteration or pointers. *)
From stdpp Require Import gmap list.
From Verif Require Import Base Graph.

(** One connection: its identity, source, destination and data *)
Record conn (ED : Type) := Conn {
  c_id : id;
  c_from : id;
  c_to : id;
  c_data : ED;
}.
Arguments Conn {ED}.
Arguments c_id {ED}.
Arguments c_from {ED}.
Arguments c_to {ED}.
Arguments c_data {ED}.

(** Abstract graph; [s_conns] is in order of creation *)
Record sgraph (ND ED : Type) := SGraph {
  s_nodes : gmap id ND;
  s_conns : list (conn ED);
}.
Arguments SGraph {ND ED}.
Arguments s_nodes {ND ED}.
Arguments s_conns {ND ED}.

Section spec.
Context {ND ED : Type}.
Implicit Types (s : sgraph ND ED) (c : conn ED).

Definition sempty : sgraph ND ED := SGraph ∅ [].

(** the end of a connection a direction looks from, and the opposite end *)
Definition near (d : direction) c : id :=
  match d with Outgoing => c_from c | Incoming => c_to c end.
Definition far (d : direction) c : id :=
  match d with Outgoing => c_to c | Incoming => c_from c end.

(** the connections leaving (entering) a node, in order of creation *)
Definition conns_of s (n : id) (d : direction) : list (conn ED) :=
  filter (λ c, near d c = n) (s_conns s).

Definition touches (n : id) c : Prop := c_from c = n ∨ c_to c = n.

(** Abstract meaning of each operation; [Panic AssertFailed] is an abort *)
Inductive sstep : sgraph ND ED → gop ND ED → res (sgraph ND ED) → Prop :=
| s_add_node s n x :
    s_nodes s !! n = None →
    sstep s (AddNode n x) (Ok (SGraph (<[n := x]> (s_nodes s)) (s_conns s)))
| s_add_node_again s n x :
    is_Some (s_nodes s !! n) →
    sstep s (AddNode n x) (Panic AssertFailed)
| s_remove_absent_node s n :
    s_nodes s !! n = None →
    sstep s (RemoveNode n) (Ok s)
| s_remove_node s n :
    is_Some (s_nodes s !! n) →
    (∀ c, c ∈ s_conns s → ¬ touches n c) →
    sstep s (RemoveNode n) (Ok (SGraph (delete n (s_nodes s)) (s_conns s)))
| s_remove_connected_node s n c :
    is_Some (s_nodes s !! n) →
    c ∈ s_conns s → touches n c →
    sstep s (RemoveNode n) (Panic AssertFailed)
| s_connect s eid a b x :
    is_Some (s_nodes s !! a) → is_Some (s_nodes s !! b) →
    sstep s (AddEdge eid a b x) (Ok (SGraph (s_nodes s) (s_conns s ++ [Conn eid a b x])))
| s_connect_missing s eid a b x :
    s_nodes s !! a = None ∨ s_nodes s !! b = None →
    sstep s (AddEdge eid a b x) (Panic AssertFailed)
| s_disconnect_nothing s a b :
    (∀ c, c ∈ s_conns s → ¬ (c_from c = a ∧ c_to c = b)) →
    sstep s (RemoveEdge a b) (Ok s)
| s_disconnect s a b c before after :
    s_conns s = before ++ c :: after →
    c_from c = a → c_to c = b →
    sstep s (RemoveEdge a b) (Ok (SGraph (s_nodes s) (before ++ after))).

(** Abstract histories; stops at the first abort *)
Inductive srun : sgraph ND ED → list (gop ND ED) → res (sgraph ND ED) → Prop :=
| srun_done s : srun s [] (Ok s)
| srun_abort s o os p : sstep s o (Panic p) → srun s (o :: os) (Panic p)
| srun_step s o os s' r : sstep s o (Ok s') → srun s' os r → srun s (o :: os) r.

(** Ids handed out for connections along a history: Id::generate never
    returns the same id twice (src/commands/id.rs l.9-14). *)
Definition op_edge_ids (o : gop ND ED) : list id :=
  match o with AddEdge eid _ _ _ => [eid] | _ => [] end.
Definition edge_ids (os : list (gop ND ED)) : list id := os ≫= op_edge_ids.

(** Everything that can be observed of a graph agrees with the abstract one *)
Record observes (g : graph ND ED) s : Prop := {
  obs_node n : get_node g n = s_nodes s !! n;
  obs_node_count : node_count g = size (s_nodes s);
  obs_node_ids : all_node_ids g ≡ₚ (map_to_list (s_nodes s)).*1;
  obs_edge_iter n d : edge_iterator g n d = Ok (c_id <$> conns_of s n d);
  obs_node_iter n d : node_iter g n d = Ok (far d <$> conns_of s n d);
  obs_count n d : connection_count g n d = Ok (length (conns_of s n d));
  obs_connected a b :
    ∃ t, is_connected_to g a b = Ok t ∧
         (t = true ↔ ∃ c, c ∈ s_conns s ∧ c_from c = a ∧ c_to c = b);
  obs_edge e a b x :
    (∃ ed, get_edge g e = Some ed ∧ from_node_id ed = a ∧ to_node_id ed = b ∧
           edge_data ed = x)
    ↔ Conn e a b x ∈ s_conns s;
}.

(** a hash-map iteration order may be any permutation of the keys, different
    at every iteration *)
Definition any_order (shuffle : oracle) : Prop := ∀ k l, shuffle k l ≡ₚ l.

(** an operation that the interface does not allow in this state, in terms of
    what can be queried *)
Definition illegal (g : graph ND ED) (o : gop ND ED) : Prop :=
  match o with
  | AddNode n _ => is_Some (get_node g n)
  | AddEdge _ a b _ => get_node g a = None ∨ get_node g b = None
  | RemoveNode n =>
      is_Some (get_node g n) ∧
      ∃ d k, connection_count g n d = Ok k ∧ 0 < k
  | RemoveEdge _ _ => False
  end.

(** two results agree: both abort for the same reason or both are graphs in
    the given relation *)
Definition res_agree {A B} (R : A → B → Prop) (ra : res A) (rb : res B) : Prop :=
  match ra, rb with
  | Ok a, Ok b => R a b
  | Panic p, Panic q => p = q
  | _, _ => False
  end.

End spec.
