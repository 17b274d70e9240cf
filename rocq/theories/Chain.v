(** The macro connect_nodes!, /repo/src/graph/connect_nodes.rs. *)
From stdpp Require Import gmap list strings.
From Coq Require Import ZArith.
From Verif Require Import Base Graph Buffer DspGraph Float Timestamp Processor AudioParam Node.

(** what is written between the arrows: "input", a node (its id and output_count,
    graph_node.rs l.5-9), "output" *)
Inductive element := EIn | ENode (n : id) (outputs : nat) | EOut.

(** The three rules, l.11-22.  [eids] are the ids that the connections will get
    (dsp_graph.rs l.126-134); None: no rule applies or the expansion does not compile
    ("input" => "output", or "output" inside). connect_to is graph_node.rs l.69-76. *)
Fixpoint connect_nodes {V A P} (l : list element) (eids : list id) : option (list (nop V A P)) :=
  match l with
  | [EIn; ENode d _] => Some [NInput d]
  | EIn :: (ENode d _ :: _) as rest => (λ r, NInput d :: r) <$> connect_nodes rest eids
  | [ENode s _; EOut] => Some [NOutput s]
  | ENode s o :: (ENode d _ :: more) as rest =>
      match eids with
      | [] => None
      | eid :: eids =>
          let c := NConnect eid s d (Connection 0 0 o) in
          match more with
          | [] => Some [c]
          | _ => (λ r, c :: r) <$> connect_nodes rest eids
          end
      end
  | _ => None
  end.
