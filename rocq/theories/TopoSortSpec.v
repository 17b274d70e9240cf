(** What a processing order is, and which connection sets have one. *)
From stdpp Require Import gmap list relations.
From Verif Require Import Base Graph GraphSpec.

Section spec.
Context {ND ED : Type}.
Implicit Types (s : sgraph ND ED).

Definition feeds s (a b : id) : Prop :=
  ∃ c, c ∈ s_conns s ∧ c_from c = a ∧ c_to c = b.

(** no path of one or more connections leads from a node back to itself *)
Definition acyclic s : Prop := ∀ n, ¬ tc (feeds s) n n.

(** no two connections join the same ordered pair *)
Definition no_parallel s : Prop :=
  NoDup ((λ c, (c_from c, c_to c)) <$> s_conns s).

(** every node once, and the source of every connection before its destination *)
Definition is_processing_order s (order : list id) : Prop :=
  order ≡ₚ (map_to_list (s_nodes s)).*1 ∧
  ∀ c, c ∈ s_conns s →
    ∃ l1 l2 l3, order = l1 ++ c_from c :: l2 ++ c_to c :: l3.

(** both ends of every connection are present *)
Definition conns_closed s : Prop :=
  ∀ c, c ∈ s_conns s → is_Some (s_nodes s !! c_from c) ∧ is_Some (s_nodes s !! c_to c).

End spec.
