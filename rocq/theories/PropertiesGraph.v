(** Property theorems about the connection graph and the processing order. *)
From stdpp Require Import gmap list.
From Verif Require Import Base Graph GraphSpec GraphProofs TopoSort TopoSortSpec TopoSortProofs.

(** C01: after any history, every query of the graph agrees with the list of
    live connections in the order they were made (or both abort). *)
Theorem C01_connections_in_order {ND ED} (shuffle : oracle) (ops : list (gop ND ED)) :
  any_order shuffle → NoDup (edge_ids ops) →
  ∃ r, srun sempty ops r ∧ res_agree observes (grun shuffle 0 empty_graph ops) r.
Proof. exact (history_refines shuffle ops). Qed.
Print Assumptions C01_connections_in_order.

(** C02: disconnecting removes exactly one connection of the pair. *)
Theorem C02_disconnect_exactly_one {ND ED} (shuffle : oracle) (ops : list (gop ND ED)) g order a b :
  any_order shuffle → NoDup (edge_ids ops) →
  grun shuffle 0 empty_graph ops = Ok g →
  order ≡ₚ elements (dom (edges g)) →
  ∃ s, srun sempty ops (Ok s) ∧ observes g s ∧
   ((∃ before c after, s_conns s = before ++ c :: after ∧ c_from c = a ∧ c_to c = b ∧
      observes (fst (remove_edge g order a b)) (SGraph (s_nodes s) (before ++ after)) ∧
      snd (remove_edge g order a b) = Some (c_data c)) ∨
    ((∀ c, c ∈ s_conns s → ¬ (c_from c = a ∧ c_to c = b)) ∧
     remove_edge g order a b = (g, None))).
Proof. exact (disconnect_exactly_one shuffle ops g order a b). Qed.
Print Assumptions C02_disconnect_exactly_one.

(** C02: disconnecting a fresh connection restores the very same graph. *)
Theorem C02_disconnect_undoes_connect {ND ED} (shuffle : oracle) (ops : list (gop ND ED))
    g eid a b x g' order :
  any_order shuffle → NoDup (edge_ids ops) →
  grun shuffle 0 empty_graph ops = Ok g →
  eid ∉ edge_ids ops →
  is_connected_to g a b = Ok false →
  add_edge g eid a b x = Ok g' →
  order ≡ₚ elements (dom (edges g')) →
  remove_edge g' order a b = (g, Some x).
Proof. exact (disconnect_undoes_connect shuffle ops g eid a b x g' order). Qed.
Print Assumptions C02_disconnect_undoes_connect.

(** C03: an operation aborts exactly when it is illegal. *)
Theorem C03_abort_iff_illegal {ND ED} (shuffle : oracle) (ops : list (gop ND ED)) g k o p :
  any_order shuffle → NoDup (edge_ids (ops ++ [o])) →
  grun shuffle 0 empty_graph ops = Ok g →
  gstep shuffle k g o = Panic p ↔ p = AssertFailed ∧ illegal g o.
Proof. exact (abort_iff_illegal shuffle ops g k o p). Qed.
Print Assumptions C03_abort_iff_illegal.

(** C04, C05: which graphs can be ordered, that the order is a processing order
    whatever the hash orders (a different one, [shuffle'], for the sort than for
    the history), and that the only failure is the cycle assertion. *)
Theorem C04_C05_processing_order {ND ED} (shuffle : oracle) (ops : list (gop ND ED)) g :
  any_order shuffle → NoDup (edge_ids ops) →
  grun shuffle 0 empty_graph ops = Ok g →
  ∃ s, srun sempty ops (Ok s) ∧ observes g s ∧
    ∀ shuffle', any_order shuffle' →
      (acyclic s ∧ no_parallel s →
         ∃ order, sort shuffle' g = Ok order ∧ is_processing_order s order) ∧
      (¬ (acyclic s ∧ no_parallel s) → sort shuffle' g = Panic CycleDetected) ∧
      (∀ order, sort shuffle' g = Ok order →
         is_processing_order s order ∧ acyclic s ∧ no_parallel s) ∧
      (∀ p, sort shuffle' g = Panic p → p = CycleDetected).
Proof. exact (sort_history shuffle ops g). Qed.
Print Assumptions C04_C05_processing_order.

(** C06 is violated: an acyclic graph with two connections between the same two
    nodes always fails with the cycle assertion. *)
Theorem C06_acyclic_is_processed_refuted :
  ∃ ops : list (gop nat nat), NoDup (edge_ids ops) ∧
  ∃ g s, grun id_order 0 empty_graph ops = Ok g ∧ srun sempty ops (Ok s) ∧
    observes g s ∧ acyclic s ∧
    ∀ shuffle, any_order shuffle → sort shuffle g = Panic CycleDetected.
Proof. exact parallel_refutes. Qed.
Print Assumptions C06_acyclic_is_processed_refuted.

(** ** The hypotheses are met by concrete histories *)

(** a diamond 0 -> {1, 2} -> 3, with one connection removed and made again *)
Definition diamond_ops : list (gop nat nat) :=
  [AddNode 0 100; AddNode 1 101; AddNode 2 102; AddNode 3 103;
   AddEdge 10 0 1 7; AddEdge 11 0 2 8; AddEdge 12 1 3 9; AddEdge 13 2 3 6;
   RemoveEdge 0 1; AddEdge 14 0 1 5; AddNode 4 104; RemoveNode 4].

Example diamond_history_ok :
  any_order rev_order ∧ NoDup (edge_ids diamond_ops) ∧
  match grun rev_order 0 empty_graph diamond_ops with
  | Ok g => edge_iterator g 0 Outgoing = Ok [11; 14] ∧ sort rev_order g = Ok [0; 2; 1; 3]
            ∧ sort id_order g = Ok [0; 1; 2; 3]
  | Panic _ => False
  end.
Proof.
  split; [apply rev_order_any|]. split; [apply (bool_decide_unpack _); by vm_compute|].
  vm_compute. repeat split.
Qed.

Example diamond_undo_ok :
  match grun rev_order 0 empty_graph diamond_ops with
  | Ok g => is_connected_to g 1 2 = Ok false ∧ is_ok (add_edge g 20 1 2 3) = true
  | Panic _ => False
  end.
Proof. by vm_compute. Qed.
