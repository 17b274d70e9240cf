(** Property theorems about rendering the audio graph. *)
From stdpp Require Import gmap list.
From Verif Require Import Base Graph GraphSpec GraphProofs TopoSort TopoSortSpec TopoSortProofs
  Buffer BufferSpec BufferProofs DspGraph DspGraphSpec DspGraphProofs DspGraphExamples.
From Coq Require Import ZArith.

(** C07, C09, C11, C12: every history of graph changes, parameter changes and
    blocks that does not abort is a history of the abstract engine, whose blocks
    are characterised by [block_equations] (what each node hears) and [output_is]
    (what reaches the system output) alone; afterwards every buffer is back in the
    pool and silent.  For every processor, sample type, addition (no law is
    assumed) and hash order. *)
Theorem C07_C09_C11_history_refines {A St T : Type} (zero : A) (add : A → A → A)
    (proc : T → St → owned A → owned A → res (St * owned A)) (nbuf max_ch max_fr r : nat)
    (sh : nat → oracle) (dr : nat → list endpoint → list endpoint)
    (os : list (hop A St T)) (dg : dspgraph A St) (outputs : list (owned A)) :
  proc_shape proc → 0 < nbuf →
  (∀ k, any_order (sh k)) → (∀ k l, dr k l ≡ₚ l) →
  Forall hop_ok os → NoDup (hist_edge_ids os) →
  hrun zero add proc sh dr 0 (new_dspgraph zero nbuf max_fr max_ch r) os = Ok (dg, outputs) →
  ∃ a, arun zero add proc max_ch max_fr r ainit os a outputs ∧
    observes (dg_graph dg) (a_graph a) ∧ dg_in dg = a_in a ∧ dg_out dg = a_out a ∧
    assigned (dg_pools dg) = ∅ ∧
    free (dg_pools dg) = replicate nbuf (new_buffer zero max_fr max_ch r).
Proof. exact (history_refines zero add proc nbuf max_ch max_fr r sh dr os dg outputs). Qed.
Print Assumptions C07_C09_C11_history_refines.

(** C07: with two or more connections a node hears the first connection (or the
    system input where it does not reach) plus the others in order of creation. *)
Theorem C07_mix_of_connections {A : Type} (zero : A) (add : A → A → A)
    (outs : id → owned A) sys c1 c2 cs ch fr :
  heard zero add outs sys (c1 :: c2 :: cs) ch fr =
  foldl (λ acc c, if decide (dst_ch (c_data c) ≤ ch < dst_ch (c_data c) + ch_count (c_data c))
                  then add acc (heard_at zero (outs (c_from c))
                                  (src_ch (c_data c) + (ch - dst_ch (c_data c))) fr)
                  else acc)
    (if decide (dst_ch (c_data c1) ≤ ch < dst_ch (c_data c1) + ch_count (c_data c1))
     then heard_at zero (outs (c_from c1)) (src_ch (c_data c1) + (ch - dst_ch (c_data c1))) fr
     else sys ch fr)
    (c2 :: cs).
Proof. exact (heard_two zero add outs sys c1 c2 cs ch fr). Qed.
Print Assumptions C07_mix_of_connections.

(** C08 is violated: a connection of one channel delivers two. *)
Theorem C08_limited_connection_refuted : ∃ os : list (hop Z Z unit),
  os = [HCmd (GAddDsp 0 (Dsp 0 2 5%Z)); HCmd (GAddDsp 1 (Dsp 2 2 0%Z));
        HCmd (GAddConn 10 0 1 (Connection 0 0 1)); HCmd (GOutput (EOutput, 1)); toy_block] ∧
  runs_to id_order os [[5; 5; 5; 5; 5; 5]]%Z.
Proof. exact (ex_intro _ limited_history (conj eq_refl limited_connection_leaks)). Qed.
Print Assumptions C08_limited_connection_refuted.

(** C08: in every other case the channels no connection leads to hear only the
    system input (silence for nodes not connected to it). *)
Theorem C08_only_connected_channels_partial {A : Type} (zero : A) (add : A → A → A)
    (outs : id → owned A) sys cs ch fr :
  (∀ c, cs = [c] → ¬ (src_ch (c_data c) = 0 ∧ dst_ch (c_data c) = 0)) →
  (∀ c, c ∈ cs → ¬ (dst_ch (c_data c) ≤ ch < dst_ch (c_data c) + ch_count (c_data c))) →
  heard zero add outs sys cs ch fr = sys ch fr.
Proof. exact (heard_outside zero add outs sys cs ch fr). Qed.
Print Assumptions C08_only_connected_channels_partial.

(** C09: after any history, a block does not abort if the graph is acyclic,
    without parallel connections, has at most [nbuf - 2] nodes (1022 with the
    1024 buffers of the engine), channel counts within the maximum and processors
    that do not abort themselves. *)
Theorem C09_enough_buffers {A St T : Type} (zero : A) (add : A → A → A)
    (proc : T → St → owned A → owned A → res (St * owned A)) (nbuf max_ch max_fr r : nat)
    (node_ok : nat → nat → St → Prop)
    (sh : nat → oracle) (dr : nat → list endpoint → list endpoint)
    (os : list (hop A St T)) (dg : dspgraph A St) (outputs : list (owned A))
    (inp : owned A) (iv : view) (out : owned A) (ov : view) (t : T) :
  proc_shape proc → proc_ok proc max_fr r node_ok → 0 < nbuf →
  (∀ k, any_order (sh k)) → (∀ k l, dr k l ≡ₚ l) →
  Forall hop_ok (os ++ [HBlock inp iv out ov t]) → NoDup (hist_edge_ids os) →
  hrun zero add proc sh dr 0 (new_dspgraph zero nbuf max_fr max_ch r) os = Ok (dg, outputs) →
  ∃ a, arun zero add proc max_ch max_fr r ainit os a outputs ∧ observes (dg_graph dg) (a_graph a) ∧
    (renderable node_ok nbuf max_ch (a_graph a) →
     ∃ dg' out', hrun zero add proc sh dr 0 (new_dspgraph zero nbuf max_fr max_ch r)
                   (os ++ [HBlock inp iv out ov t]) = Ok (dg', outputs ++ [out'])).
Proof.
  exact (λ H1 H2 H3, next_block_ok zero add proc nbuf max_ch max_fr r node_ok H1 H2 H3
                       sh dr os dg outputs inp iv out ov t).
Qed.
Print Assumptions C09_enough_buffers.

(** C10: two runs of the same history under different hash orders produce the
    same output and leave the same graph with the same node states, provided no
    two nodes are ever joined by two connections at a time. *)
Theorem C10_deterministic_partial {A St T : Type} (zero : A) (add : A → A → A)
    (proc : T → St → owned A → owned A → res (St * owned A)) (nbuf max_ch max_fr r : nat)
    (sh1 sh2 : nat → oracle) (dr1 dr2 : nat → list endpoint → list endpoint)
    (os : list (hop A St T)) (dg1 dg2 : dspgraph A St) (l1 l2 : list (owned A)) :
  proc_shape proc → 0 < nbuf →
  (∀ k, any_order (sh1 k)) → (∀ k l, dr1 k l ≡ₚ l) →
  (∀ k, any_order (sh2 k)) → (∀ k l, dr2 k l ≡ₚ l) →
  Forall hop_ok os → NoDup (hist_edge_ids os) →
  (∀ pre dg l, pre `prefix_of` os →
     hrun zero add proc sh1 dr1 0 (new_dspgraph zero nbuf max_fr max_ch r) pre = Ok (dg, l) →
     single_destinations (dg_graph dg)) →
  hrun zero add proc sh1 dr1 0 (new_dspgraph zero nbuf max_fr max_ch r) os = Ok (dg1, l1) →
  hrun zero add proc sh2 dr2 0 (new_dspgraph zero nbuf max_fr max_ch r) os = Ok (dg2, l2) →
  l1 = l2 ∧ dg_graph dg1 = dg_graph dg2.
Proof. exact (deterministic zero add proc nbuf max_ch max_fr r sh1 sh2 dr1 dr2 os dg1 dg2 l1 l2). Qed.
Print Assumptions C10_deterministic_partial.

(** C10 is violated with two connections between the same nodes: which one a
    disconnection removes, and so the output, depends on the hash order. *)
Theorem C10_deterministic_refuted : ∃ os l1 l2,
  runs_to id_order os l1 ∧ runs_to rev_order os l2 ∧ l1 ≠ l2.
Proof. exact nondeterministic. Qed.
Print Assumptions C10_deterministic_refuted.

(** C12 is violated: with a connection from another node, the system input is
    not heard (the two histories differ in that connection only). *)
Theorem C12_system_input_refuted : ∃ before,
  runs_to id_order (before ++ [] ++ [toy_block]) [[100; 101; 102; 200; 201; 202]]%Z ∧
  runs_to id_order (before ++ [connect 10 0 1 0 0 2] ++ [toy_block]) [[5; 5; 5; 5; 5; 5]]%Z.
Proof. exact (ex_intro _ _ system_input_lost). Qed.
Print Assumptions C12_system_input_refuted.

(** C12: without connections a node hears exactly the system input. *)
Theorem C12_system_input_alone_partial {A : Type} (zero : A) (add : A → A → A)
    (outs : id → owned A) max_ch inp iv n ch fr : ch < v_channels inp iv `min` max_ch →
  heard zero add outs (system_input zero (Some (EInput, n)) max_ch inp iv n) [] ch fr
  = heard_at zero inp (ch + off_ch iv) (fr + off_fr iv).
Proof. exact (system_input_heard zero add outs max_ch inp iv n ch fr). Qed.
Print Assumptions C12_system_input_alone_partial.

(** C58 is violated: a node with three input channels aborts the block of an
    engine of two. *)
Theorem C58_wide_node_refuted : ∃ os : list (hop Z Z unit),
  os = [HCmd (GAddDsp 0 (Dsp 3 2 5%Z)); toy_block] ∧
  Forall hop_ok os ∧ NoDup (hist_edge_ids os) ∧ toy_run id_order os = Panic AssertFailed.
Proof. exact (ex_intro _ wide_history (conj eq_refl wide_node_aborts)). Qed.
Print Assumptions C58_wide_node_refuted.

(** C61 is violated: removing a node that is still connected aborts. *)
Theorem C61_drop_connected_node_refuted : ∃ os : list (hop Z Z unit),
  os = [add_dsp 0 0 2 5; add_dsp 1 2 2 0; connect 10 0 1 0 0 2; toy_block; HCmd (GRemoveDsp 0)] ∧
  Forall hop_ok os ∧ NoDup (hist_edge_ids os) ∧ toy_run id_order os = Panic AssertFailed.
Proof. exact (ex_intro _ drop_history (conj eq_refl dropped_node_aborts)). Qed.
Print Assumptions C61_drop_connected_node_refuted.

(** ** The hypotheses are met by concrete histories *)
Example mix_history_meets :
  proc_shape toy_proc ∧ proc_ok toy_proc 4 100 toy_node_ok ∧
  Forall hop_ok mix_history ∧ NoDup (hist_edge_ids mix_history) ∧
  toy_outputs rev_order mix_history = Ok [[5; 5; 5; 112; 113; 114]; [232; 233; 234; 25; 25; 25]]%Z ∧
  toy_outputs id_order mix_history = Ok [[5; 5; 5; 112; 113; 114]; [232; 233; 234; 25; 25; 25]]%Z ∧
  (∀ pre dg l, pre `prefix_of` mix_history → toy_run rev_order pre = Ok (dg, l) →
     single_destinations (dg_graph dg)).
Proof.
  split; [exact toy_shape|]. split; [apply toy_ok|]. split; [apply mix_history_ok|].
  split; [apply mix_history_ok|]. split; [by vm_compute|]. split; [by vm_compute|].
  exact mix_history_single.
Qed.

(** the bound on the number of nodes is tight up to one node *)
Example buffers_run_out :
  toy_outputs id_order (many_nodes 7) = Ok [[0; 0; 0; 0; 0; 0]]%Z ∧
  toy_run id_order (many_nodes 8) = Panic NoBuffers.
Proof. exact out_of_buffers. Qed.

(** a graph that can be rendered *)
Example renderable_graph :
  renderable toy_node_ok 8 2
    (SGraph (<[0 := Dsp 0 2 5%Z]> (<[1 := Dsp 2 2 0%Z]> ∅)) [Conn 10 0 1 (Connection 0 0 2)]).
Proof.
  split.
  - apply (order_acyclic _ [0; 1]); [apply (bool_decide_unpack _); by vm_compute|].
    split; [by vm_compute|].
    intros c Hc. apply elem_of_list_singleton in Hc as ->. by exists [], [], [].
  - apply (bool_decide_unpack _). by vm_compute.
  - vm_compute. lia.
  - intros n d Hd. destruct (decide (n = 0)) as [->|]; [|destruct (decide (n = 1)) as [->|]].
    + vm_compute in Hd. injection Hd as <-. cbn. unfold toy_node_ok. lia.
    + vm_compute in Hd. injection Hd as <-. cbn. unfold toy_node_ok. lia.
    + cbn in Hd. rewrite !lookup_insert_ne in Hd by done. done.
  - intros c Hc. apply elem_of_list_singleton in Hc as ->. cbn. lia.
Qed.
