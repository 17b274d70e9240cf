(** A small processor, histories with it, and the witnesses of the refuted
    properties of the audio graph. *)
From stdpp Require Import gmap list.
From Verif Require Import Base Graph GraphSpec GraphProofs TopoSort TopoSortSpec TopoSortProofs
  Buffer BufferSpec BufferProofs DspGraph DspGraphSpec DspGraphProofs.
From Coq Require Import ZArith.

(** Integer samples.  The toy node adds its state to its input on every output
    channel and counts the blocks in units of 1000. *)
Definition toy_proc (t : unit) (st : Z) (i o : owned Z) : res (Z * owned Z) :=
  Ok ((st + 1000)%Z,
      Owned (imap (λ k _, (default 0 (sample i (k / frames o) (k mod frames o)) + st mod 1000)%Z) (data o))
        (channels o) (frames o) (rate o)).

Lemma toy_shape : proc_shape toy_proc.
Proof.
  intros t st i o st' o' ni no fc [= <- <-] _ (Hw & Hc & Hf). split; [|done].
  unfold wf in *. cbn. by rewrite imap_length.
Qed.

Definition toy_node_ok (_ _ : nat) (_ : Z) : Prop := True.

Lemma toy_ok max_fr r : proc_ok toy_proc max_fr r toy_node_ok.
Proof.
  intros t ni no st i o fc _ _ Hi Ho _ _.
  destruct (toy_proc t st i o) as [[st' o']|] eqn:E; [|done].
  exists st', o'. split; [done|]. split; [|done]. by eapply toy_shape.
Qed.

(** engine with 8 buffers of 2 channels and 4 frames at 100 Hz *)
Definition toy_engine : dspgraph Z Z := new_dspgraph 0%Z 8 4 2 100.
Definition toy_run (order : oracle) os :=
  hrun 0%Z Z.add toy_proc (λ _, order) (λ _ l, l) 0 toy_engine os.
Definition toy_outputs (order : oracle) os : res (list (list Z)) :=
  let? (_, l) := toy_run order os in Ok (data <$> l).

Definition toy_in : owned Z := Owned [100; 101; 102; 200; 201; 202]%Z 2 3 100.
Definition toy_out : owned Z := new_buffer 0%Z 3 2 100.
Definition toy_block : hop Z Z unit := HBlock toy_in Whole toy_out Whole tt.

Definition connect (e a b : id) (s d c : nat) : hop Z Z unit := HCmd (GAddConn e a b (Connection s d c)).
Definition add_dsp (n : id) (i o : nat) (st : Z) : hop Z Z unit := HCmd (GAddDsp n (Dsp i o st)).

(** two sources mixed into a through node, a block, a parameter change and a
    removed connection, another block *)
Definition mix_history : list (hop Z Z unit) :=
  [add_dsp 0 0 2 5; add_dsp 1 2 2 7; add_dsp 2 2 2 0;
   connect 10 0 2 0 0 2; connect 11 1 2 0 1 1;
   HCmd (GInput (EInput, 1)); HCmd (GOutput (EOutput, 2)); toy_block;
   HCmd (GParam 0 (λ st, Ok (st + 20)%Z)); HCmd (GRemoveConn 1 2); connect 12 1 2 1 0 1; toy_block].

Lemma mix_history_ok : Forall hop_ok mix_history ∧ NoDup (hist_edge_ids mix_history).
Proof.
  split.
  - assert (Hb : hop_ok toy_block) by (repeat split; cbn; lia).
    repeat constructor; exact Hb.
  - apply (bool_decide_unpack _). by vm_compute.
Qed.

Lemma mix_history_outputs :
  toy_outputs rev_order mix_history
  = Ok [[5; 5; 5; 112; 113; 114]; [232; 233; 234; 25; 25; 25]]%Z.
Proof. by vm_compute. Qed.

Global Instance single_destinations_dec {ND ED} (g : graph ND ED) : Decision (single_destinations g).
Proof.
  unfold single_destinations. apply Forall_dec. intros n.
  destruct (node_iter g n Outgoing); apply _.
Defined.

Lemma mix_history_single pre dg l : pre `prefix_of` mix_history →
  toy_run rev_order pre = Ok (dg, l) → single_destinations (dg_graph dg).
Proof.
  intros [rest E].
  assert (Hn : pre = take (length pre) mix_history) by (rewrite E; by rewrite take_app).
  assert (Hl : length pre ≤ 12).
  { transitivity (length mix_history); [|done]. rewrite E, app_length. lia. }
  rewrite Hn. clear Hn E. revert Hl. generalize (length pre) as n. intros n Hl.
  assert (Hall : forallb (λ n, match toy_run rev_order (take n mix_history) with
     | Ok (dg, _) => bool_decide (single_destinations (dg_graph dg)) | Panic _ => false end) (seq 0 13) = true)
    by by vm_compute.
  rewrite forallb_forall in Hall. specialize (Hall n). intros Hr. rewrite Hr in Hall.
  apply (bool_decide_unpack _), Is_true_true, Hall. apply in_seq. lia.
Qed.

(** A refuting history: legal operations, rendered without abort *)
Definition runs_to (order : oracle) (os : list (hop Z Z unit)) (l : list (list Z)) : Prop :=
  any_order order ∧ Forall hop_ok os ∧ NoDup (hist_edge_ids os) ∧ toy_outputs order os = Ok l.

Ltac legal_history :=
  split; [assert (Hb : hop_ok toy_block) by (repeat split; cbn; lia); 
    match goal with |- Forall _ ?l => let l' := eval hnf in l in change l with l' end;
    cbn [app];
    repeat first [apply Forall_nil_2 | apply Forall_cons_2; [first [exact Hb|exact I|reflexivity]|]]|];
  split; [apply (bool_decide_unpack _); by vm_compute|].

(** C08: the connection is limited to channel 0, channel 1 is delivered too *)
Definition limited_history : list (hop Z Z unit) :=
  [add_dsp 0 0 2 5; add_dsp 1 2 2 0; connect 10 0 1 0 0 1; HCmd (GOutput (EOutput, 1)); toy_block].

Lemma limited_connection_leaks :
  runs_to id_order limited_history [[5; 5; 5; 5; 5; 5]]%Z.
Proof. split; [apply id_order_any|]. legal_history. by vm_compute. Qed.

(** C10: of two connections between the same nodes the removed one depends on
    the hash order *)
Definition parallel_history : list (hop Z Z unit) :=
  [add_dsp 0 0 2 5; add_dsp 1 2 2 0; connect 10 0 1 1 0 1; connect 11 0 1 0 1 1;
   HCmd (GRemoveConn 0 1); HCmd (GOutput (EOutput, 1)); toy_block].

Lemma parallel_removal_nondeterministic :
  runs_to id_order parallel_history [[5; 5; 5; 0; 0; 0]]%Z ∧
  runs_to rev_order parallel_history [[0; 0; 0; 5; 5; 5]]%Z.
Proof.
  split; (split; [first [apply id_order_any|apply rev_order_any]|]); legal_history; by vm_compute.
Qed.

(** C12: the node hears the system input as long as nothing is connected to
    it, and does not hear it any more afterwards *)
Definition input_history (conns : list (hop Z Z unit)) : list (hop Z Z unit) :=
  [add_dsp 0 0 2 5; add_dsp 1 2 2 0; HCmd (GInput (EInput, 1)); HCmd (GOutput (EOutput, 1))]
  ++ conns ++ [toy_block].

Lemma system_input_lost :
  runs_to id_order (input_history []) [[100; 101; 102; 200; 201; 202]]%Z ∧
  runs_to id_order (input_history [connect 10 0 1 0 0 2]) [[5; 5; 5; 5; 5; 5]]%Z.
Proof. split; (split; [apply id_order_any|]); legal_history; by vm_compute. Qed.

(** C58: three channels in an engine of two *)
Definition wide_history : list (hop Z Z unit) := [add_dsp 0 3 2 5; toy_block].

Lemma wide_node_aborts :
  Forall hop_ok wide_history ∧ NoDup (hist_edge_ids wide_history) ∧
  toy_run id_order wide_history = Panic AssertFailed.
Proof. legal_history. by vm_compute. Qed.

(** C61: removing a connected node *)
Definition drop_history : list (hop Z Z unit) :=
  [add_dsp 0 0 2 5; add_dsp 1 2 2 0; connect 10 0 1 0 0 2; toy_block; HCmd (GRemoveDsp 0)].

Lemma dropped_node_aborts :
  Forall hop_ok drop_history ∧ NoDup (hist_edge_ids drop_history) ∧
  toy_run id_order drop_history = Panic AssertFailed.
Proof. legal_history. by vm_compute. Qed.

(** C09: [n] unconnected nodes in an engine with [nbuf] buffers *)
Definition many_nodes (n : nat) : list (hop Z Z unit) :=
  ((λ k, add_dsp k 0 1 0) <$> seq 0 n) ++ [HCmd (GInput (EInput, 0)); toy_block].

Lemma out_of_buffers :
  toy_outputs id_order (many_nodes 7) = Ok [[0; 0; 0; 0; 0; 0]]%Z ∧
  toy_run id_order (many_nodes 8) = Panic NoBuffers.
Proof. split; by vm_compute. Qed.

Lemma nondeterministic : ∃ os l1 l2, runs_to id_order os l1 ∧ runs_to rev_order os l2 ∧ l1 ≠ l2.
Proof.
  destruct parallel_removal_nondeterministic as [H1 H2].
  exists parallel_history, [[5; 5; 5; 0; 0; 0]]%Z, [[0; 0; 0; 5; 5; 5]]%Z. done.
Qed.
