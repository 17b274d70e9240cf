(** Property theorems about chains of nodes. *)
From stdpp Require Import gmap list strings.
From Coq Require Import ZArith.
From Verif Require Import Base Graph TopoSort TopoSortSpec TopoSortProofs Buffer DspGraph Timestamp Processor ProcessorSpec AudioParam Node NodeSpec
  NodeExamples Chain ChainSpec ChainProofs ChainExamples.

(** C93: connect_nodes!("input" => first => … => last => "output") on new nodes, or the same without "input".  Every node goes through a session
    of its own with the blocks of the stream; the first gets the callbacks' input (without "input": silence), each of the others what the one
    before it gives in the same block, and what the last gives is heard in the callbacks' output. *)
Theorem C93_chain {V A P : Type} (N : num V) (to_sample : V → A) (zero : A) (add : A → A → A)
    (run : P → timestamp → (string → res (list A)) → owned A → owned A → res (P * owned A))
    (nbuf max_ch max_fr sr : nat) (sh : nat → oracle) (dr : nat → list endpoint → list endpoint)
    (from_input : bool) (ks : list (link V P)) (eids : list id) (cs before after : list (nop V A P)) (st : processor A (dspstate V P)) (l : list (owned A)) :
  let os := before ++ (create <$> ks) ++ cs ++ after in
  connect_nodes (chain_of from_input ks) eids = Some cs →
  good_setup (dsp_process N to_sample run) nbuf max_fr sr sh dr (to_pop <$> os) →
  undisturbed from_input ks before after → unprocessed [] (to_pop <$> os) = [] →
  prun zero add (dsp_process N to_sample run) sh dr (new_processor zero nbuf sr max_ch max_fr) (to_pop <$> os) = Ok (st, l) →
  let on := running false (sent (to_pop <$> before)) in
  let pos := frames_played false (to_pop <$> before) in
  ∃ rss, length rss = length ks ∧
    (∀ i k rs, ks !! i = Some k → rss !! i = Some rs →
      (λ r, (r_time r, r_frames r)) <$> rs = blocks_of max_fr sr on pos after ∧
      ∃ st', session N to_sample zero run sr (k_ins k) (k_outs k) (k_state k) (λ name, events_of max_fr sr (k_id k) name on pos after) rs st') ∧
    (∀ i k rs rs', ks !! S i = Some k → rss !! i = Some rs → rss !! S i = Some rs' → feeds zero (k_ins k) rs rs') ∧
    (∀ k rs rs', ks !! 0 = Some k → rss !! 0 = Some rs → last rss = Some rs' →
      heard_between zero max_fr from_input max_ch (k_ins k) on after (drop (callbacks before) l) rs rs').
Proof. exact (engine_chain N to_sample zero add run nbuf max_ch max_fr sr sh dr from_input ks eids cs before after st l). Qed.
Print Assumptions C93_chain.

(** Two nodes made while another plays; a change for the second in the middle of a callback, the engine stopped for
    one callback. *)
Example C93_case :
  connect_nodes (chain_of true chain_links) [9] = Some chain_calls ∧
  good_setup level_proc 8 4 100 (λ _, rev_order) (λ _ l, l) (to_pop <$> chain_history) ∧
  undisturbed true chain_links chain_before chain_after ∧ unprocessed [] (to_pop <$> chain_history) = [] ∧
  running false (sent (to_pop <$> chain_before)) = true ∧ frames_played false (to_pop <$> chain_before) = 2 ∧
  chain_outputs = Ok [[0; 0]; [60; 60; 60; 60; 64; 64]; [0]; [68; 68; 112; 112; 118]]%Z.
Proof.
  split; [exact chain_connected|]. split; [exact chain_history_ok|]. split; [exact chain_undisturbed|]. do 3 (split; [reflexivity|]).
  exact chain_outputs_computed.
Qed.
