(** Property theorems about engines of the library's nodes. *)
From stdpp Require Import gmap list strings.
From Coq Require Import ZArith Reals.
From Verif Require Import Base Graph GraphSpec TopoSort TopoSortSpec TopoSortProofs Buffer DspGraph Timestamp Processor ProcessorSpec AudioParam AudioParamR Node NodeSpec LimitsSpec
  Chain ChainSpec Effects EffectsSpec StreamSpec DynamicsProofs LibraryProofs LibraryExamples.

(** C94: a program that makes, connects, changes and drops gain, pan, mixer, filter, convolution and ADSR nodes
    within the limits never makes the engine abort, whatever the callbacks hand to it and whatever reaches the nodes. *)
Theorem C94_library_program_never_aborts (nbuf max_ch max_fr sr : nat) (sh : nat → oracle) (dr : nat → list endpoint → list endpoint)
    (os : list (nop R R effect)) :
  0 < nbuf → 0 < max_fr → (∀ k, any_order (sh k)) → (∀ k l, dr k l ≡ₚ l) → (0 < Z.of_nat sr <= 2 ^ 53)%Z →
  NoDup (phist_edge_ids (to_pop <$> os)) → careful (effect_good max_fr sr) nbuf max_ch sempty false os →
  ∃ st l, prun 0%R Rplus (dsp_process R_num (λ v, v) effect_run) sh dr (new_processor 0%R nbuf sr max_ch max_fr) (to_pop <$> os) = Ok (st, l).
Proof. exact (library_never_aborts nbuf max_ch max_fr sr sh dr os). Qed.
Print Assumptions C94_library_program_never_aborts.

(** C94: new nodes of these kinds are fit for such a program. *)
Theorem C94_new_nodes_fit (sr max_fr : nat) (d : device) (st : dspstate R effect) :
  lasting d → device_ok sr max_fr d → device_state sr max_fr d = Ok st →
  node_fit (effect_good max_fr sr) (device_inputs d) (device_outputs d) st.
Proof. exact (device_fits sr max_fr d st). Qed.
Print Assumptions C94_new_nodes_fit.

(** Six nodes of all these kinds, made while the engine runs and connected in a row. *)
Example C94_case :
  NoDup (phist_edge_ids (to_pop <$> rack_history)) ∧ careful (effect_good 4 100) 8 2 sempty false rack_history ∧
  (∀ n d, (n, d) ∈ rack → device_ok 100 4 d ∧ lasting d ∧ device_state 100 4 d = Ok (rack_state d)).
Proof.
  split; [|split; [exact rack_careful|exact rack_ok]]. change (NoDup [20; 21; 22; 23; 24]). repeat (constructor; [set_solver|]). constructor.
Qed.

(** C95: connect_nodes!("input" => first => … => last => "output") on new nodes of the library, or the same without
    "input".  There are streams of samples, from what the callbacks hand in (or silence) to what they get out, and
    every node makes of its stream what its kind is for: gain, panning, mixing, filtering, convolution, envelope,
    oscillation, playing a sample, compression or waveshaping, with the values its parameters have on their own. *)
Theorem C95_streams (nbuf max_ch max_fr sr : nat) (sh : nat → oracle) (dr : nat → list endpoint → list endpoint)
    (from_input : bool) (ds : list (id * device)) (ks : list (link R effect)) (eids : list id) (cs before after : list (nop R R effect))
    (st : processor R (dspstate R effect)) (l : list (owned R)) :
  let os := before ++ (create <$> ks) ++ cs ++ after in
  made sr max_fr ds ks → connect_nodes (chain_of from_input ks) eids = Some cs →
  good_setup (dsp_process R_num (λ v, v) effect_run) nbuf max_fr sr sh dr (to_pop <$> os) →
  undisturbed from_input ks before after → unprocessed [] (to_pop <$> os) = [] →
  prun 0%R Rplus (dsp_process R_num (λ v, v) effect_run) sh dr (new_processor 0%R nbuf sr max_ch max_fr) (to_pop <$> os) = Ok (st, l) →
  let on := running false (sent (to_pop <$> before)) in
  let pos := frames_played false (to_pop <$> before) in
  ∃ xs, streams_through sr (blocks_of max_fr sr on pos after) (λ n name, events_of max_fr sr n name on pos after) ds xs ∧
    head xs = Some (input_stream 0%R max_ch from_input on after) ∧
    ∀ y, last xs = Some y → heard_as 0%R max_ch on after (drop (callbacks before) l) y.
Proof. exact (library_chain nbuf max_ch max_fr sr sh dr from_input ds ks eids cs before after st l). Qed.
Print Assumptions C95_streams.

(** The six nodes of C94_case: the program runs. *)
Example C95_case :
  made 100 4 rack rack_links ∧ connect_nodes (chain_of true rack_links) [20; 21; 22; 23; 24] = Some rack_calls ∧
  good_setup (dsp_process R_num (λ v, v) effect_run) 8 4 100 (λ _, rev_order) (λ _ l, l) (to_pop <$> rack_history) ∧
  undisturbed true rack_links rack_before rack_after ∧ unprocessed [] (to_pop <$> rack_history) = [] ∧
  running false (sent (to_pop <$> rack_before)) = true ∧ frames_played false (to_pop <$> rack_before) = 2 ∧
  ∃ st l, prun 0%R Rplus (dsp_process R_num (λ v, v) effect_run) (λ _, rev_order) (λ _ l, l) (new_processor 0%R 8 100 2 4) (to_pop <$> rack_history) = Ok (st, l).
Proof.
  split; [exact rack_made|]. split; [exact rack_connected|]. split; [exact rack_setup|]. split; [exact rack_undisturbed|]. split; [exact rack_processed|].
  split; [reflexivity|]. split; [reflexivity|]. exact rack_runs.
Qed.
(** A sampler alone, started in the middle of a block. *)
Example C95_case_source :
  made 100 4 solo solo_links ∧ connect_nodes (chain_of false solo_links) [] = Some [NOutput (V := R) (A := R) (P := effect) 0] ∧
  good_setup (dsp_process R_num (λ v, v) effect_run) 8 4 100 (λ _, rev_order) (λ _ l, l) (to_pop <$> solo_history) ∧
  undisturbed false solo_links solo_before solo_after ∧ unprocessed [] (to_pop <$> solo_history) = [] ∧
  ∃ st l, prun 0%R Rplus (dsp_process R_num (λ v, v) effect_run) (λ _, rev_order) (λ _ l, l) (new_processor 0%R 8 100 2 4) (to_pop <$> solo_history) = Ok (st, l).
Proof.
  split; [exact solo_made|]. split; [exact solo_connected|]. split; [exact solo_setup|]. split; [exact solo_undisturbed|]. split; [reflexivity|]. exact solo_runs.
Qed.

(** C95: compressors and waveshapers make numbers of every input, as long as the values of their parameters are in
    range (attack and release not below 0, ratio not below 1, knee above 0; overdrive and mix from 0 to 1): such a node
    goes through any blocks and values without meeting anything that is not a number. *)
Theorem C95_dynamics_go_on (sr max_fr : nat) (d : device) (st : dspstate R effect) (asks : list (@round R R)) :
  match d with DCompressor cc => 0 < cc | DWaveshaper _ _ => True | _ => False end →
  device_ok sr max_fr d → device_state sr max_fr d = Ok st → Forall (in_range_round sr max_fr d (dom (ds_params st))) asks →
  ∃ rs p', runs (λ v, v) 0%R effect_run sr (device_outputs d) (ds_proc st) rs p' ∧ request_of <$> rs = request_of <$> asks.
Proof. exact (dynamics_go_on sr max_fr d st asks). Qed.
Print Assumptions C95_dynamics_go_on.

(** A compressor whose threshold jumps in the middle of a block. *)
Example C95_case_dynamics :
  device_ok 100 4 (DCompressor 1) ∧ ∃ st, device_state 100 4 (DCompressor 1) = Ok st ∧
    Forall (in_range_round 100 4 (DCompressor 1) (dom (ds_params st))) [squash_round; squash_round].
Proof. split; [done|]. eexists. split; [reflexivity|]. exact (squash_in_range _ eq_refl). Qed.
