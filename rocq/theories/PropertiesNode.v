(** Property theorems about nodes and their parameters in an engine. *)
From stdpp Require Import gmap list strings.
From Coq Require Import ZArith Reals.
From Verif Require Import Base Graph GraphSpec TopoSort TopoSortSpec TopoSortProofs Buffer BufferSpec DspGraph DspGraphSpec
  Float Timestamp Processor ProcessorSpec AudioParam AudioParamSpec AudioParamR MixerR Node NodeSpec NodeProofs NodeGain
  LimitsSpec LimitsProofs NodeExamples.

(** C87: whatever else happens in the engine, a node that is not dropped goes, block by block of the stream, through
    a session of its own processor: each of its parameters has the values it would have on its own
    with the same changes, cancellations and blocks, in the order in which they were sent. *)
Theorem C87_node_session {V A P : Type} (N : num V) (to_sample : V → A) (zero : A) (add : A → A → A)
    (run : P → timestamp → (string → res (list A)) → owned A → owned A → res (P * owned A))
    (nbuf max_ch max_fr sr : nat) (sh : nat → oracle) (dr : nat → list endpoint → list endpoint)
    (n : id) (inputs outputs : nat) (st0 : dspstate V P) (before after : list (nop V A P)) (st : processor A (dspstate V P)) (l : list (owned A)) :
  let os := before ++ NNew n inputs outputs st0 :: after in
  good_setup (dsp_process N to_sample run) nbuf max_fr sr sh dr (to_pop <$> os) →
  NDrop n ∉ after → unprocessed [] (to_pop <$> os) = [] →
  prun zero add (dsp_process N to_sample run) sh dr (new_processor zero nbuf sr max_ch max_fr) (to_pop <$> os) = Ok (st, l) →
  let on := running false (sent (to_pop <$> before)) in
  let pos := frames_played false (to_pop <$> before) in
  ∃ a st' rs, graph_is st a ∧ s_nodes (a_graph a) !! n = Some (Dsp inputs outputs st') ∧
    (λ r, (r_time r, r_frames r)) <$> rs = blocks_of max_fr sr on pos after ∧
    session N to_sample zero run sr inputs outputs st0 (λ name, events_of max_fr sr n name on pos after) rs st'.
Proof. exact (engine_node_session N to_sample zero add run nbuf max_ch max_fr sr sh dr n inputs outputs st0 before after st l). Qed.
Print Assumptions C87_node_session.

(** C88: a node between the input and the output of the engine: its processor gets
    exactly the frames of the callbacks' inputs and what it makes of them is heard in the outputs, frame for frame,
    however the callbacks cut the stream; silence while the engine is stopped. *)
Theorem C88_direct_node {V A P : Type} (N : num V) (to_sample : V → A) (zero : A) (add : A → A → A)
    (run : P → timestamp → (string → res (list A)) → owned A → owned A → res (P * owned A))
    (nbuf max_ch max_fr sr : nat) (sh : nat → oracle) (dr : nat → list endpoint → list endpoint)
    (n : id) (inputs outputs : nat) (st0 : dspstate V P) (before after : list (nop V A P)) (st : processor A (dspstate V P)) (l : list (owned A)) :
  let os := before ++ NNew n inputs outputs st0 :: NInput n :: NOutput n :: after in
  good_setup (dsp_process N to_sample run) nbuf max_fr sr sh dr (to_pop <$> os) →
  direct n before after → unprocessed [] (to_pop <$> os) = [] →
  prun zero add (dsp_process N to_sample run) sh dr (new_processor zero nbuf sr max_ch max_fr) (to_pop <$> os) = Ok (st, l) →
  let on := running false (sent (to_pop <$> before)) in
  let pos := frames_played false (to_pop <$> before) in
  ∃ st' rs, (λ r, (r_time r, r_frames r)) <$> rs = blocks_of max_fr sr on pos after ∧
    session N to_sample zero run sr inputs outputs st0 (λ name, events_of max_fr sr n name on pos after) rs st' ∧
    heard_through zero max_fr max_ch inputs on after (drop (callbacks before) l) rs.
Proof. exact (engine_direct_session N to_sample zero add run nbuf max_ch max_fr sr sh dr n inputs outputs st0 before after st l). Qed.
Print Assumptions C88_direct_node.

(** A node created while another plays, with a change sent and cancelled, and a change in the middle of
    the second callback. *)
Example C87_C88_case :
  good_setup level_proc 8 4 100 (λ _, rev_order) (λ _ l, l) (to_pop <$> level_history) ∧
  direct 0 level_before level_after ∧ unprocessed [] (to_pop <$> level_history) = [] ∧
  running false (sent (to_pop <$> level_before)) = true ∧ frames_played false (to_pop <$> level_before) = 2 ∧ callbacks level_before = 1 ∧
  level_outputs = Ok [[0; 0]; [20; 20; 20; 20; 21; 21]; [22; 22; 32; 32; 33]]%Z.
Proof.
  split; [exact level_history_ok|]. split; [exact level_history_direct|]. do 4 (split; [reflexivity|]). exact level_history_outputs.
Qed.

(** C89: through a gain node between the input and the output every frame is the input times the value
    of the gain for that frame, within 2^-22; the values are those of the parameter on its own. *)
Theorem C89_gain_node (nbuf max_ch max_fr sr : nat) (sh : nat → oracle) (dr : nat → list endpoint → list endpoint)
    (n : id) (cc : nat) (initial : R) (before after : list (nop R R unit)) (st : processor R (dspstate R unit)) (l : list (owned R)) :
  let os := before ++ NNew n cc cc (gain_state R_num initial) :: NInput n :: NOutput n :: after in
  let proc := dsp_process R_num (λ v, v) (gain_run gain_process_R) in
  good_setup proc nbuf max_fr sr sh dr (to_pop <$> os) → direct n before after → unprocessed [] (to_pop <$> os) = [] →
  prun 0%R Rplus proc sh dr (new_processor 0%R nbuf sr max_ch max_fr) (to_pop <$> os) = Ok (st, l) →
  let on := running false (sent (to_pop <$> before)) in
  let pos := frames_played false (to_pop <$> before) in
  ∃ p gains, run_events R_num sr (new_param R_num initial) (events_of max_fr sr n "gain" on pos after) = Ok (p, gains) ∧
    amplified (/ 2 ^ 22) max_ch cc on after (drop (callbacks before) l) gains.
Proof. exact (engine_gain nbuf max_ch max_fr sr sh dr n cc initial before after st l). Qed.
Print Assumptions C89_gain_node.

(** C89: a gain set for a time is heard from the first frame that is not before that time and before which
    it was sent (at most one on each frame, see C20). *)
Theorem C89_scheduled_gain (nbuf max_ch max_fr sr : nat) (sh : nat → oracle) (dr : nat → list endpoint → list endpoint)
    (n : id) (cc : nat) (initial : R) (before after : list (nop R R unit)) (st : processor R (dspstate R unit)) (l : list (owned R)) :
  let os := before ++ NNew n cc cc (gain_state R_num initial) :: NInput n :: NOutput n :: after in
  let proc := dsp_process R_num (λ v, v) (gain_run gain_process_R) in
  good_setup proc nbuf max_fr sr sh dr (to_pop <$> os) → direct n before after → unprocessed [] (to_pop <$> os) = [] →
  (∀ e, NCancel n "gain" e ∉ after) → (∀ c, NChange n "gain" c ∈ after → c_method c = Immediate) →
  let on := running false (sent (to_pop <$> before)) in
  let pos := frames_played false (to_pop <$> before) in
  let h := timeline sr (aops_of (events_of max_fr sr n "gain" on pos after)) in
  distinct_frames h →
  prun 0%R Rplus proc sh dr (new_processor 0%R nbuf sr max_ch max_fr) (to_pop <$> os) = Ok (st, l) →
  ∃ gains, Forall2 (value_is initial h) (frame_positions h) gains ∧
    amplified (/ 2 ^ 22) max_ch cc on after (drop (callbacks before) l) gains.
Proof. exact (engine_gain_scheduled nbuf max_ch max_fr sr sh dr n cc initial before after st l). Qed.
Print Assumptions C89_scheduled_gain.

(** A gain of 1, set to a half at frame 2 of a callback of 6 frames. *)
Example C89_case :
  let proc := dsp_process R_num (λ v, v) (gain_run gain_process_R) in
  good_setup proc 8 4 100 (λ _, rev_order) (λ _ l, l) (to_pop <$> gain_history) ∧
  direct 0 gain_before gain_after ∧ unprocessed [] (to_pop <$> gain_history) = [] ∧
  distinct_frames (timeline 100 (aops_of (events_of 4 100 0 "gain" (running false (sent (to_pop <$> gain_before)))
    (frames_played false (to_pop <$> gain_before)) gain_after))) ∧
  ∃ st l, prun 0%R Rplus proc (λ _, rev_order) (λ _ l, l) (new_processor 0%R 8 100 2 4) (to_pop <$> gain_history) = Ok (st, l).
Proof.
  split; [exact gain_history_ok|]. split; [exact gain_history_direct|]. split; [reflexivity|]. split; [exact gain_distinct|exact gain_runs].
Qed.

(** C90: a program that keeps within the limits of the engine never aborts it, whatever the order
    in which the commands reach the audio callback and hash maps are walked. *)
Theorem C90_careful_program_never_aborts {V A P : Type} (N : num V) (to_sample : V → A) (zero : A) (add : A → A → A)
    (run : P → timestamp → (string → res (list A)) → owned A → owned A → res (P * owned A))
    (good : nat → nat → gset string → P → Prop)
    (nbuf max_ch max_fr sr : nat) (sh : nat → oracle) (dr : nat → list endpoint → list endpoint) (os : list (nop V A P)) :
  run_ok good run max_fr sr → proc_shape (dsp_process N to_sample run) → 0 < nbuf → 0 < max_fr →
  (∀ k, any_order (sh k)) → (∀ k l, dr k l ≡ₚ l) → (0 < Z.of_nat sr <= 2 ^ 53)%Z →
  NoDup (phist_edge_ids (to_pop <$> os)) → careful good nbuf max_ch sempty false os →
  ∃ st l, prun zero add (dsp_process N to_sample run) sh dr (new_processor zero nbuf sr max_ch max_fr) (to_pop <$> os) = Ok (st, l).
Proof. intros H1 H2 H3 H4 H5 H6. exact (careful_never_aborts N to_sample zero add run good nbuf max_ch max_fr sr sh dr H1 H2 H3 H4 H5 H6 os). Qed.
Print Assumptions C90_careful_program_never_aborts.

(** C90 for engines of gain nodes. *)
Theorem C90_gain_program_never_aborts (nbuf max_ch max_fr sr : nat) (sh : nat → oracle) (dr : nat → list endpoint → list endpoint)
    (os : list (nop R R unit)) :
  0 < nbuf → 0 < max_fr → (∀ k, any_order (sh k)) → (∀ k l, dr k l ≡ₚ l) → (0 < Z.of_nat sr <= 2 ^ 53)%Z →
  NoDup (phist_edge_ids (to_pop <$> os)) → careful gain_good nbuf max_ch sempty false os →
  ∃ st l, prun 0%R Rplus (dsp_process R_num (λ v, v) (gain_run gain_process_R)) sh dr (new_processor 0%R nbuf sr max_ch max_fr) (to_pop <$> os) = Ok (st, l).
Proof.
  intros H1 H2 H3 H4.
  exact (careful_never_aborts R_num (λ v, v) 0%R Rplus (gain_run gain_process_R) gain_good nbuf max_ch max_fr sr sh dr (gain_run_good max_fr sr) gain_shape H1 H2 H3 H4 os).
Qed.
Print Assumptions C90_gain_program_never_aborts.

(** Two connected nodes, one taken away again, and a feedback loop that is made only while the engine is stopped. *)
Example C90_case :
  run_ok level_good level_run 4 100 ∧ proc_shape level_proc ∧ NoDup (phist_edge_ids (to_pop <$> demo_program)) ∧
  careful level_good 8 2 sempty false demo_program ∧
  demo_program_outputs = Ok [[60; 60; 60; 60; 64; 64]; [2; 2; 2]; [0; 0; 0]]%Z ∧
  careful gain_good 8 2 sempty false gain_history.
Proof.
  split; [apply level_run_good|]. split; [exact level_shape|]. split; [|split; [exact demo_careful|split; [exact demo_program_computed|exact gain_careful]]].
  change (NoDup [9; 10; 11]). repeat (constructor; [set_solver|]). constructor.
Qed.
