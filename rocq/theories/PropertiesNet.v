(** Property theorems about networks of nodes. *)
From stdpp Require Import gmap list strings.
From Coq Require Import ZArith Reals.
From Verif Require Import Base Graph GraphSpec TopoSort TopoSortSpec TopoSortProofs Buffer DspGraph DspGraphSpec Timestamp Recorder RecorderSpec Processor ProcessorSpec AudioParam AudioParamR BiquadSpec Node NodeSpec
  NodeExamples Chain ChainSpec Effects EffectsSpec StreamSpec LibraryExamples NetSpec NetProofs NetExamples NetLibrary.

(** C96: new nodes, connected in any way by any number of requests and then left alone (apart from changes of their
    parameters).  Every node goes through a session of its own with the blocks of the stream; in every frame each of its
    inputs hears what the connections bring from the outputs of the other nodes in the same frame, or what the callback
    hands in, and what the node at the output gives is heard in the callbacks' output. *)
Theorem C96_network {V A P : Type} (N : num V) (to_sample : V → A) (zero : A) (add : A → A → A)
    (run : P → timestamp → (string → res (list A)) → owned A → owned A → res (P * owned A))
    (nbuf max_ch max_fr sr : nat) (sh : nat → oracle) (dr : nat → list endpoint → list endpoint)
    (ks : list (link V P)) (ws before after : list (nop V A P)) (st : processor A (dspstate V P)) (l : list (owned A)) :
  let os := before ++ (create <$> ks) ++ ws ++ after in
  good_setup (dsp_process N to_sample run) nbuf max_fr sr sh dr (to_pop <$> os) →
  settled ks ws before after → unprocessed [] (to_pop <$> os) = [] →
  prun zero add (dsp_process N to_sample run) sh dr (new_processor zero nbuf sr max_ch max_fr) (to_pop <$> os) = Ok (st, l) →
  let on := running false (sent (to_pop <$> before)) in
  let pos := frames_played false (to_pop <$> before) in
  ∃ a (rss : id → list (@round V A)), graph_is st a ∧
    (∀ k, k ∈ ks → (λ r, (r_time r, r_frames r)) <$> rss (k_id k) = blocks_of max_fr sr on pos after ∧
      ∃ st', s_nodes (a_graph a) !! k_id k = Some (Dsp (k_ins k) (k_outs k) st') ∧ session N to_sample zero run sr (k_ins k) (k_outs k) (k_state k) (λ name, events_of max_fr sr (k_id k) name on pos after) (rss (k_id k)) st') ∧
    connected zero add max_ch (length_of (blocks_of max_fr sr on pos after)) on ks ws after (λ n, taken zero (rss n)) (λ n, given zero (rss n)) ∧
    (∀ o, net_output ws = Some o → o ∈ k_id <$> ks → heard_as zero max_ch on after (drop (callbacks before) l) (given zero (rss o))).
Proof. exact (engine_net N to_sample zero add run nbuf max_ch max_fr sr sh dr ks ws before after st l). Qed.
Print Assumptions C96_network.

(** Node 0 feeds nodes 1 and 2, node 3 mixes those and also feeds an older node; a change for node 2 in the middle of a
    callback, the engine stopped for one callback. *)
Example C96_case :
  good_setup level_proc 8 4 100 (λ _, rev_order) (λ _ l, l) (to_pop <$> diamond_history) ∧
  settled diamond_links diamond_calls diamond_before diamond_after ∧ unprocessed [] (to_pop <$> diamond_history) = [] ∧
  running false (sent (to_pop <$> diamond_before)) = true ∧ frames_played false (to_pop <$> diamond_before) = 2 ∧
  net_input diamond_calls = Some 0 ∧ net_output diamond_calls = Some 3 ∧ length (connections_into 3 diamond_calls) = 2 ∧
  diamond_outputs = Ok [[0; 0]; [160; 160; 160; 160; 171; 171]; [0]; [182; 182; 226; 226; 239]]%Z.
Proof.
  split; [exact diamond_ok|]. split; [exact diamond_settled|]. do 6 (split; [reflexivity|]). exact diamond_outputs_computed.
Qed.

(** C97: a network of new nodes of the library.  There is a stream of samples for every channel of every input and
    output: every node makes of its inputs what its kind is for, with the values its parameters have on their own, every
    input is the sum of what the connections bring in the same frame, and the output of the engine is that of the node
    at the output. *)
Theorem C97_library_network (nbuf max_ch max_fr sr : nat) (sh : nat → oracle) (dr : nat → list endpoint → list endpoint)
    (ds : list (id * device)) (ks : list (link R effect)) (ws before after : list (nop R R effect))
    (st : processor R (dspstate R effect)) (l : list (owned R)) :
  let os := before ++ (create <$> ks) ++ ws ++ after in
  made sr max_fr ds ks →
  good_setup (dsp_process R_num (λ v, v) effect_run) nbuf max_fr sr sh dr (to_pop <$> os) →
  settled ks ws before after → unprocessed [] (to_pop <$> os) = [] →
  prun 0%R Rplus (dsp_process R_num (λ v, v) effect_run) sh dr (new_processor 0%R nbuf sr max_ch max_fr) (to_pop <$> os) = Ok (st, l) →
  let on := running false (sent (to_pop <$> before)) in
  let pos := frames_played false (to_pop <$> before) in
  let blocks := blocks_of max_fr sr on pos after in
  ∃ xs ys : id → stream R,
    (∀ n d, (n, d) ∈ ds → performs sr blocks (λ name, events_of max_fr sr n name on pos after) d (xs n) (ys n)) ∧
    (∀ n d ch i, (n, d) ∈ ds → ch < device_inputs d → i < length_of blocks →
       at_ (xs n ch) i = mix_of (λ m c, at_ (ys m c) i) (at_ (input_stream 0%R max_ch (bool_decide (net_input ws = Some n)) on after ch) i) (connections_into n ws) ch) ∧
    (∀ o, net_output ws = Some o → o ∈ ds.*1 → heard_as 0%R max_ch on after (drop (callbacks before) l) (ys o)).
Proof.
  intros os H1 H2 H3 H4 H5 on pos blocks. destruct (library_net nbuf max_ch max_fr sr sh dr ds ks ws before after st l H1 H2 H3 H4 H5) as (a & xs & ys & _ & _ & _ & H). by exists xs, ys.
Qed.
Print Assumptions C97_library_network.

(** Six nodes of six kinds; two of them mix two others, one connection crosses channels: the program runs. *)
Example C97_case :
  made 100 4 rack rack_links ∧
  good_setup (dsp_process R_num (λ v, v) effect_run) 8 4 100 (λ _, rev_order) (λ _ l, l) (to_pop <$> patch_history) ∧
  settled rack_links patch_calls rack_before rack_after ∧ unprocessed [] (to_pop <$> patch_history) = [] ∧
  net_input patch_calls = Some 0 ∧ net_output patch_calls = Some 5 ∧ length (connections_into 3 patch_calls) = 2 ∧
  ∃ st l, prun 0%R Rplus (dsp_process R_num (λ v, v) effect_run) (λ _, rev_order) (λ _ l, l) (new_processor 0%R 8 100 2 4) (to_pop <$> patch_history) = Ok (st, l).
Proof.
  split; [exact rack_made|]. split; [exact patch_setup|]. split; [exact patch_settled|]. do 4 (split; [reflexivity|]). exact patch_runs.
Qed.

(** C98: recorders and envelopes in a network.  What a recorder has handed out, and an envelope has reported, when the
    program is over, is what the recorder's requests, or the meter, make of the stream at its input: the sum of what the
    connections bring, frame by frame. *)
Theorem C98_network_reports (nbuf max_ch max_fr sr : nat) (sh : nat → oracle) (dr : nat → list endpoint → list endpoint)
    (ds : list (id * device)) (ks : list (link R effect)) (ws before after : list (nop R R effect))
    (st : processor R (dspstate R effect)) (l : list (owned R)) :
  let os := before ++ (create <$> ks) ++ ws ++ after in
  made sr max_fr ds ks →
  good_setup (dsp_process R_num (λ v, v) effect_run) nbuf max_fr sr sh dr (to_pop <$> os) →
  settled ks ws before after → unprocessed [] (to_pop <$> os) = [] →
  prun 0%R Rplus (dsp_process R_num (λ v, v) effect_run) sh dr (new_processor 0%R nbuf sr max_ch max_fr) (to_pop <$> os) = Ok (st, l) →
  let on := running false (sent (to_pop <$> before)) in
  let pos := frames_played false (to_pop <$> before) in
  let blocks := blocks_of max_fr sr on pos after in
  ∃ a (xs ys : id → stream R), graph_is st a ∧
    (∀ n d, (n, d) ∈ ds → ∃ st', s_nodes (a_graph a) !! n = Some (Dsp (device_inputs d) (device_outputs d) st') ∧ reports sr blocks d (xs n) (ds_proc st')) ∧
    (∀ n d ch, (n, d) ∈ ds → length (xs n ch) = length_of blocks) ∧
    (∀ n d, (n, d) ∈ ds → performs sr blocks (λ name, events_of max_fr sr n name on pos after) d (xs n) (ys n)) ∧
    (∀ n d ch i, (n, d) ∈ ds → ch < device_inputs d → i < length_of blocks →
       at_ (xs n ch) i = mix_of (λ m c, at_ (ys m c) i) (at_ (input_stream 0%R max_ch (bool_decide (net_input ws = Some n)) on after ch) i) (connections_into n ws) ch) ∧
    (∀ o, net_output ws = Some o → o ∈ ds.*1 → heard_as 0%R max_ch on after (drop (callbacks before) l) (ys o)).
Proof. exact (library_net nbuf max_ch max_fr sr sh dr ds ks ws before after st l). Qed.
Print Assumptions C98_network_reports.

(** C98: one take.  A recorder told to record before the first block and to stop before the last one hands out, once all
    notifications are read, every frame of its input in between, once and in order. *)
Theorem C98_take (nbuf max_ch max_fr sr : nat) (sh : nat → oracle) (dr : nat → list endpoint → list endpoint)
    (ds : list (id * device)) (ks : list (link R effect)) (ws before after : list (nop R R effect))
    (st : processor R (dspstate R effect)) (l : list (owned R))
    (n : id) (cc count size : nat) (inbox : list (list (rop R))) (bs : list (timestamp * nat)) (b : timestamp * nat) :
  let os := before ++ (create <$> ks) ++ ws ++ after in
  made sr max_fr ds ks →
  good_setup (dsp_process R_num (λ v, v) effect_run) nbuf max_fr sr sh dr (to_pop <$> os) →
  settled ks ws before after → unprocessed [] (to_pop <$> os) = [] →
  prun 0%R Rplus (dsp_process R_num (λ v, v) effect_run) sh dr (new_processor 0%R nbuf sr max_ch max_fr) (to_pop <$> os) = Ok (st, l) →
  let on := running false (sent (to_pop <$> before)) in
  let pos := frames_played false (to_pop <$> before) in
  let blocks := blocks_of max_fr sr on pos after in
  (n, DRecorder cc count size inbox) ∈ ds → blocks = bs ++ [b] → one_take (length bs) inbox →
  ∃ a (xs ys : id → stream R) st' r got rest, graph_is st a ∧
    s_nodes (a_graph a) !! n = Some (Dsp cc 0 st') ∧ ds_proc st' = FRecorder r got rest ∧
    (∀ more r' got', Forall (λ o, o = HandleNote ∨ o = TakeRecording) more →
       rrun 0%R code_note_capacity code_event_capacity r got more = Ok (r', got') → rp_notes (rc_proc r') = [] →
       RecorderSpec.received got' r' = stream_frames cc (xs n) (length_of bs) ∧ rc_is_recording r' = false) ∧
    (∀ n d, (n, d) ∈ ds → performs sr blocks (λ name, events_of max_fr sr n name on pos after) d (xs n) (ys n)) ∧
    (∀ n d ch i, (n, d) ∈ ds → ch < device_inputs d → i < length_of blocks →
       at_ (xs n ch) i = mix_of (λ m c, at_ (ys m c) i) (at_ (input_stream 0%R max_ch (bool_decide (net_input ws = Some n)) on after ch) i) (connections_into n ws) ch).
Proof. exact (library_take nbuf max_ch max_fr sr sh dr ds ks ws before after st l n cc count size inbox bs b). Qed.
Print Assumptions C98_take.

(** A sampler that plays to the output and into a recorder of two blocks of four frames, told to stop before the third
    block: the program runs, and reading the notifications afterwards hands out the six frames of the two blocks. *)
Example C98_case :
  made 100 4 studio studio_links ∧
  good_setup (dsp_process R_num (λ v, v) effect_run) 8 4 100 (λ _, rev_order) (λ _ l, l) (to_pop <$> studio_history) ∧
  settled studio_links studio_calls solo_before solo_after ∧ unprocessed [] (to_pop <$> studio_history) = [] ∧
  (1, DRecorder 2 2 4 studio_inbox) ∈ studio ∧
  blocks_of 4 100 (running false (sent (to_pop <$> solo_before))) (frames_played false (to_pop <$> solo_before)) solo_after =
    [(time_of 100 2, 4); (time_of 100 6, 2)] ++ [(time_of 100 8, 2)] ∧
  one_take 2 studio_inbox ∧
  (∃ st l, prun 0%R Rplus (dsp_process R_num (λ v, v) effect_run) (λ _, rev_order) (λ _ l, l) (new_processor 0%R 8 100 2 4) (to_pop <$> studio_history) = Ok (st, l)) ∧
  match studio_recorder with
  | Some (r, got) => match rrun 0%R code_note_capacity code_event_capacity r got [HandleNote; HandleNote; HandleNote; HandleNote; TakeRecording] with
                     | Ok (r', got') => bool_decide (length (rp_notes (rc_proc r')) = 0) && bool_decide (length (RecorderSpec.received got' r') = 6)
                     | Panic _ => false
                     end
  | None => false
  end = true.
Proof.
  split; [exact studio_made|]. split; [exact studio_setup|]. split; [exact studio_settled|]. split; [reflexivity|]. split; [by right; left|]. split; [vm_compute; reflexivity|].
  split; [|split; [exact studio_runs|exact studio_reads]]. by exists [], [[HandleNote]], [HandleNote]; repeat constructor.
Qed.
