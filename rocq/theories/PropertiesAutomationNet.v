(** C101 in a network: the automations that a program asks for are heard at every node. *)
From stdpp Require Import gmap list list_numbers strings.
From Coq Require Import ZArith Reals Lra.
From Verif Require Import Base Graph GraphSpec TopoSort TopoSortSpec TopoSortProofs Buffer DspGraph DspGraphSpec Timestamp Processor ProcessorSpec AudioParam AudioParamR Biquad BiquadSpec Node NodeSpec
  NodeExamples Chain ChainSpec Effects EffectsSpec StreamSpec LibraryExamples NetProofs NetLibrary
  AutomationSpec AutomationCases NetAutomationSpec NetAutomation NetSpec.
Local Open Scope nat_scope.

(** C101: a program makes nodes of the library, wires them into any network, and asks for automations of any parameters of any of them, in any order and between
    any callbacks.  Then every gain multiplies by its curve, every panner pans along it, every filter is at each frame the one whose frequency, q and shelf
    gain are those of the curves, every convolution mixes wet and dry along them, and every oscillator has the frequency and gain of its curves; the nodes pass
    their sound on as wired, and what is heard is what the output node gives. *)
Theorem C101_network (nbuf max_ch max_fr sr : nat) (q : Z) (sh : nat → oracle) (dr : nat → list endpoint → list endpoint)
    (ds : list (id * device)) (ks : list (link R effect)) (ws before after : list (nop R R effect))
    (st : processor R (dspstate R effect)) (l : list (owned R)) :
  let os := before ++ (create <$> ks) ++ ws ++ after in
  (Z.of_nat sr * q = 2 ^ 32)%Z → (0 < q)%Z →
  made sr max_fr ds ks →
  good_setup (dsp_process R_num (λ v, v) effect_run) nbuf max_fr sr sh dr (to_pop <$> os) →
  settled ks ws before after → unprocessed [] (to_pop <$> os) = [] →
  prun 0%R Rplus (dsp_process R_num (λ v, v) effect_run) sh dr (new_processor 0%R nbuf sr max_ch max_fr) (to_pop <$> os) = Ok (st, l) →
  let on := running false (sent (to_pop <$> before)) in
  let pos := frames_played false (to_pop <$> before) in
  let frames := length_of (blocks_of max_fr sr on pos after) in
  (Z.of_nat (pos + frames) * q <= 2 ^ 53)%Z →
  ∃ xs ys : id → stream R,
    (∀ n d, (n, d) ∈ ds → follows_automation sr pos frames (asks_for q on pos after n) d (xs n) (ys n)) ∧
    (∀ n d, (n, d) ∈ ds → performs sr (blocks_of max_fr sr on pos after) (λ name, events_of max_fr sr n name on pos after) d (xs n) (ys n)) ∧
    (∀ n d ch i, (n, d) ∈ ds → ch < device_inputs d → i < frames →
       at_ (xs n ch) i = mix_of (λ m c, at_ (ys m c) i) (at_ (input_stream 0%R max_ch (bool_decide (net_input ws = Some n)) on after ch) i) (connections_into n ws) ch) ∧
    (∀ o, net_output ws = Some o → o ∈ ds.*1 → heard_as 0%R max_ch on after (drop (callbacks before) l) (ys o)).
Proof. exact (library_automation nbuf max_ch max_fr sr q sh dr ds ks ws before after st l). Qed.
Print Assumptions C101_network.

(** A gain, a low pass and a panner, one after the other.  The gain jumps, rises and falls; the filter is swept from 8 Hz to 16 Hz while the sound moves
    from the middle to the right; the rise and the move to the right are asked for after two frames: the program runs. *)
Example C101_network_case :
  (Z.of_nat 64 * 2 ^ 26 = 2 ^ 32)%Z ∧ made 64 4 desk desk_links ∧
  good_setup (dsp_process R_num (λ v, v) effect_run) 8 4 64 (λ _, rev_order) (λ _ l, l) (to_pop <$> desk_history) ∧
  settled desk_links desk_calls desk_before desk_after ∧ unprocessed [] (to_pop <$> desk_history) = [] ∧
  (∃ st l, prun 0%R Rplus (dsp_process R_num (λ v, v) effect_run) (λ _, rev_order) (λ _ l, l) (new_processor 0%R 8 64 2 4) (to_pop <$> desk_history) = Ok (st, l)) ∧
  let on := running false (sent (to_pop <$> desk_before)) in
  let pos := frames_played false (to_pop <$> desk_before) in
  pos = 0 ∧ length_of (blocks_of 4 64 on pos desk_after) = 8 ∧
  asks_for (2 ^ 26) on pos desk_after 0 "gain" 1 straight_ride ∧ asks_for (2 ^ 26) on pos desk_after 1 "frequency" 8 [sweep] ∧
  asks_for (2 ^ 26) on pos desk_after 1 "q" 1 [] ∧ asks_for (2 ^ 26) on pos desk_after 2 "pan" 0 [to_right] ∧
  automation 0 [to_right] <$> seq 0 8 = [0; 0; 0; / 2; 1; 1; 1; 1]%R.
Proof.
  split; [reflexivity|]. split; [exact desk_made|]. split; [exact desk_setup|]. split; [exact desk_settled|]. split; [reflexivity|]. split; [exact desk_runs|].
  cbv zeta. split; [reflexivity|]. split; [reflexivity|]. split; [exact desk_gain|]. split; [exact desk_sweep|]. split; [by apply desk_rest|]. split; [exact desk_pan|].
  cbn [seq fmap list_fmap automation to_right mv_from mv_end mv_frames mv_to Nat.ltb Nat.leb Nat.add along mv_shape Nat.sub]. change (INR 2) with 2%R. change (INR 1) with 1%R.
  repeat (f_equal; try lra).
Qed.
