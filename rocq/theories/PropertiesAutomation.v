(** C101: an automation asked for by calls is the curve that is heard. *)
From stdpp Require Import gmap list list_numbers strings.
From Coq Require Import ZArith Reals.
From Verif Require Import Base Graph TopoSort TopoSortSpec TopoSortProofs Buffer BufferSpec DspGraph DspGraphSpec Float Timestamp Processor ProcessorSpec
  AudioParam AudioParamSpec AudioParamR Mixer MixerR MixerSpec Node NodeSpec StreamSpec AutomationSpec AutomationProofs AutomationCases.

(** C101: jumps, lines and curves that follow one another, asked for in any order and between any blocks, each before its first frame is
    played: the values of the parameter are the curve, frame by frame, whatever the sizes of the blocks. [q] ticks of time per frame: sample rates
    that divide 2^32. *)
Theorem C101_automation (sr : nat) (q : Z) (v : R) (l : list move) (k : nat) (gs : list gesture) :
  (Z.of_nat sr * q = 2 ^ 32)%Z → (0 < q)%Z → in_turn l → all_fit v l → asked gs ≡ₚ l → in_time k gs →
  (∀ n, Play n ∈ gs → (Z.of_nat n * q <= 2 ^ 53)%Z) →
  ∃ p, run_param R_num sr (new_param R_num v) (engine_ops q k gs) = Ok (p, automation v l <$> seq k (played_frames gs)).
Proof. exact (λ Hq Hq0, automation_ok sr q Hq Hq0 v l k gs). Qed.
Print Assumptions C101_automation.

(** C101: the same for the calls of any program on a parameter of one of its nodes. [valued] is what the theorems about networks (C95, C97) say of the
    parameters of their nodes. *)
Theorem C101_parameter {A P : Type} (sr : nat) (q : Z) (max_fr : nat) (n : id) (name : string) (on : bool) (pos : nat) (os : list (nop R A P))
    (v : R) (l calls : list move) :
  let frames := length_of (blocks_of max_fr sr on pos os) in
  (Z.of_nat sr * q = 2 ^ 32)%Z → (0 < q)%Z → 0 < max_fr → (Z.of_nat (pos + frames) * q <= 2 ^ 53)%Z →
  calls_ask q n name on pos os calls → calls ≡ₚ l → in_turn l → all_fit v l →
  valued sr v (events_of max_fr sr n name on pos os) (automation v l <$> seq pos frames).
Proof. exact (λ Hq Hq0, automation_engine sr q Hq Hq0 max_fr n name on pos os v l calls). Qed.
Print Assumptions C101_parameter.

(** C101: what is heard through a gain whose automation a program asks for is the input times the curve. *)
Theorem C101_gain (sr : nat) (q : Z) (nbuf max_ch max_fr : nat) (sh : nat → oracle) (dr : nat → list endpoint → list endpoint)
    (n : id) (cc : nat) (initial : R) (before after : list (nop R R unit)) (st : processor R (dspstate R unit)) (out : list (owned R)) (l calls : list move) :
  (Z.of_nat sr * q = 2 ^ 32)%Z → (0 < q)%Z →
  let os := before ++ NNew n cc cc (gain_state R_num initial) :: NInput n :: NOutput n :: after in
  let proc := dsp_process R_num (λ v, v) (gain_run gain_process_R) in
  good_setup proc nbuf max_fr sr sh dr (to_pop <$> os) → direct n before after → unprocessed [] (to_pop <$> os) = [] →
  prun 0%R Rplus proc sh dr (new_processor 0%R nbuf sr max_ch max_fr) (to_pop <$> os) = Ok (st, out) →
  let on := running false (sent (to_pop <$> before)) in
  let pos := frames_played false (to_pop <$> before) in
  let frames := length_of (blocks_of max_fr sr on pos after) in
  (Z.of_nat (pos + frames) * q <= 2 ^ 53)%Z → calls_ask q n "gain" on pos after calls → calls ≡ₚ l → in_turn l → all_fit initial l →
  amplified (/ 2 ^ 22) max_ch cc on after (drop (callbacks before) out) (automation initial l <$> seq pos frames).
Proof. exact (λ Hq Hq0, automation_gain sr q Hq Hq0 nbuf max_ch max_fr sh dr n cc initial before after st out l calls). Qed.
Print Assumptions C101_gain.

(** From 1: a jump to 2 on frame 1, a line to 4 over frames 2 and 3, a curve back to 1 over frames 5 and 6; the curve and the jump are asked for
    first, the line after 2 frames. *)
Example C101_case :
  (Z.of_nat 64 * 2 ^ 26 = 2 ^ 32)%Z ∧ in_turn ride ∧ all_fit 1 ride ∧ asked ride_gestures ≡ₚ ride ∧ in_time 0 ride_gestures ∧
  (∀ n, Play n ∈ ride_gestures → (Z.of_nat n * 2 ^ 26 <= 2 ^ 53)%Z) ∧
  automation 1 ride <$> seq 0 (played_frames ride_gestures) = [1; 2; 3; 4; 4; 2; 1; 1]%R.
Proof.
  split; [reflexivity|]. split; [exact ride_in_turn|]. split; [exact ride_fit|]. split; [exact (ride_order curve_down)|]. split; [exact ride_in_time|].
  split; [|exact ride_curve]. intros n Hn. repeat (apply elem_of_cons in Hn as [Hn|Hn]; [first [discriminate Hn|injection Hn as ->; apply Z.leb_le; reflexivity]|]).
  by apply elem_of_nil in Hn.
Qed.

(** The same with a line in place of the curve, asked of a gain node in an engine between two callbacks. *)
Example C101_gain_case :
  let proc := dsp_process R_num (λ v, v) (gain_run gain_process_R) in
  good_setup proc 8 4 64 (λ _, rev_order) (λ _ l, l) (to_pop <$> ride_history) ∧
  direct 0 ride_before ride_after ∧ unprocessed [] (to_pop <$> ride_history) = [] ∧
  (∃ st out, prun 0%R Rplus proc (λ _, rev_order) (λ _ l, l) (new_processor 0%R 8 64 2 4) (to_pop <$> ride_history) = Ok (st, out)) ∧
  let on := running false (sent (to_pop <$> ride_before)) in
  let pos := frames_played false (to_pop <$> ride_before) in
  let frames := length_of (blocks_of 4 64 on pos ride_after) in
  (Z.of_nat (pos + frames) * 2 ^ 26 <= 2 ^ 53)%Z ∧ calls_ask (2 ^ 26) 0 "gain" on pos ride_after [line_down; jump_up; line_up] ∧
  [line_down; jump_up; line_up] ≡ₚ straight_ride ∧ in_turn straight_ride ∧ all_fit 1 straight_ride ∧
  automation 1 straight_ride <$> seq pos frames = [1; 2; 3; 4; 4; 5 / 2; 1; 1]%R.
Proof.
  split; [exact ride_ok|]. split; [exact ride_direct|]. split; [reflexivity|]. split; [exact ride_runs|]. cbv zeta.
  split; [apply Z.leb_le; reflexivity|]. split; [exact ride_called|]. split; [exact (ride_order line_down)|]. split; [exact straight_in_turn|].
  split; [exact straight_fit|exact straight_curve].
Qed.
