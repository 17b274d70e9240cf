(** Property theorems about timestamps.  Values of type f64 are integers in
    units of 2^-1074 ([one64] is 1.0), timestamps integers in units of 2^-32 s. *)
From Coq Require Import ZArith Lia.
From Verif Require Import Float FloatProofs Timestamp TimestampProofs.
Local Open Scope Z_scope.

(** The f64 arithmetic of the model: the exact result, rounded to a nearest
    number of 53 bits (an integer multiple of 2^-1074 when subnormal): nothing
    representable lies closer. *)
Theorem rounding_is_nearest a b x : 0 < b -> repr 53 x ->
  repr 53 (rnd 53 a b) /\ Z.abs (b * rnd 53 a b - a) <= Z.abs (b * x - a).
Proof. exact (rnd_nearest 53 a b x eq_refl). Qed.
Print Assumptions rounding_is_nearest.

(** C17: the timestamp of frame [n] differs from n / sr seconds by at most half
    a tick and 2^-53 of the time (the rounding of the division). *)
Theorem C17_conversion_error n sr : 0 <= n <= 2 ^ 53 -> 0 < sr <= 2 ^ 53 ->
  2 ^ 22 * Z.abs (sr * from_samples (f64_of_Z n) sr - n * 2 ^ 32) <= 2 ^ 21 * sr + 2 * n.
Proof. exact (frame_time_error n sr). Qed.
Print Assumptions C17_conversion_error.

(** C17: distinct frames have distinct timestamps in the same order. *)
Theorem C17_order_kept n m sr : 0 <= n < m -> m <= 2 ^ 50 -> 0 < sr <= 2 ^ 31 ->
  from_samples (f64_of_Z n) sr < from_samples (f64_of_Z m) sr.
Proof. exact (frame_time_strict n m sr). Qed.
Print Assumptions C17_order_kept.

(** C17: converting back and rounding to the nearest integer gives the frame. *)
Theorem C17_round_trip n sr : 0 <= n <= 2 ^ 48 -> 0 < sr <= 2 ^ 31 -> n <= sr * 2 ^ 30 ->
  rne (as_samples (from_samples (f64_of_Z n) sr) sr) one64 = n.
Proof. exact (roundtrip n sr). Qed.
Print Assumptions C17_round_trip.

(** C17: the error of the round trip is below half a frame (strictly). *)
Theorem C17_round_trip_error n sr : 0 <= n <= 2 ^ 48 -> 0 < sr <= 2 ^ 31 -> n <= sr * 2 ^ 30 ->
  2 * Z.abs (as_samples (from_samples (f64_of_Z n) sr) sr - n * one64) < one64.
Proof. exact (roundtrip_half n sr). Qed.
Print Assumptions C17_round_trip_error.

(** C17 as first stated (half a tick) is violated far into a stream: 12 days at 44.1 kHz. *)
Theorem C17_half_tick_refuted : exists n sr, sr = 44100 /\ n = 46242201597 /\
  sr < 2 * Z.abs (sr * from_samples (f64_of_Z n) sr - n * 2 ^ 32).
Proof. exists 46242201597, 44100. split; [reflexivity|]. split; [reflexivity|]. vm_compute. reflexivity. Qed.
Print Assumptions C17_half_tick_refuted.

(** C18 is violated: an event at frame 2 of a stream of 44.1 kHz falls on frame 1
    of the block that starts at frame 0. *)
Theorem C18_event_frame_refuted : exists n sr, sr = 44100 /\ n = 2 /\
  position_in_frame ts_zero (from_samples (f64_of_Z n) sr) sr = n - 1.
Proof. exists 2, 44100. split; [reflexivity|]. split; [reflexivity|]. vm_compute. reflexivity. Qed.
Print Assumptions C18_event_frame_refuted.

(** C18: how far off an event can be.  The block starts at frame p + o of the
    stream: [o] frames into a callback that starts at frame [p], at the time the
    engine computes for it.  An event at frame [n] at or after it, whose time is
    not before the block's start, falls on its frame or the one before: never
    later, never more than one early. *)
Theorem C18_at_most_one_early_partial n p o sr :
  0 <= p -> 0 <= o -> p + o <= n -> n <= 2 ^ 46 -> 0 < sr <= 2 ^ 29 -> n <= sr * 2 ^ 30 ->
  let start := incremented_by_samples (from_samples (f64_of_Z p) sr) o sr in
  let t := from_samples (f64_of_Z n) sr in
  start <= t ->
  let frame := p + o + position_in_frame start t sr in
  frame = n \/ frame = n - 1.
Proof. exact (event_frame n p o sr). Qed.
Print Assumptions C18_at_most_one_early_partial.

(** C18: an event at frame [n] belongs to the block (of [c] frames) that contains
    frame [n], or to the one before it when [n] is a block's first frame: it is
    before the end of the block containing it. *)
Theorem C18_event_before_block_end n p o c sr :
  0 <= p -> 0 <= o -> 0 <= c -> p + o <= n < p + o + c -> p + o + c <= 2 ^ 46 -> 0 < sr <= 2 ^ 29 ->
  from_samples (f64_of_Z n) sr <
  incremented_by_samples (incremented_by_samples (from_samples (f64_of_Z p) sr) o sr) c sr.
Proof. exact (event_before_end n p o c sr). Qed.
Print Assumptions C18_event_before_block_end.

(** C18: and it is not before the end of any block that ends a frame or more before it. *)
Theorem C18_event_not_in_earlier_block n p o c sr :
  0 <= p -> 0 <= o -> 0 <= c -> p + o + c < n -> n <= 2 ^ 46 -> 0 < sr <= 2 ^ 29 ->
  incremented_by_samples (incremented_by_samples (from_samples (f64_of_Z p) sr) o sr) c sr <=
  from_samples (f64_of_Z n) sr.
Proof. exact (event_after_end n p o c sr). Qed.
Print Assumptions C18_event_not_in_earlier_block.

(** C18: for sample rates that divide 2^32 times are exact and so are events. *)
Theorem C18_exact_for_dividing_rates_partial n p o sr q :
  0 <= p -> 0 <= o -> p + o <= n -> sr * q = 2 ^ 32 -> 0 < q -> 0 < sr -> n * q <= 2 ^ 53 ->
  let start := incremented_by_samples (from_samples (f64_of_Z p) sr) o sr in
  let t := from_samples (f64_of_Z n) sr in
  p + o + position_in_frame start t sr = n.
Proof. exact (event_frame_exact n p o sr q). Qed.
Print Assumptions C18_exact_for_dividing_rates_partial.

(** Concrete cases: an hour into a stream of 48 kHz, block at 512 frames of a
    callback, event three frames in. *)
Example C18_case :
  let sr := 48000 in let p := 48000 * 3600 in let o := 512 in let n := p + o + 3 in
  let start := incremented_by_samples (from_samples (f64_of_Z p) sr) o sr in
  let t := from_samples (f64_of_Z n) sr in
  start <= t /\ position_in_frame start t sr = 3 /\
  rne (as_samples t sr) one64 = n.
Proof. vm_compute. repeat split; try discriminate; reflexivity. Qed.

Example C18_exact_case : exists q, 4096 * q = 2 ^ 32 /\ 0 < q /\ 1000000 * q <= 2 ^ 53.
Proof. exists (2 ^ 20). lia. Qed.
