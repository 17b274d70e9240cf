(** The compressor: src/effects/compressor/compressor_processor.rs, over the real numbers.

    The input is finite; output samples and gains are [option R], [None] being NaN (0/0).
    Operations with a NaN operand give NaN and comparisons with one are false. *)
From stdpp Require Import list.
From Coq Require Import Reals.
From Verif Require Import Base Buffer Envelope Level MixerR.
Local Open Scope R_scope.

Definition nan_mul (x y : option R) : option R := a ← x; b ← y; Some (a * b).
Definition nan_add (x y : option R) : option R := a ← x; b ← y; Some (a + b).
(** relative_eq! with a constant *)
Definition nan_close (c : R) (x : option R) : bool := match x with Some a => close32R a c | None => false end.
Definition finite_buffer (b : owned R) : owned (option R) := Owned (Some <$> data b) (channels b) (frames b) (rate b).

(** l.77-93.  The ratio is not zero.  In the last branch the level is exactly at the upper
    end of the knee; with knee 0 it computes 0 / 0. *)
Definition gain_reduction (envelope knee threshold ratio : R) : option R :=
  let envelope_db := as_db envelope in
  let half_knee := / 2 * knee in
  let output :=
    if Rlt_dec envelope_db (threshold + half_knee) then Some envelope_db
    else if Rlt_dec (threshold + half_knee) envelope_db then Some (threshold + (envelope_db - threshold) / ratio)
    else
      let excess := envelope_db - threshold + half_knee in
      if Req_EM_T (2 * knee) 0 then None
      else Some (envelope_db + (1 / ratio - 1) * excess * excess / (2 * knee)) in
  output ← output; Some (from_db (output - envelope_db)).

(** l.11-14 *)
Record compressor := Compressor { cp_envelopes : list follower; cp_gain : owned (option R) }.
(** l.17-34; defaults of attack and release: compressor_parameters.rs l.5-6, milliseconds *)
Definition new_compressor (channel_count sample_rate maximum_frame_count : nat) : compressor :=
  Compressor (replicate channel_count (new_follower (INR sample_rate) (1 / 1000) (10 / 1000)))
    (new_buffer (Some 0) maximum_frame_count channel_count sample_rate).

(** values of the parameters for a block *)
Record comp_params := CompParams {
  p_attack : list R; p_release : list R; p_knee : list R; p_threshold : list R; p_ratio : list R; p_wet : list R; p_dry : list R }.

(** l.64-73: the follower over (sample, attack, release), attack and release in
    milliseconds; the levels and the final follower.  Duration::from_secs_f32 panics on a
    negative number; rounding to nanoseconds omitted. *)
Definition duration (ms : R) : res R := rassert (if Rle_dec 0 ms then true else false) AssertFailed (Ok (ms / 1000)).
Fixpoint comp_follow (f : follower) (l : list (R * (R * R))) : res (list R * follower) :=
  match l with
  | [] => Ok ([], f)
  | (x, (attack, release)) :: l =>
      let? attack := duration attack in
      let? release := duration release in
      let f := follow (set_release_time release (set_attack_time attack f)) x in
      let? (levels, f') := comp_follow f l in Ok (fl_level f :: levels, f')
  end.
(** l.58-74, one channel *)
Definition comp_envelope (p : comp_params) (inp : owned R) (iv : view) (c : compressor) (channel : nat) : res compressor :=
  let? input_samples := get_channel_data inp iv channel 0 in
  let? (st, en) := locate (cp_gain c) Whole channel 0 in
  let? f := runwrap (cp_envelopes c !! channel) IndexOutOfRange in
  let? (levels, f') := comp_follow f (take (en - st) (zip input_samples (zip (p_attack p) (p_release p)))) in
  Ok (Compressor (<[channel := f']> (cp_envelopes c))
        (with_data (cp_gain c) (seg_zip (λ y _, Some y) (data (cp_gain c)) st levels))).
(** l.45-75 *)
Definition process_envelope (p : comp_params) (inp : owned R) (iv : view) (c : compressor) : res compressor :=
  rfold (comp_envelope p inp iv) (seq 0 (v_channels inp iv)) c.

(** l.124-130: the mean of the channels' levels *)
Definition comp_mean (gr : owned (option R)) (channel_count frame : nat) : res (option R) :=
  rfold (λ e channel, let? x := get_sample gr Whole channel frame in Ok (nan_add e ((λ x, x / INR channel_count) <$> x)))
    (seq 0 channel_count) (Some 0).
(** l.123-143, one frame *)
Definition comp_frame (p : comp_params) (channel_count : nat) (gr : owned (option R)) (frame : nat) : res (owned (option R)) :=
  let? envelope := comp_mean gr channel_count frame in
  let? knee := runwrap (p_knee p !! frame) IndexOutOfRange in
  let? threshold := runwrap (p_threshold p !! frame) IndexOutOfRange in
  let? ratio := runwrap (p_ratio p !! frame) IndexOutOfRange in
  let gain := envelope ← envelope; gain_reduction envelope knee threshold ratio in
  rfold (λ gr channel, set_sample gr Whole channel frame gain) (seq 0 channel_count) gr.
(** l.95-159 *)
Definition process_gain_reduction (p : comp_params) (inp : owned R) (iv : view) (out : owned (option R)) (ov : view) (gr : owned (option R)) :
    res (owned (option R) * owned (option R)) :=
  let? gr := rfold (comp_frame p (v_channels out ov)) (seq 0 (v_frames out ov)) gr in
  let? out := copy_from out ov (finite_buffer inp) iv 0 0 0 0 (v_channels out ov) (v_frames out ov) in
  let? gain := read_seg gr Whole 0 0 (v_frames out ov) in
  let? out := apply_gain (Some 0) (nan_close 0) (nan_close 1) nan_mul out ov gain in
  let? out := apply_gain (Some 0) (nan_close 0) (nan_close 1) nan_mul out ov (Some <$> p_wet p) in
  Ok (gr, out).
(** l.161-176; mix_into_with_gains: dsp/mod.rs l.62-89, output += input * gain *)
Definition process_dry (p : comp_params) (inp : owned R) (iv : view) (out : owned (option R)) (ov : view) : res (owned (option R)) :=
  rfold (λ out channel,
    let? input := get_channel_data inp iv channel 0 in
    let? (st, en) := locate out ov channel 0 in
    Ok (with_data out (seg_zip (λ y x, nan_add x (Some y)) (data out) st (take (en - st) (zip_with Rmult input (p_dry p))))))
    (seq 0 (v_channels out ov)) out.
(** l.180-194 (debug assertions omitted) *)
Definition comp_process (p : comp_params) (inp : owned R) (iv : view) (out : owned (option R)) (ov : view) (c : compressor) :
    res (compressor * owned (option R)) :=
  let? c := process_envelope p inp iv c in
  let? (gr, out) := process_gain_reduction p inp iv out ov (cp_gain c) in
  let? out := process_dry p inp iv out ov in
  Ok (Compressor (cp_envelopes c) gr, out).
