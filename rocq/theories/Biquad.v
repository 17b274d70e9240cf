(** The biquad filter: src/effects/biquad/, with exact arithmetic.  A division by zero (a0 = 0)
    gives 0 here and an infinity in the code: statements exclude it. *)
From stdpp Require Import list.
From Coq Require Import Reals.
From Verif Require Import Base Buffer Mixer MixerR.
Local Open Scope R_scope.

(** biquad_coefficients.rs l.6-12 *)
Record coefficients := Coefficients { c_a1 : R; c_a2 : R; c_b0 : R; c_b1 : R; c_b2 : R }.
(** the end of the constructors (e.g. l.27-35), `let scale = 1.0 / a0` *)
Definition scaled_by (a0 a1 a2 b0 b1 b2 : R) : coefficients :=
  let scale := 1 / a0 in Coefficients (a1 * scale) (a2 * scale) (b0 * scale) (b1 * scale) (b2 * scale).
(** l.188-190 *)
Definition omega (center_frequency sample_rate : R) : R := 2 * PI * center_frequency / sample_rate.
(** l.15-36 *)
Definition low_pass (center_frequency sample_rate q : R) : coefficients :=
  let omega := omega center_frequency sample_rate in
  let b0 := (1 - cos omega) / 2 in
  let b1 := 2 * b0 in
  let b2 := b0 in
  let alpha := sin omega / (2 * q) in
  scaled_by (1 + alpha) (-2 * cos omega) (1 - alpha) b0 b1 b2.
(** l.38-59 *)
Definition high_pass (center_frequency sample_rate q : R) : coefficients :=
  let omega := omega center_frequency sample_rate in
  let b0 := (1 + cos omega) / 2 in
  let b1 := - (1 + cos omega) in
  let b2 := b0 in
  let alpha := sin omega / (2 * q) in
  scaled_by (1 + alpha) (-2 * cos omega) (1 - alpha) b0 b1 b2.
(** l.61-82 *)
Definition band_pass (center_frequency sample_rate q : R) : coefficients :=
  let omega := omega center_frequency sample_rate in
  let alpha := sin omega / (2 * q) in
  scaled_by (1 + alpha) (-2 * cos omega) (1 - alpha) alpha 0 (- alpha).
(** l.84-105 *)
Definition notch (center_frequency sample_rate q : R) : coefficients :=
  let omega := omega center_frequency sample_rate in
  let alpha := sin omega / (2 * q) in
  scaled_by (1 + alpha) (-2 * cos omega) (1 - alpha) 1 (-2 * cos omega) 1.
(** l.107-135; the level is its linear gain (Level.v) *)
Definition low_shelf (center_frequency sample_rate level : R) : coefficients :=
  let a := sqrt level in
  let omega := omega center_frequency sample_rate in
  let beta := sqrt (2 * a) in
  let sin_omega := sin omega in
  let cos_omega := cos omega in
  let beta_sin_omega := beta * sin_omega in
  scaled_by ((a + 1) + (a - 1) * cos_omega + beta_sin_omega) (-2 * ((a - 1) + (a + 1) * cos_omega)) ((a + 1) + (a - 1) * cos_omega - beta_sin_omega)
    (a * ((a + 1) - (a - 1) * cos_omega + beta_sin_omega)) (2 * a * ((a - 1) - (a + 1) * cos_omega)) (a * ((a + 1) - (a - 1) * cos_omega - beta_sin_omega)).
(** l.137-165 *)
Definition high_shelf (center_frequency sample_rate level : R) : coefficients :=
  let a := sqrt level in
  let omega := omega center_frequency sample_rate in
  let beta := sqrt (a + a) in
  let sin_omega := sin omega in
  let cos_omega := cos omega in
  let beta_sin_omega := beta * sin_omega in
  scaled_by ((a + 1) - (a - 1) * cos_omega + beta_sin_omega) (2 * ((a - 1) - (a + 1) * cos_omega)) ((a + 1) - (a - 1) * cos_omega - beta_sin_omega)
    (a * ((a + 1) + (a - 1) * cos_omega + beta_sin_omega)) (-2 * a * ((a - 1) + (a + 1) * cos_omega)) (a * ((a + 1) + (a - 1) * cos_omega - beta_sin_omega)).

(** filter_type.rs l.6-35 *)
Inductive filter_type := HighPass | LowPass | BandPass | Notch | HighShelf | LowShelf.
(** biquad_processor.rs l.14-18 *)
Record filter_parameters := FilterParameters { p_frequency : R; p_q : R; p_shelf_gain : R }.
(** l.20-50 *)
Definition calculate_coefficients (t : filter_type) (p : filter_parameters) (sample_rate : nat) : coefficients :=
  match t with
  | HighPass => high_pass (p_frequency p) (INR sample_rate) (p_q p)
  | LowPass => low_pass (p_frequency p) (INR sample_rate) (p_q p)
  | BandPass => band_pass (p_frequency p) (INR sample_rate) (p_q p)
  | Notch => notch (p_frequency p) (INR sample_rate) (p_q p)
  | HighShelf => high_shelf (p_frequency p) (INR sample_rate) (p_shelf_gain p)
  | LowShelf => low_shelf (p_frequency p) (INR sample_rate) (p_shelf_gain p)
  end.
(** l.13, derive(PartialEq) *)
Definition same_parameters (p p' : filter_parameters) : bool :=
  if Req_EM_T (p_frequency p) (p_frequency p') then if Req_EM_T (p_q p) (p_q p') then if Req_EM_T (p_shelf_gain p) (p_shelf_gain p') then true else false else false else false.

(** l.132-140 *)
Definition denormal (sample : R) : R :=
  if Rle_dec (- (/ 10 ^ 8)) sample then if Rle_dec sample (/ 10 ^ 8) then 0 else sample else sample.

(** l.5-11; the delays of a channel: two inputs, two outputs *)
Record delay := Delay { d_x1 : R; d_x2 : R; d_y1 : R; d_y2 : R }.
Record biquad := Biquad {
  bq_type : filter_type;
  bq_sample_rate : nat;
  bq_coefficients : coefficients;
  bq_last : filter_parameters;
  bq_delays : list delay }.
(** l.52-66 *)
Definition new_biquad (sample_rate channel_count : nat) (t : filter_type) : biquad :=
  let p := FilterParameters 1000 (1 / sqrt 2) 1 in
  Biquad t sample_rate (calculate_coefficients t p sample_rate) p (replicate channel_count (Delay 0 0 0 0)).

(** l.104-113 *)
Definition filter_value (c : coefficients) (d : delay) (input_sample : R) : R :=
  c_b0 c * input_sample + c_b1 c * d_x1 d + c_b2 c * d_x2 d - c_a1 c * d_y1 d - c_a2 c * d_y2 d.
(** l.115-122 *)
Definition filter_delay (d : delay) (input_sample out : R) : delay :=
  Delay (denormal input_sample) (denormal (d_x1 d)) (denormal out) (denormal (d_y1 d)).
(** l.100-125 *)
Definition bq_channel (c : coefficients) (inp : owned R) (iv ov : view) (frame : nat) (s : list delay * owned R) (channel : nat) : res (list delay * owned R) :=
  let '(delays, out) := s in
  let? input_sample := get_sample inp iv channel frame in
  let? d := runwrap (delays !! channel) IndexOutOfRange in
  let y := filter_value c d input_sample in
  let? out := set_sample out ov channel frame y in
  Ok (<[channel := filter_delay d input_sample y]> delays, out).
(** l.87-126 *)
Definition bq_frame (frequency q shelf_gain : list R) (inp : owned R) (iv ov : view) (s : biquad * owned R) (frame : nat) : res (biquad * owned R) :=
  let '(b, out) := s in
  let? f := runwrap (frequency !! frame) IndexOutOfRange in
  let? q := runwrap (q !! frame) IndexOutOfRange in
  let? g := runwrap (shelf_gain !! frame) IndexOutOfRange in
  let p := FilterParameters f q g in
  let '(c, last) := if same_parameters p (bq_last b) then (bq_coefficients b, bq_last b) else (calculate_coefficients (bq_type b) p (bq_sample_rate b), p) in
  let? (delays, out) := rfold (bq_channel c inp iv ov frame) (seq 0 (v_channels out ov)) (bq_delays b, out) in
  Ok (Biquad (bq_type b) (bq_sample_rate b) c last delays, out).
(** l.70-128 *)
Definition bq_process (frequency q shelf_gain gain : list R) (inp : owned R) (iv : view) (out : owned R) (ov : view) (b : biquad) : res (biquad * owned R) :=
  let? (b, out) := rfold (bq_frame frequency q shelf_gain inp iv ov) (seq 0 (v_frames out ov)) (b, out) in
  let? out := apply_gain 0 (λ g, close32R g 0) (λ g, close32R g 1) Rmult out ov gain in
  Ok (b, out).
