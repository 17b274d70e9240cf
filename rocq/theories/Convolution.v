(** The convolution node: src/effects/convolution/convolution_processor.rs, with exact
    arithmetic and the discrete Fourier transform of Complex.v. *)
From stdpp Require Import list.
From Coq Require Import Reals.
From Verif Require Import Base Buffer Effect Complex.
Local Open Scope R_scope.

(** l.8-17, without the plans of the transforms and without input_fft and complex_output,
    which are overwritten for every chunk before they are read *)
Record convolution := Convolution {
  cv_impulse_fft : list (list complex);
  cv_input : list (list complex);
  cv_scale : R;
  cv_maximum : nat }.

(** usize::next_power_of_two (core) *)
Definition next_power_of_two (n : nat) : nat := (2 ^ Nat.log2_up n)%nat.
(** l.180-186: the impulse response padded with zeros (Vec::resize) *)
Definition padded (length_ : nat) (impulse : list R) : list complex :=
  take length_ (of_real <$> impulse) ++ replicate (length_ - length impulse) czero.
(** l.171-193 *)
Definition fft_impulse (impulse : owned R) (convolution_length : nat) : res (list (list complex)) :=
  rfold (λ l channel, let? h := get_channel_data impulse Whole channel 0 in Ok (l ++ [fft_forward (padded convolution_length h)]))
    (seq 0 (channels impulse)) [].
(** l.20-38 *)
Definition new_convolution (impulse : owned R) (maximum_frame_count : nat) : res convolution :=
  rassert (1 <=? frames impulse + maximum_frame_count)%nat Underflow (
  let convolution_length := next_power_of_two (frames impulse + maximum_frame_count - 1) in
  let? impulse_fft := fft_impulse impulse convolution_length in
  Ok (Convolution impulse_fft (replicate (channels impulse) (replicate convolution_length czero))
        (1 / INR convolution_length) maximum_frame_count)).

(** l.40-61, the new complex_input: the old one moved to the front by frame_count entries
    (copy_within), the input behind it *)
Definition consume_channel (inp : owned R) (iv : view) (input : list (list complex)) (channel : nat) : res (list (list complex)) :=
  let frame_count := v_frames inp iv in
  let? complex_input := runwrap (input !! channel) UnwrapNone in
  rassert (frame_count <=? length complex_input)%nat IndexOutOfRange (
  let? audio_data := get_channel_data inp iv channel 0 in
  Ok (<[channel := drop frame_count complex_input ++ (of_real <$> audio_data)]> input)).
Definition consume_input (inp : owned R) (iv : view) (input : list (list complex)) : res (list (list complex)) :=
  rfold (consume_channel inp iv) (seq 0 (v_channels inp iv)) input.
(** l.63-90: transform, multiply, transform back; izip! *)
Definition convolve (input impulse_fft : list (list complex)) : list (list complex) :=
  zip_with (λ complex_input impulse, fft_inverse (zip_with cmul (fft_forward complex_input) impulse)) input impulse_fft.
(** l.92-102; mix_into_with_gains: dsp/mod.rs l.62-89, output += input * gain (Kernels.v) *)
Definition copy_dry (inp : owned R) (iv : view) (dry : list R) (out : owned R) (ov : view) : res (owned R) :=
  zip_channels (λ y x, x + y) (λ channel, let? input := get_channel_data inp iv channel 0 in Ok (zip_with Rmult input dry))
    ov (v_channels out ov) out.
(** l.104-127 *)
Definition copy_processed (complex_output : list (list complex)) (output_scale : R) (wet : list R) (out : owned R) (ov : view) : res (owned R) :=
  zip_channels (λ y x, x + y)
    (λ channel,
      let? convolution_output := runwrap (complex_output !! channel) UnwrapNone in
      rassert (v_frames out ov <=? length convolution_output)%nat Underflow (
      let index := (length convolution_output - v_frames out ov)%nat in
      Ok (zip_with (λ z wet, re z * output_scale * wet) (drop index convolution_output) wet)))
    ov (v_channels out ov) out.

(** `&values[offset..offset + frame_count]` *)
Definition subslice {A} (l : list A) (offset n : nat) : res (list A) :=
  rassert (offset + n <=? length l)%nat IndexOutOfRange (Ok (take n (drop offset l))).
(** l.141-161 *)
Definition conv_chunk (wet dry : list R) (inp : owned R) (iv ov : view) (s : convolution * owned R) (offset : nat) : res (convolution * owned R) :=
  let '(c, out) := s in
  let frame_count := (cv_maximum c `min` (v_frames inp iv - offset))%nat in
  let? wet := subslice wet offset frame_count in
  let? dry := subslice dry offset frame_count in
  let? iv := slice_frames inp iv offset frame_count in
  let? ov := slice_frames out ov offset frame_count in
  let? input := consume_input inp iv (cv_input c) in
  let complex_output := convolve input (cv_impulse_fft c) in
  let? out := copy_dry inp iv dry out ov in
  let? out := copy_processed complex_output (cv_scale c) wet out ov in
  Ok (Convolution (cv_impulse_fft c) input (cv_scale c) (cv_maximum c), out).
(** `(0..n).step_by(step)`, which panics for step 0 *)
Definition step_by (n step : nat) : res (list nat) :=
  rassert (1 <=? step)%nat AssertFailed (Ok ((λ k, (k * step)%nat) <$> seq 0 ((n + step - 1) / step))).
(** l.129-162, l.196-206 (debug assertions omitted) *)
Definition conv_process (wet dry : list R) (inp : owned R) (iv : view) (out : owned R) (ov : view) (c : convolution) : res (convolution * owned R) :=
  let? offsets := step_by (v_frames inp iv) (cv_maximum c) in
  rfold (conv_chunk wet dry inp iv ov) offsets (c, out).
