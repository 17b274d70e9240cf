(** The waveshaper: src/effects/waveshaper/, over the real numbers.

    Samples and table entries are [option R], [None] being NaN; the input is finite.
    Conversions between f32 and f64 and rounding are omitted. *)
From stdpp Require Import list.
From Coq Require Import Reals ZArith.
From Verif Require Import Base Buffer Effect Envelope Arith Resample Level Compressor.
Local Open Scope R_scope.

(** arithmetic with NaN.  A quotient by 0 is [None]: it is not a finite number. *)
Definition nan_sub (x y : option R) : option R := a ← x; b ← y; Some (a - b).
Definition nan_div (x y : option R) : option R := a ← x; b ← y; if Req_EM_T b 0 then None else Some (a / b).
(** `NaN as usize` is 0 *)
Definition nan_arith : arith (option R) :=
  Arith (Some 0) (Some 1) (λ z, Some (IZR z)) nan_add nan_sub nan_mul nan_div
    (λ x y, match x, y with Some a, Some b => if Rlt_dec a b then true else false | _, _ => false end)
    (λ x, match x with Some a => Int_part a | None => 0%Z end)
    (λ x, match x with Some a => ceiling a | None => 0%Z end).

(** ** shape.rs *)
(** l.5-9, of a finite sample *)
Definition wave_shape_index (sample : R) (shape_length : nat) : R :=
  let normalised := (sample + 1) / 2 in
  let index := normalised * (INR shape_length - 1) in
  Rmin (Rmax index 0) (INR (shape_length - 1)).
(** l.1-3 *)
Definition interpolate (a b amount_of_b : option R) : option R :=
  nan_add (nan_mul (nan_sub (Some 1) amount_of_b) a) (nan_mul amount_of_b b).
(** l.11-35.  The index of a NaN sample is NaN, both table indices are then 0. *)
Definition shape_sample (wave_shape : list (option R)) (sample : option R) : res (option R) :=
  match sample with
  | None => runwrap (wave_shape !! 0%nat) UnwrapNone
  | Some sample =>
      let shape_index := wave_shape_index sample (length wave_shape) in
      let index_before := Z.to_nat (Int_part shape_index) in
      let index_after := Z.to_nat (ceiling shape_index) in
      if decide (index_before = index_after) then runwrap (wave_shape !! index_before) UnwrapNone
      else
        match wave_shape !! index_before, wave_shape !! index_after with
        | Some shape_before, Some shape_after =>
            Ok (interpolate shape_before shape_after (Some (shape_index - INR index_before)))
        | _, _ => runwrap (last wave_shape) UnwrapNone
        end
  end.
(** l.37-41 *)
Definition shape_row (wave_shape : list (option R)) (signal : list (option R)) : res (list (option R)) :=
  rfold (λ row sample, let? y := shape_sample wave_shape sample in Ok (row ++ [y])) signal [].

(** ** waveshaper_node.rs: the curves *)
(** l.29-36 *)
Definition tanh_curve (input : R) : option R := Some (2 * tanh (input / 2)).
(** l.40-56, after the assertion that the threshold is in [0, 1] *)
Definition soft_curve (threshold input : R) : option R :=
  if Rlt_dec input threshold then Some input
  else
    let quotient := nan_div (Some (input - threshold)) (Some (1 - threshold)) in
    nan_add (Some threshold) (nan_div (Some (input - threshold)) (nan_add (Some 1) (nan_mul quotient quotient))).
(** l.60-76 *)
Definition hard_curve (threshold input : R) : option R :=
  Some (if Rlt_dec input (- threshold) then - threshold else if Rlt_dec threshold input then threshold else input).

(** ** waveshaper_processor.rs *)
(** l.19 *)
Definition num_points : nat := 511.
(** l.120-125 *)
Definition map_index_to_input_value (index element_count : nat) : R :=
  let normalised := INR index / (INR element_count - 1) in -1 + normalised * (1 - -1).
(** l.21-24 *)
Definition transfer_function (shaper : R → option R) : list (option R) :=
  (λ index, shaper (map_index_to_input_value index num_points)) <$> seq 0 num_points.
(** l.8-11 *)
Record waveshaper := Waveshaper { ws_table : list (option R); ws_oversampling : owned (option R) }.
(** l.14-34 *)
Definition new_waveshaper (shaper : R → option R) (sample_rate maximum_frame_count : nat) : waveshaper :=
  Waveshaper (transfer_function shaper) (new_buffer (Some 0) (maximum_frame_count * 2) 1 (sample_rate * 2)).

(** one channel zipped with a row *)
Definition zip_one {A B} (f : B → A → A) (l : list B) (ov : view) (ch : nat) (out : owned A) : res (owned A) :=
  let? (st, en) := locate out ov ch 0 in Ok (with_data out (seg_zip f (data out) st (take (en - st) l))).

(** l.61-65, parameters.rs l.4-5 *)
Definition overdrive_to_gain (overdrive : R) : R := from_db (0 + overdrive * (12 - 0)).
(** l.67-72 *)
Definition apply_overdrive (overdrive : list R) : view → nat → owned (option R) → res (owned (option R)) :=
  zip_one (λ o sample, nan_mul sample (Some (overdrive_to_gain o))) overdrive.
(** l.74-79 *)
Definition reverse_overdrive (overdrive : list R) : view → nat → owned (option R) → res (owned (option R)) :=
  zip_one (λ o sample, nan_div sample (Some (overdrive_to_gain o))) overdrive.
(** l.81-88 *)
Definition mix_input (input : list (option R)) (mix : list R) : view → nat → owned (option R) → res (owned (option R)) :=
  zip_one (λ '(i, m) o, nan_add (nan_mul o (Some m)) (nan_mul i (nan_sub (Some 1) (Some m)))) (zip input mix).
(** l.36-58 *)
Definition apply_shape (w : waveshaper) (out : owned (option R)) (ov : view) (channel : nat) : res (waveshaper * owned (option R)) :=
  let? over := sample_rate_convert_from nan_arith (ws_oversampling w) Whole out ov channel 0 0 0 1 in
  let? row := get_channel_data over Whole 0 0 in
  let? shaped := shape_row (ws_table w) row in
  let? over := zip_one (λ y _, y) shaped Whole 0 over in
  let? out := sample_rate_convert_from nan_arith out ov over Whole 0 0 channel 0 1 in
  Ok (Waveshaper (ws_table w) over, out).
(** l.99-116: copy_from_slice panics if the lengths differ *)
Definition ws_channel (overdrive mix : list R) (inp : owned R) (iv ov : view) (s : waveshaper * owned (option R)) (channel : nat) :
    res (waveshaper * owned (option R)) :=
  let '(w, out) := s in
  let? input_data := get_channel_data (finite_buffer inp) iv channel 0 in
  let? (st, en) := locate out ov channel 0 in
  rassert (length input_data =? en - st)%nat AssertFailed (
  let? out := zip_one (λ y _, y) input_data ov channel out in
  let? out := apply_overdrive overdrive ov channel out in
  let? (w, out) := apply_shape w out ov channel in
  let? out := reverse_overdrive overdrive ov channel out in
  let? out := mix_input input_data mix ov channel out in
  Ok (w, out)).
(** l.91-117, given the values of the parameters for the block *)
Definition ws_process (overdrive mix : list R) (inp : owned R) (iv : view) (out : owned (option R)) (ov : view) (w : waveshaper) :
    res (waveshaper * owned (option R)) :=
  rfold (ws_channel overdrive mix inp iv ov) (seq 0 (v_channels out ov)) (w, out).
