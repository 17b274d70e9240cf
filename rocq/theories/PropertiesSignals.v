(** C102: moving audio inside a buffer and generating test signals. *)
From stdpp Require Import list numbers.
From Coq Require Import Reals.
From Verif Require Import Base Buffer BufferSpec Signals SignalsProofs.
Local Open Scope nat_scope.

(** C102: audio moved inside a buffer is what was there before the move, also where source and destination overlap; nothing else changes; the move
    aborts exactly if one of the two rectangles is not in the buffer. *)
Theorem C102_copy_within {A : Type} (b : owned A) (v : view) (r : range) (dst : nat) : wf b → valid_view b v →
  let moves := fits b v (r_channel r) (r_frame r) (r_channels r) (r_frames r) ∧ fits b v (r_channel r) dst (r_channels r) (r_frames r) in
  (moves → ∃ b', copy_within b v r dst = Ok b' ∧ wf b' ∧ same_dims b b' ∧
    ∀ ch fr, sample b' ch fr = if decide (in_rect (r_channel r + off_ch v) (dst + off_fr v) (r_channels r) (r_frames r) ch fr)
      then sample b ch (r_frame r + off_fr v + (fr - (dst + off_fr v))) else sample b ch fr) ∧
  (¬ moves → ∃ p, copy_within b v r dst = Panic p).
Proof. exact (@copy_within_ok A b v r dst). Qed.
Print Assumptions C102_copy_within.

(** C102: a step is one in its range and zero elsewhere, on every channel. *)
Theorem C102_step {A : Type} (zero one : A) (n c r first last : nat) : 0 < c →
  ∃ b, step zero one n c r first last = Ok b ∧ wf b ∧ channels b = c ∧ frames b = n ∧ rate b = r ∧
    ∀ ch fr, ch < c → fr < n → sample b ch fr = Some (if decide (first ≤ fr < last) then one else zero).
Proof. exact (@step_ok A zero one n c r first last). Qed.
Print Assumptions C102_step.

(** C102: a sine is a sine on every channel. *)
Theorem C102_sine (n c r : nat) (frequency amplitude : R) : 0 < c →
  ∃ b, sine n c r frequency amplitude = Ok b ∧ wf b ∧ channels b = c ∧ frames b = n ∧ rate b = r ∧
    ∀ ch fr, ch < c → fr < n → sample b ch fr = Some (amplitude * sin (2 * PI * frequency * (INR fr / INR r)))%R.
Proof. exact (sine_ok n c r frequency amplitude). Qed.
Print Assumptions C102_sine.

(** Two channels of five frames, in a slice of the last four frames: three frames of the second channel move one frame on, over themselves. *)
Example C102_case : let b := Owned [1; 2; 3; 4; 5; 6; 7; 8; 9; 10] 2 5 100 in let v := Sub Whole (Range 0 1 2 4) in
  wf b ∧ valid_view b v ∧ fits b v 1 0 1 3 ∧ fits b v 1 1 1 3 ∧
  copy_within b v (Range 1 0 1 3) 1 = Ok (Owned [1; 2; 3; 4; 5; 6; 7; 7; 8; 9] 2 5 100) ∧
  copy_within b v (Range 1 0 1 4) 1 = Panic IndexOutOfRange ∧
  step 0 1 4 2 100 1 3 = Ok (Owned [0; 1; 1; 0; 0; 1; 1; 0] 2 4 100).
Proof. cbv zeta. split; [reflexivity|]. split; [cbn; lia|]. split; [right; cbn; lia|]. split; [right; cbn; lia|]. do 2 (split; [reflexivity|]). reflexivity. Qed.
