(** Buffers as functions from (channel, frame) to samples. *)
From stdpp Require Import list.
From Verif Require Import Base Buffer.

Section spec.
Context {A : Type}.
Implicit Types (b : owned A) (v : view).

(** the representation invariant of an owned buffer *)
Definition wf b : Prop := length (data b) = channels b * frames b.

(** the sample at a position, if the position is inside the buffer *)
Definition sample b (ch fr : nat) : option A :=
  if decide (ch < channels b ∧ fr < frames b) then data b !! (ch * frames b + fr) else None.

(** offset of a slice in the owned buffer *)
Fixpoint off_ch v : nat := match v with Whole => 0 | Sub v r => off_ch v + r_channel r end.
Fixpoint off_fr v : nat := match v with Whole => 0 | Sub v r => off_fr v + r_frame r end.

(** slices are only created through [slice], which checks the range *)
Fixpoint valid_view b v : Prop :=
  match v with
  | Whole => True
  | Sub v r => valid_view b v ∧
      r_channel r + r_channels r ≤ v_channels b v ∧ r_frame r + r_frames r ≤ v_frames b v
  end.

Definition same_dims b b' : Prop :=
  channels b' = channels b ∧ frames b' = frames b ∧ rate b' = rate b.

(** position (ch, fr) lies in the rectangle of [cc] channels from [c0] and [fc]
    frames from [f0] *)
Definition in_rect (c0 f0 cc fc ch fr : nat) : Prop :=
  c0 ≤ ch < c0 + cc ∧ f0 ≤ fr < f0 + fc.
Global Instance in_rect_dec c0 f0 cc fc ch fr : Decision (in_rect c0 f0 cc fc ch fr) := _.

(** a rectangle of a slice is accessible without aborting: its frames are
    inside the slice, its channels inside the underlying buffer (the code does
    not compare channels with the slice's own channel count) *)
Definition fits b v (c0 f0 cc fc : nat) : Prop :=
  cc = 0 ∨ (f0 + fc ≤ v_frames b v ∧
            (frames b = 0 ∨ c0 + off_ch v + cc ≤ channels b)).

(** [b'] is [b] with the rectangle replaced by [f x old] where [x] comes from
    [src] at the relative position *)
Definition rect_update {B} (f : B → A → A) (src : nat → nat → option B)
    (c0 f0 cc fc : nat) b b' : Prop :=
  wf b' ∧ same_dims b b' ∧
  ∀ ch fr, sample b' ch fr =
    if decide (in_rect c0 f0 cc fc ch fr)
    then x ← src (ch - c0) (fr - f0); f x <$> sample b ch fr
    else sample b ch fr.

(** fill a rectangle with the same value *)
Definition rect_fill (x : A) (c0 f0 cc fc : nat) b b' : Prop :=
  wf b' ∧ same_dims b b' ∧
  ∀ ch fr, sample b' ch fr =
    if decide (in_rect c0 f0 cc fc ch fr) then (λ _, x) <$> sample b ch fr else sample b ch fr.

End spec.
