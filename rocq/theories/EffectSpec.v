(** What a processor does to the part of a buffer it is given. *)
From stdpp Require Import list.
From Verif Require Import Base Buffer BufferSpec.

Section spec.
  Context {A : Type}.
  Implicit Types (b out : owned A) (v : view).

  (** the sample a slice shows at its channel [ch] and frame [fr] *)
  Definition seen b v (ch fr : nat) : option A :=
    if decide (ch < v_channels b v ∧ fr < v_frames b v) then sample b (off_ch v + ch) (off_fr v + fr) else None.

  (** [out'] is [out] with every sample of the slice [v] changed as [P] says
      (channel, frame, old and new value), and nothing else *)
  Definition written out v out' (P : nat → nat → A → A → Prop) : Prop :=
    wf out' ∧ same_dims out out' ∧
    (∀ ch fr, ¬ in_rect (off_ch v) (off_fr v) (v_channels out v) (v_frames out v) ch fr →
       sample out' ch fr = sample out ch fr) ∧
    (∀ ch fr, ch < v_channels out v → fr < v_frames out v → ∃ x y,
       seen out v ch fr = Some x ∧ seen out' v ch fr = Some y ∧ P ch fr x y).
End spec.
