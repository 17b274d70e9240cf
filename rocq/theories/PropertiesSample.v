(** C106: single samples and the test for silence. *)
From stdpp Require Import list.
From Coq Require Import Lia.
From Verif Require Import Base Buffer BufferSpec SampleAccess.

(** C106: add_sample adds to the sample at its place in the slice and leaves every other sample of the buffer. *)
Theorem C106_add_sample {A : Type} (add : A → A → A) (b : owned A) (v : view) (ch fr : nat) (x : A) :
  wf b → valid_view b v → ch + off_ch v < channels b → fr < v_frames b v →
  ∃ y b', sample b (ch + off_ch v) (fr + off_fr v) = Some y ∧ add_sample add b v ch fr x = Ok b' ∧ wf b' ∧ same_dims b b' ∧
    ∀ c f, sample b' c f = if decide (c = ch + off_ch v ∧ f = fr + off_fr v) then Some (add x y) else sample b c f.
Proof. exact (add_sample_ok add b v ch fr x). Qed.
Print Assumptions C106_add_sample.

(** C106: it aborts for a place outside. *)
Theorem C106_add_sample_aborts {A : Type} (add : A → A → A) (b : owned A) (v : view) (ch fr : nat) (x : A) :
  wf b → valid_view b v → ¬ (ch + off_ch v < channels b ∧ fr < v_frames b v) → ∃ p, add_sample add b v ch fr x = Panic p.
Proof. exact (add_sample_panics add b v ch fr x). Qed.
Print Assumptions C106_add_sample_aborts.

(** C106: a channel of a slice is silent if and only if all of its samples within the slice are zero. *)
Theorem C106_silent {A : Type} (is_zero : A → bool) (b : owned A) (v : view) (ch : nat) :
  wf b → valid_view b v → ch + off_ch v < channels b →
  ∃ r, channel_is_silent is_zero b v ch = Ok r ∧
    (r = true ↔ ∀ fr x, fr < v_frames b v → sample b (ch + off_ch v) (fr + off_fr v) = Some x → is_zero x = true).
Proof. exact (silent_ok is_zero b v ch). Qed.
Print Assumptions C106_silent.

(** Two channels of three frames, and the slice of the second channel without its first frame. *)
Example C106_case :
  let b := Owned [1; 2; 3; 4; 0; 0] 2 3 100 in
  wf b ∧ ∃ v, slice b Whole (Range 1 1 1 2) = Ok v ∧ valid_view b v ∧ off_ch v = 1 ∧
  channel_is_silent (λ x, bool_decide (x = 0)) b v 0 = Ok true ∧ channel_is_silent (λ x, bool_decide (x = 0)) b Whole 1 = Ok false ∧
  add_sample Nat.add b v 0 1 7 = Ok (Owned [1; 2; 3; 4; 0; 7] 2 3 100).
Proof.
  cbv zeta. split; [reflexivity|]. eexists. split; [vm_compute; reflexivity|]. split; [cbn; lia|]. repeat split.
Qed.
