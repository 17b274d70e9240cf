(** Linear convolution. *)
From stdpp Require Import list.
From Coq Require Import Reals.
From Verif Require Import Base Buffer BufferSpec EffectSpec MixerSpec ResampleSpec Convolution.
Local Open Scope R_scope.

(** sum over k of h[k] * x[t - k]; the signal is 0 before its first sample *)
Definition convolved_at (h x : list R) (t : nat) : R :=
  sum_over (length h) (λ k, default 0 (h !! k) * (if decide (k ≤ t)%nat then default 0 (x !! (t - k)%nat) else 0)).

(** a block of audio *)
Record vblock := VBlock { vb_wet : list R; vb_dry : list R; vb_in : owned R; vb_iv : view; vb_out : owned R; vb_ov : view }.
Definition vframes (b : vblock) : nat := v_frames (vb_out b) (vb_ov b).
Definition vblock_ok (n : nat) (b : vblock) : Prop :=
  wf (vb_in b) ∧ valid_view (vb_in b) (vb_iv b) ∧ wf (vb_out b) ∧ valid_view (vb_out b) (vb_ov b) ∧
  v_channels (vb_in b) (vb_iv b) = n ∧ v_channels (vb_out b) (vb_ov b) = n ∧ v_frames (vb_in b) (vb_iv b) = vframes b ∧
  length (vb_wet b) = vframes b ∧ length (vb_dry b) = vframes b.
(** the input of a channel *)
Definition heard (b : vblock) (ch : nat) : list R := row_from 0 (vb_in b) (vb_iv b) ch 0.

(** the input of a channel in all the blocks *)
Definition signal (l : list vblock) (ch : nat) : list R := concat ((λ b, heard b ch) <$> l).

(** [past ch] is everything channel [ch] received before the block *)
Definition reverberated (impulse : owned R) (past : nat → list R) (b : vblock) (out' : owned R) : Prop :=
  written (vb_out b) (vb_ov b) out' (λ ch fr old new, ∃ s w d,
    seen (vb_in b) (vb_iv b) ch fr = Some s ∧ vb_wet b !! fr = Some w ∧ vb_dry b !! fr = Some d ∧
    new = old + s * d + w * convolved_at (row_from 0 impulse Whole ch 0) (past ch ++ heard b ch) (length (past ch) + fr)).
Fixpoint all_reverberated (impulse : owned R) (past : nat → list R) (l : list vblock) (outs : list (owned R)) : Prop :=
  match l, outs with
  | [], [] => True
  | b :: l, out' :: outs => reverberated impulse past b out' ∧ all_reverberated impulse (λ ch, past ch ++ heard b ch) l outs
  | _, _ => False
  end.

(** blocks one after the other *)
Fixpoint vsession (c : convolution) (l : list vblock) : res (list (owned R)) :=
  match l with
  | [] => Ok []
  | b :: l =>
      let? (c, out) := conv_process (vb_wet b) (vb_dry b) (vb_in b) (vb_iv b) (vb_out b) (vb_ov b) c in
      let? outs := vsession c l in Ok (out :: outs)
  end.

(** small cases *)
Definition stereo_impulse : owned R := Owned [1; 2; 3; 4] 2 2 1.
Definition mono_impulse : owned R := Owned [1; 2] 1 2 1.
Definition empty_impulse : owned R := Owned [] 1 0 1.
Definition stereo_block : vblock := VBlock [1; 1] [0; 0] (Owned [3; 4; 5; 6] 2 2 1) Whole (Owned [0; 0; 0; 0] 2 2 1) Whole.
Definition mono_block : vblock := VBlock [1; 1] [0; 0] (Owned [3; 4] 1 2 1) Whole (Owned [0; 0] 1 2 1) Whole.
