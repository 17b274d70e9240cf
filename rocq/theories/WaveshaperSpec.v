(** What the waveshaper computes. *)
From stdpp Require Import list.
From Coq Require Import Reals.
From Verif Require Import Base Buffer BufferSpec EffectSpec ResampleSpec Waveshaper.
Local Open Scope R_scope.

(** The table covers the samples from -1 (first entry) to 1 (last entry), linearly between
    entries; samples beyond are treated as -1 or 1. *)
Definition position (points : nat) (x : R) : R := (Rmax (-1) (Rmin x 1) + 1) / 2 * INR (points - 1).
Definition shaped (table : list R) (x y : R) : Prop := linear table (position (length table) x) y.
(** 12 dB at full overdrive *)
Definition drive (o : R) : R := Rpower 10 (12 * o / 20).

(** a block of audio *)
Record wblock := WBlock {
  wb_overdrive : list R; wb_mix : list R; wb_in : owned R; wb_iv : view; wb_out : owned (option R); wb_ov : view }.
Definition wframes (b : wblock) : nat := v_frames (wb_out b) (wb_ov b).
Definition wblock_ok (sample_rate limit : nat) (b : wblock) : Prop :=
  wf (wb_in b) ∧ valid_view (wb_in b) (wb_iv b) ∧ wf (wb_out b) ∧ valid_view (wb_out b) (wb_ov b) ∧
  v_channels (wb_in b) (wb_iv b) = v_channels (wb_out b) (wb_ov b) ∧ v_frames (wb_in b) (wb_iv b) = wframes b ∧
  (0 < wframes b ≤ limit)%nat ∧ rate (wb_out b) = sample_rate ∧
  length (wb_overdrive b) = wframes b ∧ length (wb_mix b) = wframes b ∧
  Forall (λ o, 0 <= o <= 1) (wb_overdrive b) ∧ Forall (λ m, 0 <= m <= 1) (wb_mix b).

(** every sample of the block becomes a mixture of itself and of its shaped version *)
Definition waved (P : R → option R → Prop) (b : wblock) (out' : owned (option R)) : Prop :=
  written (wb_out b) (wb_ov b) out' (λ ch fr _ z, ∃ x o m y,
    seen (wb_in b) (wb_iv b) ch fr = Some x ∧ wb_overdrive b !! fr = Some o ∧ wb_mix b !! fr = Some m ∧
    P (x * drive o) y ∧ z = (y ← y; Some (m * (y / drive o) + (1 - m) * x))).

(** blocks one after the other *)
Fixpoint wsession (w : waveshaper) (l : list wblock) : res (list (owned (option R))) :=
  match l with
  | [] => Ok []
  | b :: l =>
      let? (w, out) := ws_process (wb_overdrive b) (wb_mix b) (wb_in b) (wb_iv b) (wb_out b) (wb_ov b) w in
      let? outs := wsession w l in Ok (out :: outs)
  end.

(** the curve [f] at 511 points from -1 to 1 *)
Definition point (i : nat) : R := -1 + 2 * INR i / 510.
Definition curve_table (f : R → R) : list R := (λ i, f (point i)) <$> seq 0 511.
Definition hard_clip (threshold x : R) : R := Rmax (- threshold) (Rmin x threshold).
Definition soft_clip (threshold x : R) : R :=
  if Rle_dec x threshold then x else threshold + (x - threshold) / (1 + ((x - threshold) / (1 - threshold)) ^ 2).
Definition shaped_by (f : R → R) (x : R) (y : option R) : Prop := ∃ r, y = Some r ∧ shaped (curve_table f) x r.
Definition odd_table (table : list R) : Prop := ∀ i a, table !! i = Some a → table !! (length table - 1 - i)%nat = Some (- a).
Definition rising_table (table : list R) : Prop := ∀ i j a c, (i ≤ j)%nat → table !! i = Some a → table !! j = Some c → a <= c.
(** a sample brought into the range of the table *)
Definition clamped (x : R) : R := Rmax (-1) (Rmin x 1).
(** one sample of full scale, overdrive 0, mix 0 *)
Definition nan_block : wblock := WBlock [0] [0] (Owned [1] 1 1 1) Whole (Owned [Some 0] 1 1 1) Whole.
(** no sample *)
Definition empty_block : wblock := WBlock [] [] (Owned [] 1 0 1) Whole (Owned [] 1 0 1) Whole.
