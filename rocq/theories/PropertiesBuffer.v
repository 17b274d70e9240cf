(** Property theorems about audio buffers. *)
From stdpp Require Import list numbers.
From Verif Require Import Base Buffer BufferSpec BufferProofs.

(** C49: copying changes exactly the requested region and aborts exactly when a region
    is not accessible; all positions are those of the underlying buffers. *)
Theorem C49_copy_exactly_region {A : Type} (dst : owned A) dv (src : owned A) sv sc sf dc df cc fc :
  wf dst → valid_view dst dv → wf src → valid_view src sv →
  (fits src sv sc sf cc fc ∧ fits dst dv dc df cc fc →
    ∃ dst', copy_from dst dv src sv sc sf dc df cc fc = Ok dst' ∧
      wf dst' ∧ same_dims dst dst' ∧
      ∀ ch fr, sample dst' ch fr =
        if decide (in_rect (dc + off_ch dv) (df + off_fr dv) cc fc ch fr)
        then sample src (sc + off_ch sv + (ch - (dc + off_ch dv)))
                        (sf + off_fr sv + (fr - (df + off_fr dv)))
        else sample dst ch fr) ∧
  (¬ (fits src sv sc sf cc fc ∧ fits dst dv dc df cc fc) →
    ∃ p, copy_from dst dv src sv sc sf dc df cc fc = Panic p).
Proof. exact (@copy_exactly_region A dst dv src sv sc sf dc df cc fc). Qed.
Print Assumptions C49_copy_exactly_region.

(** C49: mixing adds in exactly the requested region. *)
Theorem C49_mix_exactly_region {A : Type} (add : A → A → A)
    (dst : owned A) dv (src : owned A) sv sc sf dc df cc fc :
  wf dst → valid_view dst dv → wf src → valid_view src sv →
  (cc = 0 ∨ fc = 0 → add_from add dst dv src sv sc sf dc df cc fc = Ok dst) ∧
  (cc ≠ 0 ∧ fc ≠ 0 ∧ fits src sv sc sf cc fc ∧ fits dst dv dc df cc fc →
    ∃ dst', add_from add dst dv src sv sc sf dc df cc fc = Ok dst' ∧
      wf dst' ∧ same_dims dst dst' ∧
      ∀ ch fr, sample dst' ch fr =
        if decide (in_rect (dc + off_ch dv) (df + off_fr dv) cc fc ch fr)
        then s ← sample src (sc + off_ch sv + (ch - (dc + off_ch dv)))
                            (sf + off_fr sv + (fr - (df + off_fr dv)));
             d ← sample dst ch fr; Some (add d s)
        else sample dst ch fr) ∧
  (cc ≠ 0 ∧ fc ≠ 0 ∧ ¬ (fits src sv sc sf cc fc ∧ fits dst dv dc df cc fc) →
    ∃ p, add_from add dst dv src sv sc sf dc df cc fc = Panic p).
Proof.
  exact (mix_exactly_region (λ s d, add d s)
           (λ dst, add_from add dst dv src sv sc sf dc df cc fc)
           dst dv src sv sc sf dc df cc fc (λ _, eq_refl)).
Qed.
Print Assumptions C49_mix_exactly_region.

(** C49: mixing with a gain. *)
Theorem C49_mix_with_gain_exactly_region {A : Type} (add mul : A → A → A) (gain : A)
    (dst : owned A) dv (src : owned A) sv sc sf dc df cc fc :
  wf dst → valid_view dst dv → wf src → valid_view src sv →
  (cc = 0 ∨ fc = 0 →
    add_from_with_gain add mul dst dv src sv sc sf dc df cc fc gain = Ok dst) ∧
  (cc ≠ 0 ∧ fc ≠ 0 ∧ fits src sv sc sf cc fc ∧ fits dst dv dc df cc fc →
    ∃ dst', add_from_with_gain add mul dst dv src sv sc sf dc df cc fc gain = Ok dst' ∧
      wf dst' ∧ same_dims dst dst' ∧
      ∀ ch fr, sample dst' ch fr =
        if decide (in_rect (dc + off_ch dv) (df + off_fr dv) cc fc ch fr)
        then s ← sample src (sc + off_ch sv + (ch - (dc + off_ch dv)))
                            (sf + off_fr sv + (fr - (df + off_fr dv)));
             d ← sample dst ch fr; Some (add d (mul s gain))
        else sample dst ch fr) ∧
  (cc ≠ 0 ∧ fc ≠ 0 ∧ ¬ (fits src sv sc sf cc fc ∧ fits dst dv dc df cc fc) →
    ∃ p, add_from_with_gain add mul dst dv src sv sc sf dc df cc fc gain = Panic p).
Proof.
  exact (mix_exactly_region (λ s d, add d (mul s gain))
           (λ dst, add_from_with_gain add mul dst dv src sv sc sf dc df cc fc gain)
           dst dv src sv sc sf dc df cc fc (λ _, eq_refl)).
Qed.
Print Assumptions C49_mix_with_gain_exactly_region.

(** C50: filling from interleaved data of at most the buffer's channels. *)
Theorem C50_fill_from_interleaved {A : Type} (b : owned A) (v : view) (src : list A) n_ch n_fr : wf b → valid_view b v →
  n_ch ≤ v_channels b v → n_fr ≤ v_frames b v → n_ch * n_fr ≤ length src →
  ∃ b', fill_from_interleaved b v src n_ch n_fr = Ok b' ∧ wf b' ∧ same_dims b b' ∧
    ∀ ch fr, sample b' ch fr =
      if decide (in_rect (off_ch v) (off_fr v) n_ch n_fr ch fr)
      then src !! ((fr - off_fr v) * n_ch + (ch - off_ch v))
      else sample b ch fr.
Proof. exact (@interleaved_fill A b v src n_ch n_fr). Qed.
Print Assumptions C50_fill_from_interleaved.

(** C50: copying to interleaved data. *)
Theorem C50_copy_to_interleaved {A : Type} (b : owned A) (v : view) (dst : list A) n_ch n_fr : wf b → valid_view b v →
  n_ch ≤ v_channels b v → n_fr ≤ v_frames b v → n_ch * n_fr ≤ length dst →
  ∃ dst', copy_to_interleaved b v dst n_ch n_fr = Ok dst' ∧ length dst' = length dst ∧
    (∀ ch fr, ch < n_ch → fr < n_fr →
       dst' !! (fr * n_ch + ch) = sample b (ch + off_ch v) (fr + off_fr v)) ∧
    (∀ i, n_ch * n_fr ≤ i → dst' !! i = dst !! i).
Proof. exact (@interleaved_copy A b v dst n_ch n_fr). Qed.
Print Assumptions C50_copy_to_interleaved.

(** C50: filling and copying back reproduces the data. *)
Theorem C50_interleaved_round_trip {A : Type} (b : owned A) (src dst : list A) :
  wf b → length src = channels b * frames b → length dst = length src →
  ∃ b', fill_from_interleaved b Whole src (channels b) (frames b) = Ok b' ∧ wf b' ∧ same_dims b b' ∧
    copy_to_interleaved b' Whole dst (channels b) (frames b) = Ok src.
Proof. exact (@interleaved_round_trip A b src dst). Qed.
Print Assumptions C50_interleaved_round_trip.

(** C50 is violated when the data has more channels than the buffer: the stride used is
    the clamped channel count, so a buffer channel receives samples of other channels. *)
Theorem C50_more_channels_refuted : ∃ (b b' : owned nat) src n_ch n_fr ch fr, wf b ∧
  channels b < n_ch ∧ n_fr = frames b ∧ length src = n_ch * n_fr ∧
  fill_from_interleaved b Whole src n_ch n_fr = Ok b' ∧ ch < channels b ∧ fr < n_fr ∧
  sample b' ch fr ≠ src !! (fr * n_ch + ch).
Proof. exact interleave_refuted. Qed.
Print Assumptions C50_more_channels_refuted.

(** C51: accesses through a slice are translated accesses; frames are isolated. *)
Theorem C51_slice_translates {A : Type} (b : owned A) (v : view) r v' ch fr x : wf b → valid_view b v → slice b v r = Ok v' →
  valid_view b v' ∧ v_channels b v' = r_channels r ∧ v_frames b v' = r_frames r ∧
  (fr < r_frames r →
     get_sample b v' ch fr = get_sample b v (ch + r_channel r) (fr + r_frame r) ∧
     set_sample b v' ch fr x = set_sample b v (ch + r_channel r) (fr + r_frame r) x) ∧
  (r_frames r ≤ fr →
     (∃ p, get_sample b v' ch fr = Panic p) ∧ (∃ p, set_sample b v' ch fr x = Panic p)).
Proof. exact (@slice_translates A b v r v' ch fr x). Qed.
Print Assumptions C51_slice_translates.

(** C51: a mutable channel slice has the requested shape. *)
Theorem C51_mutable_slice_channels {A : Type} (b : owned A) (v : view) off n v' :
  mutable_slice_channels b v off n = Ok v' →
  v' = Sub v (Range off 0 n (v_frames b v)) ∧ v_channels b v' = n ∧ v_frames b v' = v_frames b v.
Proof. exact (@mutable_slice_channels_ok A b v off n v'). Qed.
Print Assumptions C51_mutable_slice_channels.

(** C51 is violated: an immutable channel slice of a legal range aborts, because the
    frame count and channel count are swapped. *)
Theorem C51_slice_channels_refuted : ∃ (b : owned nat) off n, wf b ∧ off + n ≤ channels b ∧
  borrowed_slice_channels b Whole off n = Panic AssertFailed.
Proof. exact slice_channels_refuted. Qed.
Print Assumptions C51_slice_channels_refuted.

(** C51: when an immutable channel slice does not abort its shape is transposed. *)
Theorem C51_slice_channels_swapped {A : Type} (b : owned A) (v : view) off n v' :
  borrowed_slice_channels b v off n = Ok v' →
  v_channels b v' = v_frames b v ∧ v_frames b v' = n.
Proof. exact (@borrowed_slice_channels_swapped A b v off n v'). Qed.
Print Assumptions C51_slice_channels_swapped.

(** C51 is violated: a slice of one channel gives access to the next channel. *)
Theorem C51_slice_isolation_refuted : ∃ (b : owned nat) r v' ch x, wf b ∧ slice b Whole r = Ok v' ∧
  v_channels b v' ≤ ch ∧ get_sample b v' ch 0 = Ok x.
Proof. exact slice_isolation_refuted. Qed.
Print Assumptions C51_slice_isolation_refuted.

(** C52: appending. *)
Theorem C52_extended {A : Type} (zero : A) (b : owned A) (src : owned A) sv : wf b → wf src → valid_view src sv →
  v_channels src sv = channels b → rate src = rate b →
  ∃ b', extended_with_buffer zero b src sv = Ok b' ∧ wf b' ∧ channels b' = channels b ∧
    frames b' = frames b + v_frames src sv ∧ rate b' = rate b ∧
    ∀ ch fr, ch < channels b →
      sample b' ch fr =
        if decide (fr < frames b) then sample b ch fr
        else if decide (fr < frames b + v_frames src sv)
        then sample src (ch + off_ch sv) (fr - frames b + off_fr sv) else None.
Proof. exact (@extended_ok A zero b src sv). Qed.
Print Assumptions C52_extended.

(** C52: appending aborts when channel counts or sample rates differ. *)
Theorem C52_extended_aborts {A : Type} (zero : A) (b : owned A) (src : owned A) sv :
  ¬ (v_channels src sv = channels b ∧ rate src = rate b) →
  extended_with_buffer zero b src sv = Panic AssertFailed.
Proof. exact (@extended_panics A zero b src sv). Qed.
Print Assumptions C52_extended_aborts.

(** C52: padding. *)
Theorem C52_padded {A : Type} (zero : A) (b : owned A) n : wf b → frames b ≤ n →
  ∃ b', padded_to_length zero b n = Ok b' ∧ wf b' ∧ channels b' = channels b ∧
    frames b' = n ∧ rate b' = rate b ∧
    ∀ ch fr, ch < channels b → fr < n →
      sample b' ch fr = if decide (fr < frames b) then sample b ch fr else Some zero.
Proof. exact (@padded_ok A zero b n). Qed.
Print Assumptions C52_padded.

(** C52: padding to a shorter length aborts. *)
Theorem C52_padded_aborts {A : Type} (zero : A) (b : owned A) n : wf b → channels b ≠ 0 → n < frames b →
  ∃ p, padded_to_length zero b n = Panic p.
Proof. exact (@padded_panics A zero b n). Qed.
Print Assumptions C52_padded_aborts.

(** C53, what holds: for a gain that is neither zero nor one every sample of the range is
    multiplied, for gain one nothing changes, for gain zero only the FIRST channel of the
    range is silenced. *)
Theorem C53_constant_gain_partial {A : Type} (zero : A) is_zero is_one mul (b : owned A) (v : view) r gain : wf b → valid_view b v →
  fits b v (r_channel r) (r_frame r) (r_channels r) (r_frames r) →
  ∃ b', apply_gain_value zero is_zero is_one mul b v r gain = Ok b' ∧ wf b' ∧ same_dims b b' ∧
    ∀ ch fr, sample b' ch fr =
      if is_zero gain then
        if decide (in_rect (r_channel r + off_ch v) (r_frame r + off_fr v)
                     (1 `min` r_channels r) (r_frames r) ch fr)
        then (λ _, zero) <$> sample b ch fr else sample b ch fr
      else if is_one gain then sample b ch fr
      else
        if decide (in_rect (r_channel r + off_ch v) (r_frame r + off_fr v)
                     (r_channels r) (r_frames r) ch fr)
        then (λ x, mul x gain) <$> sample b ch fr else sample b ch fr.
Proof. exact (@apply_gain_value_general A zero is_zero is_one mul b v r gain). Qed.
Print Assumptions C53_constant_gain_partial.

(** C53 is violated for gain zero on two channels. *)
Theorem C53_gain_zero_refuted : ∃ (b b' : owned nat) ch fr x, wf b ∧
  apply_gain_value 0 (Nat.eqb 0) (Nat.eqb 1) Nat.mul b Whole (Range 0 0 (channels b) (frames b)) 0
    = Ok b' ∧ sample b ch fr = Some x ∧ sample b' ch fr ≠ Some (x * 0).
Proof. exact gain_zero_refuted. Qed.
Print Assumptions C53_gain_zero_refuted.

(** C53: applying a gain curve multiplies every channel frame by frame, whatever shortcut is
    taken for all-zero and all-one curves. *)
Theorem C53_gain_curve {A : Type} (zero : A) is_zero is_one mul (b : owned A) (v : view) gain : wf b → valid_view b v →
  (∀ g, is_zero g = true → ∀ x, mul x g = zero) → (∀ g, is_one g = true → ∀ x, mul x g = x) →
  length gain = v_frames b v →
  ∃ b', apply_gain zero is_zero is_one mul b v gain = Ok b' ∧ wf b' ∧ same_dims b b' ∧
    ∀ ch fr, sample b' ch fr =
      if decide (in_rect (off_ch v) (off_fr v) (v_channels b v) (v_frames b v) ch fr)
      then g ← gain !! (fr - off_fr v); x ← sample b ch fr; Some (mul x g)
      else sample b ch fr.
Proof. exact (@apply_gain_general A zero is_zero is_one mul b v gain). Qed.
Print Assumptions C53_gain_curve.

(** C55: frame iteration terminates and visits every location exactly once. *)
Theorem C55_frame_iteration {A : Type} (b : owned A) (v : view) : ∃ l, frame_iter b v = Ok l ∧ NoDup l ∧
  ∀ ch fr, (ch, fr) ∈ l ↔ ch < v_channels b v ∧ fr < v_frames b v.
Proof. exact (@frame_iter_exactly_once A b v). Qed.
Print Assumptions C55_frame_iteration.

(** C59: an owned copy of a slice has the shape and samples of the slice. *)
Theorem C59_copy_of_slice {A : Type} (zero : A) (src : owned A) sv : wf src → valid_view src sv →
  ∃ b, from_buffer zero src sv = Ok b ∧ wf b ∧ channels b = v_channels src sv ∧
    frames b = v_frames src sv ∧ rate b = rate src ∧
    ∀ ch fr, ch < v_channels src sv → fr < v_frames src sv →
      sample b ch fr = sample src (ch + off_ch sv) (fr + off_fr sv).
Proof. exact (@from_buffer_ok A zero src sv). Qed.
Print Assumptions C59_copy_of_slice.

(** C59: filling (clearing) a slice sets exactly its samples. *)
Theorem C59_fill {A : Type} (b : owned A) (v : view) x : wf b → valid_view b v →
  ∃ b', fill_with_value b v x = Ok b' ∧
    rect_fill x (off_ch v) (off_fr v) (v_channels b v) (v_frames b v) b b'.
Proof. exact (@fill_with_value_ok A b v x). Qed.
Print Assumptions C59_fill.

(** C59: clearing a range sets exactly its samples. *)
Theorem C59_clear_range {A : Type} (zero : A) (b : owned A) (v : view) r : wf b → valid_view b v →
  fits b v (r_channel r) (r_frame r) (r_channels r) (r_frames r) →
  ∃ b', clear_range zero b v r = Ok b' ∧
    rect_fill zero (r_channel r + off_ch v) (r_frame r + off_fr v) (r_channels r) (r_frames r) b b'.
Proof. exact (@clear_range_ok A zero b v r). Qed.
Print Assumptions C59_clear_range.

(** C59: duplicating a channel copies exactly the requested frames. *)
Theorem C59_duplicate_channel {A : Type} (b : owned A) ch fr to_ch n : wf b →
  ch < channels b → to_ch < channels b → fr + n ≤ frames b →
  ∃ b', duplicate_channel b ch fr to_ch n = Ok b' ∧
    rect_update (λ x _, x) (λ _ j, sample b ch (fr + j)) to_ch fr 1 n b b'.
Proof. exact (@duplicate_channel_ok A b ch fr to_ch n). Qed.
Print Assumptions C59_duplicate_channel.

(** C60: a one-channel buffer from a slice holds its samples. *)
Theorem C60_mono_from_slice {A : Type} (zero : A) (l : list A) r :
  ∃ b, from_slice zero l 1 r = Ok b ∧ wf b ∧ channels b = 1 ∧ frames b = length l ∧ rate b = r ∧
    data b = l.
Proof. exact (@from_slice_one A zero l r). Qed.
Print Assumptions C60_mono_from_slice.

(** C60 is violated: building a two-channel buffer from a slice aborts. *)
Theorem C60_from_slice_refuted : ∃ (l : list nat) n r, n ≠ 0 ∧ ∃ p, from_slice 0 l n r = Panic p.
Proof. exact from_slice_refuted. Qed.
Print Assumptions C60_from_slice_refuted.

(** C60: every multi-channel use with data aborts. *)
Theorem C60_from_slice_aborts {A : Type} (zero : A) (l : list A) n r : l ≠ [] → 2 ≤ n →
  ∃ p, from_slice zero l n r = Panic p.
Proof. exact (@from_slice_multi A zero l n r). Qed.
Print Assumptions C60_from_slice_aborts.

(** ** The hypotheses are met by concrete buffers *)

(** a slice of a slice of a 3 x 4 buffer *)
Definition buf34 : owned nat := Owned [1; 2; 3; 4; 5; 6; 7; 8; 9; 10; 11; 12] 3 4 100.
Definition view34 : view := Sub (Sub Whole (Range 1 1 2 3)) (Range 0 1 2 2).
Definition buf22 : owned nat := Owned [100; 200; 300; 400] 2 2 100.

Example buf34_ok : wf buf34 ∧ valid_view buf34 view34 ∧ wf buf22 ∧ valid_view buf22 Whole ∧
  fits buf34 view34 0 1 2 1 ∧ fits buf22 Whole 0 0 2 1.
Proof. unfold fits, wf. cbn. lia. Qed.
Example buf34_copy : copy_from buf34 view34 buf22 Whole 0 0 0 1 2 1 =
  Ok (Owned [1; 2; 3; 4; 5; 6; 7; 100; 9; 10; 11; 300] 3 4 100).
Proof. reflexivity. Qed.
Example buf34_mix : add_from Nat.add buf34 view34 buf22 Whole 0 0 0 1 2 1 =
  Ok (Owned [1; 2; 3; 4; 5; 6; 7; 108; 9; 10; 11; 312] 3 4 100).
Proof. reflexivity. Qed.
Example buf34_mix_gain : add_from_with_gain Nat.add Nat.mul buf34 view34 buf22 Whole 0 0 0 1 2 1 2 =
  Ok (Owned [1; 2; 3; 4; 5; 6; 7; 208; 9; 10; 11; 612] 3 4 100).
Proof. reflexivity. Qed.
Example buf34_out : copy_from buf34 view34 buf22 Whole 0 0 0 2 2 1 = Panic IndexOutOfRange.
Proof. reflexivity. Qed.
Example buf34_slice : slice buf34 (Sub Whole (Range 1 1 2 3)) (Range 0 1 2 2) = Ok view34 ∧
  get_sample buf34 view34 1 1 = Ok 12 ∧ get_sample buf34 Whole 2 3 = Ok 12 ∧
  mutable_slice_channels buf34 Whole 1 2 = Ok (Sub Whole (Range 1 0 2 4)).
Proof. repeat split; reflexivity. Qed.
Example buf34_interleaved : fill_from_interleaved buf34 view34 [21; 22; 23; 24] 2 2 =
    Ok (Owned [1; 2; 3; 4; 5; 6; 21; 23; 9; 10; 22; 24] 3 4 100) ∧
  copy_to_interleaved buf34 view34 [0; 0; 0; 0; 99] 2 2 = Ok [7; 11; 8; 12; 99].
Proof. split; reflexivity. Qed.
Example buf22_append : extended_with_buffer 0 buf22 buf34 (Sub Whole (Range 1 1 2 3)) =
  Ok (Owned [100; 200; 6; 7; 8; 300; 400; 10; 11; 12] 2 5 100).
Proof. reflexivity. Qed.
Example buf22_padded : padded_to_length 0 buf22 3 = Ok (Owned [100; 200; 0; 300; 400; 0] 2 3 100).
Proof. reflexivity. Qed.
Example buf34_gain : apply_gain_value 0 (Nat.eqb 0) (Nat.eqb 1) Nat.mul buf34 view34 (Range 0 0 2 2) 3
    = Ok (Owned [1; 2; 3; 4; 5; 6; 21; 24; 9; 10; 33; 36] 3 4 100) ∧
  apply_gain 0 (Nat.eqb 0) (Nat.eqb 1) Nat.mul buf34 view34 [2; 3] =
    Ok (Owned [1; 2; 3; 4; 5; 6; 14; 24; 9; 10; 22; 36] 3 4 100).
Proof. split; reflexivity. Qed.
Example buf34_frames : frame_iter buf34 view34 = Ok [(0, 0); (0, 1); (1, 0); (1, 1)].
Proof. reflexivity. Qed.
Example buf34_own : from_buffer 0 buf34 view34 = Ok (Owned [7; 8; 11; 12] 2 2 100) ∧
  fill_with_value buf34 view34 0 = Ok (Owned [1; 2; 3; 4; 5; 6; 0; 0; 9; 10; 0; 0] 3 4 100) ∧
  duplicate_channel buf34 0 1 2 2 = Ok (Owned [1; 2; 3; 4; 5; 6; 7; 8; 9; 2; 3; 12] 3 4 100).
Proof. repeat split; reflexivity. Qed.
