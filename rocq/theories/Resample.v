(** Sample-rate conversion: src/buffer/audio_buffer.rs l.303-342, over any arithmetic. *)
From stdpp Require Import list.
From Coq Require Import ZArith.
From Verif Require Import Base Buffer Arith.

Section resample.
  Context {N : Type} (a : arith N).

  (** l.324-341.  On an empty source `len() - 1` underflows: an abort with overflow checks,
      and without them an index out of range below. *)
  Definition resampled (source_data : list N) (ratio : N) (index : nat) : res N :=
    let source_index := a_mul a (a_of a (Z.of_nat index)) ratio in
    rassert (0 <? length source_data) IndexOutOfRange (
    let before := Z.to_nat (a_floor a source_index) `min` (length source_data - 1) in
    let after := Z.to_nat (a_ceil a source_index) `min` (length source_data - 1) in
    let? sample_before := runwrap (source_data !! before) IndexOutOfRange in
    let? sample_after := runwrap (source_data !! after) IndexOutOfRange in
    let sample_after_amount := a_sub a source_index (a_of a (a_floor a source_index)) in
    Ok (a_add a (a_mul a (a_sub a (a_one a) sample_after_amount) sample_before) (a_mul a sample_after_amount sample_after))).
  (** l.320-341: the samples of one channel *)
  Definition resampled_row (source_data : list N) (ratio : N) (n : nat) : res (list N) :=
    rfold (λ row index, let? y := resampled source_data ratio index in Ok (row ++ [y])) (seq 0 n) [].

  (** l.306-342 *)
  Definition sample_rate_convert_from (dst : owned N) (dv : view) (src : owned N) (sv : view) (sc sf dc df cc : nat) : res (owned N) :=
    let ratio := a_div a (a_of a (Z.of_nat (rate src))) (a_of a (Z.of_nat (rate dst))) in
    rfold (λ dst i,
      let? source_data := get_channel_data src sv (sc + i) sf in
      let? (st, en) := locate dst dv (dc + i) df in
      let? row := resampled_row source_data ratio (en - st) in
      Ok (with_data dst (seg_zip (λ y _, y) (data dst) st row))) (seq 0 cc) dst.
End resample.
