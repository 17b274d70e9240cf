(** The sample kernels: src/dsp/mod.rs.

    Memory maps addresses, counted in samples, to values; a slice is a start address and a
    length.  A vector operation on 16 lanes is done lane by lane, which makes no difference
    as the slices do not overlap (they are borrowed separately). *)
From stdpp Require Import list.
From Coq Require Import Arith.

Section kernels.
  Context {A : Type}.
  Definition memory := nat → A.
  Definition upd (m : memory) (a : nat) (x : A) : memory := λ b, if b =? a then x else m b.
  Record slice := Slice { start : nat; len : nat }.

  (** slice::as_simd::<16> (core, via align_to): elements up to the first address divisible
      by [align], then as many vectors as fit, then the rest; everything is prefix if the
      slice ends before that address *)
  Context (align : nat).
  Definition as_simd (s : slice) : slice * slice * slice :=
    let offset := (align - start s mod align) mod align in
    if len s <? offset then (s, Slice (start s + len s) 0, Slice (start s + len s) 0)
    else
      let vectors := (len s - offset) / 16 in
      (Slice (start s) offset,
       Slice (start s + offset) (16 * vectors),
       Slice (start s + offset + 16 * vectors) (len s - offset - 16 * vectors)).
  Definition addresses (s : slice) : list nat := seq (start s) (len s).
  (** the vectors of a middle part, as lists of lane addresses *)
  Definition vectors (s : slice) : list (list nat) := (λ j, seq (start s + 16 * j) 16) <$> seq 0 (len s / 16).

  (** pairs of addresses in the order they are visited: l.10-31 *)
  Definition visit2 (source destination : slice) : list (nat * nat) :=
    let '(source_pre, source_main, source_post) := as_simd source in
    let '(dest_pre, dest_main, dest_post) := as_simd destination in
    if len source_pre =? len dest_pre then
      zip (addresses source_pre) (addresses dest_pre) ++
      concat (zip_with zip (vectors source_main) (vectors dest_main)) ++
      zip (addresses source_post) (addresses dest_post)
    else zip (addresses source) (addresses destination).
  (** l.66-88, l.95-117 *)
  Definition visit3 (source_1 source_2 destination : slice) : list (nat * (nat * nat)) :=
    let '(source_1_pre, source_1_main, source_1_post) := as_simd source_1 in
    let '(source_2_pre, source_2_main, source_2_post) := as_simd source_2 in
    let '(dest_pre, dest_main, dest_post) := as_simd destination in
    if (len source_1_pre =? len dest_pre) && (len source_1_pre =? len source_2_pre) then
      zip (addresses source_1_pre) (zip (addresses source_2_pre) (addresses dest_pre)) ++
      concat (zip_with zip (vectors source_1_main) (zip_with zip (vectors source_2_main) (vectors dest_main))) ++
      zip (addresses source_1_post) (zip (addresses source_2_post) (addresses dest_post))
    else zip (addresses source_1) (zip (addresses source_2) (addresses destination)).
  (** [f input output] is the new output *)
  Definition run2 (f : A → A → A) (visits : list (nat * nat)) (m : memory) : memory :=
    fold_left (λ m '(i, o), upd m o (f (m i) (m o))) visits m.
  Definition run3 (f : A → A → A → A) (visits : list (nat * (nat * nat))) (m : memory) : memory :=
    fold_left (λ m '(i, (j, o)), upd m o (f (m i) (m j) (m o))) visits m.

  Context (add sub mul : A → A → A).
  (** l.7-32 *)
  Definition mix_into (source destination : slice) : memory → memory :=
    run2 (λ input output, add output input) (visit2 source destination).
  (** l.34-60 *)
  Definition mix_into_with_gain (source destination : slice) (gain : A) : memory → memory :=
    run2 (λ input output, add output (mul input gain)) (visit2 source destination).
  (** l.62-89; the order source, gain, destination *)
  Definition mix_into_with_gains (source destination gain : slice) : memory → memory :=
    run3 (λ input gain output, add output (mul input gain)) (visit3 source gain destination).
  (** l.91-118 *)
  Definition mix (source_1 source_2 destination : slice) : memory → memory :=
    run3 (λ input_1 input_2 _, add input_1 input_2) (visit3 source_1 source_2 destination).
  (** l.120-145 *)
  Definition subtract_from (source destination : slice) : memory → memory :=
    run2 (λ input output, sub output input) (visit2 source destination).
  (** l.147-172 *)
  Definition multiply (samples gain : slice) : memory → memory :=
    run2 (λ gain sample, mul sample gain) (visit2 gain samples).
  (** l.174-190 *)
  Definition multiply_by_value (samples : slice) (gain : A) (m : memory) : memory :=
    let '(pre, main, post) := as_simd samples in
    fold_left (λ m a, upd m a (mul (m a) gain)) (addresses pre ++ concat (vectors main) ++ addresses post) m.
End kernels.
Arguments memory : clear implicits.
