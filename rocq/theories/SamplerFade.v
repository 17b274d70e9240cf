(** The sampler's fade table: effects/sampler/sampler_fade.rs, over the real
    numbers (the code computes in f64 and stores f32; the rounding is not modelled). *)
From stdpp Require Import list list_numbers.
From Coq Require Import Reals.
From Verif Require Import Base Sampler.

(** l.12-16: the table has [n] values; l.9 ([n], the ceiling of sample rate times
    length) is a parameter *)
Definition fade_values (n : nat) : list R :=
  (λ position,
     let t := (2 * INR position / INR n - 1)%R in
     (0.5 + 0.5 * sin (t * (PI / 2)))%R) <$> seq 0 n.
(** l.38-40 *)
Definition fade_in_gain (n position : nat) : R := fade_value 1%R (fade_values n) position.
(** l.42-44: [len() - position] underflows past the end *)
Definition fade_out_gain (n position : nat) : res R := fade_out_value 1%R (fade_values n) position.
