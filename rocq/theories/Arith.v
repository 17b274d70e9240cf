(** Arithmetic as a parameter: the same code over binary64 and over the real numbers. *)
From stdpp Require Import list.
From Coq Require Import Reals ZArith.
From Verif Require Import Base Float Envelope.

(** the operations of f64 the processors use; [a_of] is a conversion from an integer *)
Record arith (N : Type) := Arith {
  a_zero : N; a_one : N; a_of : Z → N;
  a_add : N → N → N; a_sub : N → N → N; a_mul : N → N → N; a_div : N → N → N;
  a_ltb : N → N → bool;
  a_floor : N → Z; a_ceil : N → Z }.
Arguments Arith {N}. Arguments a_zero {N}. Arguments a_one {N}. Arguments a_of {N}.
Arguments a_add {N}. Arguments a_sub {N}. Arguments a_mul {N}. Arguments a_div {N}.
Arguments a_ltb {N}. Arguments a_floor {N}. Arguments a_ceil {N}.

(** binary64, in units of 2^-1074 (Float.v) *)
Definition f64_ceil (x : Z) : Z := (- ((- x) / one64))%Z.
Definition binary64 : arith Z :=
  Arith 0%Z one64 f64_of_Z f64_add f64_sub f64_mul f64_div Z.ltb f64_floor f64_ceil.
(** binary32, in units of 2^-149 *)
Definition f32_ceil (x : Z) : Z := (- ((- x) / one32))%Z.
Definition binary32 : arith Z :=
  Arith 0%Z one32 f32_of_Z f32_add f32_sub f32_mul f32_div Z.ltb f32_floor f32_ceil.
(** exact *)
Definition exact : arith R :=
  Arith 0%R 1%R IZR Rplus Rminus Rmult Rdiv (λ x y, if Rlt_dec x y then true else false) Int_part ceiling.
(** `f32 as f64`, exact *)
Definition f64_of_f32 (x : Z) : Z := Z.shiftl x 925.
