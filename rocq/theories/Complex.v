(** Complex numbers and the discrete Fourier transform: what rustfft computes, by its
    documentation, with exact arithmetic (num_complex::Complex, rustfft::Fft::process;
    forward and inverse are not normalised). *)
From stdpp Require Import list.
From Coq Require Import Reals.
Local Open Scope R_scope.

Record complex := Complex { re : R; im : R }.
Definition czero : complex := Complex 0 0.
Definition cone : complex := Complex 1 0.
Definition cadd (x y : complex) : complex := Complex (re x + re y) (im x + im y).
Definition copp (x : complex) : complex := Complex (- re x) (- im x).
Definition csub (x y : complex) : complex := cadd x (copp y).
Definition cmul (x y : complex) : complex := Complex (re x * re y - im x * im y) (re x * im y + im x * re y).
Definition of_real (x : R) : complex := Complex x 0.
(** e^(i a) *)
Definition cis (a : R) : complex := Complex (cos a) (sin a).
(** f 0 + ... + f (n - 1) *)
Fixpoint csum (f : nat → complex) (n : nat) : complex :=
  match n with 0%nat => czero | S n => cadd (csum f n) (f n) end.
(** the [n]-th entry *)
Definition entry (x : list complex) (n : nat) : complex := default czero (x !! n).

Definition fft_forward (x : list complex) : list complex :=
  (λ k, csum (λ n, cmul (entry x n) (cis (- (2 * PI * INR (k * n) / INR (length x))))) (length x)) <$> seq 0 (length x).
Definition fft_inverse (x : list complex) : list complex :=
  (λ k, csum (λ n, cmul (entry x n) (cis (2 * PI * INR (k * n) / INR (length x)))) (length x)) <$> seq 0 (length x).
