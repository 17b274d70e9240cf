(** The amplitude each type of filter is meant to give a frequency. *)
From Coq Require Import Reals.
From Verif Require Import Biquad.
Local Open Scope R_scope.

(** [t] is the square of the distance from the filter's own frequency, which has [t = 1]; [q] is the filter's q, [G] its shelf gain *)
Definition nominal_gain (type : filter_type) (q G t : R) : R :=
  match type with
  | LowPass => sqrt (1 / ((1 - t) ^ 2 + t / q ^ 2))
  | HighPass => sqrt (t ^ 2 / ((1 - t) ^ 2 + t / q ^ 2))
  | BandPass => sqrt (t / q ^ 2 / ((1 - t) ^ 2 + t / q ^ 2))
  | Notch => sqrt ((1 - t) ^ 2 / ((1 - t) ^ 2 + t / q ^ 2))
  | LowShelf => sqrt (G * (G + t ^ 2) / (1 + G * t ^ 2))
  | HighShelf => sqrt (G * (1 + G * t ^ 2) / (G + t ^ 2))
  end.
