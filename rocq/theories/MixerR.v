(** The mixer, gain and pan over the real numbers. *)
From Coq Require Import Reals.
From Verif Require Import Base Buffer Mixer AudioParamR.
Local Open Scope R_scope.

(** utility/level.rs l.70-77; a level is its linear gain *)
Definition level_is_zero (g : R) : bool := closeR g 0.
Definition level_is_unity (g : R) : bool := closeR g 1.

(** relative_eq! for f32: epsilon 2^-23 *)
Definition eps32R : R := / 2 ^ 23.
Definition close32R (a b : R) : bool :=
  if Rle_dec (Rabs (a - b)) eps32R then true
  else if Rle_dec (Rabs (a - b)) (Rmax (Rabs a) (Rabs b) * eps32R) then true else false.

(** effects/pan/pan_processor.rs l.23-24 *)
Definition pan_gains (p : R) : R * R := (Rmin (1 - p) 1, Rmin (1 + p) 1).

Definition mixer_process_R : mixer R -> _ := mixer_process 0 level_is_zero level_is_unity (fun g => g) Rplus Rmult.
Definition gain_process_R (gain : list R) := gain_process 0 (fun g => close32R g 0) (fun g => close32R g 1) Rmult gain.
Definition pan_process_R (pan : list R) := pan_process Rmult pan_gains pan.
