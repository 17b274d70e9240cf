(** Notes that are cut short or started again while one sounds. *)
From stdpp Require Import list.
From Coq Require Import Reals.
From Verif Require Import Base Adsr AdsrSpec.
Local Open Scope R_scope.

(** the level in the last frame; none: 0 *)
Definition level_after (sr : nat) (ops : list adsr_op) : R := default 0 (last (env_values sr ops)).
(** frame [k] (from 0) of a note that starts at the level [v]: the exponential curve to 11/10 that from 0 takes [n] frames to 1 *)
Definition rises_from (v n : R) (k : nat) : R := Rmin 1 (11 / 10 - (11 / 10 - v) * Rpower (1 / 11) (INR (S k) / n)).
(** frame [k] after a note ends at the level [v]: the exponential curve to -1/10 that from the sustain level [s] takes [n] frames to 0 *)
Definition falls_from (v s n : R) (k : nat) : R := Rmax 0 (- (1 / 10) + (v + 1 / 10) * Rpower ((1 / 10) / (s + 1 / 10)) (INR (S k) / n)).
