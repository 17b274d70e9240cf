(** C107: seconds and beats as times.  Values of type f64 are integers in units
    of 2^-1074 ([one64] is 1.0), timestamps integers in units of 2^-32 s
    ([tick64] is one of these as an f64). *)
From Coq Require Import ZArith Lia.
From Verif Require Import Float Timestamp TimeUnits.
Local Open Scope Z_scope.

(** C107: seconds are taken to the nearest tick: no timestamp is closer. *)
Theorem C107_seconds_nearest x u : Z.abs (tick64 * from_seconds x - x) <= Z.abs (tick64 * u - x).
Proof. exact (seconds_nearest x u). Qed.
Print Assumptions C107_seconds_nearest.

(** C107: up to 2^21 s (24 days) a timestamp is given exactly in seconds, and taken back. *)
Theorem C107_seconds_round_trip t : Z.abs t <= 2 ^ 53 ->
  as_seconds t = t * tick64 /\ from_seconds (as_seconds t) = t.
Proof. exact (seconds_round_trip t). Qed.
Print Assumptions C107_seconds_round_trip.

(** Beyond that an f64 does not hold every timestamp. *)
Theorem C107_late_seconds_refuted : exists t, t = 2 ^ 53 + 1 /\ from_seconds (as_seconds t) <> t.
Proof. exists (2 ^ 53 + 1). split; [reflexivity|]. vm_compute. discriminate. Qed.
Print Assumptions C107_late_seconds_refuted.

(** C107: seconds are added to the nearest tick, and keep the order. *)
Theorem C107_seconds_added t x u :
  Z.abs (tick64 * incremented_by_seconds t x - (tick64 * t + x)) <= Z.abs (tick64 * u - (tick64 * t + x)).
Proof. exact (seconds_added_nearest t x u). Qed.
Print Assumptions C107_seconds_added.

Theorem C107_seconds_order t u x y : t <= u -> x <= y -> incremented_by_seconds t x <= incremented_by_seconds u y.
Proof. exact (seconds_added_mono t u x y). Qed.
Print Assumptions C107_seconds_order.

(** C107: [b] beats at the tempo [m] (one beat a minute or more) last 60 b / m
    seconds, up to half a tick (and 2^-51 of one) and 2^-51 of the time. *)
Theorem C107_beats b m : one64 <= m ->
  2 ^ 51 * Z.abs (m * from_beats b m - 60 * b * 2 ^ 32) <= (2 ^ 50 + 1) * m + 60 * Z.abs b * 2 ^ 32.
Proof. exact (from_beats_error b m). Qed.
Print Assumptions C107_beats.

(** C107: so do beats that are added to a time; later beats are not earlier. *)
Theorem C107_beats_added t b m : one64 <= m ->
  2 ^ 51 * Z.abs (m * (incremented_by_beats t b m - t) - 60 * b * 2 ^ 32) <= (2 ^ 50 + 1) * m + 60 * Z.abs b * 2 ^ 32.
Proof. exact (beats_added_error t b m). Qed.
Print Assumptions C107_beats_added.

Theorem C107_beats_order t u b c m : one64 <= m -> t <= u -> b <= c ->
  incremented_by_beats t b m <= incremented_by_beats u c m.
Proof. exact (beats_added_mono t u b c m). Qed.
Print Assumptions C107_beats_order.

(** C107: the beats of a time [t] are t m / 60, up to 2^-51 of it. *)
Theorem C107_as_beats t m : one64 <= m -> Z.abs t <= 2 ^ 53 ->
  2 ^ 51 * Z.abs (60 * 2 ^ 32 * as_beats t m - t * m) <= Z.abs t * m.
Proof. exact (as_beats_error t m). Qed.
Print Assumptions C107_as_beats.

(** C107: beats taken to a time and back differ by the beats of half a tick and 2^-49 of their number. *)
Theorem C107_beats_round_trip b m : one64 <= m -> Z.abs (from_beats b m) <= 2 ^ 53 ->
  2 ^ 50 * (60 * 2 ^ 32 * Z.abs (as_beats (from_beats b m) m - b)) <= (2 ^ 49 + 1) * m + 61 * Z.abs b * 2 ^ 32.
Proof. exact (beats_round_trip b m). Qed.
Print Assumptions C107_beats_round_trip.

(** 10 beats at 120 a minute are 5 s; 9 beats at 60 after 7 s are at 16 s; 4
    beats at 119 a minute are a number of ticks, and not the same 4 beats back. *)
Example C107_case :
  from_beats (10 * one64) (120 * one64) = 5 * 2 ^ 32 /\ as_beats (5 * 2 ^ 32) (120 * one64) = 10 * one64 /\
  incremented_by_beats (7 * 2 ^ 32) (9 * one64) (60 * one64) = 16 * 2 ^ 32 /\
  incremented_by_seconds (7 * 2 ^ 32) (one64 / 2) = 15 * 2 ^ 31 /\
  one64 <= 119 * one64 /\ from_beats (4 * one64) (119 * one64) = 8662118916 /\
  Z.abs (from_beats (4 * one64) (119 * one64)) <= 2 ^ 53 /\
  as_beats (from_beats (4 * one64) (119 * one64)) (119 * one64) <> 4 * one64.
Proof. repeat split; vm_compute; (reflexivity || discriminate). Qed.
