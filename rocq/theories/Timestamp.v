(** Timestamps: fixed point numbers with 32 fractional bits.

    /repo/src/utility/timestamp.rs.  A timestamp is its raw value, the number
    of ticks of 2^-32 s (I32F32::to_bits).  The 64 bit range (-2^31 s to 2^31 s)
    is not checked here: theorems about the engine bound the times where they
    need it.  f64 arithmetic is that of Float.v, bit for bit. *)
From Coq Require Import ZArith.
From Verif Require Import Float.
Local Open Scope Z_scope.

Definition timestamp : Set := Z.

(** scaled binary64 value of one tick *)
Definition tick64 : Z := Z.shiftl 1 1042.

(** FixedPoint::from_num::<f64> and to_num::<f64> of the fixed crate: both
    round to nearest, ties to even *)
Definition fixed_from_f64 (x : Z) : timestamp := rne x tick64.
Definition fixed_to_f64 (t : timestamp) : Z := rnd 53 (t * tick64) 1.

(** timestamp.rs l.58-62 *)
Definition ts_zero : timestamp := 0.
(** l.75-79 *)
Definition from_seconds (seconds : Z) : timestamp := fixed_from_f64 seconds.
(** l.82-86 *)
Definition from_samples (samples sample_rate : Z) : timestamp :=
  fixed_from_f64 (f64_div samples (f64_of_Z sample_rate)).
(** l.94-102, without the assertion on the tempo *)
Definition from_beats (beats tempo : Z) : timestamp :=
  fixed_from_f64 (f64_div beats (f64_div tempo (f64_of_Z 60))).
(** l.105-107 *)
Definition as_seconds (t : timestamp) : Z := fixed_to_f64 t.
(** l.110-112 *)
Definition as_samples (t : timestamp) (sample_rate : Z) : Z :=
  f64_mul (fixed_to_f64 t) (f64_of_Z sample_rate).
(** l.115-118 *)
Definition as_beats (t : timestamp) (tempo : Z) : Z :=
  f64_mul (fixed_to_f64 t) (f64_div tempo (f64_of_Z 60)).
(** l.121-123 *)
Definition incremented_by_samples (t : timestamp) (sample_count sample_rate : Z) : timestamp :=
  t + from_samples (f64_of_Z sample_count) sample_rate.
(** l.126-130 *)
Definition incremented_by_seconds (t : timestamp) (seconds : Z) : timestamp :=
  t + fixed_from_f64 seconds.
(** l.133-135 *)
Definition incremented_by_beats (t : timestamp) (beats tempo : Z) : timestamp :=
  t + from_beats beats tempo.

(** Where an event at time [t] falls in a block starting at [start]:
    effects/utility/event_processor.rs l.75-78, [.floor() as usize] (a
    negative value saturates at 0). *)
Definition position_in_frame (start t : timestamp) (sample_rate : Z) : Z :=
  Z.max 0 (f64_floor (as_samples (t - start) sample_rate)).
