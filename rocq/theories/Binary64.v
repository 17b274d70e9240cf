(** binary64 arithmetic on real numbers: every operation gives the real result rounded to the nearest binary64 number, ties to even (IEEE 754-2008; Rust's
    f64 operators).  Simplified: no overflow, no infinities and NaN.  exp and ln are parameters: the platform's library decides their errors.

    Used for the parameters: /repo/src/parameter/realtime_parameter.rs l.78-157. *)
From Coq Require Import ZArith Reals.
From Flocq Require Import Core.
From Verif Require Import Base Timestamp AudioParam.
Local Open Scope R_scope.

Definition rnd64 (x : R) : R := round radix2 (FLT_exp (-1074) 53) ZnearestE x.

(** relative_eq! of the approx crate with the default epsilon 2^-52, realtime_parameter.rs l.78-92 *)
Definition close64 (a b : R) : bool :=
  if Req_EM_T a b then true
  else if Rle_dec (Rabs (rnd64 (a - b))) (/ 2 ^ 52) then true
  else if Rle_dec (Rabs (rnd64 (a - b))) (rnd64 (Rmax (Rabs a) (Rabs b) * / 2 ^ 52)) then true else false.

(** Timestamp::as_samples, timestamp.rs l.110-112: 32 fractional bits *)
Definition samples64 (t : timestamp) (sr : nat) : R := rnd64 (rnd64 (IZR t / 2 ^ 32) * INR sr).

Definition b64_num (exp64 ln64 : R -> R) : num R :=
  Num R 0 1 (fun a b => rnd64 (a + b)) (fun a b => rnd64 (a - b)) (fun a b => rnd64 (a * b)) (fun a b => rnd64 (a / b)) exp64 ln64
    (fun x => if Req_EM_T x 0 then true else false) close64 samples64.

(** the library's exp and ln are accurate up to the relative error [delta], away from overflow *)
Definition accurate (delta : R) (exp64 ln64 : R -> R) : Prop :=
  0 <= delta /\
  (forall x, Rabs x <= 700 -> Rabs (exp64 x - exp x) <= delta * exp x) /\
  (forall x, / 2 ^ 1000 <= x <= 2 ^ 1000 -> Rabs (ln64 x - ln x) <= delta * Rabs (ln x)).

(** [x] is [y] up to a factor of [exp b], which is about [1 + b] *)
Definition near (b x y : R) : Prop := y * exp (- b) <= x <= y * exp b.

(** the error of frame [k] of an exponential ramp *)
Definition ramp_error (delta ratio : R) (k : nat) : R :=
  2 * INR k * (delta + / 2 ^ 53) + (delta + 2 * / 2 ^ 53) * Rabs (ln ratio) + 5 * / 2 ^ 53.
