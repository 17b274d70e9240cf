(** The parameter model over the real numbers: no rounding; a timestamp is an
    exact number of samples. *)
From Coq Require Import Reals ZArith.
From Verif Require Import Base Float Timestamp AudioParam.
Local Open Scope R_scope.

(** relative_eq! of the approx crate with the default epsilon 2^-52 *)
Definition epsR : R := / 2 ^ 52.
Definition closeR (a b : R) : bool :=
  if Rle_dec (Rabs (a - b)) epsR then true
  else if Rle_dec (Rabs (a - b)) (Rmax (Rabs a) (Rabs b) * epsR) then true else false.

(** Timestamp::as_samples without rounding *)
Definition samplesR (t : timestamp) (sr : nat) : R := IZR t * INR sr / 2 ^ 32.

Definition R_num : num R :=
  Num R 0 1 Rplus Rminus Rmult Rdiv exp ln (fun x => if Req_EM_T x 0 then true else false) closeR samplesR.

(** length in samples of the time from [t] to [e] *)
Definition lengthR (t e : timestamp) (sr : nat) : R := IZR (e - t) * INR sr / 2 ^ 32.

Arguments lengthR (_ _)%Z_scope _.

Definition between (a b x : R) : Prop := Rmin a b <= x <= Rmax a b.
