(** IEEE 754 arithmetic with rounding to nearest, ties to even, on integers.

    A finite binary64 (binary32) number is represented by the integer obtained
    by multiplying it by 2^1074 (2^149), the inverse of the smallest subnormal.
    Equal numbers are equal integers and the order is that of the integers;
    infinities, NaN and the sign of zero are left out.  [rnd p a b] rounds the
    exact quotient a/b to a number of [p] significant bits; every operation
    is the exact result rounded once, as IEEE 754 prescribes. *)
From Coq Require Import ZArith Lia.
Local Open Scope Z_scope.

(** a/b with common factors of two removed (values are multiples of large
    powers of two; this only speeds up computation) *)
Fixpoint strip (a b : positive) : positive * positive :=
  match a, b with
  | xO a', xO b' => strip a' b'
  | _, _ => (a, b)
  end.
Definition reduce (a b : Z) : Z * Z :=
  match a, b with
  | Zpos a, Zpos b => let (a, b) := strip a b in (Zpos a, Zpos b)
  | Zneg a, Zpos b => let (a, b) := strip a b in (Zneg a, Zpos b)
  | _, _ => (a, b)
  end.

(** nearest integer to a/b (b > 0), ties to even *)
Definition rne (a b : Z) : Z :=
  let (a, b) := reduce a b in
  let (q, r) := Z.div_eucl a b in
  if 2 * r <? b then q
  else if b <? 2 * r then q + 1
  else if Z.even q then q else q + 1.

(** exponent of the last place of a number of [p] bits near a/b, in units of
    the representation *)
Definition lsb (p a b : Z) : Z :=
  let (a, b) := reduce (Z.abs a) b in
  Z.max 0 (Z.log2 (a / b) + 1 - p).

Definition rnd (p a b : Z) : Z :=
  let k := lsb p a b in Z.shiftl (rne a (Z.shiftl b k)) k.

(** binary64 *)
Definition one64 : Z := Z.shiftl 1 1074.
(** usize as f64 *)
Definition f64_of_Z (n : Z) : Z := rnd 53 (n * one64) 1.
Definition f64_add (x y : Z) : Z := rnd 53 (x + y) 1.
Definition f64_sub (x y : Z) : Z := rnd 53 (x - y) 1.
Definition f64_mul (x y : Z) : Z := rnd 53 (x * y) one64.
(** [y] not zero *)
Definition f64_div (x y : Z) : Z :=
  if y <? 0 then rnd 53 (- (x * one64)) (- y) else rnd 53 (x * one64) y.
Definition f64_floor (x : Z) : Z := x / one64.

(** binary32 *)
Definition one32 : Z := Z.shiftl 1 149.
Definition f32_of_Z (n : Z) : Z := rnd 24 (n * one32) 1.
Definition f32_add (x y : Z) : Z := rnd 24 (x + y) 1.
Definition f32_sub (x y : Z) : Z := rnd 24 (x - y) 1.
Definition f32_mul (x y : Z) : Z := rnd 24 (x * y) one32.
Definition f32_div (x y : Z) : Z :=
  if y <? 0 then rnd 24 (- (x * one32)) (- y) else rnd 24 (x * one32) y.
Definition f32_floor (x : Z) : Z := x / one32.
