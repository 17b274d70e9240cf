(** Levels: src/utility/level.rs, over the real numbers; a level is its linear gain (l.5-7). *)
From Coq Require Import Reals.
Local Open Scope R_scope.

(** l.1 *)
Definition minus_infinity_db : R := -128.
(** l.11-18 *)
Definition level_unity : R := 1.
Definition level_zero : R := 0.
(** l.21-29 *)
Definition from_db (db : R) : R := if Rle_dec db minus_infinity_db then 0 else Rpower 10 (db / 20).
(** f64::log10 *)
Definition log10 (x : R) : R := ln x / ln 10.
(** l.37-43; 1e-9 *)
Definition as_db (level : R) : R := if Rle_dec level (/ 10 ^ 9) then minus_infinity_db else 20 * log10 level.
(** l.63-67; f64::clamp *)
Definition level_clamp (level lo hi : R) : R := if Rlt_dec level lo then lo else if Rlt_dec hi level then hi else level.
