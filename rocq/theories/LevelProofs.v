From Coq Require Import Reals Lra Lia.
From Verif Require Import Level.
Local Open Scope R_scope.

Lemma ln10_pos : 0 < ln 10.
Proof. rewrite <- ln_1. apply ln_increasing; lra. Qed.
Lemma Rpower10_log x : 0 < x -> Rpower 10 (log10 x) = x.
Proof. intros. unfold Rpower, log10. pose proof ln10_pos. replace (ln x / ln 10 * ln 10) with (ln x) by (field; lra). now apply exp_ln. Qed.
Lemma log_Rpower10 y : log10 (Rpower 10 y) = y.
Proof. unfold Rpower, log10. pose proof ln10_pos. rewrite ln_exp. field. lra. Qed.
Lemma Rpower10_lt x y : x < y -> Rpower 10 x < Rpower 10 y.
Proof. intros. apply Rpower_lt; lra. Qed.
Lemma log10_lt x y : 0 < x -> x < y -> log10 x < log10 y.
Proof. intros. unfold log10. pose proof ln10_pos. apply Rmult_lt_compat_r; [now apply Rinv_0_lt_compat|]. now apply ln_increasing. Qed.
Lemma log10_le x y : 0 < x -> x <= y -> log10 x <= log10 y.
Proof. intros Hx [H|<-]; [left; now apply log10_lt|lra]. Qed.
Lemma Rpower10_pos y : 0 < Rpower 10 y.
Proof. apply exp_pos. Qed.
Lemma Rpower10_neg (n : nat) : Rpower 10 (- INR n) = / 10 ^ n.
Proof. rewrite Rpower_Ropp. f_equal. apply Rpower_pow. lra. Qed.

Lemma floor_above db : -128 < db -> / 10 ^ 9 < Rpower 10 (db / 20).
Proof.
  intros H. rewrite <- Rpower10_neg. apply Rpower10_lt. cbn [INR]. lra.
Qed.
Lemma as_db_from_db db : -128 < db -> as_db (from_db db) = db.
Proof.
  intros H. unfold from_db, minus_infinity_db. destruct (Rle_dec _ _); [lra|]. unfold as_db.
  pose proof (floor_above db H). destruct (Rle_dec _ _); [lra|]. rewrite log_Rpower10. lra.
Qed.
Lemma as_db_floor db : db <= -128 -> as_db (from_db db) = -128.
Proof.
  intros H. unfold from_db, minus_infinity_db. destruct (Rle_dec _ _); [|lra]. unfold as_db.
  assert (0 < / 10 ^ 9) by (apply Rinv_0_lt_compat; lra). destruct (Rle_dec _ _); [reflexivity|lra].
Qed.
Lemma from_db_as_db l : Rpower 10 (-64 / 10) < l -> from_db (as_db l) = l.
Proof.
  intros H. assert (/ 10 ^ 9 < Rpower 10 (-64 / 10)). { rewrite <- Rpower10_neg. apply Rpower10_lt. cbn [INR]. lra. }
  unfold as_db. destruct (Rle_dec _ _); [lra|]. pose proof (Rpower10_pos (-64 / 10)).
  assert (-64 / 10 < log10 l). { rewrite <- (log_Rpower10 (-64 / 10)). now apply log10_lt. }
  unfold from_db, minus_infinity_db. destruct (Rle_dec _ _); [lra|].
  replace (20 * log10 l / 20) with (log10 l) by field. apply Rpower10_log. lra.
Qed.
Lemma from_db_mono x y : x <= y -> from_db x <= from_db y.
Proof.
  intros H. unfold from_db. destruct (Rle_dec x _), (Rle_dec y _); try lra.
  - pose proof (Rpower10_pos (y / 20)). lra.
  - destruct H as [H| ->]; [|lra]. left. apply Rpower10_lt. lra.
Qed.
Lemma from_db_strict x y : -128 < x -> x < y -> from_db x < from_db y.
Proof. intros H1 H2. unfold from_db, minus_infinity_db. destruct (Rle_dec x _), (Rle_dec y _); try lra. apply Rpower10_lt. lra. Qed.
Lemma as_db_mono_above x y : / 10 ^ 9 < x -> x <= y -> as_db x <= as_db y.
Proof.
  intros H1 H2. unfold as_db. assert (0 < / 10 ^ 9) by (apply Rinv_0_lt_compat; lra).
  destruct (Rle_dec x _); [lra|]. destruct (Rle_dec y _); [lra|]. pose proof (log10_le x y ltac:(lra) H2). lra.
Qed.
Lemma from_db_zero : from_db 0 = 1.
Proof. unfold from_db, minus_infinity_db. destruct (Rle_dec _ _); [lra|]. replace (0 / 20) with 0 by field. apply Rpower_O. lra. Qed.
Lemma as_db_unity : as_db 1 = 0.
Proof. unfold as_db. destruct (Rle_dec _ _) as [H|]; [|unfold log10; rewrite ln_1; lra]. lra. Qed.

(** 2e-9 reads as less than 0 does *)
Lemma as_db_not_mono : as_db (2 / 10 ^ 9) < as_db 0.
Proof.
  unfold as_db, minus_infinity_db. destruct (Rle_dec (2 / 10 ^ 9) _) as [H|_]; [lra|].
  destruct (Rle_dec 0 _) as [_|H]; [|lra].
  assert (log10 (2 / 10 ^ 9) < -64 / 10); [|lra]. 
  rewrite <- (log_Rpower10 (-64 / 10)). apply log10_lt; [lra|].
  assert (Rpower 10 (-7) < Rpower 10 (-64 / 10)) by (apply Rpower10_lt; lra).
  assert (Rpower 10 (-7) = / 10 ^ 7). { replace (-7) with (- INR 7) by (cbn [INR]; lra). apply Rpower10_neg. } lra.
Qed.
Lemma round_trip_lost : from_db (as_db (2 / 10 ^ 9)) = 0.
Proof.
  pose proof as_db_not_mono as H. assert (E : as_db 0 = -128). { unfold as_db. destruct (Rle_dec _ _) as [_|H']; [reflexivity|lra]. }
  rewrite E in H. unfold from_db, minus_infinity_db. destruct (Rle_dec _ _); [reflexivity|lra].
Qed.
