(** Rounding: nearest, monotone, exact on representable numbers. *)
From Coq Require Import ZArith Lia Psatz.
From Coq Require Import ZifyBool ZifyNat.
From Verif Require Import Float.
Local Open Scope Z_scope.

(** ** The definitions without the shortcuts *)
Lemma strip_spec a : forall b a' b', strip a b = (a', b') ->
  exists c, (a = c * a' /\ b = c * b')%positive.
Proof.
  induction a as [a IH|a IH|]; intros b a' b' E; cbn [strip] in E.
  - injection E as <- <-. exists 1%positive. lia.
  - destruct b as [b|b|].
    + injection E as <- <-. exists 1%positive. lia.
    + destruct (IH b a' b' E) as (c & -> & ->). exists (xO c). lia.
    + injection E as <- <-. exists 1%positive. lia.
  - injection E as <- <-. exists 1%positive. lia.
Qed.

Lemma reduce_spec a b a' b' : 0 < b -> reduce a b = (a', b') ->
  exists c, 0 < c /\ a = a' * c /\ b = b' * c /\ 0 < b'.
Proof.
  intros Hb E. destruct a as [|a|a], b as [|b|b]; try lia; cbn [reduce] in E.
  - injection E as <- <-. exists 1. lia.
  - destruct (strip a b) as [x y] eqn:Es. injection E as <- <-.
    destruct (strip_spec a b x y Es) as (c & -> & ->). exists (Zpos c). lia.
  - destruct (strip a b) as [x y] eqn:Es. injection E as <- <-.
    destruct (strip_spec a b x y Es) as (c & -> & ->). exists (Zpos c). lia.
Qed.

Lemma rne_unfold a b : 0 < b ->
  rne a b = if 2 * (a mod b) <? b then a / b
            else if b <? 2 * (a mod b) then a / b + 1
            else if Z.even (a / b) then a / b else a / b + 1.
Proof.
  intros Hb. unfold rne. destruct (reduce a b) as [a' b'] eqn:E.
  destruct (reduce_spec a b a' b' Hb E) as (c & Hc & -> & -> & Hb').
  rewrite (Z.div_mul_cancel_r a' b' c) by lia. rewrite Zmult_mod_distr_r.
  unfold Z.div, Z.modulo. pose proof (Z_div_mod_full a' b' ltac:(lia)) as H.
  destruct (Z.div_eucl a' b') as [q r].
  destruct (Z.ltb_spec (2 * r) b'), (Z.ltb_spec (2 * (r * c)) (b' * c)); try nia; try reflexivity.
  destruct (Z.ltb_spec b' (2 * r)), (Z.ltb_spec (b' * c) (2 * (r * c))); try nia; reflexivity.
Qed.

Lemma lsb_unfold p a b : 0 < b -> lsb p a b = Z.max 0 (Z.log2 (Z.abs a / b) + 1 - p).
Proof.
  intros Hb. unfold lsb. destruct (reduce (Z.abs a) b) as [a' b'] eqn:E.
  destruct (reduce_spec _ b a' b' Hb E) as (c & Hc & -> & -> & Hb').
  rewrite (Z.div_mul_cancel_r a' b' c) by lia. reflexivity.
Qed.

Lemma lsb_nonneg p a b : 0 <= lsb p a b.
Proof. unfold lsb. destruct (reduce _ _). lia. Qed.

Lemma rnd_unfold p a b : rnd p a b = 2 ^ lsb p a b * rne a (b * 2 ^ lsb p a b).
Proof. unfold rnd. rewrite !Z.shiftl_mul_pow2 by apply lsb_nonneg. ring. Qed.

Lemma rne_cases a b : 0 < b ->
  exists q r, a = b * q + r /\ 0 <= r < b /\
    ((2 * r < b /\ rne a b = q) \/ (b < 2 * r /\ rne a b = q + 1) \/
     (2 * r = b /\ Z.even q = true /\ rne a b = q) \/
     (2 * r = b /\ Z.even q = false /\ rne a b = q + 1)).
Proof.
  intros Hb. exists (a / b), (a mod b).
  pose proof (Z.div_mod a b ltac:(lia)) as E. pose proof (Z.mod_pos_bound a b Hb) as Hr.
  split; [exact E|]. split; [exact Hr|]. rewrite (rne_unfold a b Hb).
  destruct (Z.ltb_spec (2 * (a mod b)) b); [left; auto|].
  destruct (Z.ltb_spec b (2 * (a mod b))); [right; left; auto|].
  right; right. destruct (Z.even (a / b)) eqn:Ee; [left|right]; split; auto; lia.
Qed.

(** nearest *)
Lemma rne_error a b : 0 < b -> 2 * Z.abs (b * rne a b - a) <= b.
Proof.
  intros Hb. destruct (rne_cases a b Hb) as (q & r & E & Hr & [[H ->]|[[H ->]|[(H & _ & ->)|(H & _ & ->)]]]); nia.
Qed.

Lemma rne_exact q b : 0 < b -> rne (b * q) b = q.
Proof.
  intros Hb. rewrite rne_unfold by lia. rewrite (Z.mul_comm b q), Z.div_mul, Z.mod_mul by lia.
  destruct (Z.ltb_spec (2 * 0) b); lia.
Qed.

Lemma rne_1 a : rne a 1 = a.
Proof. replace a with (1 * a) at 1 by lia. apply rne_exact. lia. Qed.

(** monotone in the quotient *)
Lemma rne_mono a1 b1 a2 b2 : 0 < b1 -> 0 < b2 -> a1 * b2 <= a2 * b1 -> rne a1 b1 <= rne a2 b2.
Proof.
  intros H1 H2 Hle.
  destruct (rne_cases a1 b1 H1) as (q1 & r1 & E1 & Hr1 & C1).
  destruct (rne_cases a2 b2 H2) as (q2 & r2 & E2 & Hr2 & C2).
  assert (Hq : q1 <= q2).
  { destruct (Z_le_gt_dec q1 q2); [auto|exfalso].
    assert (b1 * b2 * (q2 + 1) <= b1 * b2 * q1) by (apply Z.mul_le_mono_nonneg_l; nia).
    assert (0 <= r1 * b2) by nia. assert (r2 * b1 < b2 * b1) by nia. nia. }
  destruct (Z.eq_dec q1 q2) as [->|Hne].
  - assert (Hrr : r1 * b2 <= r2 * b1) by nia. clear E1 E2 Hle Hq.
    destruct C1 as [[? ->]|[[? ->]|[(? & ? & ->)|(? & ? & ->)]]];
    destruct C2 as [[? ->]|[[? ->]|[(? & ? & ->)|(? & ? & ->)]]]; try lia; try congruence; nia.
  - destruct C1 as [[? ->]|[[? ->]|[(? & ? & ->)|(? & ? & ->)]]];
    destruct C2 as [[? ->]|[[? ->]|[(? & ? & ->)|(? & ? & ->)]]]; lia.
Qed.

Lemma rne_scale a b c : 0 < b -> 0 < c -> rne (a * c) (b * c) = rne a b.
Proof.
  intros Hb Hc. apply Z.le_antisymm; apply rne_mono; try nia.
Qed.

Lemma rne_opp a b : 0 < b -> rne (- a) b = - rne a b.
Proof.
  intros Hb.
  destruct (rne_cases a b Hb) as (q1 & r1 & E1 & Hr1 & C1).
  destruct (rne_cases (- a) b Hb) as (q2 & r2 & E2 & Hr2 & C2).
  destruct (Z.eq_dec r1 0) as [Hz|Hz].
  - assert (q2 = - q1) by nia. assert (r2 = 0) by nia. lia.
  - assert (q2 = - q1 - 1) by nia. assert (r2 = b - r1) by nia. subst q2 r2.
    destruct C1 as [[? ->]|[[? ->]|[(? & Hev & ->)|(? & Hev & ->)]]];
    destruct C2 as [[? ->]|[[? ->]|[(? & Hev2 & ->)|(? & Hev2 & ->)]]]; try lia.
    + exfalso. replace (- q1 - 1) with (- (q1 + 1)) in Hev2 by lia. rewrite Z.even_opp, Z.even_add, Hev in Hev2. discriminate.
    + exfalso. replace (- q1 - 1) with (- (q1 + 1)) in Hev2 by lia. rewrite Z.even_opp, Z.even_add, Hev in Hev2. discriminate.
Qed.

(** ** Rounding to p bits *)
Lemma pow_pos k : 0 <= k -> 0 < 2 ^ k.
Proof. intros. apply Z.pow_pos_nonneg; lia. Qed.

(** the magnitude is below 2^(p + lsb) *)
Lemma lsb_upper p a b : 0 < b -> 0 < p -> Z.abs a < b * 2 ^ (p + lsb p a b).
Proof.
  intros Hb Hp. assert (Hq : Z.abs a / b < 2 ^ (p + lsb p a b)).
  { destruct (Z.eq_dec (Z.abs a / b) 0) as [->|Hz].
    - apply pow_pos. pose proof (lsb_nonneg p a b). lia.
    - assert (0 < Z.abs a / b) by (pose proof (Z.div_pos (Z.abs a) b); lia).
      pose proof (Z.log2_spec (Z.abs a / b) H) as [_ H1].
      eapply Z.lt_le_trans; [exact H1|]. apply Z.pow_le_mono_r; [lia|]. rewrite lsb_unfold by lia. lia. }
  pose proof (Z.div_mod (Z.abs a) b ltac:(lia)). pose proof (Z.mod_pos_bound (Z.abs a) b Hb). nia.
Qed.

(** and at least 2^(p - 1 + lsb) unless lsb = 0 *)
Lemma lsb_lower p a b : 0 < b -> 0 < p -> 0 < lsb p a b -> b * 2 ^ (p - 1 + lsb p a b) <= Z.abs a.
Proof.
  intros Hb Hp Hk. assert (Hpos : 0 < Z.abs a / b).
  { destruct (Z.eq_dec (Z.abs a / b) 0) as [E|]; [|pose proof (Z.div_pos (Z.abs a) b); lia].
    rewrite lsb_unfold in Hk by lia. rewrite E in Hk. change (Z.log2 0) with 0 in Hk. lia. }
  pose proof (Z.log2_spec (Z.abs a / b) Hpos) as [H1 _].
  replace (p - 1 + lsb p a b) with (Z.log2 (Z.abs a / b)) by (rewrite lsb_unfold in * by lia; lia).
  pose proof (Z.div_mod (Z.abs a) b ltac:(lia)). pose proof (Z.mod_pos_bound (Z.abs a) b Hb). nia.
Qed.

(** distance at most half a unit in the last place *)
Lemma rnd_error p a b : 0 < b -> 2 * Z.abs (b * rnd p a b - a) <= b * 2 ^ lsb p a b.
Proof.
  intros Hb. rewrite ?rnd_unfold. pose proof (pow_pos _ (lsb_nonneg p a b)) as Hk.
  pose proof (rne_error a (b * 2 ^ lsb p a b) ltac:(nia)) as H.
  replace (b * (2 ^ lsb p a b * rne a (b * 2 ^ lsb p a b)) - a)
    with (b * 2 ^ lsb p a b * rne a (b * 2 ^ lsb p a b) - a) by ring. exact H.
Qed.

(** relative error, absolute half unit for subnormal results *)
Lemma rnd_rel_error p a b : 0 < b -> 0 < p ->
  Z.abs (b * rnd p a b - a) * 2 ^ p <= Z.abs a \/ (lsb p a b = 0 /\ rnd p a b = rne a b).
Proof.
  intros Hb Hp. destruct (Z.eq_dec (lsb p a b) 0) as [E|E].
  - right. split; [exact E|]. rewrite ?rnd_unfold. rewrite E. rewrite Z.pow_0_r, Z.mul_1_r. lia.
  - left. pose proof (lsb_nonneg p a b). pose proof (lsb_lower p a b Hb Hp ltac:(lia)) as Hl.
    pose proof (rnd_error p a b Hb) as He.
    replace (p - 1 + lsb p a b) with (lsb p a b + (p - 1)) in Hl by lia.
    rewrite Z.pow_add_r in Hl by lia.
    replace (2 ^ p) with (2 * 2 ^ (p - 1)) by (rewrite <- Z.pow_succ_r by lia; f_equal; lia).
    pose proof (pow_pos (p - 1) ltac:(lia)). nia.
Qed.

Lemma rnd_opp p a b : 0 < b -> rnd p (- a) b = - rnd p a b.
Proof.
  intros Hb. rewrite !rnd_unfold, !lsb_unfold by lia. rewrite Z.abs_opp.
  pose proof (pow_pos _ (lsb_nonneg p a b)) as Hk. rewrite lsb_unfold in Hk by lia.
  rewrite rne_opp by nia. ring.
Qed.

(** representable: an integer multiple of a power of two with a mantissa of at
    most p bits *)
Definition repr (p x : Z) : Prop := exists m e, 0 <= e /\ x = m * 2 ^ e /\ Z.abs m <= 2 ^ p.

Lemma repr_0 p : 0 <= p -> repr p 0.
Proof. intros. exists 0, 0. pose proof (pow_pos p). cbn. lia. Qed.

Lemma repr_small p x : 0 <= p -> Z.abs x <= 2 ^ p -> repr p x.
Proof. intros. exists x, 0. rewrite Z.pow_0_r. lia. Qed.

Lemma repr_pow p x k : 0 <= k -> repr p x -> repr p (x * 2 ^ k).
Proof.
  intros Hk (m & e & He & -> & Hm). exists m, (e + k). rewrite Z.pow_add_r by lia.
  split; [lia|]. split; [ring|lia].
Qed.

Lemma repr_opp p x : repr p x -> repr p (- x).
Proof. intros (m & e & He & -> & Hm). exists (- m), e. split; [lia|]. split; [ring|lia]. Qed.

Lemma rnd_repr p a b : 0 < b -> 0 < p -> repr p (rnd p a b).
Proof.
  intros Hb Hp. rewrite ?rnd_unfold. set (k := lsb p a b). exists (rne a (b * 2 ^ k)), k.
  pose proof (lsb_nonneg p a b) as Hk. fold k in Hk. pose proof (pow_pos k Hk) as Hpk.
  split; [exact Hk|]. split; [ring|].
  pose proof (lsb_upper p a b Hb Hp) as Hu. fold k in Hu. rewrite Z.pow_add_r in Hu by lia.
  assert (H1 : rne a (b * 2 ^ k) <= 2 ^ p).
  { rewrite <- (rne_1 (2 ^ p)). apply rne_mono; nia. }
  assert (H2 : - 2 ^ p <= rne a (b * 2 ^ k)).
  { rewrite <- (rne_1 (- 2 ^ p)). apply rne_mono; nia. }
  lia.
Qed.

(** a representable number is a multiple of every lsb at or below its own *)
Lemma repr_multiple p x k : 0 <= k -> repr p x -> 2 ^ (p - 1 + k) <= Z.abs x -> 0 < p ->
  exists m, x = m * 2 ^ k.
Proof.
  intros Hk (m & e & He & -> & Hm) Hx Hp.
  destruct (Z_le_gt_dec k e) as [Hle|Hgt].
  - exists (m * 2 ^ (e - k)). rewrite <- Z.mul_assoc, <- Z.pow_add_r by lia. do 2 f_equal. lia.
  - (* then |m| = 2^p and k = e + 1 *)
    rewrite Z.abs_mul, (Z.abs_eq (2 ^ e)) in Hx by (pose proof (pow_pos e He); lia).
    assert (Hk1 : k = e + 1).
    { destruct (Z.eq_dec k (e + 1)); [auto|]. exfalso.
      assert (2 ^ (p + 1 + e) <= 2 ^ (p - 1 + k)) by (apply Z.pow_le_mono_r; lia).
      replace (p + 1 + e) with (p + (1 + e)) in H by lia.
      rewrite Z.pow_add_r, (Z.pow_add_r 2 1 e) in H by lia.
      pose proof (pow_pos e He). pose proof (pow_pos p ltac:(lia)). change (2 ^ 1) with 2 in H. nia. }
    assert (Z.abs m = 2 ^ p).
    { apply Z.le_antisymm; [exact Hm|]. subst k.
      replace (p - 1 + (e + 1)) with (p + e) in Hx by lia. rewrite Z.pow_add_r in Hx by lia.
      pose proof (pow_pos e He). nia. }
    assert (Hm2 : exists m', m = m' * 2).
    { exists (Z.sgn m * 2 ^ (p - 1)). rewrite <- Z.mul_assoc.
      replace (2 ^ (p - 1) * 2) with (2 ^ p)
        by (rewrite Z.mul_comm, <- Z.pow_succ_r by lia; f_equal; lia).
      rewrite <- H. rewrite Z.mul_comm, Z.abs_sgn. lia. }
    destruct Hm2 as [m' ->]. exists m'. subst k. rewrite Z.pow_add_r by lia. change (2 ^ 1) with 2. ring.
Qed.

Lemma rnd_exact p x b : 0 < b -> 0 < p -> repr p x -> rnd p (b * x) b = x.
Proof.
  intros Hb Hp Hx. rewrite ?rnd_unfold. set (k := lsb p (b * x) b).
  pose proof (lsb_nonneg p (b * x) b) as Hk. fold k in Hk. pose proof (pow_pos k Hk) as Hpk.
  assert (Hm : exists m, x = m * 2 ^ k).
  { destruct (Z.eq_dec k 0) as [E|E]; [exists x; rewrite E, Z.pow_0_r; lia|].
    apply (repr_multiple p x k Hk Hx); [|exact Hp].
    pose proof (lsb_lower p (b * x) b Hb Hp) as Hl. fold k in Hl. specialize (Hl ltac:(lia)). nia. }
  clearbody k. destruct Hm as [m ->].
  replace (b * (m * 2 ^ k)) with ((b * 2 ^ k) * m) by ring. rewrite rne_exact by nia. ring.
Qed.

Lemma rnd_exact1 p x : 0 < p -> repr p x -> rnd p x 1 = x.
Proof. intros Hp Hx. replace x with (1 * x) at 1 by ring. apply rnd_exact; [lia|exact Hp|exact Hx]. Qed.

(** a representable bound stays a bound *)
Lemma rnd_le_repr p a b x : 0 < b -> 0 < p -> repr p x -> a <= b * x -> rnd p a b <= x.
Proof.
  intros Hb Hp Hx Hle.
  set (k := lsb p a b). pose proof (lsb_nonneg p a b) as Hk. fold k in Hk. pose proof (pow_pos k Hk) as Hpk.
  rewrite ?rnd_unfold. fold k.
  pose proof (lsb_upper p a b Hb Hp) as Hu. fold k in Hu.
  (* if x is a multiple of 2^k it is easy *)
  assert (Hmul : forall m, a <= b * (m * 2 ^ k) -> 2 ^ k * rne a (b * 2 ^ k) <= m * 2 ^ k).
  { intros m Hm. assert (rne a (b * 2 ^ k) <= m); [|nia].
    rewrite <- (rne_1 m). apply rne_mono; nia. }
  destruct (Z.eq_dec k 0) as [E|E].
  { specialize (Hmul x). rewrite E, Z.pow_0_r in Hmul |- *. lia. }
  pose proof (lsb_lower p a b Hb Hp) as Hl. fold k in Hl. specialize (Hl ltac:(lia)).
  destruct (Z_le_gt_dec (2 ^ (p - 1 + k)) (Z.abs x)) as [Hbig|Hsmall].
  - destruct (repr_multiple p x k Hk Hx Hbig Hp) as [m ->]. apply Hmul. exact Hle.
  - (* x is smaller in magnitude than the binade of a: a is negative *)
    assert (Ha : a <= b * (- 2 ^ (p - 1) * 2 ^ k)).
    { rewrite Z.pow_add_r in Hl, Hsmall by lia. nia. }
    specialize (Hmul _ Ha). rewrite Z.pow_add_r in Hsmall by lia. lia.
Qed.

Lemma rnd_ge_repr p a b x : 0 < b -> 0 < p -> repr p x -> b * x <= a -> x <= rnd p a b.
Proof.
  intros Hb Hp Hx Hle. pose proof (rnd_le_repr p (- a) b (- x) Hb Hp (repr_opp _ _ Hx) ltac:(lia)) as H.
  rewrite rnd_opp in H by exact Hb. lia.
Qed.

(** monotone *)
Lemma rnd_mono p a1 b1 a2 b2 : 0 < b1 -> 0 < b2 -> 0 < p -> a1 * b2 <= a2 * b1 ->
  rnd p a1 b1 <= rnd p a2 b2.
Proof.
  intros H1 H2 Hp Hle.
  set (k1 := lsb p a1 b1). set (k2 := lsb p a2 b2).
  destruct (Z.eq_dec k1 k2) as [E|E].
  - rewrite ?rnd_unfold. fold k1 k2. rewrite E. pose proof (lsb_nonneg p a2 b2) as Hk. fold k2 in Hk.
    pose proof (pow_pos k2 Hk). apply Z.mul_le_mono_nonneg_l; [lia|]. apply rne_mono; nia.
  - (* a power of two separates them *)
    pose proof (lsb_nonneg p a1 b1) as Hk1. fold k1 in Hk1.
    pose proof (lsb_nonneg p a2 b2) as Hk2. fold k2 in Hk2.
    pose proof (lsb_upper p a1 b1 H1 Hp) as U1. fold k1 in U1.
    pose proof (lsb_upper p a2 b2 H2 Hp) as U2. fold k2 in U2.
    assert (Hrep : forall k, 0 <= k -> repr p (2 ^ k)).
    { intros k Hk. exists 1, k. split; [lia|]. split; [lia|]. pose proof (pow_pos p ltac:(lia)). lia. }
    destruct (Z_lt_le_dec k1 k2) as [Hlt|Hge].
    + (* |a2/b2| >= 2^(p-1+k2) >= 2^(p+k1) > |a1/b1| *)
      pose proof (lsb_lower p a2 b2 H2 Hp) as L2. fold k2 in L2. specialize (L2 ltac:(lia)).
      assert (Hpw : 2 ^ (p + k1) <= 2 ^ (p - 1 + k2)) by (apply Z.pow_le_mono_r; lia).
      pose proof (pow_pos (p + k1) ltac:(lia)).
      assert (Hpos : 0 <= a2) by nia.
      transitivity (2 ^ (p + k1)).
      * apply rnd_le_repr; [exact H1|exact Hp|apply Hrep; lia|lia].
      * apply rnd_ge_repr; [exact H2|exact Hp|apply Hrep; lia|nia].
    + pose proof (lsb_lower p a1 b1 H1 Hp) as L1. fold k1 in L1. specialize (L1 ltac:(lia)).
      assert (Hpw : 2 ^ (p + k2) <= 2 ^ (p - 1 + k1)) by (apply Z.pow_le_mono_r; lia).
      pose proof (pow_pos (p + k2) ltac:(lia)).
      assert (Hneg : a1 <= 0) by nia.
      transitivity (- 2 ^ (p + k2)).
      * apply rnd_le_repr; [exact H1|exact Hp|apply repr_opp, Hrep; lia|nia].
      * apply rnd_ge_repr; [exact H2|exact Hp|apply repr_opp, Hrep; lia|lia].
Qed.

Lemma rnd_scale p a b c : 0 < b -> 0 < c -> 0 < p -> rnd p (a * c) (b * c) = rnd p a b.
Proof. intros. apply Z.le_antisymm; apply rnd_mono; nia. Qed.

Lemma rnd_0 p b : 0 < b -> rnd p 0 b = 0.
Proof.
  intros Hb. rewrite ?rnd_unfold. pose proof (pow_pos _ (lsb_nonneg p 0 b)).
  replace 0 with ((b * 2 ^ lsb p 0 b) * 0) at 2 by ring. rewrite rne_exact by nia. ring.
Qed.

(** no representable number is nearer *)
Lemma rnd_nearest_pos p a b x : 0 < b -> 0 < p -> repr p x -> a <= b * x ->
  Z.abs (b * rnd p a b - a) <= b * x - a.
Proof.
  intros Hb Hp Hx Hle. pose proof (rnd_le_repr p a b x Hb Hp Hx Hle) as Hr.
  destruct (Z_le_gt_dec a (b * rnd p a b)) as [H|H]; [nia|].
  (* rounded down: the next number up is at least as far *)
  set (k := lsb p a b). pose proof (lsb_nonneg p a b) as Hk. fold k in Hk. pose proof (pow_pos k Hk) as Hpk.
  pose proof (rnd_error p a b Hb) as E. fold k in E.
  (* x is at least rnd + 2^k *)
  assert (Hxk : rnd p a b + 2 ^ k <= x); [|nia].
  assert (Hm : exists m, x = m * 2 ^ k \/ 2 ^ (p - 1 + k) > Z.abs x).
  { destruct (Z_le_gt_dec (2 ^ (p - 1 + k)) (Z.abs x)) as [Hbig|Hsm].
    - destruct (repr_multiple p x k Hk Hx Hbig Hp) as [m Hm]. exists m. auto.
    - exists 0. right. lia. }
  assert (Hr2 : exists q, rnd p a b = q * 2 ^ k).
  { rewrite ?rnd_unfold. fold k. exists (rne a (b * 2 ^ k)). ring. }
  destruct Hr2 as [q Hq]. rewrite Hq in *.
  destruct Hm as [m [Hm|Hsm]].
  - subst x. assert (q < m) by nia. nia.
  - destruct (Z.eq_dec k 0) as [E0|E0].
    + rewrite E0 in *. change (2 ^ 0) with 1 in *. nia.
    + (* |x| below the binade: a negative, and rnd <= -2^(p-1+k) *)
      pose proof (lsb_lower p a b Hb Hp) as Hl. fold k in Hl. specialize (Hl ltac:(lia)).
      assert (Ha : a <= b * (- 2 ^ (p - 1 + k))) by nia.
      assert (Hrr : repr p (- 2 ^ (p - 1 + k))).
      { apply repr_opp. exists 1, (p - 1 + k). pose proof (pow_pos p ltac:(lia)). split; [lia|]. split; [lia|lia]. }
      pose proof (rnd_le_repr p a b _ Hb Hp Hrr Ha) as Hr3. rewrite Hq in Hr3.
      rewrite Z.pow_add_r in * by lia.
      assert (q <= - 2 ^ (p - 1)) by nia.
      (* x > -2^(p-1+k) and representable: within the next binade its spacing may be 2^(k-1);
         but rnd < a/b <= x with a/b <= -2^(p-1+k) *)
      assert (a <= b * (- 2 ^ (p - 1) * 2 ^ k)) by nia.
      assert (q + 1 <= - 2 ^ (p - 1)) by nia. nia.
Qed.

Lemma rnd_nearest p a b x : 0 < p -> 0 < b -> repr p x ->
  repr p (rnd p a b) /\ Z.abs (b * rnd p a b - a) <= Z.abs (b * x - a).
Proof.
  intros Hp Hb Hx. split; [apply rnd_repr; lia|].
  destruct (Z_le_gt_dec a (b * x)) as [H|H].
  - pose proof (rnd_nearest_pos p a b x Hb Hp Hx H). lia.
  - pose proof (rnd_nearest_pos p (- a) b (- x) Hb Hp (repr_opp _ _ Hx) ltac:(lia)) as H1.
    rewrite rnd_opp in H1 by exact Hb. lia.
Qed.
