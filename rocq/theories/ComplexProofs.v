From stdpp Require Import list list_numbers.
From Coq Require Import Reals Lra Lia ZArith Ring.
From Verif Require Import Complex.
Local Open Scope R_scope.

Lemma complex_eq x y : re x = re y → im x = im y → x = y.
Proof. destruct x, y. cbn. by intros -> ->. Qed.
Ltac ceq := apply complex_eq; cbn [re im cadd cmul copp csub czero cone of_real]; ring.
Lemma cring_theory : ring_theory czero cone cadd cmul csub copp (@eq complex).
Proof. constructor; intros; try done; ceq. Qed.
Add Ring cring : cring_theory.

Lemma csum_ext f g n : (∀ i, (i < n)%nat → f i = g i) → csum f n = csum g n.
Proof. induction n as [|n IH]; intros H; cbn [csum]; [done|]. rewrite IH, H; [done|lia|]. intros i Hi. apply H. lia. Qed.
Lemma csum_zero n : csum (λ _, czero) n = czero.
Proof. induction n as [|n IH]; cbn [csum]; [done|]. rewrite IH. ring. Qed.
Lemma csum_mul c f n : csum (λ i, cmul c (f i)) n = cmul c (csum f n).
Proof. induction n as [|n IH]; cbn [csum]; [ring|]. rewrite IH. ring. Qed.
Lemma csum_mul_r c f n : csum (λ i, cmul (f i) c) n = cmul (csum f n) c.
Proof. induction n as [|n IH]; cbn [csum]; [ring|]. rewrite IH. ring. Qed.
Lemma csum_add f g n : csum (λ i, cadd (f i) (g i)) n = cadd (csum f n) (csum g n).
Proof. induction n as [|n IH]; cbn [csum]; [ring|]. rewrite IH. ring. Qed.
Lemma csum_swap (f : nat → nat → complex) n m : csum (λ i, csum (λ j, f i j) m) n = csum (λ j, csum (λ i, f i j) n) m.
Proof.
  induction n as [|n IH]; cbn [csum].
  - by rewrite csum_zero.
  - by rewrite IH, <-csum_add.
Qed.
(** a sum with one term *)
Lemma csum_single f n k : (k < n)%nat → (∀ i, (i < n)%nat → i ≠ k → f i = czero) → csum f n = f k.
Proof.
  induction n as [|n IH]; intros Hk H; [lia|]. cbn [csum]. destruct (decide (k = n)) as [->|Hne].
  - rewrite (csum_ext _ (λ _, czero)) by (intros i Hi; apply H; lia). rewrite csum_zero. ring.
  - rewrite IH by (lia || (intros; apply H; lia)). rewrite (H n) by lia. ring.
Qed.

Lemma cis_add a b : cis (a + b) = cmul (cis a) (cis b).
Proof. unfold cis. apply complex_eq; cbn [re im cmul]; [rewrite cos_plus|rewrite sin_plus]; ring. Qed.
Lemma cis_0 : cis 0 = cone.
Proof. unfold cis. by rewrite cos_0, sin_0. Qed.
Lemma cis_nat n : cis (2 * PI * INR n) = cone.
Proof.
  induction n as [|n IH]; [rewrite Rmult_0_r; apply cis_0|]. rewrite S_INR, Rmult_plus_distr_l, cis_add, IH, Rmult_1_r.
  unfold cis. rewrite cos_2PI, sin_2PI. unfold cone. ceq.
Qed.
Lemma cis_neg a : cmul (cis a) (cis (- a)) = cone.
Proof. rewrite <-cis_add, Rplus_opp_r. apply cis_0. Qed.
Lemma cis_Z z : cis (2 * PI * IZR z) = cone.
Proof.
  destruct (Z_le_gt_dec 0 z) as [H|H].
  - rewrite <-(Z2Nat.id z), <-INR_IZR_INZ by done. apply cis_nat.
  - assert (E : cis (2 * PI * IZR (- z)) = cone) by (rewrite <-(Z2Nat.id (- z)), <-INR_IZR_INZ by lia; apply cis_nat).
    pose proof (cis_neg (2 * PI * IZR (- z))) as Hn. rewrite E in Hn. replace (- (2 * PI * IZR (- z))) with (2 * PI * IZR z) in Hn by (rewrite opp_IZR; ring).
    rewrite <-Hn. ring.
Qed.

Section roots.
  Context (L : nat) (HL : L ≠ 0%nat).
  Definition root (z : Z) : complex := cis (2 * PI * IZR z / INR L).
  Lemma L_pos : 0 < INR L.
  Proof. apply lt_0_INR. lia. Qed.
  Lemma root_add a b : root (a + b) = cmul (root a) (root b).
  Proof. unfold root. rewrite <-cis_add. f_equal. rewrite plus_IZR. pose proof L_pos. field. lra. Qed.
  Lemma root_mul z : root (z * Z.of_nat L) = cone.
  Proof. unfold root. rewrite mult_IZR, <-INR_IZR_INZ. pose proof L_pos. replace (2 * PI * (IZR z * INR L) / INR L) with (2 * PI * IZR z) by (field; lra). apply cis_Z. Qed.
  Lemma root_mod z : root z = root (z mod Z.of_nat L).
  Proof.
    rewrite (Z.div_mod z (Z.of_nat L)) at 1 by lia. rewrite root_add, Z.mul_comm, root_mul. ring.
  Qed.
  Lemma root_not_one z : (z mod Z.of_nat L ≠ 0)%Z → root z ≠ cone.
  Proof.
    intros Hz E. rewrite root_mod in E. pose proof (Z.mod_pos_bound z (Z.of_nat L) ltac:(lia)) as Hb. set (r := (z mod Z.of_nat L)%Z) in *.
    apply (f_equal re) in E. cbn in E. pose proof L_pos. assert (0 < IZR r < INR L). { rewrite INR_IZR_INZ. split; apply IZR_lt; lia. }
    set (h := PI * (IZR r / INR L)). replace (2 * PI * IZR r / INR L) with (2 * h) in E by (unfold h; field; lra).
    assert (0 < IZR r / INR L < 1).
    { split; [apply Rmult_lt_0_compat; [lra|by apply Rinv_0_lt_compat]|]. apply (Rmult_lt_reg_r (INR L)); [lra|]. unfold Rdiv. rewrite Rmult_assoc, Rinv_l; lra. }
    pose proof PI_RGT_0. assert (0 < sin h). { apply sin_gt_0; unfold h; nra. }
    rewrite cos_2a_sin in E. nra.
  Qed.
  Lemma root_sum z : csum (λ k, root (Z.of_nat k * z)) L = if decide (z mod Z.of_nat L = 0)%Z then of_real (INR L) else czero.
  Proof.
    destruct (decide _) as [Hz|Hz].
    - rewrite (csum_ext _ (λ _, cone)).
      + clear. induction L as [|n IH]; [done|]. cbn [csum]. rewrite IH, S_INR. unfold cone. ceq.
      + intros k _. assert (E : ((Z.of_nat k * z) mod Z.of_nat L = 0)%Z) by (rewrite Z.mul_mod, Hz, Z.mul_0_r, Z.mod_0_l; lia).
        rewrite root_mod, E. unfold root. replace (2 * PI * 0 / INR L) with 0 by (unfold Rdiv; ring). apply cis_0.
    - assert (G : ∀ n, cmul (csub (root z) cone) (csum (λ k, root (Z.of_nat k * z)) n) = csub (root (Z.of_nat n * z)) cone).
      { induction n as [|n IH]; cbn [csum].
        - assert (root (Z.of_nat 0 * z) = cone) as ->; [|ring]. unfold root. replace (2 * PI * IZR (Z.of_nat 0 * z) / INR L) with 0; [apply cis_0|]. change (Z.of_nat 0 * z)%Z with 0%Z. unfold Rdiv. ring.
        - replace (Z.of_nat (S n) * z)%Z with (z + Z.of_nat n * z)%Z by lia. rewrite root_add.
          transitivity (cadd (cmul (csub (root z) cone) (csum (λ k, root (Z.of_nat k * z)) n)) (cmul (csub (root z) cone) (root (Z.of_nat n * z)))); [ring|]. rewrite IH. ring. }
      specialize (G L). rewrite (Z.mul_comm (Z.of_nat L)), root_mul in G.
      assert (Hne : csub (root z) cone ≠ czero).
      { intros E. apply (root_not_one z Hz). transitivity (cadd (csub (root z) cone) cone); [ring|]. rewrite E. ring. }
      set (d := csub (root z) cone) in *. set (s := csum _ L) in *. assert (Z : cmul d s = czero) by (rewrite G; ring). clear - Z Hne. clearbody d s.
      destruct d as [p q], s as [a c]. assert (Hn : 0 < p * p + q * q).
      { destruct (Req_dec p 0) as [->|Hp]; [destruct (Req_dec q 0) as [->|Hq]; [done|]|]; nra. }
      pose proof (f_equal re Z) as Z1. pose proof (f_equal im Z) as Z2. cbn in Z1, Z2. unfold czero.
      assert (E1 : (p * p + q * q) * a = 0) by (replace ((p * p + q * q) * a) with (p * (p * a - q * c) + q * (p * c + q * a)) by ring; rewrite Z1, Z2; ring).
      assert (E2 : (p * p + q * q) * c = 0) by (replace ((p * p + q * q) * c) with (p * (p * c + q * a) - q * (p * a - q * c)) by ring; rewrite Z1, Z2; ring).
      f_equal; nra.
  Qed.

  (** the convolution theorem *)
  Lemma convolution_theorem (f g : nat → complex) n : (n < L)%nat →
    csum (λ k, cmul (cmul (csum (λ m, cmul (f m) (root (- (Z.of_nat k * Z.of_nat m)))) L) (csum (λ p, cmul (g p) (root (- (Z.of_nat k * Z.of_nat p)))) L))
      (root (Z.of_nat k * Z.of_nat n))) L =
    cmul (of_real (INR L)) (csum (λ m, cmul (f m) (g (Z.to_nat ((Z.of_nat n - Z.of_nat m) mod Z.of_nat L)))) L).
  Proof.
    intros Hn.
    rewrite (csum_ext _ (λ k, csum (λ m, csum (λ p, cmul (cmul (f m) (g p)) (root (Z.of_nat k * (Z.of_nat n - Z.of_nat m - Z.of_nat p)))) L) L)).
    2:{ intros k _. rewrite <-!csum_mul_r. apply csum_ext. intros m _. rewrite <-csum_mul, <-csum_mul_r. apply csum_ext. intros p _.
        replace (Z.of_nat k * (Z.of_nat n - Z.of_nat m - Z.of_nat p))%Z with (- (Z.of_nat k * Z.of_nat m) + (- (Z.of_nat k * Z.of_nat p) + Z.of_nat k * Z.of_nat n))%Z by lia.
        rewrite !root_add. ring. }
    rewrite csum_swap. rewrite <-csum_mul. apply csum_ext. intros m Hm. rewrite csum_swap.
    rewrite (csum_ext _ (λ p, cmul (cmul (f m) (g p)) (if decide ((Z.of_nat n - Z.of_nat m - Z.of_nat p) mod Z.of_nat L = 0)%Z then of_real (INR L) else czero))).
    2:{ intros p _. rewrite csum_mul. by rewrite root_sum. }
    pose proof (Z.mod_pos_bound (Z.of_nat n - Z.of_nat m) (Z.of_nat L) ltac:(lia)) as Hb. set (q := Z.to_nat ((Z.of_nat n - Z.of_nat m) mod Z.of_nat L)).
    assert (Hq : Z.of_nat q = ((Z.of_nat n - Z.of_nat m) mod Z.of_nat L)%Z) by (unfold q; lia).
    rewrite (csum_single _ L q).
    - rewrite decide_True; [ring|]. rewrite Hq, Zminus_mod_idemp_r. by rewrite Z.sub_diag, Z.mod_0_l by lia.
    - lia.
    - intros p Hp Hne. rewrite decide_False; [ring|]. intros E. apply Hne.
      assert (Ep : Z.of_nat p = ((Z.of_nat n - Z.of_nat m) mod Z.of_nat L)%Z).
      { rewrite <-(Z.mod_small (Z.of_nat p) (Z.of_nat L)) by lia. symmetry. apply Z.mod_divide in E; [|lia]. destruct E as [c E].
        replace (Z.of_nat n - Z.of_nat m)%Z with (Z.of_nat p + c * Z.of_nat L)%Z by lia. apply Z.mod_add. lia. }
      lia.
  Qed.
End roots.

Lemma entry_zip (x y : list complex) k : length x = length y → entry (zip_with cmul x y) k = cmul (entry x k) (entry y k).
Proof.
  intros H. unfold entry. rewrite lookup_zip_with. destruct (x !! k) as [a|] eqn:Ea; cbn; [|ring].
  destruct (lookup_lt_is_Some_2 y k) as [c ->]; [apply lookup_lt_Some in Ea; lia|]. done.
Qed.
Lemma fft_forward_entry x k : (k < length x)%nat →
  entry (fft_forward x) k = csum (λ n, cmul (entry x n) (root (length x) (- (Z.of_nat k * Z.of_nat n)))) (length x).
Proof.
  intros H. unfold entry at 1, fft_forward. rewrite list_lookup_fmap, lookup_seq_lt by done. cbn. apply csum_ext. intros n _. f_equal. unfold root. f_equal.
  rewrite opp_IZR, <-Nat2Z.inj_mul, <-INR_IZR_INZ. field. apply not_0_INR. lia.
Qed.
Lemma fft_inverse_entry x k : (k < length x)%nat →
  entry (fft_inverse x) k = csum (λ n, cmul (entry x n) (root (length x) (Z.of_nat n * Z.of_nat k))) (length x).
Proof.
  intros H. unfold entry at 1, fft_inverse. rewrite list_lookup_fmap, lookup_seq_lt by done. cbn. apply csum_ext. intros n _. f_equal. unfold root. f_equal.
  rewrite <-Nat2Z.inj_mul, <-INR_IZR_INZ. by rewrite Nat.mul_comm.
Qed.
Lemma fft_forward_length x : length (fft_forward x) = length x.
Proof. unfold fft_forward. by rewrite fmap_length, seq_length. Qed.
Lemma fft_inverse_length x : length (fft_inverse x) = length x.
Proof. unfold fft_inverse. by rewrite fmap_length, seq_length. Qed.
(** multiplying transforms convolves cyclically *)
Lemma cyclic_convolution (x h : list complex) n : length x = length h → (n < length x)%nat →
  entry (fft_inverse (zip_with cmul (fft_forward x) (fft_forward h))) n =
  cmul (of_real (INR (length x))) (csum (λ m, cmul (entry h m) (entry x (Z.to_nat ((Z.of_nat n - Z.of_nat m) mod Z.of_nat (length x))))) (length x)).
Proof.
  intros Hl Hn. assert (Lz : length (zip_with cmul (fft_forward x) (fft_forward h)) = length x) by (rewrite zip_with_length, !fft_forward_length; lia).
  rewrite fft_inverse_entry by lia. rewrite Lz. rewrite <-(convolution_theorem (length x) ltac:(lia) (entry h) (entry x)) by done.
  apply csum_ext. intros k Hk. rewrite entry_zip by (rewrite !fft_forward_length; lia). rewrite !fft_forward_entry by lia. rewrite <-Hl. ring.
Qed.
