From stdpp Require Import list list_numbers.
From Coq Require Import Arith Lia.
From Verif Require Import Kernels KernelsSpec.

Section proofs.
  Context {A : Type} (align : nat).
  Implicit Types (s d : slice) (m : memory A).

  Lemma zip_seq a b n : zip (seq a n) (seq b n) = (λ i, (a + i, b + i)) <$> seq 0 n.
  Proof.
    apply list_eq. intros i. rewrite list_lookup_fmap, lookup_zip_with. destruct (decide (i < n)).
    - by rewrite !lookup_seq_lt by lia.
    - by rewrite !lookup_seq_ge by lia.
  Qed.
  Lemma zip_seq3 a b c n : zip (seq a n) (zip (seq b n) (seq c n)) = (λ i, (a + i, (b + i, c + i))) <$> seq 0 n.
  Proof.
    rewrite (zip_seq b c). apply list_eq. intros i. rewrite list_lookup_fmap, lookup_zip_with, list_lookup_fmap. destruct (decide (i < n)).
    - by rewrite !lookup_seq_lt by lia.
    - by rewrite !lookup_seq_ge by lia.
  Qed.
  Lemma seq_from k n : seq k n = Nat.add k <$> seq 0 n.
  Proof. by rewrite fmap_add_seq, Nat.add_0_r. Qed.
  Lemma shift_seq {B} (f : nat → B) k n : (λ i, f (k + i)) <$> seq 0 n = f <$> seq k n.
  Proof. rewrite (seq_from k). by rewrite <-list_fmap_compose. Qed.
  Lemma blocks_seq {B} (f : nat → B) v : concat ((λ j, (λ i, f (16 * j + i)) <$> seq 0 16) <$> seq 0 v) = f <$> seq 0 (16 * v).
  Proof.
    induction v as [|v IH]; [done|]. rewrite (seq_S v), fmap_app, concat_app, IH, Nat.add_0_l, list_fmap_singleton. unfold concat at 1. rewrite app_nil_r.
    replace (16 * S v) with (16 * v + 16) by lia. rewrite seq_app, fmap_app. f_equal. apply (shift_seq f (16 * v) 16).
  Qed.
  Lemma vectors_zip a b v : concat (zip_with zip (vectors (Slice a (16 * v))) (vectors (Slice b (16 * v)))) = (λ i, (a + i, b + i)) <$> seq 0 (16 * v).
  Proof.
    unfold vectors. cbn [start len]. rewrite (Nat.mul_comm 16 v), Nat.div_mul, (Nat.mul_comm v 16) by lia. rewrite <-blocks_seq. f_equal.
    apply list_eq. intros j. rewrite lookup_zip_with, !list_lookup_fmap. destruct (decide (j < v)).
    - rewrite !lookup_seq_lt by lia. cbn [fmap option_fmap option_map mbind option_bind]. f_equal. rewrite zip_seq. apply list_fmap_ext. intros. f_equal; lia.
    - by rewrite !lookup_seq_ge by lia.
  Qed.
  Lemma vectors_zip3 a b c v :
    concat (zip_with zip (vectors (Slice a (16 * v))) (zip_with zip (vectors (Slice b (16 * v))) (vectors (Slice c (16 * v))))) = (λ i, (a + i, (b + i, c + i))) <$> seq 0 (16 * v).
  Proof.
    unfold vectors. cbn [start len]. rewrite (Nat.mul_comm 16 v), Nat.div_mul, (Nat.mul_comm v 16) by lia. rewrite <-blocks_seq. f_equal.
    apply list_eq. intros j. rewrite !lookup_zip_with, !list_lookup_fmap. destruct (decide (j < v)).
    - rewrite !lookup_seq_lt by lia. cbn [fmap option_fmap option_map mbind option_bind]. f_equal. rewrite zip_seq3. apply list_fmap_ext. intros. f_equal; [lia|]. f_equal; lia.
    - by rewrite !lookup_seq_ge by lia.
  Qed.
  Lemma vectors_seq a v : concat (vectors (Slice a (16 * v))) = (λ i, a + i) <$> seq 0 (16 * v).
  Proof.
    unfold vectors. cbn [start len]. rewrite (Nat.mul_comm 16 v), Nat.div_mul, (Nat.mul_comm v 16) by lia. rewrite <-blocks_seq. f_equal.
    apply list_fmap_ext. intros _ j _. rewrite (seq_from (a + 16 * j)). apply list_fmap_ext. intros. lia.
  Qed.

  (** the three parts of a slice *)
  Lemma as_simd_parts s : ∃ p v q, len s = p + 16 * v + q ∧
    as_simd align s = (Slice (start s) p, Slice (start s + p) (16 * v), Slice (start s + p + 16 * v) q) ∧
    (p = (align - start s mod align) mod align ∧ v = (len s - p) / 16 ∨ len s < (align - start s mod align) mod align ∧ p = len s ∧ v = 0 ∧ q = 0).
  Proof.
    unfold as_simd. set (off := _ mod _). destruct (Nat.ltb_spec (len s) off).
    - exists (len s), 0, 0. split; [lia|]. split; [|right; lia]. destruct s. cbn. by rewrite Nat.add_0_r.
    - exists off, ((len s - off) / 16), (len s - off - 16 * ((len s - off) / 16)).
      pose proof (Nat.mul_div_le (len s - off) 16). split; [lia|]. split; [done|]. left. done.
  Qed.
  (** slices of equal length whose prefixes are equally long split alike *)
  Lemma split_alike s d p v q p' v' q' : len s = len d → p = p' →
    len s = p + 16 * v + q → len d = p' + 16 * v' + q' →
    (p = (align - start s mod align) mod align ∧ v = (len s - p) / 16 ∨ len s < (align - start s mod align) mod align ∧ p = len s ∧ v = 0 ∧ q = 0) →
    (p' = (align - start d mod align) mod align ∧ v' = (len d - p') / 16 ∨ len d < (align - start d mod align) mod align ∧ p' = len d ∧ v' = 0 ∧ q' = 0) →
    v = v' ∧ q = q'.
  Proof.
    intros Hl <- H1 H2 [[_ Hv]|(_ & Hp & -> & ->)] [[_ Hv']|(_ & Hp' & -> & ->)]; rewrite ?Hl in *.
    - subst v v'. split; [done|]. lia.
    - lia.
    - lia.
    - lia.
  Qed.
  Lemma parts_app {B} (f : nat → B) p v q : (f <$> seq 0 p) ++ ((λ i, f (p + i)) <$> seq 0 v) ++ ((λ i, f (p + v + i)) <$> seq 0 q) = f <$> seq 0 (p + v + q).
  Proof. rewrite !shift_seq, !seq_app, !fmap_app. by rewrite <-app_assoc. Qed.

  Lemma visit2_diag s d : len s = len d → visit2 align s d = (λ i, (start s + i, start d + i)) <$> seq 0 (len d).
  Proof.
    intros Hl. unfold visit2. destruct (as_simd_parts s) as (p & v & q & L1 & -> & C1). destruct (as_simd_parts d) as (p' & v' & q' & L2 & -> & C2).
    cbn [start len]. destruct (Nat.eqb_spec p p') as [Hp|_].
    - destruct (split_alike s d p v q p' v' q' Hl Hp L1 L2 C1 C2) as [-> ->]. subst p'. unfold addresses. cbn [start len].
      rewrite vectors_zip, !zip_seq, L2, <-parts_app. f_equal. f_equal; apply list_fmap_ext; intros; f_equal; lia.
    - unfold addresses. rewrite Hl. apply zip_seq.
  Qed.
  Lemma visit3_diag s t d : len s = len d → len t = len d → visit3 align s t d = (λ i, (start s + i, (start t + i, start d + i))) <$> seq 0 (len d).
  Proof.
    intros Hl Hl'. unfold visit3. destruct (as_simd_parts s) as (p & v & q & L1 & -> & C1). destruct (as_simd_parts t) as (p2 & v2 & q2 & L3 & -> & C3).
    destruct (as_simd_parts d) as (p' & v' & q' & L2 & -> & C2).
    cbn [start len]. destruct (Nat.eqb_spec p p') as [Hp|_]; [destruct (Nat.eqb_spec p p2) as [Hp2|_]|]; cbn [andb].
    - destruct (split_alike s d p v q p' v' q' Hl Hp L1 L2 C1 C2) as [-> ->]. destruct (split_alike t d p2 v2 q2 p' v' q' Hl') as [-> ->]; [lia|done..|].
      subst p' p2. unfold addresses. cbn [start len].
      rewrite vectors_zip3, !zip_seq3, L2, <-parts_app. f_equal. f_equal; apply list_fmap_ext; intros; (f_equal; [lia|f_equal; lia]).
    - unfold addresses. rewrite Hl, Hl'. apply zip_seq3.
    - unfold addresses. rewrite Hl, Hl'. apply zip_seq3.
  Qed.

  (** a loop over the samples of [d] whose inputs lie outside [d] *)
  Lemma loop_scalar d (f : nat → memory A → A) m n : n ≤ len d →
    (∀ i m1 m2, i < len d → (∀ a, ¬ inside d a ∨ a = start d + i → m1 a = m2 a) → f i m1 = f i m2) →
    scalar (Slice (start d) n) (λ i, f i m) m (fold_left (λ m i, upd m (start d + i) (f i m)) (seq 0 n) m).
  Proof.
    intros Hn Hf. induction n as [|n IH].
    { split; [cbn; lia|done]. }
    specialize (IH ltac:(lia)) as [I1 I2]. rewrite seq_S, fold_left_app. cbn [fold_left Nat.add]. set (m1 := fold_left _ _ _) in *. cbn [start len] in *.
    unfold scalar, inside, upd in *. cbn [start len] in *. split.
    - intros i Hi. destruct (Nat.eqb_spec (start d + i) (start d + n)) as [E|E].
      + assert (i = n) as -> by lia. apply Hf; [lia|]. intros a Ha. apply I2. unfold inside in Ha. lia.
      + apply I1. lia.
    - intros a Ha. destruct (Nat.eqb_spec a (start d + n)); [lia|]. apply I2. lia.
  Qed.
  Lemma fold_left_fmap {B C} (g : memory A → C → memory A) (h : B → C) l m : fold_left g (h <$> l) m = fold_left (λ m x, g m (h x)) l m.
  Proof. revert m. induction l as [|x l IH]; intros m; [done|]. cbn. apply IH. Qed.

  Lemma slice_eta d : Slice (start d) (len d) = d.
  Proof. by destruct d. Qed.
  Lemma run2_scalar f s d m : len s = len d → disjoint s d →
    scalar d (λ i, f (nth_of m s i) (nth_of m d i)) m (run2 f (visit2 align s d) m).
  Proof.
    intros Hl Hd. rewrite visit2_diag by done. unfold run2. rewrite fold_left_fmap.
    pose proof (loop_scalar d (λ i m, f (m (start s + i)) (m (start d + i))) m (len d) (le_n _)) as H. rewrite slice_eta in H. apply H.
    intros i m1 m2 Hi Hm. f_equal; apply Hm; [left|by right]. intros Ha. apply (Hd (start s + i)); [|done]. unfold inside. lia.
  Qed.
  Lemma run3_scalar f s t d m : len s = len d → len t = len d → disjoint s d → disjoint t d →
    scalar d (λ i, f (nth_of m s i) (nth_of m t i) (nth_of m d i)) m (run3 f (visit3 align s t d) m).
  Proof.
    intros Hl Hl' Hd Hd'. rewrite visit3_diag by done. unfold run3. rewrite fold_left_fmap.
    pose proof (loop_scalar d (λ i m, f (m (start s + i)) (m (start t + i)) (m (start d + i))) m (len d) (le_n _)) as H. rewrite slice_eta in H. apply H.
    intros i m1 m2 Hi Hm. f_equal; apply Hm; [left|left|by right]; intros Ha.
    - apply (Hd (start s + i)); [|done]. unfold inside. lia.
    - apply (Hd' (start t + i)); [|done]. unfold inside. lia.
  Qed.
  Lemma run1_scalar (mul : A → A → A) g d m : scalar d (λ i, mul (nth_of m d i) g) m (multiply_by_value align mul d g m).
  Proof.
    unfold multiply_by_value. destruct (as_simd_parts d) as (p & v & q & L & -> & _).
    assert (E : addresses (Slice (start d) p) ++ concat (vectors (Slice (start d + p) (16 * v))) ++ addresses (Slice (start d + p + 16 * v) q) =
      (λ i, start d + i) <$> seq 0 (len d)).
    { unfold addresses. cbn [start len]. rewrite vectors_seq, L, <-parts_app.
      rewrite (seq_from (start d)), (seq_from (start d + p + 16 * v)). f_equal. f_equal; apply list_fmap_ext; intros; lia. }
    rewrite E, fold_left_fmap. pose proof (loop_scalar d (λ i m, mul (m (start d + i)) g) m (len d) (le_n _)) as H. rewrite slice_eta in H. apply H.
    intros i m1 m2 Hi Hm. f_equal. apply Hm. by right.
  Qed.
End proofs.
