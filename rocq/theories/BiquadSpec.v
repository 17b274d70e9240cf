(** Second-order filters. *)
From stdpp Require Import list.
From Coq Require Import Reals.
From Verif Require Import Base Buffer BufferSpec EffectSpec ResampleSpec Biquad.
Local Open Scope R_scope.

(** ** Difference equations *)
(** samples up to [delta] in the filter's memory count as 0 *)
Definition flushed (delta x : R) : R := if Rle_dec (Rabs x) delta then 0 else x.
Definition at_ (l : list R) (n : nat) : R := default 0 (l !! n).
(** the sample [k] before the [n]-th; 0 before the first *)
Definition earlier (l : list R) (n k : nat) : R := if decide (k ≤ n)%nat then at_ l (n - k) else 0.
(** [y] is the output for the input [x] with the coefficients [cs], one for each sample *)
Definition follows (delta : R) (cs : list coefficients) (x y : list R) : Prop :=
  length x = length cs ∧ length y = length cs ∧
  ∀ n c, cs !! n = Some c → at_ y n =
    c_b0 c * at_ x n + c_b1 c * flushed delta (earlier x n 1) + c_b2 c * flushed delta (earlier x n 2)
    - c_a1 c * flushed delta (earlier y n 1) - c_a2 c * flushed delta (earlier y n 2).

(** ** Sessions *)
Record qblock := QBlock { qb_frequency : list R; qb_q : list R; qb_shelf : list R; qb_gain : list R;
  qb_in : owned R; qb_iv : view; qb_out : owned R; qb_ov : view }.
Definition qframes (b : qblock) : nat := v_frames (qb_out b) (qb_ov b).
Definition qblock_ok (n : nat) (b : qblock) : Prop :=
  wf (qb_in b) ∧ valid_view (qb_in b) (qb_iv b) ∧ wf (qb_out b) ∧ valid_view (qb_out b) (qb_ov b) ∧
  v_channels (qb_in b) (qb_iv b) = n ∧ v_channels (qb_out b) (qb_ov b) = n ∧ v_frames (qb_in b) (qb_iv b) = qframes b ∧
  length (qb_frequency b) = qframes b ∧ length (qb_q b) = qframes b ∧ length (qb_shelf b) = qframes b ∧ length (qb_gain b) = qframes b.
(** the coefficients for each frame of the blocks, and the input *)
Definition block_settings (t : filter_type) (sample_rate : nat) (b : qblock) : list coefficients :=
  (λ i, calculate_coefficients t (FilterParameters (at_ (qb_frequency b) i) (at_ (qb_q b) i) (at_ (qb_shelf b) i)) sample_rate) <$> seq 0 (qframes b).
Definition settings (t : filter_type) (sample_rate : nat) (l : list qblock) : list coefficients := concat (block_settings t sample_rate <$> l).
Definition received (l : list qblock) (ch : nat) : list R := concat ((λ b, row_from 0 (qb_in b) (qb_iv b) ch 0) <$> l).
Definition played (l : list qblock) : nat := foldr Nat.add 0%nat (qframes <$> l).

Fixpoint qsession (f : biquad) (l : list qblock) : res (list (owned R)) :=
  match l with
  | [] => Ok []
  | b :: l =>
      let? (f, out) := bq_process (qb_frequency b) (qb_q b) (qb_shelf b) (qb_gain b) (qb_in b) (qb_iv b) (qb_out b) (qb_ov b) f in
      let? outs := qsession f l in Ok (out :: outs)
  end.
(** what the blocks sound like, when [y ch] is the output of channel [ch]'s filter: the gains
    are applied up to a relative error of 2^-22 *)
Definition sounds (y : nat → list R) (l : list qblock) (outs : list (owned R)) : Prop :=
  length outs = length l ∧
  ∀ k b out', l !! k = Some b → outs !! k = Some out' →
    written (qb_out b) (qb_ov b) out' (λ ch fr _ z, ∃ g v, qb_gain b !! fr = Some g ∧ y ch !! (played (take k l) + fr)%nat = Some v ∧
      Rabs (z - v * g) <= / 2 ^ 22 * Rabs v).

(** ** Responses *)
(** with constant coefficients, bounded input gives bounded output *)
Definition is_stable (c : coefficients) : Prop :=
  ∃ K, ∀ delta M n x y, 0 <= delta → follows delta (replicate n c) x y → (∀ i, Rabs (at_ x i) <= M) → ∀ i, Rabs (at_ y i) <= K * (M + delta).
(** A sinusoid of [w] radians per sample becomes, after a transient that dies away
    exponentially, a sinusoid with [g] times the amplitude and with [theta] added to the
    phase; [K * delta] is the influence of the flushed samples. *)
Definition responds (c : coefficients) (w g theta : R) : Prop :=
  ∃ C r K, 0 <= r < 1 ∧ ∀ delta A phi n x y, 0 <= delta → follows delta (replicate n c) x y →
    (∀ i, (i < n)%nat → at_ x i = A * cos (w * INR i + phi)) →
    ∀ i, (i < n)%nat → Rabs (at_ y i - g * A * cos (w * INR i + phi + theta)) <= C * Rabs A * r ^ i + K * delta.

(** the frequency range of a filter; q and the shelf's gain are positive *)
Definition audible (frequency sample_rate : R) : Prop := 0 < frequency < sample_rate / 2.
(** squared distance from the centre frequency, on the scale of the bilinear transform: 0 at
    frequency 0, 1 at the centre, growing without bound towards the Nyquist frequency *)
Definition detuning (w frequency sample_rate : R) : R := (tan (w / 2) / tan (omega frequency sample_rate / 2)) ^ 2.

(** ** Accepted values *)
(** the ranges of the node's parameters (biquad_node.rs l.36-56; 100 dB is 10^5) *)
Definition accepted (b : qblock) : Prop :=
  Forall (λ f, 20 <= f <= 20000) (qb_frequency b) ∧ Forall (λ q, / 10 <= q <= 10) (qb_q b) ∧
  Forall (λ g, 0 <= g <= 10 ^ 5) (qb_shelf b) ∧ Forall (λ g, 0 <= g <= 10 ^ 5) (qb_gain b).
(** a block of [n + 1] frames: one sample of full scale, then silence *)
Definition click (frequency q shelf : list R) (n sample_rate : nat) : qblock :=
  QBlock frequency q shelf (replicate (S n) 1) (Owned (1 :: replicate n 0) 1 (S n) sample_rate) Whole (new_buffer 0 (S n) 1 sample_rate) Whole.
(** blocks during which the parameters do not change *)
Definition unchanging (frequency q shelf : R) (l : list qblock) : Prop :=
  Forall (λ b, Forall (eq frequency) (qb_frequency b) ∧ Forall (eq q) (qb_q b) ∧ Forall (eq shelf) (qb_shelf b)) l.
