From stdpp Require Import list list_numbers.
From Coq Require Import Reals Lra Lia.
From Verif Require Import Base Buffer BufferSpec BufferProofs EffectSpec EffectProofs Effect Envelope EnvelopeSpec EnvelopeProofs Arith.
From Verif Require Import OscillatorPhase OscillatorProofs Resample ResampleSpec ResampleProofs ResampleCases Level LevelProofs Compressor Waveshaper WaveshaperSpec WaveshaperProofs.
Local Open Scope R_scope.

Lemma abs_bounds x M : Rabs x <= M → - M <= x <= M.
Proof. unfold Rabs. destruct (Rcase_abs x); lra. Qed.
(** ** the table *)
Lemma map_index_point i : map_index_to_input_value i num_points = point i.
Proof. unfold map_index_to_input_value, point. assert (INR num_points - 1 = 510) as -> by (unfold num_points; rewrite INR_IZR_INZ; cbn [Z.of_nat]; change (Z.of_nat 511) with 511%Z; lra). field. Qed.
Lemma transfer_table f shaper : (∀ i, (i < 511)%nat → shaper (point i) = Some (f (point i))) → transfer_function shaper = Some <$> curve_table f.
Proof.
  intros H. unfold transfer_function, curve_table. rewrite <-list_fmap_compose. apply list_fmap_ext. intros k i Hi. apply lookup_seq in Hi as [-> Hk].
  rewrite map_index_point. cbn [compose]. apply H. unfold num_points in Hk. lia.
Qed.
Lemma curve_length f : length (curve_table f) = 511%nat.
Proof. unfold curve_table. by rewrite fmap_length, seq_length. Qed.
Lemma curve_lookup f i : (i < 511)%nat → curve_table f !! i = Some (f (point i)).
Proof. intros H. unfold curve_table. by rewrite list_lookup_fmap, lookup_seq_lt. Qed.
Lemma signal_curve f n : signal (curve_table f) n = f (point (n `min` 510)).
Proof. unfold signal. rewrite curve_length. change (511 - 1)%nat with 510%nat. by rewrite curve_lookup by lia. Qed.

Lemma hard_curve_clip t x : 0 <= t → hard_curve t x = Some (hard_clip t x).
Proof.
  intros Ht. unfold hard_curve, hard_clip, Rmin, Rmax. f_equal. repeat destruct (Rlt_dec _ _); repeat destruct (Rle_dec _ _); lra.
Qed.
Lemma soft_curve_clip t x : t < 1 → soft_curve t x = Some (soft_clip t x).
Proof.
  intros Ht. unfold soft_curve, soft_clip. destruct (Rlt_dec x t), (Rle_dec x t); try lra; try done.
  - assert (x = t) as -> by lra. cbn. destruct (Req_EM_T _ _); [lra|]. cbn. destruct (Req_EM_T _ _) as [Hz|Hz].
    + exfalso. rewrite Rminus_diag_eq in Hz by done. unfold Rdiv in Hz. lra.
    + cbn. f_equal. rewrite (Rminus_diag_eq t t) by done. unfold Rdiv. ring.
  - cbn. destruct (Req_EM_T _ _); [lra|]. cbn. set (q := (x - t) / (1 - t)). pose proof (Rle_0_sqr q). unfold Rsqr in *. destruct (Req_EM_T _ _) as [Hz|Hz]; [exfalso; lra|].
    cbn. f_equal. f_equal. f_equal. ring.
Qed.

(** ** sessions with finite curves *)
Lemma waved_mono (P Q : R → option R → Prop) b out' : (∀ x y, P x y → Q x y) → waved P b out' → waved Q b out'.
Proof. intros H W. eapply written_mono; [exact W|]. cbn beta. intros ch fr _ z _ _ (x & o & m & y & H1 & H2 & H3 & H4 & ->). exists x, o, m, y. eauto 10. Qed.
Lemma session_waved f shaper sr limit l : (∀ i, (i < 511)%nat → shaper (point i) = Some (f (point i))) → sr ≠ 0%nat → Forall (wblock_ok sr limit) l →
  ∃ outs, wsession (new_waveshaper shaper sr limit) l = Ok outs ∧ Forall2 (waved (shaped_by f)) l outs.
Proof.
  intros Hf Hsr Hl. destruct (wsession_ok _ sr limit l (transfer_nonempty shaper) Hsr _ (new_winv shaper sr limit) Hl) as (outs & E & H).
  exists outs. split; [done|]. eapply Forall2_impl; [exact H|]. intros b out'. apply waved_mono. intros x y Hy.
  rewrite (transfer_table f) in Hy by done. destruct (shaped_ok (curve_table f) x) as (r & Er & Hr); [rewrite curve_length; lia|]. rewrite Er in Hy. injection Hy as <-. by exists r.
Qed.

(** ** laws *)
Lemma waved_bounded f M b out' sr limit : wblock_ok sr limit b → (∀ i, (i < 511)%nat → Rabs (f (point i)) <= M) → waved (shaped_by f) b out' →
  written (wb_out b) (wb_ov b) out' (λ ch fr _ z, ∃ x m y, seen (wb_in b) (wb_iv b) ch fr = Some x ∧ wb_mix b !! fr = Some m ∧ z = Some y ∧
    Rabs y <= m * M + (1 - m) * Rabs x).
Proof.
  intros Hb HM W. destruct Hb as (_ & _ & _ & _ & _ & _ & _ & _ & _ & _ & Ho & Hm). eapply written_mono; [exact W|]. cbn beta.
  intros ch fr _ z _ _ (x & o & m & y & Hx & Eo & Em & (r & -> & Hr) & ->). eexists x, m, _. do 2 (split; [done|]). split; [done|].
  assert (0 <= o <= 1). { rewrite Forall_forall in Ho. apply Ho. by eapply elem_of_list_lookup_2. }
  assert (0 <= m <= 1). { rewrite Forall_forall in Hm. apply Hm. by eapply elem_of_list_lookup_2. }
  assert (Hb : - M <= r <= M).
  { eapply (linear_range (curve_table f)); [|apply Forall_lookup_2|exact Hr].
    - intros E. apply (f_equal length) in E. by rewrite curve_length in E.
    - intros i a Hi. pose proof (lookup_lt_Some _ _ _ Hi) as Hl. rewrite curve_length in Hl. rewrite curve_lookup in Hi by done. injection Hi as <-.
      specialize (HM i Hl). apply abs_bounds in HM. done. }
  assert (Hg : 1 <= drive o).
  { unfold drive. rewrite <-(Rpower_O 10) by lra. apply Rle_Rpower; lra. }
  assert (Hd : Rabs (r / drive o) <= M).
  { unfold Rdiv. rewrite Rabs_mult, (Rabs_inv (drive o)), (Rabs_right (drive o)) by lra.
    assert (/ drive o <= 1) by (rewrite <-Rinv_1; apply Rinv_le_contravar; lra). assert (0 < / drive o) by (apply Rinv_0_lt_compat; lra).
    assert (Rabs r <= M) by (by apply Rabs_le). pose proof (Rabs_pos r). nra. }
  eapply Rle_trans; [apply Rabs_triang|]. rewrite !Rabs_mult, (Rabs_right m), (Rabs_right (1 - m)) by lra. pose proof (Rabs_pos x).
  apply Rplus_le_compat_r. apply Rmult_le_compat_l; lra.
Qed.
Lemma waved_dry f b out' : waved (shaped_by f) b out' →
  written (wb_out b) (wb_ov b) out' (λ ch fr _ z, wb_mix b !! fr = Some 0 → z = seen (wb_in b) (wb_iv b) ch fr).
Proof.
  intros W. eapply written_mono; [exact W|]. cbn beta. intros ch fr _ z _ _ (x & o & m & y & Hx & Eo & Em & (r & -> & Hr) & ->) E0. rewrite E0 in Em. injection Em as <-.
  rewrite Hx. cbn. f_equal. ring.
Qed.

Lemma floor_unique t n n' : INR n <= t < INR n + 1 → INR n' <= t < INR n' + 1 → n = n'.
Proof. intros H H'. destruct (to_nat_floor t n H) as [E _]. destruct (to_nat_floor t n' H') as [E' _]. lia. Qed.
Lemma linear_fun source t y y' : linear source t y → linear source t y' → y = y'.
Proof. intros (n & H & ->) (n' & H' & ->). by rewrite (floor_unique t n n' H H'). Qed.

Lemma position_range n x : 0 <= position n x <= INR (n - 1).
Proof. unfold position. pose proof (pos_INR (n - 1)). unfold Rmax, Rmin. repeat destruct (Rle_dec _ _); nra. Qed.
Lemma position_mono n x x' : x <= x' → position n x <= position n x'.
Proof.
  intros H. unfold position. apply Rmult_le_compat_r; [apply pos_INR|]. unfold Rmax, Rmin. repeat destruct (Rle_dec _ _); lra.
Qed.
Lemma position_neg n x : position n (- x) = INR (n - 1) - position n x.
Proof. unfold position. unfold Rmax, Rmin. repeat destruct (Rle_dec _ _); try lra; try nra. Qed.

Lemma rising_signal table n m : rising_table table → table ≠ [] → (n ≤ m)%nat → signal table n <= signal table m.
Proof.
  intros Hr Ht Hnm. assert (0 < length table)%nat by (destruct table; [done|cbn; lia]). unfold signal.
  destruct (lookup_lt_is_Some_2 table (n `min` (length table - 1))%nat) as [a Ea]; [lia|]. destruct (lookup_lt_is_Some_2 table (m `min` (length table - 1))%nat) as [c Ec]; [lia|].
  rewrite Ea, Ec. cbn. eapply Hr; [|exact Ea|exact Ec]. lia.
Qed.
Lemma shaped_rising table x x' y y' : table ≠ [] → rising_table table → x <= x' → shaped table x y → shaped table x' y' → y <= y'.
Proof.
  intros Ht Hr Hx (n & Hn & ->) (m & Hm & ->). pose proof (position_mono (length table) x x' Hx) as Hp. set (t := position _ x) in *. set (t' := position _ x') in *.
  pose proof (rising_signal table n (S n) Hr Ht ltac:(lia)). pose proof (rising_signal table m (S m) Hr Ht ltac:(lia)).
  destruct (decide (n = m)) as [->|Hne].
  - apply Rplus_le_compat_l. apply Rmult_le_compat_r; lra.
  - assert (n < m)%nat. { assert (INR n < INR (S m)) as L by (rewrite S_INR; lra). apply INR_lt in L. lia. }
    pose proof (rising_signal table (S n) m Hr Ht ltac:(lia)). assert ((t - INR n) * (signal table (S n) - signal table n) <= 1 * (signal table (S n) - signal table n)) by (apply Rmult_le_compat_r; lra).
    assert (0 <= (t' - INR m) * (signal table (S m) - signal table m)) by (apply Rmult_le_pos; lra). lra.
Qed.
Lemma odd_signal table n : odd_table table → (n < length table)%nat → signal table (length table - 1 - n) = - signal table n.
Proof.
  intros Ho Hn. unfold signal. rewrite !Nat.min_l by lia. destruct (lookup_lt_is_Some_2 table n Hn) as [a Ea]. rewrite Ea, (Ho _ _ Ea). done.
Qed.
Lemma shaped_odd table x y : table ≠ [] → odd_table table → shaped table x y → shaped table (- x) (- y).
Proof.
  intros Ht Ho (n & Hn & ->). unfold shaped. rewrite position_neg. pose proof (position_range (length table) x) as Hp. set (t := position _ x) in *.
  assert (0 < length table)%nat by (destruct table; [done|cbn; lia]).
  assert (Hl : (n ≤ length table - 1)%nat) by (apply INR_le; lra).
  destruct (Req_EM_T t (INR n)) as [E|E].
  - exists (length table - 1 - n)%nat. rewrite minus_INR by lia. split; [lra|]. rewrite E. rewrite odd_signal by (done || lia). ring.
  - assert (n < length table - 1)%nat by (apply INR_lt; lra). exists (length table - 1 - S n)%nat. rewrite minus_INR, S_INR by lia. split; [lra|].
    replace (S (length table - 1 - S n)) with (length table - 1 - n)%nat by lia. rewrite !odd_signal by (done || lia). ring.
Qed.

(** ** how near the curve *)
Lemma INR510 : INR 510 = 510.
Proof. rewrite INR_IZR_INZ. by change (Z.of_nat 510) with 510%Z. Qed.
Lemma shaped_points f x y : shaped (curve_table f) x y → ∃ n, (n ≤ 510)%nat ∧ point n <= clamped x < point n + 1 / 255 ∧
  y = f (point n) + (clamped x - point n) * 255 * (f (point (S n `min` 510)) - f (point n)).
Proof.
  intros (n & Hn & ->). pose proof (position_range (length (curve_table f)) x) as Hp. rewrite curve_length in *. change (511 - 1)%nat with 510%nat in *. rewrite INR510 in Hp.
  assert (Hl : (n ≤ 510)%nat) by (apply INR_le; rewrite INR510; lra). exists n. split; [done|].
  assert (Ep : position 511 x = (clamped x + 1) * 255). { unfold position. change (511 - 1)%nat with 510%nat. rewrite INR510. unfold clamped. field. }
  rewrite Ep in *. unfold point at 1 2. split; [lra|]. rewrite !signal_curve. rewrite (Nat.min_l n) by lia. f_equal. f_equal. unfold point. field.
Qed.
Lemma shaped_near f L x y : (∀ u v, -1 <= u <= 1 → -1 <= v <= 1 → Rabs (f u - f v) <= L * Rabs (u - v)) →
  shaped (curve_table f) x y → Rabs (y - f (clamped x)) <= L / 255.
Proof.
  intros HL H. apply shaped_points in H as (n & Hn & Hx & ->). set (c := clamped x) in *.
  assert (Hc : -1 <= c <= 1) by (unfold c, clamped, Rmax, Rmin; repeat destruct (Rle_dec _ _); lra).
  assert (Hpt : ∀ i, (i ≤ 510)%nat → -1 <= point i <= 1).
  { intros i Hi. apply le_INR in Hi. rewrite INR510 in Hi. pose proof (pos_INR i). unfold point. lra. }
  set (p := point n) in *. set (q := point (S n `min` 510)). assert (Hp : -1 <= p <= 1) by (apply Hpt; lia). assert (Hq : -1 <= q <= 1) by (apply Hpt; lia).
  assert (L0 : 0 <= L). { specialize (HL 1 0 ltac:(lra) ltac:(lra)). pose proof (Rabs_pos (f 1 - f 0)). rewrite (Rabs_right (1 - 0)) in HL by lra. lra. }
  assert (Hqc : Rabs (q - c) <= 1 / 255 - (c - p)).
  { destruct (decide (n = 510)%nat) as [->|Hne].
    - unfold q, p in *. change (511 `min` 510)%nat with 510%nat. assert (Ep : point 510 = 1) by (unfold point; rewrite INR510; lra). rewrite Ep in *. rewrite Rabs_right; lra.
    - unfold q. rewrite Nat.min_l by lia. assert (Eq : point (S n) = p + 1 / 255) by (unfold p, point; rewrite S_INR; field). rewrite Eq. rewrite Rabs_right; lra. }
  set (w := (c - p) * 255) in *. assert (Hw : 0 <= w < 1) by (unfold w; lra).
  pose proof (HL p c Hp Hc) as H1. pose proof (HL q c Hq Hc) as H2. rewrite (Rabs_left1 (p - c)) in H1 by lra.
  replace (f p + w * (f q - f p) - f c) with ((1 - w) * (f p - f c) + w * (f q - f c)) by ring.
  eapply Rle_trans; [apply Rabs_triang|]. rewrite !Rabs_mult, (Rabs_right w), (Rabs_right (1 - w)) by lra.
  assert (Rabs (f p - f c) <= L * (1 / 255)). { eapply Rle_trans; [exact H1|]. apply Rmult_le_compat_l; lra. }
  assert (Rabs (f q - f c) <= L * (1 / 255)). { eapply Rle_trans; [exact H2|]. apply Rmult_le_compat_l; lra. }
  assert ((1 - w) * Rabs (f p - f c) <= (1 - w) * (L * (1 / 255))) by (apply Rmult_le_compat_l; lra).
  assert (w * Rabs (f q - f c) <= w * (L * (1 / 255))) by (apply Rmult_le_compat_l; lra). lra.
Qed.
Lemma hard_clip_exact t x y : 0 <= t → Rabs x <= 1 → Rabs x <= t - 1 / 255 → shaped (curve_table (hard_clip t)) x y → y = x.
Proof.
  intros Ht H1 H2 H. apply shaped_points in H as (n & Hn & Hx & ->). apply abs_bounds in H1, H2.
  assert (Ec : clamped x = x) by (unfold clamped, Rmax, Rmin; repeat destruct (Rle_dec _ _); lra). rewrite Ec in *.
  assert (Eh : ∀ u, - t <= u <= t → hard_clip t u = u) by (intros u Hu; unfold hard_clip, Rmax, Rmin; repeat destruct (Rle_dec _ _); lra).
  destruct (decide (n = 510)%nat) as [->|Hne].
  - change (511 `min` 510)%nat with 510%nat. assert (Ep : point 510 = 1) by (unfold point; rewrite INR510; lra). rewrite Ep in *. rewrite Eh by lra. lra.
  - rewrite Nat.min_l by lia. assert (Eq : point (S n) = point n + 1 / 255) by (unfold point; rewrite S_INR; field). rewrite Eq. rewrite !Eh by lra. field.
Qed.

(** ** the curves change no faster than their argument *)
Lemma hard_lipschitz t u v : 0 <= t → Rabs (hard_clip t u - hard_clip t v) <= 1 * Rabs (u - v).
Proof. intros Ht. unfold hard_clip, Rmax, Rmin. unfold Rabs. repeat destruct (Rle_dec _ _); repeat destruct (Rcase_abs _); lra. Qed.
Lemma hard_bounded t u : 0 <= t → Rabs (hard_clip t u) <= t.
Proof. intros Ht. apply Rabs_le. unfold hard_clip, Rmax, Rmin. repeat destruct (Rle_dec _ _); lra. Qed.

Lemma soft_part s u v : 0 < s → 0 <= u <= s → 0 <= v <= s → Rabs (u / (1 + (u / s) ^ 2) - v / (1 + (v / s) ^ 2)) <= Rabs (u - v).
Proof.
  intros Hs Hu Hv. set (p := u / s). set (q := v / s). assert (Ep : u = p * s) by (unfold p; field; lra). assert (Eq : v = q * s) by (unfold q; field; lra).
  assert (H0 : ∀ w, 0 <= w <= s → 0 <= w / s <= 1).
  { intros w Hw. split; [apply Rmult_le_pos; [lra|left; apply Rinv_0_lt_compat; lra]|]. apply (Rmult_le_reg_r s); [lra|]. replace (w / s * s) with w by (field; lra). lra. }
  pose proof (H0 u Hu) as Hp. pose proof (H0 v Hv) as Hq. fold p in Hp. fold q in Hq.
  replace (u / (1 + p ^ 2) - v / (1 + q ^ 2)) with ((u - v) * ((1 - p * q) / ((1 + p ^ 2) * (1 + q ^ 2)))).
  2:{ rewrite Ep, Eq. field. split; nra. }
  rewrite Rabs_mult. rewrite <-(Rmult_1_r (Rabs (u - v))) at 2. apply Rmult_le_compat_l; [apply Rabs_pos|].
  assert (Hd : 1 <= (1 + p ^ 2) * (1 + q ^ 2)) by nra. assert (Hn : 0 <= 1 - p * q <= 1) by nra.
  set (d := (1 + p ^ 2) * (1 + q ^ 2)) in *. rewrite Rabs_right.
  - apply (Rmult_le_reg_r d); [lra|]. replace ((1 - p * q) / d * d) with (1 - p * q) by (field; lra). lra.
  - apply Rle_ge, Rmult_le_pos; [lra|]. left. apply Rinv_0_lt_compat. lra.
Qed.
Lemma soft_above t v : t < 1 → t <= v → soft_clip t v = t + (v - t) / (1 + ((v - t) / (1 - t)) ^ 2).
Proof.
  intros Ht Hv. unfold soft_clip. destruct (Rle_dec v t); [|done]. assert (v = t) as -> by lra. rewrite (Rminus_diag_eq t t) by done. unfold Rdiv. ring.
Qed.
Lemma soft_lipschitz t u v : 0 <= t < 1 → -1 <= u <= 1 → -1 <= v <= 1 → Rabs (soft_clip t u - soft_clip t v) <= 1 * Rabs (u - v).
Proof.
  intros Ht Hu Hv. rewrite Rmult_1_l.
  assert (Ha : ∀ u v, t <= u <= 1 → t <= v <= 1 → Rabs (soft_clip t u - soft_clip t v) <= Rabs (u - v)).
  { intros a c Ha Hc. rewrite !soft_above by lra. pose proof (soft_part (1 - t) (a - t) (c - t) ltac:(lra) ltac:(lra) ltac:(lra)) as H.
    replace (a - t - (c - t)) with (a - c) in H by ring. replace (t + _ - (t + _)) with ((a - t) / (1 + ((a - t) / (1 - t)) ^ 2) - (c - t) / (1 + ((c - t) / (1 - t)) ^ 2)) by ring. done. }
  assert (Hb : ∀ u, u <= t → soft_clip t u = u) by (intros a H; unfold soft_clip; destruct (Rle_dec a t); [done|lra]).
  assert (Hm : ∀ u v, -1 <= u <= t → t <= v <= 1 → Rabs (soft_clip t u - soft_clip t v) <= Rabs (u - v)).
  { intros a c H1 H2. pose proof (Ha t c ltac:(lra) H2) as H. rewrite (Hb t) in H by lra. rewrite (Hb a) by lra. rewrite (Rabs_left1 (t - c)) in H by lra. rewrite (Rabs_left1 (a - c)) by lra.
    apply abs_bounds in H. apply Rabs_le. lra. }
  destruct (Rle_dec u t), (Rle_dec v t).
  - rewrite !Hb by lra. lra.
  - apply Hm; lra.
  - rewrite Rabs_minus_sym, (Rabs_minus_sym u v). apply Hm; lra.
  - apply Ha; lra.
Qed.

Lemma cosh_ge x : 1 <= cosh x.
Proof.
  unfold cosh. assert (Hp : 0 < exp x) by apply exp_pos. rewrite exp_Ropp. set (e := exp x) in *. assert (0 < / e) by (by apply Rinv_0_lt_compat).
  assert (e * / e = 1) by (field; lra). assert (0 <= (e - / e) * (e - / e)) by apply Rle_0_sqr. nra.
Qed.
Lemma tanh_derivative x : derivable_pt_lim tanh x (/ (cosh x * cosh x)).
Proof.
  pose proof (cosh_ge x) as Hc. assert (Hn : cosh x ≠ 0) by lra.
  pose proof (derivable_pt_lim_div sinh cosh x (cosh x) (sinh x) (derivable_pt_lim_sinh x) (derivable_pt_lim_cosh x) Hn) as H.
  assert (E : (cosh x * cosh x - sinh x * sinh x) / Rsqr (cosh x) = / (cosh x * cosh x)).
  { assert (Ei : cosh x * cosh x - sinh x * sinh x = 1).
    { unfold cosh, sinh. rewrite exp_Ropp. pose proof (exp_pos x). field. lra. }
    rewrite Ei. unfold Rsqr, Rdiv. ring. }
  rewrite E in H. exact H.
Qed.
Lemma tanh_slope u v : u < v → 0 <= tanh v - tanh u <= v - u.
Proof.
  intros H. destruct (MVT_cor2 tanh (λ x, / (cosh x * cosh x)) u v H) as (c & E & _); [intros; apply tanh_derivative|]. rewrite E.
  pose proof (cosh_ge c) as Hc. assert (1 <= cosh c * cosh c) by nra. assert (0 < / (cosh c * cosh c) <= 1); [|nra].
  split; [apply Rinv_0_lt_compat; lra|]. rewrite <-Rinv_1. apply Rinv_le_contravar; lra.
Qed.
Lemma tanh_lipschitz u v : Rabs (2 * tanh (u / 2) - 2 * tanh (v / 2)) <= 1 * Rabs (u - v).
Proof.
  destruct (Rtotal_order u v) as [H|[->|H]].
  - pose proof (tanh_slope (u / 2) (v / 2) ltac:(lra)). rewrite !Rabs_left1; lra.
  - rewrite !Rminus_diag_eq by done. rewrite Rabs_R0. lra.
  - pose proof (tanh_slope (v / 2) (u / 2) ltac:(lra)). rewrite !Rabs_right; lra.
Qed.

(** ** odd and rising tables *)
Lemma point_mirror i : (i ≤ 510)%nat → point (510 - i) = - point i.
Proof. intros H. unfold point. rewrite minus_INR, INR510 by done. field. Qed.
Lemma odd_curve f : (∀ x, f (- x) = - f x) → odd_table (curve_table f).
Proof.
  intros H i a Hi. pose proof (lookup_lt_Some _ _ _ Hi) as Hl. rewrite curve_length in *. change (511 - 1)%nat with 510%nat.
  rewrite curve_lookup in Hi by done. injection Hi as <-. rewrite curve_lookup by lia. by rewrite point_mirror, H by lia.
Qed.
Lemma rising_curve f : (∀ x y, x <= y → f x <= f y) → rising_table (curve_table f).
Proof.
  intros H i j a c Hij Hi Hj. pose proof (lookup_lt_Some _ _ _ Hi) as Hl. pose proof (lookup_lt_Some _ _ _ Hj) as Hl'. rewrite curve_length in *.
  rewrite curve_lookup in Hi, Hj by done. injection Hi as <-. injection Hj as <-. apply H. apply le_INR in Hij. unfold point. lra.
Qed.
Lemma tanh_odd x : 2 * tanh (- x / 2) = - (2 * tanh (x / 2)).
Proof.
  replace (- x / 2) with (- (x / 2)) by field. unfold tanh, sinh, cosh. rewrite Ropp_involutive. pose proof (exp_pos (x / 2)). pose proof (exp_pos (- (x / 2))). field. lra.
Qed.
Lemma tanh_rising x y : x <= y → 2 * tanh (x / 2) <= 2 * tanh (y / 2).
Proof. intros [H| ->]; [|lra]. pose proof (tanh_slope (x / 2) (y / 2) ltac:(lra)). lra. Qed.
Lemma tanh_odd_rising : odd_table (curve_table (λ x, 2 * tanh (x / 2))) ∧ rising_table (curve_table (λ x, 2 * tanh (x / 2))).
Proof. split; [apply odd_curve, tanh_odd|apply rising_curve, tanh_rising]. Qed.
Lemma tanh_bound u : Rabs (2 * tanh (u / 2)) < 2.
Proof.
  assert (Rabs (tanh (u / 2)) < 1); [|unfold Rabs in *; repeat destruct (Rcase_abs _); lra].
  unfold tanh, sinh, cosh. pose proof (exp_pos (u / 2)). pose proof (exp_pos (- (u / 2))). set (p := exp (u / 2)) in *. set (q := exp (- (u / 2))) in *.
  replace ((p - q) / 2 / ((p + q) / 2)) with ((p - q) / (p + q)) by (field; lra). apply Rabs_def1; apply (Rmult_lt_reg_r (p + q)); try lra; unfold Rdiv; rewrite Rmult_assoc, Rinv_l by lra; lra.
Qed.

(** ** witnesses *)
Lemma loud_clip : shaped (curve_table (hard_clip 2)) (3 / 2) 1.
Proof.
  unfold shaped. rewrite curve_length. assert (position 511 (3 / 2) = INR 510) as ->.
  { unfold position. change (511 - 1)%nat with 510%nat. rewrite INR510. unfold Rmax, Rmin. repeat destruct (Rle_dec _ _); lra. }
  exists 510%nat. split; [lra|]. rewrite !signal_curve. change (511 `min` 510)%nat with 510%nat. change (510 `min` 510)%nat with 510%nat.
  assert (point 510 = 1) as -> by (unfold point; rewrite INR510; lra). unfold hard_clip, Rmax, Rmin. repeat destruct (Rle_dec _ _); lra.
Qed.
Lemma soft_last : shape_sample (transfer_function (soft_curve 1)) (Some 1) = Ok None.
Proof.
  assert (Hl : length (transfer_function (soft_curve 1)) = 511%nat) by (unfold transfer_function; by rewrite fmap_length, seq_length).
  cbn [shape_sample]. rewrite Hl. rewrite position_index by lia. assert (position 511 1 = INR 510) as ->.
  { unfold position. change (511 - 1)%nat with 510%nat. rewrite INR510. unfold Rmax, Rmin. repeat destruct (Rle_dec _ _); lra. }
  rewrite int_part_INR, ceiling_INR, Nat2Z.id. rewrite decide_True by done.
  unfold transfer_function. rewrite list_lookup_fmap, lookup_seq_lt by (unfold num_points; lia). cbn [fmap option_fmap option_map Nat.add runwrap].
  rewrite map_index_point. assert (point 510 = 1) as -> by (unfold point; rewrite INR510; lra). unfold soft_curve. destruct (Rlt_dec 1 1); [lra|].
  cbn. destruct (Req_EM_T _ _); [done|lra].
Qed.
Lemma nan_block_ok : wblock_ok 1 1 nan_block.
Proof. unfold wblock_ok, nan_block, wframes. cbn. repeat split; try done; try lia; repeat constructor; lra. Qed.
Lemma soft_nan : ∃ outs out', wsession (new_waveshaper (soft_curve 1) 1 1) [nan_block] = Ok outs ∧ outs !! 0%nat = Some out' ∧ seen out' Whole 0 0 = Some None.
Proof.
  destruct (wsession_ok _ 1 1 [nan_block] (transfer_nonempty (soft_curve 1)) ltac:(lia) _ (new_winv (soft_curve 1) 1 1)) as (outs & E & H); [apply Forall_singleton, nan_block_ok|].
  apply Forall2_cons_inv_l in H as (out' & l & H & _ & ->). exists (out' :: l), out'. split; [done|]. split; [done|].
  destruct H as (_ & _ & _ & H). destruct (H 0%nat 0%nat) as (x & z & _ & Sz & (i & o & m & y & Hi & Ho & Hm & Hy & ->)); [cbn; lia|cbn; lia|].
  cbn in Hi, Ho. injection Hi as <-. injection Ho as <-. assert (drive 0 = 1) as Ed by (unfold drive; replace (12 * 0 / 20) with 0 by field; apply Rpower_O; lra).
  rewrite Ed, Rmult_1_l, soft_last in Hy. injection Hy as <-. exact Sz.
Qed.
Lemma hard_laws t x y : 0 <= t →
  (∀ i, hard_curve t (point i) = Some (hard_clip t (point i))) ∧
  (shaped_by (hard_clip t) x (Some y) → Rabs y <= t ∧
    Rabs (y - hard_clip t (clamped x)) <= 1 / 255 ∧
    (Rabs x <= 1 → Rabs x <= t - 1 / 255 → y = x)).
Proof.
  intros Ht. split; [intros i; by apply hard_curve_clip|]. intros (r & [= <-] & H). split; [|split].
  - apply Rabs_le. eapply (linear_range (curve_table (hard_clip t))); [|apply Forall_lookup_2|exact H].
    + intros E. apply (f_equal length) in E. by rewrite curve_length in E.
    + intros i a Hi. pose proof (lookup_lt_Some _ _ _ Hi) as Hl. rewrite curve_length in Hl. rewrite curve_lookup in Hi by done. injection Hi as <-. by apply abs_bounds, hard_bounded.
  - apply (shaped_near (hard_clip t) 1); [|done]. intros. by apply hard_lipschitz.
  - intros. by eapply hard_clip_exact.
Qed.
Lemma loud_refuted : shaped_by (hard_clip 2) (3 / 2) (Some 1) ∧ hard_clip 2 (3 / 2) = 3 / 2.
Proof. split; [exists 1; split; [done|apply loud_clip]|]. unfold hard_clip, Rmax, Rmin. repeat destruct (Rle_dec _ _); lra. Qed.
