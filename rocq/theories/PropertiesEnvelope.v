(** Property theorems about the envelope follower, periodic notifications and the
    envelope node. *)
From stdpp Require Import sets list list_numbers.
From Coq Require Import Reals Lra Lia ZArith.
From Verif Require Import Base Buffer BufferSpec EffectSpec BufferProofs Envelope EnvelopeSpec EnvelopeProofs EnvelopeNode EnvelopeCases.
Local Open Scope R_scope.

(** C41: every level the follower returns, in any history of samples and time settings,
    lies between 0 and any bound on the samples so far. *)
Theorem C41_bounded (rate attack release M : R) (ops : list fop) :
  0 <= rate → 0 <= attack → 0 <= release → Forall fop_ok ops → 0 <= M → (∀ x, FSample x ∈ ops → Rabs x <= M) →
  Forall (λ v, 0 <= v <= M) (levels (new_follower rate attack release) ops).
Proof.
  intros H1 H2 H3 Ho HM Hx. exact (proj1 (follow_bound ops (new_follower rate attack release) M (finv_new rate attack release H1 H2 H3) Ho Hx (conj (Rle_refl 0) HM))).
Qed.
Print Assumptions C41_bounded.

(** C41: each sample moves the level towards the magnitude of the sample. *)
Theorem C41_towards (rate attack release : R) (ops : list fop) (x : R) :
  0 <= rate → 0 <= attack → 0 <= release → Forall fop_ok ops →
  let f := frun (new_follower rate attack release) ops in
  between (fl_level f) (Rabs x) (fl_level (fstep f (FSample x))).
Proof. intros H1 H2 H3 Ho. exact (follow_between _ x (finv_run ops _ (finv_new rate attack release H1 H2 H3) Ho)). Qed.
Print Assumptions C41_towards.

(** C41: for constant input the distance shrinks geometrically, by the factor of the
    attack when it rises and of the release when it falls, which is at most e^-1 per
    attack (release) time; so the level converges. *)
Theorem C41_constant (rate attack release : R) (ops : list fop) (x : R) (n : nat) :
  0 <= rate → 0 <= attack → 0 <= release → Forall fop_ok ops →
  let f := frun (new_follower rate attack release) ops in
  let c := if Rlt_dec (fl_level f) (Rabs x) then fl_attack f else fl_release f in
  fl_level (frun f (replicate n (FSample x))) - Rabs x = c ^ n * (fl_level f - Rabs x) ∧ 0 <= c < 1.
Proof.
  intros H1 H2 H3 Ho f c. pose proof (finv_run ops _ (finv_new rate attack release H1 H2 H3) Ho) as Hf. split; [exact (constant_input f x n Hf)|].
  destruct Hf as (_ & ? & ?). unfold c. by destruct (Rlt_dec _ _).
Qed.
Print Assumptions C41_constant.
Theorem C41_time_constant (rate t : R) (n : nat) : 0 < rate * t →
  fl_attack (new_follower rate t 0) ^ n = exp (- (INR n / (rate * t))).
Proof. exact (follow_coefficient_pow rate t n). Qed.
Print Assumptions C41_time_constant.
Theorem C41_converges (rate attack release : R) (ops : list fop) (x eps : R) :
  0 <= rate → 0 <= attack → 0 <= release → Forall fop_ok ops → 0 < eps →
  ∃ N, ∀ n, (N <= n)%nat → Rabs (fl_level (frun (frun (new_follower rate attack release) ops) (replicate n (FSample x))) - Rabs x) < eps.
Proof.
  intros H1 H2 H3 Ho He. set (f := frun _ ops). pose proof (C41_constant rate attack release ops x 0 H1 H2 H3 Ho) as [_ Hc]. fold f in Hc. cbn zeta in Hc.
  set (c := if Rlt_dec _ _ then _ else _) in Hc. set (D := Rabs (fl_level f - Rabs x)).
  destruct (pow_lt_1_zero c ltac:(rewrite Rabs_right; lra) (eps / (D + 1))) as [N HN].
  { apply Rdiv_lt_0_compat; [done|]. pose proof (Rabs_pos (fl_level f - Rabs x)). unfold D. lra. }
  exists N. intros n Hn. destruct (C41_constant rate attack release ops x n H1 H2 H3 Ho) as [E _]. fold f in E. cbn zeta in E. rewrite E. fold c.
  rewrite Rabs_mult. fold D. specialize (HN n Hn). pose proof (Rabs_pos (fl_level f - Rabs x)) as HD. fold D in HD. pose proof (Rabs_pos (c ^ n)).
  apply (Rmult_lt_compat_r (D + 1)) in HN; [|lra]. unfold Rdiv in HN. rewrite Rmult_assoc, Rinv_l in HN by lra. lra.
Qed.
Print Assumptions C41_converges.
Example C41_case : Forall fop_ok [FSample (1 / 2); FAttack 1; FSample (-3)] ∧ (∀ x, FSample x ∈ [FSample (1 / 2); FAttack 1; FSample (-3)] → Rabs x <= 3) ∧
  levels (new_follower 2 0 1) [FSample (1 / 2)] = [1 / 2].
Proof.
  split; [repeat (apply Forall_cons; split; [cbn; try done; lra|]); constructor|]. split.
  - intros x Hx. rewrite !elem_of_cons in Hx. destruct Hx as [E|[E|[E|E]]]; [|done| |by apply elem_of_nil in E]; injection E as ->.
    + rewrite Rabs_right; lra.
    + rewrite Rabs_left; lra.
  - cbn [levels fstep app]. f_equal. unfold follow, new_follower, follow_coefficient. cbn [fl_level fl_attack fl_release].
    rewrite (Rabs_right (1 / 2)) by lra. destruct (Rlt_dec 0 (1 / 2)); [|lra]. destruct (Req_EM_T (2 * 0) 0); lra.
Qed.

(** C42: for every rate, frequency and partition into blocks the answers are exact:
    a block is answered "notify" if and only if a multiple of the interval falls into it
    (its end included); after N samples at most as many notifications as whole intervals
    have been given, and exactly as many if no block is longer than an interval. *)
Theorem C42_rate (sr : nat) (frequency : R) (bs : list nat) :
  (0 < sr)%nat → 0 < frequency →
  let interval := INR sr / frequency in
  ∃ p f0, new_periodic sr frequency = Ok p ∧ ∀ fuel, (f0 <= fuel)%nat →
  ∃ answers p' k, advances fuel p bs = Ok (answers, p') ∧ notified interval 0 bs answers ∧ ticks interval (sum_list bs) k ∧
    (length (filter (λ a, a = true) answers) <= k)%nat ∧
    (Forall (λ b, INR b <= interval) bs → length (filter (λ a, a = true) answers) = k).
Proof.
  intros Hs Hf interval. pose proof (interval_pos sr frequency Hs Hf) as HI. fold interval in HI.
  destruct (enough_fuel interval (sum_list bs) HI) as [f0 Hf0].
  exists (Periodic interval interval), f0. split.
  { unfold new_periodic. destruct (Nat.ltb_spec 0 sr); [|lia]. by destruct (Rlt_dec 0 frequency); [|lra]. }
  intros fuel Hfu. assert (Hb : Forall (λ b, INR b <= INR fuel * interval) bs).
  { apply Forall_forall. intros b Hb. eapply Rle_trans; [|by apply Hf0]. apply le_INR. clear -Hb. induction bs as [|b' bs IH]; [by apply elem_of_nil in Hb|].
    apply elem_of_cons in Hb as [->|Hb]; cbn; [lia|]. specialize (IH Hb). unfold sum_list in *. lia. }
  destruct (advances_ok interval HI fuel bs Hb 0 0 (ticks_0 interval HI)) as (ans & k & E & H1 & H2 & H3 & H4).
  replace (interval * INR 1 - INR 0) with interval in E by (cbn; lra). rewrite Nat.sub_0_r in *. eexists ans, _, k. split; [done|]. done.
Qed.
Print Assumptions C42_rate.
Example C42_case : notified (INR 3 / 2) 0 [1; 1; 1]%nat [false; true; true] ∧ ticks (INR 3 / 2) 3 2.
Proof.
  replace (INR 3 / 2) with (3 / 2) by (cbn; lra). cbn [notified Nat.add]. split; [|split; cbn; lra]. split; [split; [done|]|split; [|split; [|done]]].
  - intros (k & H1 & H2). exfalso. rewrite S_INR in *. pose proof (pos_INR k). cbn in H1. change (INR 1) with 1 in H2. lra.
  - split; [intros _; exists 0%nat; cbn; lra|done].
  - split; [intros _; exists 1%nat; cbn; lra|done].
Qed.

(** C69: exactly what the node reports.  If every block, and the part of it before the
    next notification, has at least as many frames as there are channels, and the
    notifications are collected in time, nothing fails and the reports collected are,
    per channel, those of the meter: the peak of the follower since the last report,
    where of each block only the samples up to the end of the interval are heard. *)
Theorem C69_reports_partial (sr cc : nat) (attack release frequency : R) (ops : list eop) :
  (0 < sr)%nat → 0 < frequency → (1 <= cc)%nat → envelope_ok (INR sr / frequency) cc 0 0 ops →
  ∃ e0 f0, new_envelope sr cc attack release frequency = Ok e0 ∧ ∀ fuel, (f0 <= fuel)%nat →
    ∃ e' unread taken, rfold (estep fuel) ops ((e0, []), []) = Ok ((e', unread), taken) ∧
      ∀ ch, (ch < cc)%nat → of_channel ch (concat taken ++ unread ++ ev_channel e') =
        omap (λ x, x) (meter (INR sr / frequency) 0 (new_follower (INR sr) attack release) 0 ((λ b, row_of b ch) <$> blocks_of ops)).
Proof. exact (reports_ok sr cc attack release frequency ops). Qed.
Print Assumptions C69_reports_partial.
(** All samples count when blocks end with the intervals. *)
Theorem C69_complete_when_aligned_partial (interval : R) (blocks : list (list R)) (n : nat) (f : follower) (peak : R) :
  aligned interval n blocks → meter interval n f peak blocks = meter_all interval n f peak blocks.
Proof. exact (meter_aligned interval blocks n f peak). Qed.
Print Assumptions C69_complete_when_aligned_partial.

(** C69 fails otherwise: a full-scale sample after the end of the interval is never reported. *)
Definition peak_blocks : list eop := [EBlock (mono [0; 0; 1]); EBlock (mono [0; 0; 0])].
Lemma peak_blocks_ok : envelope_ok (INR 2 / 1) 1 0 0 peak_blocks.
Proof.
  replace (INR 2 / 1) with (INR 2) by (cbn; lra). unfold peak_blocks. cbn [envelope_ok]. rewrite !whole_remaining, !whole_completes by lia.
  unfold eblock_ok, mono, wf. cbn -[Nat.modulo Nat.div]. cbn. repeat split; lia.
Qed.
Theorem C69_all_samples_refuted :
  ∃ e0 f0, new_envelope 2 1 0 0 1 = Ok e0 ∧ ∀ fuel, (f0 <= fuel)%nat →
    ∃ e' unread taken, rfold (estep fuel) peak_blocks ((e0, []), []) = Ok ((e', unread), taken) ∧
      of_channel 0 (concat taken ++ unread ++ ev_channel e') = [0; 0] ∧
      omap (λ x, x) (meter_all (INR 2 / 1) 0 (new_follower (INR 2) 0 0) 0 ((λ b, row_of b 0) <$> blocks_of peak_blocks)) = [1; 0].
Proof.
  destruct (reports_ok 2 1 0 0 1 peak_blocks ltac:(lia) ltac:(lra) ltac:(lia) peak_blocks_ok) as (e0 & f0 & E & H).
  exists e0, f0. split; [done|]. intros fuel Hf. destruct (H fuel Hf) as (e' & un & tk & E2 & Hc). exists e', un, tk. split; [done|].
  specialize (Hc 0%nat ltac:(lia)). rewrite Hc. replace (INR 2 / 1) with (INR 2) by (cbn; lra).
  unfold peak_blocks. cbn [blocks_of omap list_omap fmap list_fmap]. rewrite !row_mono. cbn [meter meter_all length Nat.add].
  rewrite !whole_remaining, !whole_completes by lia. cbn [Nat.modulo Nat.div Nat.divmod fst snd Nat.sub Nat.ltb Nat.leb Nat.add take].
  assert (Hz : ∀ f x, fl_attack f = 0 → fl_release f = 0 → fl_level (follow f x) = Rabs x).
  { intros f x H1 H2. unfold follow. cbn [fl_level]. destruct (Rlt_dec _ _); rewrite ?H1, ?H2; lra. }
  assert (H0 : follow_coefficient (INR 2) 0 = 0) by (unfold follow_coefficient; destruct (Req_EM_T _ _); [done|lra]).
  cbn [fmap list_fmap levels frun fold_left fstep app omap list_omap].
  rewrite !Hz by (cbn; apply H0). rewrite !Rabs_R0, Rabs_R1. rewrite !(Rmax_left 0 0) by lra. rewrite (Rmax_right 0 1) by lra. done.
Qed.
Print Assumptions C69_all_samples_refuted.

(** C70 fails: a stereo meter at 44.1 kHz with 60 notifications a second and blocks of
    256 frames aborts in the 90th block (half a second), whatever the audio and although
    the notifications are collected after every block. *)
Theorem C70_stereo_meter_refuted (attack release : R) (b : block) :
  eblock_ok 2 b → v_frames b.1 b.2 = 256%nat →
  ∃ e0 f0, new_envelope (Z.to_nat 44100) 2 attack release 60 = Ok e0 ∧ ∀ fuel, (f0 <= fuel)%nat →
    rfold (estep fuel) (drained 90 b) ((e0, []), []) = Panic IndexOutOfRange.
Proof.
  intros Hb HF. rewrite new_ok by (lia || lra).
  assert (HI : INR (Z.to_nat 44100) / 60 = INR 735).
  { rewrite !INR_IZR_INZ. rewrite Z2Nat.id by lia. change (Z.of_nat 735) with 735%Z. lra. }
  rewrite HI.
  destruct (stereo_abort 735 b 89 ltac:(lia) Hb ltac:(lia) ltac:(lia)) with (f := new_follower (INR (Z.to_nat 44100)) attack release) (p := 0) as [f0 H].
  - rewrite HF. assert (Hall : forallb (λ j, 2 <=? 735 - (Z.of_nat j * 256) mod 735)%Z (seq 0 89) = true) by (vm_compute; reflexivity).
    intros j Hj. apply (proj1 (forallb_forall _ _)) with (x := j) in Hall; [|apply in_seq; lia]. apply Z.leb_le in Hall.
    assert (Hm : Z.of_nat ((j * 256) `mod` 735) = ((Z.of_nat j * 256) mod 735)%Z) by (rewrite Nat2Z.inj_mod, Nat2Z.inj_mul; done). lia.
  - rewrite HF. apply Nat2Z.inj. rewrite Nat2Z.inj_mod, Nat2Z.inj_mul. vm_compute. reflexivity.
  - rewrite HF. assert (Hm : Z.of_nat ((90 * 256) `mod` 735) = 255%Z) by (rewrite Nat2Z.inj_mod, Nat2Z.inj_mul; vm_compute; reflexivity). lia.
  - eexists _, f0. split; [done|]. exact H.
Qed.
Print Assumptions C70_stereo_meter_refuted.
Definition silent_stereo : block := (Owned (replicate 512 0) 2 256 256, Whole).
Example C70_stereo_case : eblock_ok 2 silent_stereo ∧ v_frames silent_stereo.1 silent_stereo.2 = 256%nat.
Proof. unfold eblock_ok, silent_stereo, wf. cbn [fst snd v_channels v_frames channels frames data]. by rewrite replicate_length. Qed.

(** C70: a block with fewer frames than channels aborts; *)
Theorem C70_short_block_refuted (sr cc : nat) (attack release frequency : R) (b : block) :
  (0 < sr)%nat → 0 < frequency → (cc <= 64)%nat → eblock_ok cc b → (0 < v_frames b.1 b.2 < cc)%nat → (v_frames b.1 b.2 < remaining (INR sr / frequency) 0)%nat →
  ∃ e0 f0, new_envelope sr cc attack release frequency = Ok e0 ∧ ∀ fuel, (f0 <= fuel)%nat → envelope_process fuel b.1 b.2 e0 = Panic IndexOutOfRange.
Proof.
  intros Hs Hf Hcc Hb HF Hr. rewrite new_ok by done. pose proof (interval_pos sr frequency Hs Hf) as HI.
  destruct (enough_fuel _ (v_frames b.1 b.2) HI) as [f0 Hf0]. eexists _, (S (S f0)). split; [done|]. intros fuel Hfu.
  apply (short_block_abort _ HI cc fuel); rewrite ?replicate_length; try done; [lia|apply Hf0; lia|by apply ticks_0].
Qed.
Print Assumptions C70_short_block_refuted.
Example C70_short_case : eblock_ok 2 (Owned [1; 1] 2 1 48, Whole) ∧ (1 < remaining (INR 48) 0)%nat.
Proof. split; [by unfold eblock_ok, wf; cbn|]. rewrite whole_remaining by lia. cbn. lia. Qed.

(** an empty block never ends; *)
Theorem C70_empty_block_refuted (b : block) (e : envelope) (fuel : nat) :
  (0 < v_channels b.1 b.2)%nat → v_frames b.1 b.2 = 0%nat → is_ok (envelope_process fuel b.1 b.2 e) = false.
Proof. intros H1 H2. exact (empty_block_loops b e H1 H2 fuel). Qed.
Print Assumptions C70_empty_block_refuted.

(** and 65 notifications nobody collects stop the audio thread. *)
Theorem C70_unread_refuted (d : nat) (attack release : R) (b : block) (fuel : nat) :
  (0 < d)%nat → eblock_ok 1 b → v_frames b.1 b.2 = d → (1 <= fuel)%nat →
  ∃ e0, new_envelope d 1 attack release 1 = Ok e0 ∧ rfold (estep fuel) (replicate 65 (EBlock b)) ((e0, []), []) = Panic Blocked.
Proof.
  intros Hd Hb HF Hfu. rewrite new_ok by (lia || lra). replace (INR d / 1) with (INR d) by lra. eexists. split; [done|]. by apply unread_blocks.
Qed.
Print Assumptions C70_unread_refuted.
