From stdpp Require Import sets list list_numbers.
From Coq Require Import Reals Lra Lia ZArith.
From Verif Require Import Base Buffer BufferSpec EffectSpec BufferProofs EffectProofs Envelope EnvelopeSpec EnvelopeProofs EnvelopeNode.
Local Open Scope R_scope.

Lemma meter_aligned I blocks : ∀ n f p, aligned I n blocks → meter I n f p blocks = meter_all I n f p blocks.
Proof.
  induction blocks as [|b blocks IH]; intros n f p Ha; [done|]. destruct Ha as [H1 H2]. cbn [meter meter_all]. rewrite take_ge by done.
  destruct (completes _ _ _); by rewrite IH.
Qed.

Lemma interval_pos sr freq : (0 < sr)%nat → 0 < freq → 0 < INR sr / freq.
Proof. intros H1 H2. apply Rdiv_lt_0_compat; [by apply lt_0_INR|done]. Qed.
Lemma enough_fuel I M : 0 < I → ∃ f0, ∀ f, (f0 <= f)%nat → INR M <= INR f * I.
Proof.
  intros HI. destruct (archimed (INR M / I)) as [H _]. exists (Z.to_nat (up (INR M / I))). intros f Hf.
  assert (0 <= INR M / I) by (apply Rmult_le_pos; [apply pos_INR|left; by apply Rinv_0_lt_compat]).
  assert (H2 : INR M / I <= INR f).
  { left. eapply Rlt_le_trans; [exact H|]. rewrite (INR_IZR_INZ f). apply IZR_le. lia. }
  apply (Rmult_le_compat_r I) in H2; [|lra]. unfold Rdiv in H2. rewrite Rmult_assoc, Rinv_l in H2 by lra. lra.
Qed.
Lemma enough_all I (ops : list eop) : 0 < I → ∃ f0, ∀ f, (f0 <= f)%nat → ∀ b, EBlock b ∈ ops → INR (v_frames b.1 b.2) <= INR f * I.
Proof.
  intros HI. destruct (enough_fuel I (heard_frames ops) HI) as [f0 H]. exists f0. intros f Hf b Hb. eapply Rle_trans; [|by apply H]. apply le_INR.
  unfold heard_frames. clear -Hb. induction ops as [|o ops IH]; [by apply elem_of_nil in Hb|]. apply elem_of_cons in Hb as [<-|Hb].
  - cbn. lia.
  - specialize (IH Hb). destruct o; cbn in *; unfold blocks_of in *; lia.
Qed.
Lemma new_ok sr cc a r freq : (0 < sr)%nat → 0 < freq →
  new_envelope sr cc a r freq = Ok (state_at (INR sr / freq) 0 0 (replicate cc (new_follower (INR sr) a r)) (replicate cc 0) []).
Proof.
  intros Hs Hf. unfold new_envelope, new_periodic. destruct (Nat.ltb_spec 0 sr); [|lia]. destruct (Rlt_dec 0 freq); [|lra]. cbn [rassert rbind].
  unfold state_at. do 3 f_equal. cbn [INR]. lra.
Qed.
Lemma ticks_0 I : 0 < I → ticks I 0 0.
Proof. intros. unfold ticks. cbn. lra. Qed.

Lemma reports_ok sr cc a r freq ops : (0 < sr)%nat → 0 < freq → (1 <= cc)%nat → envelope_ok (INR sr / freq) cc 0 0 ops →
  ∃ e0 f0, new_envelope sr cc a r freq = Ok e0 ∧ ∀ fuel, (f0 <= fuel)%nat →
    ∃ e' unread taken, rfold (estep fuel) ops ((e0, []), []) = Ok ((e', unread), taken) ∧
      ∀ ch, (ch < cc)%nat → of_channel ch (concat taken ++ unread ++ ev_channel e') =
        omap (λ x, x) (meter (INR sr / freq) 0 (new_follower (INR sr) a r) 0 ((λ b, row_of b ch) <$> blocks_of ops)).
Proof.
  intros Hs Hf Hcc Hok. pose proof (interval_pos sr freq Hs Hf) as HI. rewrite (new_ok sr cc a r freq Hs Hf).
  destruct (enough_all _ ops HI) as [f0 Hf0]. eexists _, (S f0). split; [done|]. intros fuel Hfu.
  destruct (node_run _ HI cc fuel ops 0 0 0 (replicate cc (new_follower (INR sr) a r)) (replicate cc 0) [] [] []) as (e' & un & tk & E & _ & Hm);
    [done|lia|intros b Hb; apply (Hf0 fuel); [lia|done]|by apply ticks_0|done|done|by rewrite replicate_length|by rewrite replicate_length|].
  exists e', un, tk. split; [done|]. intros ch Hch. rewrite (Hm ch (new_follower (INR sr) a r) 0); [done| |]; by apply lookup_replicate_2.
Qed.

(** ** A stereo meter *)
Lemma drained_S m b : drained (S m) b = drained m b ++ [EBlock b; EDrain].
Proof. unfold drained. rewrite replicate_S_end, concat_app. cbn [concat]. by rewrite app_nil_r. Qed.
Lemma blocks_drained m b : blocks_of (drained m b) = replicate m b.
Proof. unfold drained, blocks_of. induction m as [|m IH]; [done|]. cbn. by rewrite IH. Qed.
Lemma heard_drained m b : heard_frames (drained m b) = (m * v_frames b.1 b.2)%nat.
Proof. unfold heard_frames. rewrite blocks_drained. induction m as [|m IH]; [done|]. cbn in *. lia. Qed.

Lemma drained_ok d cc b : (0 < d)%nat → eblock_ok cc b → (cc <= v_frames b.1 b.2)%nat → (cc <= 64)%nat → ∀ m n,
  (∀ j, (j < m)%nat → (cc <= d - (n + j * v_frames b.1 b.2) `mod` d)%nat) → envelope_ok (INR d) cc n 0 (drained m b).
Proof.
  intros Hd Hb H1 H2 m. induction m as [|m IH]; intros n Hj; [done|]. unfold drained in *. cbn [replicate concat app envelope_ok].
  split; [done|]. split; [done|]. split.
  { rewrite whole_remaining by done. specialize (Hj 0%nat ltac:(lia)). by rewrite Nat.add_0_r in Hj. }
  split; [lia|]. apply IH. intros j Hjm. specialize (Hj (S j) ltac:(lia)). cbn in Hj. by rewrite Nat.add_assoc in Hj.
Qed.
Lemma drained_channel fuel m b : (0 < m)%nat → ∀ s e' un tk, rfold (estep fuel) (drained m b) s = Ok ((e', un), tk) → ev_channel e' = [].
Proof.
  destruct m as [|m]; [lia|]. intros _ s e' un tk. rewrite drained_S, rfold_app. destruct (rfold _ _ _) as [[[e u] t]|]; [|done]. cbn [rbind rfold estep fst snd].
  destruct (envelope_process _ _ _ _) as [e1|]; [|done]. cbn. intros E. by injection E as <- <- <-.
Qed.

Lemma stereo_abort d b m : (0 < d)%nat → eblock_ok 2 b → (2 <= v_frames b.1 b.2)%nat → (0 < m)%nat →
  (∀ j, (j < m)%nat → (2 <= d - (j * v_frames b.1 b.2) `mod` d)%nat) →
  ((m * v_frames b.1 b.2) `mod` d = d - 1)%nat →
  (v_frames b.1 b.2 < d - (S m * v_frames b.1 b.2) `mod` d + 1)%nat →
  ∀ f p, ∃ f0, ∀ fuel, (f0 <= fuel)%nat →
    rfold (estep fuel) (drained (S m) b) ((state_at (INR d) 0 0 (replicate 2 f) (replicate 2 p) [], []), []) = Panic IndexOutOfRange.
Proof.
  intros Hd Hb HF Hm Hj Hmod Hnext f p. pose proof (whole_pos d Hd) as HI. destruct (enough_fuel (INR d) (v_frames b.1 b.2) HI) as [f0 Hf0].
  exists (S (S f0)). intros fuel Hfu. rewrite drained_S, rfold_app.
  destruct (node_run (INR d) HI 2 fuel (drained m b) 0 0 0 (replicate 2 f) (replicate 2 p) [] [] []) as (e' & un & tk & E & (k' & fs' & ps' & Es & Hk & L1 & L2) & _).
  { lia. } { lia. }
  { intros b' Hb'. assert (b' = b) as ->; [|apply Hf0; lia]. clear -Hb'. unfold drained in Hb'. induction m as [|m IH]; [by apply elem_of_nil in Hb'|].
    cbn in Hb'. rewrite !elem_of_cons in Hb'. destruct Hb' as [Hb'|[Hb'|Hb']]; [by injection Hb'|done|by apply IH]. }
  { by apply ticks_0. } { apply drained_ok; [done|done|done|lia|]. intros j Hj'. by apply Hj. } { done. } { done. } { done. }
  rewrite E. cbn [rbind rfold estep fst snd]. pose proof (drained_channel _ _ _ Hm _ _ _ _ E) as Hch. rewrite Hch in Es. rewrite heard_drained in Es, Hk. cbn [Nat.add] in Es, Hk. rewrite Es.
  rewrite (block_abort (INR d) HI 2); [done|done|lia|apply Hf0; lia|done|done| |done|done|cbn; lia|].
  - rewrite whole_remaining by done. lia.
  - rewrite !whole_remaining by done. replace (m * v_frames b.1 b.2 + v_frames b.1 b.2)%nat with (S m * v_frames b.1 b.2)%nat by lia. lia.
Qed.

(** ** Nobody reads the notifications *)
Lemma full_blocks ps q c cc : (64 <= length q)%nat → (c < cc)%nat → length ps = cc → send_notifications cc ps q = Panic Blocked.
Proof.
  intros Hq Hc Hps. unfold send_notifications. destruct cc as [|cc]; [lia|]. destruct ps as [|p ps]; [done|]. cbn [seq rfold lookup list_lookup runwrap rbind]. unfold note_capacity.
  unfold note in *. destruct (Nat.ltb_spec (length q) 64); [lia|done].
Qed.
Lemma unread_ok d b : (0 < d)%nat → eblock_ok 1 b → v_frames b.1 b.2 = d → ∀ m n u, (n `mod` d = 0)%nat → (u + m <= 64)%nat →
  envelope_ok (INR d) 1 n u (replicate m (EBlock b)).
Proof.
  intros Hd Hb HF m. induction m as [|m IH]; intros n u Hn Hu; [done|]. cbn [replicate envelope_ok]. rewrite HF. split; [done|]. split; [lia|].
  rewrite whole_remaining, Hn by done. split; [lia|]. split; [lia|]. assert (completes (INR d) n d = true) as ->.
  { rewrite whole_completes by done. apply Nat.ltb_lt. replace (n + d)%nat with (n + 1 * d)%nat by lia. rewrite Nat.div_add by lia. lia. }
  apply IH; [|lia]. replace (n + d)%nat with (n + 1 * d)%nat by lia. rewrite Nat.mod_add by lia. done.
Qed.
Lemma unread_grows d fuel b : (0 < d)%nat → eblock_ok 1 b → v_frames b.1 b.2 = d → (1 <= fuel)%nat → ∀ m n u k fs ps q, (n `mod` d = 0)%nat → (u + m <= 64)%nat →
  ticks (INR d) n k → length q = u → length fs = 1%nat → length ps = 1%nat →
  ∃ k' fs' ps' q', rfold (estep fuel) (replicate m (EBlock b)) ((state_at (INR d) n k fs ps q, []), []) = Ok ((state_at (INR d) (n + m * d) k' fs' ps' q', []), []) ∧
    ticks (INR d) (n + m * d) k' ∧ length q' = (u + m)%nat ∧ length fs' = 1%nat ∧ length ps' = 1%nat.
Proof.
  intros Hd Hb HF Hfuel m. pose proof (whole_pos d Hd) as HI. induction m as [|m IH]; intros n u k fs ps q Hn Hu Hk Hq Hfs Hps.
  { exists k, fs, ps, q. cbn [replicate rfold Nat.mul]. rewrite !Nat.add_0_r. done. }
  cbn [replicate rfold estep fst snd].
  assert (Hc : completes (INR d) n (v_frames b.1 b.2) = true).
  { rewrite HF, whole_completes by done. apply Nat.ltb_lt. replace (n + d)%nat with (n + 1 * d)%nat by lia. rewrite Nat.div_add by lia. lia. }
  destruct (block_step (INR d) HI 1 fuel b n k fs ps q Hb) as (k' & fs' & ps' & q' & -> & Hk' & L1 & L2 & L3 & _);
    [lia|done| |done|lia|rewrite whole_remaining, Hn by done; lia|done|done|lia|].
  { rewrite HF. assert (1 <= INR fuel) by (replace 1 with (INR 1) by done; apply le_INR; lia). assert (1 * INR d <= INR fuel * INR d) by (apply Rmult_le_compat_r; lra). lra. }
  cbn [rbind]. rewrite HF in *.
  destruct (IH (n + d)%nat (S u) k' fs' ps' (q ++ q')) as (k2 & fs2 & ps2 & q2 & E & H1 & H2 & H3 & H4); [|lia|done| |done|done|].
  { replace (n + d)%nat with (n + 1 * d)%nat by lia. rewrite Nat.mod_add by lia. done. }
  { rewrite app_length, L3, Hc. lia. }
  exists k2, fs2, ps2, q2. cbn [Nat.mul]. rewrite !Nat.add_assoc. split; [done|]. split; [done|]. split; [lia|done].
Qed.
Lemma unread_blocks d fuel b f p : (0 < d)%nat → eblock_ok 1 b → v_frames b.1 b.2 = d → (1 <= fuel)%nat →
  rfold (estep fuel) (replicate 65 (EBlock b)) ((state_at (INR d) 0 0 [f] [p] [], []), []) = Panic Blocked.
Proof.
  intros Hd Hb HF Hfuel. pose proof (whole_pos d Hd) as HI. change 65%nat with (64 + 1)%nat. rewrite replicate_add, rfold_app.
  destruct (unread_grows d fuel b Hd Hb HF Hfuel 64 0 0 0 [f] [p] []) as (k & fs & ps & q & -> & Hk & Hq & Hfs & Hps);
    [by apply Nat.mod_0_l; lia|lia|by apply ticks_0|done|done|done|].
  cbn [rbind replicate rfold estep fst snd]. pose proof Hb as (Hwf & Hv & Hcc). unfold envelope_process, state_at.
  destruct fuel as [|fuel']; [lia|]. cbn [envelope_loop]. rewrite Hcc. cbn [Nat.ltb Nat.leb ev_notification ev_followers ev_peaks ev_channel].
  rewrite (remaining_ok (INR d) HI _ k Hk).
  destruct (channel_loop b 1 (v_frames b.1 b.2 `min` remaining (INR d) (0 + 64 * d)) 1 Hb ltac:(lia) fs ps Hfs Hps ltac:(lia)) as (fs' & ps' & -> & L1 & L2 & _). cbn [rbind].
  destruct (advance_ok (INR d) HI (0 + 64 * d) k (S fuel') (v_frames b.1 b.2) Hk) as (k' & Hk' & ->).
  { rewrite HF, S_INR. pose proof (pos_INR fuel'). assert (0 <= INR fuel' * INR d) by (apply Rmult_le_pos; lra). lra. }
  cbn [rbind]. rewrite <-(completes_ok (INR d) HI _ _ _ _ Hk Hk'), HF, whole_completes by done.
  assert (((0 + 64 * d) `div` d <? (0 + 64 * d + d) `div` d)%nat = true) as ->.
  { apply Nat.ltb_lt. replace (0 + 64 * d + d)%nat with (65 * d)%nat by lia. replace (0 + 64 * d)%nat with (64 * d)%nat by lia. rewrite !Nat.div_mul by lia. lia. }
  rewrite (full_blocks ps' q 0 1); [done|lia|lia|done].
Qed.

(** ** A missed peak *)
Lemma row_mono l : row_of (mono l) 0 = l.
Proof.
  apply list_eq_same_length with (length l); [done|by rewrite row_length|]. intros i x y Hi Hx Hy. unfold row_of, mono in Hx. cbn [fst snd v_frames frames] in Hx.
  rewrite list_lookup_fmap, lookup_seq_lt in Hx by done. cbn [fmap option_fmap option_map Nat.add] in Hx. apply (inj Some) in Hx as <-.
  rewrite seen_eq; [|cbn; lia|done]. cbn [off_ch off_fr Nat.add]. unfold sample. cbn [channels frames data].
  rewrite decide_True by lia. cbn [Nat.mul Nat.add]. by rewrite Hy.
Qed.
