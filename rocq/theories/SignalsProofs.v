(** Moving audio inside a buffer, and generated buffers. *)
From stdpp Require Import list numbers list_numbers.
From Coq Require Import Lia ZifyBool ZifyNat Reals.
From Verif Require Import Base Buffer BufferSpec BufferProofs Signals.
Local Open Scope nat_scope.

Section signals.
Context {A : Type}.
Implicit Types (b : owned A) (v : view).

Lemma channel_copy_ok b v ch fr n dst : wf b → valid_view b v → fr + n ≤ v_frames b v → dst + n ≤ v_frames b v → frames b = 0 ∨ ch + off_ch v < channels b →
  ∃ b', channel_copy_within b v ch fr n dst = Ok b' ∧
    rect_update (λ x _, x) (λ _ j, sample b (ch + off_ch v) (fr + off_fr v + j)) (ch + off_ch v) (dst + off_fr v) 1 n b b'.
Proof.
  intros Hwf Hv H1 H2 H3. unfold channel_copy_within. rewrite (locate_ok b v ch 0) by (done || lia). cbn [rbind].
  rewrite (proj2 (Nat.leb_le _ _)), (proj2 (Nat.leb_le _ _)) by lia. cbn [andb]. eexists. split; [done|].
  pose proof (seg_bound b v ch fr n Hwf Hv H1 H3) as Hb. destruct (valid_off b v Hv) as [Ho1 Ho2].
  set (row := take n _). assert (Hl : length row = n) by (unfold row; rewrite take_length, drop_length; lia).
  destruct (write_row (λ x _, x) b (ch + off_ch v) (dst + off_fr v) row) as (Hw & Hd & Hs); [done|destruct H3; auto|lia|].
  replace ((ch + off_ch v) * frames b + (0 + off_fr v) + dst) with ((ch + off_ch v) * frames b + (dst + off_fr v)) by lia.
  split; [done|]. split; [done|]. intros c f. rewrite Hs, Hl. destruct (decide (in_rect _ _ _ _ _ _)) as [Hin|]; [|done]. unfold in_rect in Hin.
  destruct (decide (c < channels b ∧ f < frames b)) as [Hc|Hc].
  - unfold row. rewrite lookup_take, lookup_drop by lia. rewrite (sample_lookup b (ch + off_ch v)) by lia. do 2 f_equal. lia.
  - rewrite (sample_None b c f) by done. destruct (row !! _), (sample b (ch + off_ch v) _); done.
Qed.

Lemma channel_copy_panics b v ch fr n dst : wf b → valid_view b v → ¬ (fr + n ≤ v_frames b v ∧ dst + n ≤ v_frames b v ∧ (frames b = 0 ∨ ch + off_ch v < channels b)) →
  ∃ p, channel_copy_within b v ch fr n dst = Panic p.
Proof.
  intros Hwf Hv Hn. unfold channel_copy_within. destruct (locate_spec b v ch 0 Hwf Hv) as [L1 L2].
  destruct (decide (0 ≤ v_frames b v ∧ (frames b = 0 ∨ ch + off_ch v < channels b))) as [Hin|Hin].
  - rewrite L1 by done. cbn [rbind]. destruct (Nat.leb_spec (fr + n) ((ch + off_ch v) * frames b + (0 + off_fr v) + (v_frames b v - 0) - ((ch + off_ch v) * frames b + (0 + off_fr v)))); [|by eexists].
    destruct (Nat.leb_spec (dst + n) ((ch + off_ch v) * frames b + (0 + off_fr v) + (v_frames b v - 0) - ((ch + off_ch v) * frames b + (0 + off_fr v)))); [|by eexists].
    exfalso. apply Hn. split; [lia|]. split; [lia|]. by destruct Hin.
  - destruct (L2 Hin) as [p ->]. by eexists.
Qed.

Lemma copies_ok b v c0 fr n dst cc : wf b → valid_view b v → fits b v c0 fr cc n → fits b v c0 dst cc n →
  ∃ b', rfold (λ b ch, channel_copy_within b v ch fr n dst) (seq c0 cc) b = Ok b' ∧ wf b' ∧ same_dims b b' ∧
    ∀ ch f, sample b' ch f = if decide (in_rect (c0 + off_ch v) (dst + off_fr v) cc n ch f) then sample b ch (fr + off_fr v + (f - (dst + off_fr v))) else sample b ch f.
Proof.
  intros Hwf Hv. induction cc as [|cc IH]; intros F1 F2.
  - exists b. do 3 (split; [done|]). intros ch f. rewrite decide_False; [done|]. unfold in_rect. lia.
  - destruct IH as (b1 & E1 & W1 & D1 & S1); [eapply fits_le; [|done]; lia|eapply fits_le; [|done]; lia|].
    rewrite seq_S, rfold_app, E1. cbn [rbind rfold]. destruct (same_dims_view b b1 v D1) as (Hvf & _ & Hvv & _). destruct F1 as [?|[F1 F1']]; [done|]. destruct F2 as [?|[F2 F2']]; [done|].
    pose proof D1 as (Dc & Df & Dr). destruct (valid_off b v Hv) as [Ho1 Ho2].
    destruct (channel_copy_ok b1 v (c0 + cc) fr n dst) as (b2 & E2 & W2 & D2 & S2); [done|by apply Hvv|lia|lia|rewrite Df, Dc; lia|].
    rewrite E2. cbn [rbind]. exists b2. split; [done|]. split; [done|]. split; [by eapply same_dims_trans|]. intros ch f. rewrite S2.
    destruct (decide (in_rect (c0 + cc + off_ch v) (dst + off_fr v) 1 n ch f)) as [Hin|Hout].
    + unfold in_rect in Hin. assert (ch = c0 + cc + off_ch v) as -> by lia. rewrite decide_True by (unfold in_rect; lia). rewrite !S1.
      rewrite !decide_False by (unfold in_rect; lia). destruct (decide (c0 + cc + off_ch v < channels b ∧ f < frames b)) as [Hc|Hc].
      * destruct (proj2 (sample_is_Some b (c0 + cc + off_ch v) f Hwf) Hc) as [y ->]. cbn. by destruct (sample b _ _).
      * rewrite (sample_None b _ f) by done. rewrite (sample_None b) by lia. done.
    + rewrite S1. destruct (decide (in_rect (c0 + off_ch v) (dst + off_fr v) cc n ch f)) as [Hi|Hi]; unfold in_rect in *.
      * by rewrite decide_True by lia.
      * by rewrite decide_False by lia.
Qed.

Lemma rfold_panic {X S} (f : S → X → res S) l s p : f s <$> head l = Some (Panic p) → rfold f l s = Panic p.
Proof. destruct l as [|x l]; [done|]. cbn. intros [= ->]. done. Qed.

Lemma copy_within_ok b v r dst : wf b → valid_view b v →
  let moves := fits b v (r_channel r) (r_frame r) (r_channels r) (r_frames r) ∧ fits b v (r_channel r) dst (r_channels r) (r_frames r) in
  (moves → ∃ b', copy_within b v r dst = Ok b' ∧ wf b' ∧ same_dims b b' ∧
    ∀ ch fr, sample b' ch fr = if decide (in_rect (r_channel r + off_ch v) (dst + off_fr v) (r_channels r) (r_frames r) ch fr)
      then sample b ch (r_frame r + off_fr v + (fr - (dst + off_fr v))) else sample b ch fr) ∧
  (¬ moves → ∃ p, copy_within b v r dst = Panic p).
Proof.
  intros Hwf Hv. cbv zeta. split; [intros [F1 F2]; by apply copies_ok|]. intros Hn. unfold copy_within.
  destruct (r_channels r) as [|cc] eqn:Ecc; [exfalso; apply Hn; split; by left|]. set (fr := r_frame r) in *. set (n := r_frames r) in *. set (c0 := r_channel r) in *.
  destruct (decide (fr + n ≤ v_frames b v ∧ dst + n ≤ v_frames b v)) as [Hf|Hf].
  - (* too many channels: the first of them that is not there aborts *)
    assert (Hz : frames b ≠ 0 ∧ channels b < c0 + off_ch v + S cc).
    { destruct (decide (frames b = 0)); [exfalso; apply Hn; unfold fits; tauto|]. split; [done|]. destruct (decide (channels b < c0 + off_ch v + S cc)); [done|]. exfalso. apply Hn. unfold fits. lia. }
    set (k := channels b - (c0 + off_ch v)). assert (Hk : k ≤ cc) by lia.
    replace (S cc) with (k + S (cc - k)) by lia. rewrite seq_app, rfold_app.
    destruct (copies_ok b v c0 fr n dst k) as (b1 & E1 & W1 & D1 & _); [done|done| | |].
    { unfold fits. destruct (decide (k = 0)); [by left|right; lia]. }
    { unfold fits. destruct (decide (k = 0)); [by left|right; lia]. }
    rewrite E1. cbn [rbind seq rfold]. destruct (same_dims_view b b1 v D1) as (Hvf & _ & Hvv & _). pose proof D1 as (Dc & Df & Dr).
    destruct (channel_copy_panics b1 v (c0 + k) fr n dst) as [p ->]; [done|by apply Hvv|lia|]. by exists p.
  - cbn [seq rfold]. destruct (channel_copy_panics b v c0 fr n dst) as [p ->]; [done|done|tauto|]. by exists p.
Qed.

(** ** Generated buffers *)
Lemma copies_made b n k : wf b → frames b = n → 0 < channels b → k < channels b →
  ∃ b', rfold (λ b ch, duplicate_channel b 0 0 ch n) (seq 1 k) b = Ok b' ∧ wf b' ∧ same_dims b b' ∧
    ∀ ch f, sample b' ch f = if decide (1 ≤ ch ≤ k) then sample b 0 f else sample b ch f.
Proof.
  intros Hwf Hf Hc. induction k as [|k IH]; intros Hk.
  - exists b. do 3 (split; [done|]). intros ch f. by rewrite decide_False by lia.
  - destruct IH as (b1 & E1 & W1 & D1 & S1); [lia|]. rewrite seq_S, rfold_app, E1. cbn [rbind rfold]. pose proof D1 as (Dc & Df & Dr).
    destruct (duplicate_channel_ok b1 0 0 (1 + k) n) as (b2 & E2 & W2 & D2 & S2); [done|lia|lia|lia|]. rewrite E2. cbn [rbind]. exists b2.
    split; [done|]. split; [done|]. split; [by eapply same_dims_trans|]. intros ch f. rewrite S2, !S1. destruct (decide (in_rect (1 + k) 0 1 n ch f)) as [Hin|Hout]; unfold in_rect in *.
    + assert (ch = 1 + k) as -> by lia. rewrite decide_False, decide_False, decide_True by lia. replace (0 + (f - 0)) with f by lia.
      destruct (proj2 (sample_is_Some b (1 + k) f Hwf)) as [y ->]; [lia|]. cbn. by destruct (sample b 0 f).
    + destruct (decide (1 ≤ ch ≤ k)); [by rewrite decide_True by lia|]. destruct (decide (1 ≤ ch ≤ S k)); [|done].
      assert (ch = 1 + k) as -> by lia. rewrite !sample_None by lia. done.
Qed.

Lemma generated_ok zero (f : nat → A) n c r : 0 < c →
  ∃ b, generated zero f n c r = Ok b ∧ wf b ∧ channels b = c ∧ frames b = n ∧ rate b = r ∧ ∀ ch fr, ch < c → fr < n → sample b ch fr = Some (f fr).
Proof.
  intros Hc. unfold generated. set (b0 := new_buffer zero n c r). pose proof (new_buffer_wf zero n c r) as W0. fold b0 in W0.
  rewrite (locate_ok b0 Whole 0 0) by (done || (cbn; lia)). cbn [rbind off_ch off_fr v_frames]. change (frames b0) with n.
  replace ((0 + 0) * n + (0 + 0) + (n - 0) - ((0 + 0) * n + (0 + 0))) with n by lia. replace ((0 + 0) * n + (0 + 0)) with 0 by lia.
  destruct (write_row (λ x _, x) b0 0 0 (f <$> seq 0 n)) as (W1 & D1 & S1); [done|left; cbn; lia|rewrite fmap_length, seq_length; cbn; lia|].
  change (0 * frames b0 + 0) with 0 in W1, D1, S1. set (b1 := with_data b0 _) in *. pose proof D1 as (Dc & Df & Dr).
  destruct (copies_made b1 n (c - 1)) as (b & E & W & D & S); [done|done|rewrite Dc; cbn; lia|rewrite Dc; cbn; lia|]. pose proof D as (Dc' & Df' & Dr').
  exists b. split; [exact E|]. split; [done|]. split; [rewrite Dc', Dc; done|]. split; [rewrite Df', Df; done|]. split; [rewrite Dr', Dr; done|]. intros ch fr H1 H2.
  assert (H0 : sample b1 0 fr = Some (f fr)).
  { rewrite S1. rewrite fmap_length, seq_length. rewrite decide_True by (unfold in_rect; lia). rewrite Nat.sub_0_r, list_lookup_fmap.
    assert (seq 0 n !! fr = Some fr) as -> by (by apply lookup_seq). cbn. unfold b0. rewrite new_buffer_sample, decide_True by lia. done. }
  rewrite S. destruct (decide (1 ≤ ch ≤ c - 1)); [done|]. by assert (ch = 0) as -> by lia.
Qed.
Lemma generated_none zero (f : nat → A) n r : 0 < n → ∃ p, generated zero f n 0 r = Panic p.
Proof.
  intros Hn. unfold generated. destruct (locate_spec (new_buffer zero n 0 r) Whole 0 0 (new_buffer_wf zero n 0 r) I) as [_ L]. destruct L as [p ->]; [cbn; lia|]. by exists p.
Qed.

Lemma step_ok zero one n c r lo hi : 0 < c →
  ∃ b, step (A := A) zero one n c r lo hi = Ok b ∧ wf b ∧ channels b = c ∧ frames b = n ∧ rate b = r ∧
    ∀ ch fr, ch < c → fr < n → sample b ch fr = Some (if decide (lo ≤ fr < hi) then one else zero).
Proof.
  intros Hc. destruct (generated_ok zero (λ i, if (lo <=? i) && (i <? hi) then one else zero) n c r Hc) as (b & E & W & D1 & D2 & D3 & S). exists b.
  do 5 (split; [done|]). intros ch fr H1 H2. rewrite S by done. f_equal. destruct (Nat.leb_spec lo fr), (Nat.ltb_spec fr hi); cbn [andb];
    first [by rewrite decide_True by lia|by rewrite decide_False by lia].
Qed.
End signals.

Lemma sine_ok n c r frequency amplitude : 0 < c →
  ∃ b, sine n c r frequency amplitude = Ok b ∧ wf b ∧ channels b = c ∧ frames b = n ∧ rate b = r ∧
    ∀ ch fr, ch < c → fr < n → sample b ch fr = Some (amplitude * sin (2 * PI * frequency * (INR fr / INR r)))%R.
Proof. intros Hc. unfold sine. rewrite (proj2 (Nat.ltb_lt 0 c)) by done. by apply generated_ok. Qed.
