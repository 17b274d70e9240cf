From stdpp Require Import sets list list_numbers.
From Coq Require Import Reals Lra Lia ZArith.
From Verif Require Import Base Buffer BufferSpec EffectSpec BufferProofs EffectProofs Envelope EnvelopeSpec EnvelopeProofs.
Local Open Scope R_scope.

Lemma follow_peak_fold l : ∀ f p, fold_left follow_peak l (f, p) = (frun f (FSample <$> l), fold_left Rmax (levels f (FSample <$> l)) p).
Proof. induction l as [|x l IH]; intros f p; [done|]. cbn [fold_left]. unfold follow_peak at 2. cbn [fst snd]. by rewrite IH. Qed.

Lemma row_length b ch : length (row_of b ch) = v_frames b.1 b.2.
Proof. unfold row_of. by rewrite fmap_length, seq_length. Qed.
Lemma row_data b ch : wf b.1 → valid_view b.1 b.2 → (ch < v_channels b.1 b.2)%nat → get_channel_data b.1 b.2 ch 0 = Ok (row_of b ch).
Proof.
  intros Hwf Hv Hch. pose proof (valid_off _ _ Hv) as Ho.
  destruct (get_channel_data_ok b.1 b.2 ch 0 Hwf Hv) as (l & -> & Hl & Hi); [lia|right; lia|]. f_equal.
  apply list_eq_same_length with (v_frames b.1 b.2); [by rewrite row_length|lia|]. intros i x y Hlt Hx Hy.
  rewrite Hi in Hx by lia. unfold row_of in Hy. rewrite list_lookup_fmap, lookup_seq_lt in Hy by done. cbn in Hy. injection Hy as <-.
  rewrite seen_eq by lia. replace (off_ch b.2 + ch)%nat with (ch + off_ch b.2)%nat by lia. cbn in Hx. rewrite Hx. done.
Qed.

Definition heard (b : block) (fc ch : nat) : list fop := FSample <$> take fc (row_of b ch).
Definition new_f (b : block) (fc ch : nat) (f : follower) : follower := frun f (heard b fc ch).
Definition new_p (b : block) (fc ch : nat) (f : follower) (p : R) : R := fold_left Rmax (levels f (heard b fc ch)) p.

Lemma channel_loop b cc fc m : eblock_ok cc b → (fc <= v_frames b.1 b.2)%nat → ∀ fs ps, length fs = cc → length ps = cc → (m <= cc)%nat →
  ∃ fs' ps', rfold (envelope_channel b.1 b.2 0 fc) (seq 0 m) (fs, ps) = Ok (fs', ps') ∧ length fs' = cc ∧ length ps' = cc ∧
    ∀ ch f p, fs !! ch = Some f → ps !! ch = Some p →
      fs' !! ch = Some (if decide (ch < m)%nat then new_f b fc ch f else f) ∧ ps' !! ch = Some (if decide (ch < m)%nat then new_p b fc ch f p else p).
Proof.
  intros (Hwf & Hv & Hcc) Hfc fs ps Hfs Hps. induction m as [|m IH]; intros Hm.
  { exists fs, ps. do 3 (split; [done|]). intros ch f p Hf Hp. rewrite !decide_False by lia. done. }
  destruct IH as (fs1 & ps1 & E & L1 & L2 & Hc); [lia|]. rewrite seq_S, rfold_app, E. cbn [rbind rfold Nat.add].
  destruct (lookup_lt_is_Some_2 fs m) as [f Hf]; [lia|]. destruct (lookup_lt_is_Some_2 ps m) as [p Hp]; [lia|].
  destruct (Hc m f p Hf Hp) as [C1 C2]. rewrite decide_False in C1 by lia. rewrite decide_False in C2 by lia.
  unfold envelope_channel. rewrite row_data by (done || lia). cbn [rbind]. rewrite row_length.
  destruct (Nat.leb_spec (0 + fc) (v_frames b.1 b.2)); [|lia]. cbn [rassert fst snd]. rewrite C1, C2. cbn [runwrap rbind].
  rewrite drop_0, follow_peak_fold. cbn [rbind]. eexists _, _. split; [done|]. rewrite !insert_length. do 2 (split; [done|]).
  intros ch f' p' Hf' Hp'. destruct (decide (ch = m)) as [->|Hne].
  - rewrite !list_lookup_insert by lia. rewrite Hf in Hf'. rewrite Hp in Hp'. injection Hf' as <-. injection Hp' as <-. rewrite !decide_True by lia. done.
  - rewrite !list_lookup_insert_ne by done. destruct (Hc ch f' p' Hf' Hp') as [D1 D2]. rewrite D1, D2.
    repeat case_decide; try done; exfalso; lia.
Qed.

Lemma of_channel_app ch a b : of_channel ch (a ++ b) = of_channel ch a ++ of_channel ch b.
Proof. unfold of_channel. apply omap_app. Qed.
Lemma send_ok cc ps q : length ps = cc → (length q + cc <= 64)%nat →
  ∃ q', send_notifications cc ps q = Ok ((λ _, 0) <$> ps, q ++ q') ∧ length q' = cc ∧
    (∀ ch p, ps !! ch = Some p → of_channel ch q' = [p]).
Proof.
  intros Hps Hq. unfold send_notifications.
  assert (H : ∀ m, (m <= cc)%nat → ∃ q', rfold (λ q channel, let? peak := runwrap (ps !! channel) UnwrapNone in
    rassert (length q <? note_capacity)%nat Blocked (Ok (q ++ [(channel, peak)]))) (seq 0 m) q = Ok (q ++ q') ∧ length q' = m ∧
    (∀ ch p, ps !! ch = Some p → of_channel ch q' = if decide (ch < m)%nat then [p] else [])).
  { induction m as [|m IH]; intros Hm.
    { exists []. rewrite app_nil_r. done. }
    destruct IH as (q' & E & L & Hc); [lia|]. rewrite seq_S, rfold_app, E. cbn [rbind rfold Nat.add].
    destruct (lookup_lt_is_Some_2 ps m) as [p Hp]; [lia|]. rewrite Hp. cbn [runwrap rbind]. rewrite app_length. unfold note_capacity.
    destruct (Nat.ltb_spec (length q + length q') 64); [|lia]. cbn [rassert rbind]. exists (q' ++ [(m, p)]). rewrite app_assoc. split; [done|].
    rewrite app_length. cbn [length]. split; [lia|]. intros ch p' Hp'. rewrite of_channel_app, (Hc ch p' Hp'). unfold of_channel. cbn [omap list_omap fst snd].
    destruct (decide (m = ch)) as [->|].
    - rewrite Hp in Hp'. injection Hp' as <-. rewrite decide_False by lia. rewrite decide_True by lia. done.
    - repeat case_decide; cbn; try done; exfalso; lia. }
  destruct (H cc) as (q' & E & L & Hc); [lia|]. rewrite E. cbn [rbind]. exists q'. split; [done|]. split; [done|].
  intros ch p Hp. rewrite (Hc ch p Hp). apply lookup_lt_Some in Hp. rewrite decide_True by lia. done.
Qed.

Section node.
  Context (I : R) (HI : 0 < I) (cc fuel : nat).
  Definition state_at (n k : nat) (fs : list follower) (ps : list R) (q : list note) : envelope :=
    Envelope fs (Periodic I (I * INR (S k) - INR n)) ps q.
  Lemma remaining_ok n k : ticks I n k → samples_until_next (Periodic I (I * INR (S k) - INR n)) = remaining I n.
  Proof.
    intros Hk. unfold samples_until_next, remaining. cbn [pn_next]. rewrite (ticks_floor I HI n k Hk), <-INR_IZR_INZ, S_INR. done.
  Qed.
  Lemma completes_ok n b k k' : ticks I n k → ticks I (n + b) k' → completes I n b = (k <? k')%nat.
  Proof.
    intros H1 H2. unfold completes. rewrite (ticks_floor I HI _ _ H1), (ticks_floor I HI _ _ H2).
    destruct (Z.ltb_spec (Z.of_nat k) (Z.of_nat k')), (Nat.ltb_spec k k'); try done; lia.
  Qed.
  Lemma take_min b n ch : take (v_frames b.1 b.2 `min` n) (row_of b ch) = take n (row_of b ch).
  Proof. rewrite <-(row_length b ch), <-take_take, take_ge; [done|]. rewrite take_length. lia. Qed.

  Lemma block_step b n k fs ps q : eblock_ok cc b → (1 <= cc)%nat → (1 <= fuel)%nat → INR (v_frames b.1 b.2) <= INR fuel * I → ticks I n k →
    (cc <= v_frames b.1 b.2)%nat → (cc <= remaining I n)%nat → length fs = cc → length ps = cc →
    let c := completes I n (v_frames b.1 b.2) in
    (c = true → length q + cc <= 64)%nat →
    ∃ k' fs' ps' q', envelope_process fuel b.1 b.2 (state_at n k fs ps q) = Ok (state_at (n + v_frames b.1 b.2) k' fs' ps' (q ++ q')) ∧
      ticks I (n + v_frames b.1 b.2) k' ∧ length fs' = cc ∧ length ps' = cc ∧ length q' = (if c then cc else 0)%nat ∧
      ∀ ch f p, fs !! ch = Some f → ps !! ch = Some p →
        let p' := new_p b (remaining I n) ch f p in
        fs' !! ch = Some (new_f b (remaining I n) ch f) ∧ ps' !! ch = Some (if c then 0 else p') ∧ of_channel ch q' = if c then [p'] else [].
  Proof.
    intros Hb Hcc1 Hfuel Hfu Hk H1 H2 Hfs Hps c Hroom. pose proof Hb as (Hwf & Hv & Hcc). unfold envelope_process, state_at.
    destruct fuel as [|fuel']; [lia|]. cbn [envelope_loop]. rewrite Hcc. destruct (Nat.ltb_spec 0 cc); [|lia]. cbn [ev_notification ev_followers ev_peaks ev_channel].
    rewrite (remaining_ok n k Hk).
    destruct (channel_loop b cc (v_frames b.1 b.2 `min` remaining I n) cc Hb ltac:(lia) fs ps Hfs Hps ltac:(lia)) as (fs' & ps' & -> & L1 & L2 & Hc). cbn [rbind].
    destruct (advance_ok I HI n k (S fuel') (v_frames b.1 b.2) Hk Hfu) as (k' & Hk' & ->). cbn [rbind].
    rewrite <-(completes_ok n _ k k' Hk Hk'). fold c.
    assert (Hc' : ∀ ch f p, fs !! ch = Some f → ps !! ch = Some p →
      fs' !! ch = Some (new_f b (remaining I n) ch f) ∧ ps' !! ch = Some (new_p b (remaining I n) ch f p)).
    { intros ch f p Hf Hp. destruct (Hc ch f p Hf Hp) as [C1 C2]. rewrite C1, C2. apply lookup_lt_Some in Hf. rewrite !decide_True by lia.
      unfold new_f, new_p, heard. by rewrite take_min. }
    assert (Hend : ∀ e, envelope_loop (S fuel') fuel' b.1 b.2 (0 + v_frames b.1 b.2 `min` remaining I n) e = Ok e).
    { intros e. destruct fuel'; cbn [envelope_loop]; rewrite Hcc; (destruct (Nat.ltb_spec (0 + v_frames b.1 b.2 `min` remaining I n) cc); [lia|done]). }
    destruct c eqn:Ec.
    - destruct (send_ok cc ps' q L2 (Hroom eq_refl)) as (q' & -> & L3 & Hq). cbn [rbind]. rewrite Hend.
      exists k', fs', ((λ _, 0) <$> ps'), q'. split; [done|]. rewrite fmap_length. do 4 (split; [done|]). intros ch f p Hf Hp.
      destruct (Hc' ch f p Hf Hp) as [C1 C2]. rewrite C1, list_lookup_fmap, C2. split; [done|]. split; [done|]. by apply Hq.
    - cbn [rbind]. rewrite Hend. exists k', fs', ps', []. rewrite app_nil_r. do 5 (split; [done|]). intros ch f p Hf Hp.
      destruct (Hc' ch f p Hf Hp) as [C1 C2]. done.
  Qed.

  Definition heard_frames (ops : list eop) : nat := sum_list ((λ b : block, v_frames b.1 b.2) <$> blocks_of ops).
  Lemma node_run ops : ∀ n k u fs ps q pend taken, (1 <= cc)%nat → (1 <= fuel)%nat → (∀ b, EBlock b ∈ ops → INR (v_frames b.1 b.2) <= INR fuel * I) → ticks I n k →
    envelope_ok I cc n u ops → length q = u → length fs = cc → length ps = cc →
    ∃ e' pend' taken', rfold (estep fuel) ops ((state_at n k fs ps q, pend), taken) = Ok ((e', pend'), taken') ∧
      (∃ k' fs' ps', e' = state_at (n + heard_frames ops) k' fs' ps' (ev_channel e') ∧ ticks I (n + heard_frames ops) k' ∧ length fs' = cc ∧ length ps' = cc) ∧
      ∀ ch f p, fs !! ch = Some f → ps !! ch = Some p →
        of_channel ch (concat taken' ++ pend' ++ ev_channel e') =
        of_channel ch (concat taken ++ pend ++ q) ++ omap (λ x, x) (meter I n f p ((λ b, row_of b ch) <$> blocks_of ops)).
  Proof.
    induction ops as [|o ops IH]; intros n k u fs ps q pend taken Hcc Hfuel Hfu Hk Hok Hq Hfs Hps.
    { eexists _, _, _. split; [done|]. split; [exists k, fs, ps; cbn; by rewrite Nat.add_0_r|]. intros ch f p Hf Hp. cbn. by rewrite app_nil_r. }
    destruct o as [b| |]; cbn [rfold estep fst snd].
    - destruct Hok as (Hb & H1 & H2 & H3 & Hok).
      destruct (block_step b n k fs ps q Hb Hcc Hfuel (Hfu b ltac:(left)) Hk H1 H2 Hfs Hps) as (k' & fs' & ps' & q' & -> & Hk' & L1 & L2 & L3 & Hc);
        [intros E; specialize (H3 E); lia|]. cbn [rbind].
      destruct (IH _ k' _ fs' ps' (q ++ q') pend taken Hcc Hfuel ltac:(intros; apply Hfu; by right) Hk' Hok) as (e' & pend' & taken' & E & Hst & Hm);
        [rewrite app_length; destruct (completes _ _ _); lia|done|done|].
      exists e', pend', taken'. split; [done|]. split; [try done; cbn; by rewrite ?Nat.add_assoc|]. intros ch f p Hf Hp. destruct (Hc ch f p Hf Hp) as (C1 & C2 & C3).
      rewrite (Hm ch _ _ C1 C2). cbn [blocks_of omap list_omap]. change (list_omap _ _ _ ops) with (blocks_of ops). cbn [fmap list_fmap meter].
      rewrite row_length. rewrite !of_channel_app, C3, <-!app_assoc. unfold new_p, new_f, heard.
      destruct (completes I n (v_frames b.1 b.2)); done.
    - destruct (IH n k 0%nat fs ps [] (pend ++ q) taken Hcc Hfuel ltac:(intros; apply Hfu; by right) Hk Hok) as (e' & pend' & taken' & E & Hst & Hm); [done|done|done|].
      exists e', pend', taken'. split; [done|]. split; [try done; cbn; by rewrite ?Nat.add_assoc|]. intros ch f p Hf Hp. rewrite (Hm ch f p Hf Hp). by rewrite app_nil_r.
    - destruct (IH n k u fs ps q [] (taken ++ [pend]) Hcc Hfuel ltac:(intros; apply Hfu; by right) Hk Hok) as (e' & pend' & taken' & E & Hst & Hm); [done|done|done|].
      exists e', pend', taken'. split; [done|]. split; [try done; cbn; by rewrite ?Nat.add_assoc|]. intros ch f p Hf Hp. rewrite (Hm ch f p Hf Hp). rewrite concat_app. cbn [concat]. by rewrite app_nil_r, <-!app_assoc.
  Qed.

  Lemma block_abort b n k fs ps q : eblock_ok cc b → (2 <= fuel)%nat → INR (v_frames b.1 b.2) <= INR fuel * I → ticks I n k →
    (cc <= v_frames b.1 b.2)%nat → (remaining I n < cc)%nat → length fs = cc → length ps = cc → (length q + cc <= 64)%nat →
    (v_frames b.1 b.2 < remaining I n + v_frames b.1 b.2 `min` remaining I (n + v_frames b.1 b.2))%nat →
    envelope_process fuel b.1 b.2 (state_at n k fs ps q) = Panic IndexOutOfRange.
  Proof.
    intros Hb Hfuel Hfu Hk H1 H2 Hfs Hps Hroom Hover. pose proof Hb as (Hwf & Hv & Hcc). unfold envelope_process, state_at.
    destruct fuel as [|[|fuel']]; [lia|lia|]. cbn [envelope_loop]. rewrite Hcc. destruct (Nat.ltb_spec 0 cc); [|lia]. cbn [ev_notification ev_followers ev_peaks ev_channel].
    rewrite (remaining_ok n k Hk). rewrite (Nat.min_r (v_frames b.1 b.2) (remaining I n)) by lia.
    destruct (channel_loop b cc (remaining I n) cc Hb ltac:(lia) fs ps Hfs Hps ltac:(lia)) as (fs' & ps' & -> & L1 & L2 & _). cbn [rbind].
    destruct (advance_ok I HI n k (S (S fuel')) (v_frames b.1 b.2) Hk Hfu) as (k' & Hk' & ->). cbn [rbind].
    assert (Hs : ∃ ps2 q2, (if (k <? k')%nat then send_notifications cc ps' q else Ok (ps', q)) = Ok (ps2, q2)).
    { destruct (k <? k')%nat; [|by eexists _, _]. destruct (send_ok cc ps' q L2 Hroom) as (q' & -> & _). by eexists _, _. }
    destruct Hs as (ps2 & q2 & ->). cbn [rbind]. destruct (Nat.ltb_spec (0 + remaining I n) cc); [|lia].
    cbn [ev_notification ev_followers ev_peaks ev_channel]. rewrite (remaining_ok _ k' Hk').
    destruct cc as [|cc']; [lia|]. cbn [seq rfold]. unfold envelope_channel at 1. rewrite row_data by (done || lia). cbn [rbind]. rewrite row_length.
    destruct (Nat.leb_spec (0 + remaining I n + v_frames b.1 b.2 `min` remaining I (n + v_frames b.1 b.2)) (v_frames b.1 b.2)); [lia|done].
  Qed.
  (** fewer frames than channels *)
  Lemma short_block_abort b k fs ps q n : eblock_ok cc b → (2 <= fuel)%nat → INR (v_frames b.1 b.2) <= INR fuel * I → ticks I n k →
    (0 < v_frames b.1 b.2 < cc)%nat → (v_frames b.1 b.2 < remaining I n)%nat → length fs = cc → length ps = cc → (length q + cc <= 64)%nat →
    envelope_process fuel b.1 b.2 (state_at n k fs ps q) = Panic IndexOutOfRange.
  Proof.
    intros Hb Hfuel Hfu Hk H1 H2 Hfs Hps Hroom. pose proof Hb as (Hwf & Hv & Hcc). unfold envelope_process, state_at.
    destruct fuel as [|[|fuel']]; [lia|lia|]. cbn [envelope_loop]. rewrite Hcc. destruct (Nat.ltb_spec 0 cc); [|lia]. cbn [ev_notification ev_followers ev_peaks ev_channel].
    rewrite (remaining_ok n k Hk). rewrite (Nat.min_l (v_frames b.1 b.2) (remaining I n)) by lia.
    destruct (channel_loop b cc (v_frames b.1 b.2) cc Hb ltac:(lia) fs ps Hfs Hps ltac:(lia)) as (fs' & ps' & -> & L1 & L2 & _). cbn [rbind].
    destruct (advance_ok I HI n k (S (S fuel')) (v_frames b.1 b.2) Hk Hfu) as (k' & Hk' & ->). cbn [rbind].
    assert (Hs : ∃ ps2 q2, (if (k <? k')%nat then send_notifications cc ps' q else Ok (ps', q)) = Ok (ps2, q2)).
    { destruct (k <? k')%nat; [|by eexists _, _]. destruct (send_ok cc ps' q L2 Hroom) as (q' & -> & _). by eexists _, _. }
    destruct Hs as (ps2 & q2 & ->). cbn [rbind]. destruct (Nat.ltb_spec (0 + v_frames b.1 b.2) cc); [|lia].
    cbn [ev_notification ev_followers ev_peaks ev_channel]. set (m := (v_frames b.1 b.2 `min` samples_until_next _)%nat).
    assert (Hm : (1 <= m)%nat).
    { unfold m, samples_until_next. cbn [pn_next]. destruct Hk' as [_ Hk']. set (x := I * INR (S k') - INR (n + v_frames b.1 b.2)) in *.
      assert (0 < x) by (unfold x; lra). unfold ceiling. destruct (base_Int_part (- x)) as [B1 B2].
      assert (IZR (Int_part (- x)) < 0) by lra. apply lt_IZR in H4. lia. }
    destruct cc as [|cc']; [lia|]. cbn [seq rfold]. unfold envelope_channel at 1. rewrite row_data by (done || lia). cbn [rbind]. rewrite row_length.
    destruct (Nat.leb_spec (0 + v_frames b.1 b.2 + m) (v_frames b.1 b.2)); [lia|done].
  Qed.
  (** an empty block is never finished *)
  Lemma empty_block_loops b e : (0 < v_channels b.1 b.2)%nat → v_frames b.1 b.2 = 0%nat → ∀ fuel', is_ok (envelope_process fuel' b.1 b.2 e) = false.
  Proof.
    intros Hc Hf fuel'. unfold envelope_process. generalize fuel' at 1. intros cf. revert e.
    induction fuel' as [|fuel' IH]; intros e; cbn [envelope_loop].
    all: destruct (Nat.ltb_spec 0 (v_channels b.1 b.2)); [|lia].
    { done. }
    rewrite Hf. cbn [Nat.min]. destruct (rfold _ _ _) as [[fs ps]|]; [|done]. cbn [rbind]. destruct (pn_advance _ _ _) as [[p nt]|]; [|done]. cbn [rbind].
    destruct (if nt then _ else _) as [[ps' q']|]; [|done]. cbn [rbind Nat.add]. apply IH.
  Qed.
End node.

(** ** Whole intervals *)
Section whole.
  Context (d : nat) (Hd : (0 < d)%nat).
  Lemma whole_pos : 0 < INR d.
  Proof. by apply lt_0_INR. Qed.
  Lemma whole_ticks n : ticks (INR d) n (n `div` d).
  Proof.
    unfold ticks. rewrite <-!mult_INR. pose proof (Nat.div_mod n d ltac:(lia)). pose proof (Nat.mod_upper_bound n d ltac:(lia)). split; [apply le_INR|apply lt_INR]; lia.
  Qed.
  Lemma ceiling_IZR z : ceiling (IZR z) = z.
  Proof. unfold ceiling. rewrite <-opp_IZR. rewrite <-(Rplus_0_r (IZR (- z))). replace 0 with (INR 0) by done.
    assert (Int_part (IZR (- z) + INR 0) = - z)%Z; [|lia]. cbn [INR]. rewrite Rplus_0_r.
    destruct (base_Int_part (IZR (- z))) as [B1 B2]. apply le_IZR in B1.
    assert (IZR (- z) < IZR (Int_part (IZR (- z)) + 1)) as H by (rewrite plus_IZR; lra). apply lt_IZR in H. lia.
  Qed.
  Lemma whole_remaining n : remaining (INR d) n = (d - n `mod` d)%nat.
  Proof.
    unfold remaining. rewrite (ticks_floor (INR d) whole_pos n _ (whole_ticks n)). rewrite <-INR_IZR_INZ, <-S_INR, <-mult_INR, !INR_IZR_INZ, <-minus_IZR, ceiling_IZR.
    pose proof (Nat.div_mod n d ltac:(lia)). pose proof (Nat.mod_upper_bound n d ltac:(lia)). lia.
  Qed.
  Lemma whole_completes n b : completes (INR d) n b = (n `div` d <? (n + b) `div` d)%nat.
  Proof. apply completes_ok; [apply whole_pos|apply whole_ticks|apply whole_ticks]. Qed.
End whole.
