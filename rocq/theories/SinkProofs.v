(** What recorders and envelopes report after the streams they hear. *)
From stdpp Require Import functions gmap list strings list_numbers.
From Coq Require Import ZArith Reals Lra Lia ZifyBool ZifyNat.
From Verif Require Import Base Graph Buffer BufferSpec BufferProofs EffectSpec EffectProofs DspGraph DspGraphSpec Float Timestamp EventProcessor EventProcessorSpec
  Recorder RecorderSpec RecorderProofs Envelope EnvelopeSpec EnvelopeProofs EnvelopeCases FloatProofs TimestampProofs SamplerRefuted
  Processor ProcessorSpec AudioParam AudioParamR Node NodeSpec NodeProofs Effects EffectsSpec EffectShape StreamSpec StreamProofs DeviceProofs BiquadSpec.
Local Open Scope nat_scope.

(** ** A block as a piece of the stream *)
Lemma rows_data (fc cc : nat) : ∀ l : list R, length l = cc * fc → (seq 0 cc ≫= λ ch, (λ fr, default 0%R (l !! (ch * fc + fr))) <$> seq 0 fc) = l.
Proof.
  induction cc as [|cc IH]; intros l Hl; [by destruct l|]. change (seq 0 (S cc)) with (0 :: seq 1 cc). rewrite bind_cons.
  rewrite <-(fmap_S_seq 0 cc), list_fmap_bind. transitivity (take fc l ++ drop fc l); [|apply take_drop]. f_equal.
  - apply list_eq. intros i. rewrite list_lookup_fmap. destruct (decide (i < fc)) as [Hi|Hi].
    + rewrite lookup_seq_lt by done. rewrite lookup_take by done. cbn. destruct (lookup_lt_is_Some_2 l i) as [x Hx]; [nia|]. by rewrite Hx.
    + rewrite lookup_seq_ge by lia. rewrite lookup_take_ge by lia. done.
  - rewrite <-(IH (drop fc l)) by (rewrite drop_length; lia). apply list_bind_ext; [|done]. intros ch. cbn. apply list_fmap_ext. intros i fr _. rewrite lookup_drop. do 2 f_equal. lia.
Qed.
Lemma block_cut sr cc fc (b : owned R) (x : stream R) pos : is_block b cc fc → rate b = sr →
  (∀ ch, ch < cc → take fc (drop pos (x ch)) = heard_at 0%R b ch <$> seq 0 fc) → cut sr cc x pos fc = b.
Proof.
  intros (W & Hc & Hf) Hr Hx. unfold cut. destruct b as [l c f r]. cbn in Hc, Hf, Hr. subst c f r. f_equal. rewrite <-(rows_data fc cc l W) at 1.
  assert (H : ∀ chs, (∀ ch, ch ∈ chs → ch < cc) → (chs ≫= λ ch, take fc (drop pos (x ch))) = (chs ≫= λ ch, (λ fr, default 0%R (l !! (ch * fc + fr))) <$> seq 0 fc)).
  { intros chs. induction chs as [|ch chs IH]; intros H; [done|]. rewrite !bind_cons. f_equal; [|apply IH; intros; apply H; by right].
    rewrite Hx by (apply H; by left). apply list_fmap_ext. intros i fr Hi. apply lookup_seq in Hi as [-> Hi]. unfold heard_at, sample. cbn.
    rewrite decide_True; [done|]. split; [apply H; by left|done]. }
  apply H. intros ch Hch. apply elem_of_seq in Hch. lia.
Qed.
(** the rounds of a node as pieces of what it takes *)
Lemma round_cut sr cc outs names (r : round) rs (x : stream R) pos : round_ok sr cc outs names r → (∀ ch, drop pos (x ch) = taken 0%R (r :: rs) ch) →
  cut sr cc x pos (r_frames r) = r_in r ∧ ∀ ch, drop (pos + r_frames r) (x ch) = taken 0%R rs ch.
Proof.
  intros (Hi & Hr & _) Hx. split.
  - apply block_cut; [done|done|]. intros ch _. rewrite Hx, taken_cons. rewrite take_app_le by (by rewrite heard_length). by rewrite take_ge by (by rewrite heard_length).
  - intros ch. rewrite <-drop_drop, Hx, taken_cons. rewrite drop_app_ge by (by rewrite heard_length). by rewrite heard_length, Nat.sub_diag.
Qed.

(** ** Recorder *)
Lemma recorder_session sr cc names rs p' : ∀ (x : stream R) pos r got inbox, run sr 0 (FRecorder r got inbox) rs p' → Forall (round_ok sr cc 0 names) rs →
  (∀ ch, drop pos (x ch) = taken 0%R rs ch) →
  ∃ r' got' rest, p' = FRecorder r' got' rest ∧ rrun 0%R code_note_capacity code_event_capacity r got (tape sr cc x pos inbox (times rs)) = Ok (r', got').
Proof.
  induction rs as [|a rs IH]; intros x pos r got inbox Hrun Hok Hx.
  - inversion Hrun; subst. by exists r, got, inbox.
  - inversion Hrun as [|? ? p1 ? ? E Hrest]; subst. apply Forall_cons in Hok as [Ha Hok]. destruct (round_cut sr cc 0 names a rs x pos Ha Hx) as [C Hx'].
    cbn [effect_run] in E. destruct (rrun _ _ _ _ _ _) as [[r1 got1]|] eqn:E1; [|done]. cbn [rbind] in E. injection E as <- _.
    destruct (IH x (pos + r_frames a) r1 got1 (tail inbox) Hrest Hok Hx') as (r' & got' & rest & -> & E2). exists r', got', rest. split; [done|].
    change (times (a :: rs)) with ((r_time a, r_frames a) :: times rs). cbn [tape]. rewrite C.
    change (RecordBlock (r_time a) (r_in a) Whole :: tape sr cc x (pos + r_frames a) (tail inbox) (times rs))
      with ([RecordBlock (r_time a) (r_in a) Whole] ++ tape sr cc x (pos + r_frames a) (tail inbox) (times rs)).
    by rewrite app_assoc, rrun_app, E1.
Qed.
Lemma tape_ok sr cc names MF rs : ∀ (x : stream R) pos inbox, Forall (round_ok sr cc 0 names) rs → (∀ ch, drop pos (x ch) = taken 0%R rs ch) →
  block_ok sr MF → Forall (λ b : timestamp * nat, (0 < b.2 ≤ MF) ∧ (0 <= b.1)%Z) (times rs) → Forall (Forall no_block) inbox →
  Forall (rop_ok cc sr) (tape sr cc x pos inbox (times rs)).
Proof.
  induction rs as [|a rs IH]; intros x pos inbox Hok Hx HMF Hb Hin; [constructor|]. apply Forall_cons in Hok as [Ha Hok].
  destruct (round_cut sr cc 0 names a rs x pos Ha Hx) as [C Hx']. change (times (a :: rs)) with ((r_time a, r_frames a) :: times rs) in *.
  apply Forall_cons in Hb as [[Hb1 Hb2] Hb]. cbn [fst snd] in *. cbn [tape]. rewrite C. apply Forall_app. split.
  - destruct inbox as [|l inbox]; [constructor|]. apply Forall_cons in Hin as [Hl _]. cbn. eapply Forall_impl; [exact Hl|]. intros o Ho. by destruct o.
  - constructor.
    + destruct Ha as ((W & Hc & Hf) & _). cbn [rop_ok]. split; [done|]. split; [done|]. split; [done|]. split; [|done]. cbn [v_frames]. rewrite Hf. destruct HMF as (B1 & B2 & B3). split; [lia|]. split; [lia|]. nia.
    + apply IH; [done|done|done|done|]. destruct inbox as [|l inbox]; [constructor|]. by apply Forall_cons in Hin as [_ Hin].
Qed.

(** ** Envelope *)
Lemma rfold_more {S X} (f g : S → X → res S) : (∀ s o s', f s o = Ok s' → g s o = Ok s') → ∀ l s s', rfold f l s = Ok s' → rfold g l s = Ok s'.
Proof.
  intros H. induction l as [|o l IH]; intros s s' E; [done|]. cbn [rfold] in *. destruct (f s o) as [s1|] eqn:E1; [|done]. rewrite (H _ _ _ E1). by apply IH.
Qed.
Lemma catch_up_more fuel : ∀ fuel' interval next r, fuel ≤ fuel' → catch_up fuel interval next = Ok r → catch_up fuel' interval next = Ok r.
Proof.
  induction fuel as [|fuel IH]; intros fuel' interval next r Hle E; destruct fuel' as [|fuel']; try lia; cbn [catch_up] in *; destruct (Rle_dec next 0); try done.
  apply IH; [lia|done].
Qed.
Lemma envelope_loop_more cf cf' inp iv : cf ≤ cf' → ∀ fuel fuel' position e e', fuel ≤ fuel' → envelope_loop cf fuel inp iv position e = Ok e' → envelope_loop cf' fuel' inp iv position e = Ok e'.
Proof.
  intros Hcf. induction fuel as [|fuel IH]; intros fuel' position e e' Hle E; destruct fuel' as [|fuel']; try lia; cbn [envelope_loop] in *; destruct (position <? _); try done.
  destruct (rfold _ _ _) as [[fs peaks]|]; [|done]. cbn [rbind] in *. unfold pn_advance in *. destruct (catch_up cf _ _) as [nx|] eqn:Ec; [|done]. rewrite (catch_up_more _ cf' _ _ _ Hcf Ec).
  cbn [rbind] in *. destruct (Rle_dec (pn_next _ - _) 0); [destruct (send_notifications _ _ _) as [[peaks' queue]|]; [|done]|]; cbn [rbind] in *; (apply IH; [lia|done]).
Qed.
Lemma estep_more fuel fuel' s o s' : fuel ≤ fuel' → EnvelopeSpec.estep fuel s o = Ok s' → EnvelopeSpec.estep fuel' s o = Ok s'.
Proof.
  intros Hle. destruct o as [b| |]; cbn [EnvelopeSpec.estep]; [|done|done]. intros E. unfold envelope_process in *. destruct (envelope_loop fuel fuel _ _ _ _) as [e|] eqn:El; [|done].
  by rewrite (envelope_loop_more fuel fuel' _ _ Hle fuel fuel' _ _ _ Hle El).
Qed.
Lemma envelope_session sr cc outs names rs p' : ∀ (x : stream R) pos fuel e unread got inbox, run sr outs (FEnvelope fuel e unread got inbox) rs p' → Forall (round_ok sr cc outs names) rs →
  (∀ ch, drop pos (x ch) = taken 0%R rs ch) →
  ∃ e' unread' got' rest, p' = FEnvelope fuel e' unread' got' rest ∧ rfold (EnvelopeSpec.estep fuel) (metering sr cc x pos inbox (times rs)) ((e, unread), got) = Ok ((e', unread'), got').
Proof.
  induction rs as [|a rs IH]; intros x pos fuel e unread got inbox Hrun Hok Hx.
  - inversion Hrun; subst. by exists e, unread, got, inbox.
  - inversion Hrun as [|? ? p1 ? ? E Hrest]; subst. apply Forall_cons in Hok as [Ha Hok]. destruct (round_cut sr cc outs names a rs x pos Ha Hx) as [C Hx'].
    cbn [effect_run] in E. destruct (rfold _ _ _) as [[[e1 unread1] got1]|] eqn:E1; [|done]. cbn [rbind] in E. injection E as <- _.
    destruct (IH x (pos + r_frames a) fuel e1 unread1 got1 (tail inbox) Hrest Hok Hx') as (e' & unread' & got' & rest & -> & E2). exists e', unread', got', rest. split; [done|].
    change (times (a :: rs)) with ((r_time a, r_frames a) :: times rs). cbn [metering]. rewrite C.
    change (EBlock (r_in a, Whole) :: metering sr cc x (pos + r_frames a) (tail inbox) (times rs))
      with ([EBlock (r_in a, Whole)] ++ metering sr cc x (pos + r_frames a) (tail inbox) (times rs)).
    by rewrite app_assoc, rfold_app, E1.
Qed.

Lemma time_nonneg sr n : (0 < Z.of_nat sr <= 2 ^ 29)%Z → (0 <= time_of sr n)%Z.
Proof.
  intros Hsr. unfold time_of. transitivity (from_samples 0 (Z.of_nat sr)).
  - unfold from_samples, f64_div, fixed_from_f64. pose proof one64_pos. rewrite f64_of_Z_exact by lia. cbn [Z.mul].
    assert (0 < Z.of_nat sr * one64)%Z by (apply Z.mul_pos_pos; lia). destruct (Z.ltb_spec (Z.of_nat sr * one64) 0); [lia|]. rewrite rnd_0 by done.
    pose proof tick64_big as Ht. rewrite <-(Z.mul_0_r tick64), rne_exact; lia.
  - apply from_samples_mono; [done|]. unfold f64_of_Z. pose proof one64_pos. apply rnd_ge_repr; [lia|lia|apply repr_0; lia|]. rewrite Z.mul_0_r. apply Z.mul_nonneg_nonneg; lia.
Qed.
Lemma blocks_nonneg {V A P} MF sr (os : list (nop V A P)) : (0 < Z.of_nat sr <= 2 ^ 29)%Z → ∀ on position, Forall (λ b : timestamp * nat, (0 <= b.1)%Z) (NodeSpec.blocks_of MF sr on position os).
Proof.
  intros Hsr. induction os as [|o os IH]; intros on position; [constructor|]. destruct o; cbn [NodeSpec.blocks_of]; try apply IH.
  destruct on; [|apply IH]. apply Forall_app. split; [|apply IH]. apply Forall_fmap, Forall_forall. intros k _. cbn [fst compose].
  pose proof (time_nonneg sr position Hsr). pose proof (time_nonneg sr (k * MF) Hsr). cbn. lia.
Qed.

Lemma device_reports sr MF d st events rs st' : device_ok sr MF d → device_state sr MF d = Ok st →
  session R_num (λ v : R, v) 0%R effect_run sr (device_inputs d) (device_outputs d) st events rs st' →
  Forall (λ b : timestamp * nat, 0 < b.2 ≤ MF) (times rs) → ((0 < Z.of_nat sr <= 2 ^ 29)%Z → Forall (λ b : timestamp * nat, (0 <= b.1)%Z) (times rs)) → reports sr (times rs) d (taken 0%R rs) (ds_proc st').
Proof.
  intros Hok Est (Hrun & Hr & _) Hb Hb0. destruct d as [| | | | | | | | | |cc count size inbox|cc fuel attack release frequency inbox]; try done.
  - injection Est as <-. destruct Hok as (H1 & H2 & H3 & H4). cbn [reports device_inputs device_outputs] in *.
    destruct (recorder_session sr cc _ rs _ (taken 0%R rs) 0 _ _ _ Hrun Hr ltac:(done)) as (r & got & rest & Ep & E). exists r, got, rest. split; [done|].
    intros more r' got' Hm Em. refine (recorder_refines 0%R code_note_capacity code_event_capacity count size cc sr H1 H2 _ r' got' _ _).
    + apply Forall_app. split; [eapply tape_ok; [done|done|done| |done]; apply Forall_and; split; [done|by apply Hb0]|]. eapply Forall_impl; [exact Hm|]. intros o Ho. by destruct o.
    + rewrite rrun_app, E. done.
  - cbn [device_state] in Est. destruct (new_envelope sr cc attack release frequency) as [e0|] eqn:En; [|done]. cbn [rbind] in Est. injection Est as <-.
    destruct Hok as (H1 & H2). cbn [reports device_inputs device_outputs] in *.
    destruct (envelope_session sr cc cc _ rs _ (taken 0%R rs) 0 _ _ _ _ _ Hrun Hr ltac:(done)) as (e & unread & got & rest & Ep & E). exists fuel, e, unread, got, rest. split; [done|].
    cbv zeta. intros Hm ch Hch. pose proof En as En'. unfold new_envelope, new_periodic in En'. destruct (0 <? sr)%nat eqn:Es; [|done]. destruct (Rlt_dec 0 frequency) as [Hf|]; [|done].
    destruct (reports_ok sr cc attack release frequency _ ltac:(lia) Hf ltac:(lia) Hm) as (e1 & f0 & E1 & H). rewrite En in E1. injection E1 as <-.
    destruct (H (f0 `max` fuel) ltac:(lia)) as (e' & u' & t' & E' & Hc).
    rewrite (rfold_more _ (EnvelopeSpec.estep (f0 `max` fuel)) (λ s o s', estep_more fuel _ s o s' (Nat.le_max_r f0 fuel)) _ _ _ E) in E'. injection E' as <- <- <-. by apply Hc.
Qed.

(** ** One take *)
Lemma cut_frames sr cc (x : stream R) pos fc : (∀ ch, pos + fc ≤ length (x ch)) →
  frames_of (cut sr cc x pos fc) Whole = (λ i, (λ ch, at_ (x ch) (pos + i)) <$> seq 0 cc) <$> seq 0 fc.
Proof.
  intros Hx. unfold frames_of. cbn [v_frames cut frames]. apply list_fmap_ext. intros i k Hk. apply lookup_seq in Hk as [-> Hk].
  unfold frame_at. cbn [v_channels off_ch off_fr cut channels].
  assert (H : ∀ chs : list nat, (∀ ch, ch ∈ chs → ch < cc) → omap (λ ch, sample (cut sr cc x pos fc) (ch + 0) (0 + i + 0)) chs = (λ ch, at_ (x ch) (pos + (0 + i))) <$> chs).
  { intros chs. induction chs as [|ch chs IH]; intros Hc; [done|]. rewrite fmap_cons, <-IH by (intros c Hc'; apply Hc; by right). cbn [omap list_omap].
    assert (E : sample (cut sr cc x pos fc) (ch + 0) (0 + i + 0) = Some (at_ (x ch) (pos + (0 + i)))); [|by rewrite E].
    assert (Hch : ch < cc) by (apply Hc; by left). rewrite !Nat.add_0_r. cbn [Nat.add]. unfold sample. cbn [cut channels frames data]. rewrite decide_True by done.
    assert (Hl : ∀ m n, m < n → (seq 0 n ≫= λ ch, take fc (drop pos (x ch))) !! (m * fc + i) = take fc (drop pos (x m)) !! i).
    { clear -Hx Hk. intros m n Hm. assert (Hlen : ∀ c, length (take fc (drop pos (x c))) = fc) by (intros c; rewrite take_length, drop_length; specialize (Hx c); lia).
      assert (Hb : ∀ m n s, m < n → (seq s n ≫= λ ch, take fc (drop pos (x ch))) !! (m * fc + i) = take fc (drop pos (x (s + m))) !! i); [|by apply (Hb m n 0)].
      clear m n Hm. intros m. induction m as [|m IHm]; intros n s Hm; (destruct n as [|n]; [lia|]); cbn [seq]; rewrite bind_cons.
      - rewrite lookup_app_l by (rewrite Hlen; lia). by rewrite Nat.add_0_r.
      - rewrite lookup_app_r by (rewrite Hlen; lia). rewrite Hlen. replace (S m * fc + i - fc) with (m * fc + i) by lia. rewrite IHm by lia. by replace (S s + m) with (s + S m) by lia. }
    rewrite Hl by done. rewrite lookup_take by done. rewrite lookup_drop. unfold at_. destruct (lookup_lt_is_Some_2 (x ch) (pos + i)) as [v Hv]; [specialize (Hx ch); lia|]. by rewrite Hv. }
  apply H. intros ch Hch. apply elem_of_seq in Hch. lia.
Qed.
Lemma notes_quiet (l : list (rop R)) : Forall (λ o, o = HandleNote) l → Forall block_or_note l ∧ concat (input_of <$> l) = [] ∧ Forall no_block l.
Proof.
  induction 1 as [|o l -> _ (H1 & H2 & H3)]; [done|]. split; [by constructor|]. split; [|by constructor]. rewrite fmap_cons. cbn. exact H2.
Qed.
(** the blocks before the last, with their notifications *)
Lemma tape_body sr cc (x : stream R) bs : ∀ pos between rest tail_blocks, length between = length bs → Forall (Forall (λ o, o = HandleNote)) between →
  (∀ ch, pos + length_of bs ≤ length (x ch)) →
  ∃ body, tape sr cc x pos (between ++ rest) (bs ++ tail_blocks) = body ++ tape sr cc x (pos + length_of bs) rest tail_blocks ∧ Forall block_or_note body ∧
    concat (input_of <$> body) = (λ i, (λ ch, at_ (x ch) (pos + i)) <$> seq 0 cc) <$> seq 0 (length_of bs).
Proof.
  induction bs as [|[t fc] bs IH]; intros pos between rest tb Hl Hb Hx; destruct between as [|l between]; try done.
  - exists []. cbn [app]. change (length_of []) with 0. by rewrite Nat.add_0_r.
  - apply Forall_cons in Hb as [Hb1 Hb2]. injection Hl as Hl. change (length_of ((t, fc) :: bs)) with (fc + length_of bs) in *.
    destruct (IH (pos + fc) between rest tb Hl Hb2) as (body & E & B1 & B2); [intros ch; specialize (Hx ch); lia|].
    destruct (notes_quiet l Hb1) as (N1 & N2 & _).
    exists (l ++ RecordBlock t (cut sr cc x pos fc) Whole :: body). cbn [tape app head default tail]. split; [|split].
    + rewrite E, <-app_assoc. cbn [app]. by rewrite Nat.add_assoc.
    + apply Forall_app. split; [done|]. by constructor.
    + rewrite fmap_app, concat_app, N2, fmap_cons. cbn [app concat input_of]. rewrite B2, cut_frames by (intros ch; specialize (Hx ch); lia).
      rewrite seq_app, fmap_app. f_equal. rewrite (Nat.add_comm 0 fc), <-fmap_add_seq, <-list_fmap_compose. apply list_fmap_ext. intros i k _. cbn. apply list_fmap_ext. intros j ch _. by rewrite Nat.add_assoc.
Qed.
Lemma tape_fits sr cc (x : stream R) MF blocks : ∀ pos inbox, (∀ ch, pos + length_of blocks ≤ length (x ch)) → block_ok sr MF →
  Forall (λ b : timestamp * nat, (0 < b.2 ≤ MF) ∧ (0 <= b.1)%Z) blocks → Forall (rop_ok cc sr) (default [] (head inbox)) → Forall (Forall (rop_ok cc sr)) inbox →
  Forall (rop_ok cc sr) (tape sr cc x pos inbox blocks).
Proof.
  induction blocks as [|[t fc] blocks IH]; intros pos inbox Hx HMF Hb Hh Hin; [constructor|]. change (length_of ((t, fc) :: blocks)) with (fc + length_of blocks) in Hx.
  apply Forall_cons in Hb as [[Hb1 Hb2] Hb]. cbn [fst snd] in *. cbn [tape]. apply Forall_app. split; [done|]. constructor.
  - cbn [rop_ok]. split; [|split; [done|split; [done|split; [|done]]]].
    + unfold wf. cbn [cut data channels frames]. clear -Hx. assert (Hl : ∀ n s, length (seq s n ≫= λ ch, take fc (drop pos (x ch))) = n * fc); [|apply Hl].
      intros n. induction n as [|n IH]; intros s; [done|]. cbn [seq]. rewrite bind_cons, app_length, IH, take_length, drop_length. specialize (Hx s). lia.
    + cbn [v_frames cut frames]. destruct HMF as (B1 & B2 & B3). split; [lia|]. split; [lia|]. nia.
  - apply IH; [intros ch; specialize (Hx ch); lia|done|done| |].
    + destruct inbox as [|l [|l' inbox]]; [constructor..|]. apply Forall_cons in Hin as [_ Hin]. by apply Forall_cons in Hin as [Hin _].
    + destruct inbox as [|l inbox]; [constructor|]. by apply Forall_cons in Hin as [_ Hin].
Qed.
Lemma one_take_recorded sr MF cc count size inbox bs b (x : stream R) p more r' got' :
  device_ok sr MF (DRecorder cc count size inbox) → Forall (λ b : timestamp * nat, (0 < b.2 ≤ MF) ∧ (0 <= b.1)%Z) (bs ++ [b]) → (∀ ch, length (x ch) = length_of (bs ++ [b])) →
  reports sr (bs ++ [b]) (DRecorder cc count size inbox) x p → one_take (length bs) inbox →
  ∃ r got rest, p = FRecorder r got rest ∧
    (Forall (λ o, o = HandleNote ∨ o = TakeRecording) more → rrun 0%R code_note_capacity code_event_capacity r got more = Ok (r', got') → rp_notes (rc_proc r') = [] →
     RecorderSpec.received got' r' = stream_frames cc x (length_of bs) ∧ rc_is_recording r' = false).
Proof.
  intros (H1 & H2 & H3 & H4) Hb Hx (r & got & rest & -> & H) (first & between & final & -> & Hl & F1 & F2 & F3). exists r, got, rest. split; [done|]. intros Hm Em Hn.
  destruct (H more r' got') as (w & s & on & sound & Hrun & _ & Hfin); [eapply Forall_impl; [exact Hm|]; by intros o [->| ->]|done|]. destruct (Hfin Hn) as [Hon Heq]. clear Hfin H.
  destruct b as [t fc]. set (inb := first :: between) in *.
  assert (Ht : tape sr cc x 0 ((RecordNow :: first) :: between ++ [final ++ [StopNow]]) (bs ++ [(t, fc)]) = RecordNow :: tape sr cc x 0 (inb ++ [final ++ [StopNow]]) (bs ++ [(t, fc)])).
  { destruct bs as [|[t0 fc0] bs]; [done|]. done. }
  assert (Hlast : ∀ bs, length_of (bs ++ [(t, fc)]) = length_of bs + fc).
  { intros l. induction l as [|[a f] l IH]; unfold length_of in *; cbn in *; lia. }
  assert (Hq : ∀ l : list (rop R), Forall (λ o, o = HandleNote) l → Forall (rop_ok cc sr) l) by (intros l Hl'; eapply Forall_impl; [exact Hl'|]; by intros o ->).
  destruct (tape_body sr cc x bs 0 inb [final ++ [StopNow]] [(t, fc)]) as (body & E & B1 & B2); [done|by constructor|intros ch; rewrite Hx, Hlast; cbn; lia|].
  assert (Hok : Forall (rop_ok cc sr) (tape sr cc x 0 (inb ++ [final ++ [StopNow]]) (bs ++ [(t, fc)]))).
  { assert (Forall (Forall (rop_ok cc sr)) (inb ++ [final ++ [StopNow]])).
    { apply Forall_app. split; [constructor; [by apply Hq|eapply Forall_impl; [exact F2|]; exact Hq]|]. constructor; [|done]. apply Forall_app. split; [by apply Hq|by constructor]. }
    apply (tape_fits _ _ _ MF); [intros ch; by rewrite Hx|done|done|by apply Hq|done]. }
  destruct (notes_quiet final F3) as (N1 & N2 & _). rewrite E in Hok. cbn [tape head default Datatypes.id] in Hok.
  rewrite Ht, E in Hrun. cbn [tape head default tail app Datatypes.id] in Hrun.
  assert (Hs : on = false ∧ sound = concat (input_of <$> (body ++ final))).
  { apply (take_sound size cc sr H1 H2 (body ++ final) t (cut sr cc x (0 + length_of bs) fc) Whole more w s on sound).
    - apply Forall_app in Hok as [Hok1 Hok2]. apply Forall_app in Hok2 as [Hok2 Hok3]. apply Forall_app in Hok2 as [Hok2 _]. apply Forall_app. split; [apply Forall_app; by split|done].
    - apply Forall_app. by split.
    - done.
    - revert Hrun. by rewrite <-!app_assoc. }
  destruct Hs as [-> ->]. rewrite Heq, Hon by done. split; [|done]. rewrite fmap_app, concat_app, N2, app_nil_r, B2. done.
Qed.
