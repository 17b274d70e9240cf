From stdpp Require Import sets list list_numbers sorting.
From Coq Require Import ZArith Reals Lra ZifyBool ZifyNat Lia.
From Verif Require Import Base Buffer BufferSpec BufferProofs EffectSpec Effect EffectProofs Float Timestamp EventProcessor EventProcessorSpec
  EventProcessorProofs Adsr AdsrSpec.
Local Open Scope nat_scope.

(** ** The block loop *)
Section block.
  Context (sr : nat).
  Local Notation run := (env_run sr).

  Lemma env_run_app e a b : run e (a ++ b) = let (va, e1) := run e a in let (vb, e2) := run e1 b in (va ++ vb, e2).
  Proof.
    revert e. induction a as [|o a IH]; intros e; cbn [app env_run]; [by destruct (run e b)|].
    destruct o; [apply IH|]. rewrite IH. destruct (run (env_process e) a) as [va e1]. by destruct (run e1 b).
  Qed.
  Lemma frames_length n e : length (run e (replicate n AFrame)).1 = n.
  Proof. revert e. induction n as [|n IH]; intros e; [done|]. cbn [replicate env_run]. specialize (IH (env_process e)). destruct (run _ _). cbn in *. lia. Qed.

  Lemma render_ok n : ∀ pos e buf, pos + n ≤ length buf →
    ∃ buf', adsr_render (e, buf) pos n = Ok ((run e (replicate n AFrame)).2, buf') ∧ length buf' = length buf ∧
      (∀ i, i < n → buf' !! (pos + i) = (run e (replicate n AFrame)).1 !! i) ∧ (∀ i, i < pos ∨ pos + n ≤ i → buf' !! i = buf !! i).
  Proof.
    unfold adsr_render. intros pos e buf Hl.
    assert (Hgen : ∀ m k e buf, pos + k + m ≤ length buf → ∃ buf',
      rfold (λ s frame, let '(e, buffer) := s in
        rassert (frame + pos <? length buffer) IndexOutOfRange (Ok (env_process e, <[frame + pos := en_level (env_process e)]> buffer))) (seq k m) (e, buf) =
      Ok ((run e (replicate m AFrame)).2, buf') ∧ length buf' = length buf ∧
      (∀ i, i < m → buf' !! (pos + k + i) = (run e (replicate m AFrame)).1 !! i) ∧ (∀ i, i < pos + k ∨ pos + k + m ≤ i → buf' !! i = buf !! i)).
    { clear. induction m as [|m IH]; intros k e buf Hl; cbn [seq rfold replicate env_run].
      { exists buf. split; [done|]. split; [done|]. split; [lia|done]. }
      rewrite (proj2 (Nat.ltb_lt _ _)) by lia. cbn [rassert rbind].
      destruct (IH (S k) (env_process e) (<[k + pos := en_level (env_process e)]> buf)) as (buf' & E & H1 & H2 & H3); [rewrite insert_length; lia|].
      exists buf'. destruct (run (env_process e) (replicate m AFrame)) as [vs e2] eqn:Er. cbn [fst snd] in *.
      split; [exact E|]. rewrite insert_length in H1. split; [done|]. split.
      - intros [|i] Hi; cbn [lookup list_lookup].
        + rewrite H3 by lia. rewrite (Nat.add_comm k pos), Nat.add_0_r. apply list_lookup_insert. lia.
        + replace (pos + k + S i) with (pos + S k + i) by lia. apply H2. lia.
      - intros i Hi. rewrite H3 by lia. apply list_lookup_insert_ne. lia. }
    destruct (Hgen n 0 e buf) as (buf' & E & H1 & H2 & H3); [lia|]. exists buf'. rewrite Nat.add_0_r in *. done.
  Qed.

  Context (start : timestamp) (fc : nat).
  Definition history_from (pos : nat) (d : list (event adsr_action)) : list adsr_op :=
    k ← seq pos (fc - pos); ((λ e, AAct (ev_data e)) <$> filter (λ e, frame_of sr start e = k) d) ++ [AFrame].

  Lemma history_skip pos f d : pos ≤ f ≤ fc → Forall (λ e, f ≤ frame_of sr start e) d →
    history_from pos d = replicate (f - pos) AFrame ++ history_from f d.
  Proof.
    intros Hf Hd. unfold history_from. replace (fc - pos) with ((f - pos) + (fc - f)) by lia. rewrite seq_app, bind_app.
    replace (pos + (f - pos)) with f by lia. f_equal.
    assert (Hn : ∀ n k, k + n ≤ f → (k ← seq k n; ((λ e, AAct (ev_data e)) <$> filter (λ e, frame_of sr start e = k) d) ++ [AFrame]) = replicate n AFrame).
    { induction n as [|n IH]; intros k Hk; cbn [seq mbind list_bind replicate]; [done|].
      assert (filter (λ e, frame_of sr start e = k) d = []) as ->.
      { clear -Hd Hk. induction d as [|e d IH]; [done|]. apply Forall_cons in Hd as [H1 H2]. rewrite filter_cons_False by lia. by apply IH. }
      cbn [fmap list_fmap app]. f_equal. apply (IH (S k)). lia. }
    apply Hn. lia.
  Qed.
  Lemma history_event e d : frame_of sr start e < fc →
    history_from (frame_of sr start e) (e :: d) = AAct (ev_data e) :: history_from (frame_of sr start e) d.
  Proof.
    intros Hf. unfold history_from. remember (frame_of sr start e) as f eqn:Ef. destruct (fc - f) as [|n] eqn:En; [lia|].
    cbn [seq mbind list_bind]. rewrite filter_cons_True by done. cbn [fmap list_fmap app]. f_equal. f_equal.
    assert (Hn : ∀ m k, f < k → (k ← seq k m; ((λ e, AAct (ev_data e)) <$> filter (λ e, frame_of sr start e = k) (e :: d)) ++ [AFrame]) =
      (k ← seq k m; ((λ e, AAct (ev_data e)) <$> filter (λ e, frame_of sr start e = k) d) ++ [AFrame])).
    { induction m as [|m IH]; intros k Hk; cbn [seq mbind list_bind]; [done|]. rewrite filter_cons_False by (rewrite <-Ef; lia). f_equal. apply (IH (S k)). lia. }
    apply Hn. lia.
  Qed.

  Lemma pieces_ok d : ∀ pos e buf cur, pos ≤ fc → fc ≤ length buf →
    cut fc pos (pieces sr start fc pos d) → StronglySorted (λ a b, frame_of sr start a ≤ frame_of sr start b) d →
    Forall (λ e, pos ≤ frame_of sr start e) d →
    ∃ buf' cur', rfold (do_piece adsr_render (adsr_handle sr) sr) (pieces sr start fc pos d) ((e, buf), cur) =
        Ok (((run e (history_from pos d)).2, buf'), cur') ∧ length buf' = length buf ∧
      length (run e (history_from pos d)).1 = fc - pos ∧
      (∀ i, i < fc - pos → buf' !! (pos + i) = (run e (history_from pos d)).1 !! i) ∧ (∀ i, i < pos → buf' !! i = buf !! i).
  Proof.
    induction d as [|ev d IH]; intros pos e buf cur Hpos Hlen Hcut Hsort Hall; cbn [pieces rfold do_piece] in *.
    - destruct (render_ok (fc - pos) pos e buf) as (buf' & -> & H1 & H2 & H3); [lia|]. cbn [rbind].
      rewrite (history_skip pos fc) by done. unfold history_from at 1 2 3. rewrite Nat.sub_diag. cbn [seq mbind list_bind]. rewrite app_nil_r.
      eexists _, _. split; [done|]. split; [done|]. split; [apply frames_length|]. split; [done|]. intros i Hi. apply H3. by left.
    - destruct Hcut as (_ & Hf & Hcut). apply Forall_cons in Hall as [Hpf Hall]. inversion Hsort as [|?? Hs Hle]; subst.
      set (f := frame_of sr start ev) in *. replace (pos + (f - pos)) with f in * by lia.
      rewrite (history_skip pos f); [|lia|by constructor].
      pose proof (history_event ev d Hf) as Hev. fold f in Hev. rewrite Hev. clear Hev.
      destruct (render_ok (f - pos) pos e buf) as (buf1 & -> & H1 & H2 & H3); [lia|]. cbn [rbind adsr_handle fst snd].
      rewrite env_run_app. pose proof (frames_length (f - pos) e) as Hfl. destruct (run e (replicate (f - pos) AFrame)) as [va e1] eqn:Ea. cbn [env_run fst snd] in *.
      destruct (IH f (env_act sr e1 (ev_data ev)) buf1 (incremented_by_samples cur (Z.of_nat (f - pos)) (Z.of_nat sr))) as (buf' & cur' & E & G1 & G2 & G3 & G4);
        [lia|lia|done|done|exact Hle|].
      destruct (run (env_act sr e1 (ev_data ev)) (history_from f d)) as [vb e2] eqn:Eb. cbn [fst snd] in *.
      exists buf', cur'. split; [exact E|]. split; [lia|]. split; [rewrite app_length; lia|]. split.
      + intros i Hi. destruct (decide (i < f - pos)) as [Hlt|Hge].
        * rewrite lookup_app_l by lia. rewrite G4 by lia. apply H2. done.
        * rewrite lookup_app_r by lia. rewrite Hfl. replace (pos + i) with (f + (i - (f - pos))) by lia. apply G3. lia.
      + intros i Hi. rewrite G4 by lia. apply H3. by left.
  Qed.
End block.

Lemma sends {P} es : ∀ q : evproc P, fold_left (λ q e, send_event e q) es q = EvProc (ep_pending q) (ep_channel q ++ es) (ep_rate q).
Proof.
  induction es as [|e es IH]; intros q; cbn [fold_left]; [rewrite app_nil_r; by destruct q|]. rewrite IH. unfold send_event. cbn. by rewrite <-app_assoc.
Qed.

Lemma surviving_all {P} (w s live : list (event P)) : Forall (λ e, ev_clear e = false) s → surviving w s live → live ≡ₚ w ++ s.
Proof.
  intros Hs [[_ H]|(old & c & new & -> & Hc & _)]; [done|].
  rewrite Forall_app, Forall_cons in Hs. destruct Hs as (_ & Hc' & _). congruence.
Qed.

Lemma process_ok sr start (inp : owned R) iv (out : owned R) ov q e buf : (0 < Z.of_nat sr <= 2 ^ 29)%Z → ep_rate q = sr →
  StronglySorted ev_before (ep_pending q) → Forall (λ e, ev_clear e = false) (ep_channel q) →
  wf inp → valid_view inp iv → wf out → valid_view out ov →
  block_ok sr (v_frames inp iv `min` v_frames out ov) → v_frames inp iv `min` v_frames out ov ≤ length buf →
  ∃ d rest buf' out', delivers sr start (v_frames inp iv `min` v_frames out ov) (ep_pending q ++ ep_channel q) d rest ∧
    StronglySorted ev_before rest ∧ length buf' = length buf ∧
    let '(vs, e') := env_run sr e (block_history sr start (v_frames inp iv `min` v_frames out ov) d) in
    adsr_process sr start inp iv out ov (AdsrState q e buf) = Ok (AdsrState (EvProc rest [] sr) e' buf', out') ∧
    length vs = v_frames inp iv `min` v_frames out ov ∧
    written out ov out' (λ ch fr x y, y = match seen inp iv ch fr, vs !! fr with Some s, Some v => (s * v)%R | _, _ => x end).
Proof.
  intros Hsr Hr Hs Hc Hwi Hvi Hw Hv Hb Hl. set (fc := v_frames inp iv `min` v_frames out ov) in *.
  destruct (event_block_all sr Hsr start fc q Hb Hr Hs) as (live & d & rest & Hsurv & Hdel & Hcut & Hrest & Hrun).
  destruct Hdel as (D1 & D2 & D3 & D4).
  assert (Hmono : StronglySorted (λ a b, frame_of sr start a ≤ frame_of sr start b) d).
  { clear -D2 Hsr. induction D2 as [|a l Hs IH Ha]; constructor; [done|]. eapply Forall_impl; [exact Ha|]. intros b Hb. cbv beta.
    apply frame_of_mono; [done|]. destruct Hb as [Hb|[Hb _]]; cbv beta in *; lia. }
  destruct (pieces_ok sr start fc d 0 e buf start) as (buf' & cur' & E & L1 & L2 & L3 & L4); [lia|lia|done|done|apply Forall_forall; intros; lia|].
  rewrite Nat.sub_0_r in *. fold (history_from sr start fc 0 d) in *.
  assert (Hh : block_history sr start fc d = history_from sr start fc 0 d) by (unfold block_history, history_from; by rewrite Nat.sub_0_r).
  destruct (env_run sr e (history_from sr start fc 0 d)) as [vs e'] eqn:Ev. cbn [fst snd] in *.
  assert (Hrow : ∀ ch, ch < v_channels inp iv → ∃ l, (let? l := get_channel_data inp iv ch 0 in Ok (zip_with Rmult l buf')) = Ok l ∧
    ∀ fr, fr < v_frames inp iv → l !! fr = match seen inp iv ch fr, buf' !! fr with Some s, Some v => Some (s * v)%R | _, _ => None end).
  { intros ch Hch. destruct (valid_off inp iv Hvi) as [O1 O2].
    destruct (get_channel_data_ok inp iv ch 0 Hwi Hvi) as (l & -> & Hll & Hli); [lia|lia|]. cbn [rbind].
    eexists. split; [done|]. intros fr Hfr. rewrite lookup_zip_with, Hli by lia. rewrite seen_eq by done.
    rewrite (Nat.add_comm ch), Nat.add_0_l. by destruct (sample inp (off_ch iv + ch) (off_fr iv + fr)), (buf' !! fr). }
  destruct (zip_channels_ok (λ x _ : R, x) (λ ch, let? l := get_channel_data inp iv ch 0 in Ok (zip_with Rmult l buf')) ov
    (v_channels inp iv `min` v_channels out ov) out Hw Hv) as (out' & Ez & W).
  { lia. } { intros ch Hch. destruct (Hrow ch) as (l & El & _); [lia|]. by exists l. }
  exists d, rest, buf', out'. split.
  { split; [|done]. rewrite <-D1. symmetry. by apply surviving_all. }
  split; [done|]. split; [done|]. rewrite Hh, Ev. split; [|split; [done|]].
  - unfold adsr_process. cbn [as_queue as_env as_buffer]. fold fc. rewrite Hrun. rewrite E. cbn [rbind]. rewrite Ez. cbn [rbind]. done.
  - eapply written_mono; [exact W|]. cbv beta. intros ch fr x y Hch Hfr. case_decide as Hcc.
    + intros (l & El & ->). destruct (Hrow ch) as (l' & El' & Hl'); [lia|]. rewrite El in El'. injection El' as <-.
      destruct (decide (fr < v_frames inp iv)) as [Hfi|Hfi].
      * rewrite Hl' by done. specialize (L3 fr ltac:(lia)). cbn [Nat.add] in L3. rewrite L3.
        by destruct (seen inp iv ch fr), (vs !! fr).
      * destruct (valid_off inp iv Hvi) as [O1 O2].
        destruct (get_channel_data_ok inp iv ch 0 Hwi Hvi) as (l0 & E0 & Hll & _); [lia|lia|]. rewrite E0 in El. cbn [rbind] in El. injection El as <-.
        rewrite lookup_ge_None_2; [|rewrite zip_with_length; lia]. unfold seen. rewrite decide_False by lia. done.
    + intros ->. unfold seen. rewrite decide_False by lia. done.
Qed.

Lemma adsr_run_ok sr (Hsr : (0 < Z.of_nat sr <= 2 ^ 29)%Z) maximum bs : ∀ w e buf, Forall (ablock_ok sr maximum) bs → StronglySorted ev_before w →
  length buf = maximum →
  ∃ ds outs, adsr_handled sr w bs ds ∧ adsr_run (AdsrState (EvProc w [] sr) e buf) bs = Ok outs ∧ adsr_result sr e bs ds outs.
Proof.
  induction bs as [|b bs IH]; intros w e buf Hok Hs Hl; cbn [adsr_run].
  { exists [], []. done. }
  apply Forall_cons in Hok as [(H1 & H2 & H3 & H4 & H5 & H6 & H7) Hok]. cbn [as_queue as_env as_buffer]. rewrite sends. cbn [ep_pending ep_channel ep_rate app].
  destruct (process_ok sr (ab_start b) (ab_in b) (ab_iv b) (ab_out b) (ab_ov b) (EvProc w (ab_sent b) sr) e buf) as (d & rest & buf' & out' & D & Hr & L & W);
    [done|done|done|done|done|done|done|done|done|unfold ab_frames in H6; lia|].
  fold (ab_frames b) in *. destruct (env_run sr e (block_history sr (ab_start b) (ab_frames b) d)) as [vs e'] eqn:Ev.
  destruct W as (-> & Hvl & W). cbn [rbind].
  destruct (IH rest e' buf' Hok Hr) as (ds & outs & I1 & I2 & I3); [lia|]. rewrite I2. cbn [rbind].
  exists (d :: ds), (out' :: outs). cbn [adsr_handled adsr_result]. split; [by exists rest|]. split; [done|]. rewrite Ev. split; [|done].
  by split.
Qed.
