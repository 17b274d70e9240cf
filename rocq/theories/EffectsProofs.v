(** The processors of Effects.v do not abort when they have what they need. *)
From stdpp Require Import gmap list list_numbers strings sorting.
From Coq Require Import ZArith Lia ZifyBool ZifyNat Reals Lra.
From Verif Require Import Base Graph TopoSort TopoSortSpec Buffer BufferSpec BufferProofs EffectSpec EffectProofs Effect Float Timestamp EventProcessor EventProcessorSpec EventProcessorProofs
  Mixer MixerR MixerSpec MixerProofs GainProofs Biquad BiquadSpec BiquadProofs Convolution ConvolutionSpec ConvolutionProofs Adsr AdsrSpec AdsrProofs Arith Oscillator Sampler
  DspGraph DspGraphSpec Processor ProcessorSpec AudioParam AudioParamR Node NodeSpec LimitsSpec LimitsProofs Effects EffectsSpec EffectShape.
Local Open Scope nat_scope.

Lemma rfold_inv {X S} (I : S → Prop) (f : S → X → res S) l : (∀ s x, I s → x ∈ l → ∃ s', f s x = Ok s' ∧ I s') →
  ∀ s, I s → ∃ s', rfold f l s = Ok s' ∧ I s'.
Proof.
  induction l as [|x l IH]; intros H s Hs; cbn [rfold]; [by exists s|]. destruct (H s x Hs) as (s1 & -> & H1); [by left|]. cbn [rbind].
  apply IH; [|done]. intros s2 y H2 Hy. apply H; [done|by right].
Qed.

Lemma block_keeps {A} (o o' : owned A) no fc : is_block o no fc → kept o o' → is_block o' no fc.
Proof. intros (Hw & Hc & Hf) (L & D1 & D2 & D3). split; [unfold wf in *; congruence|]. split; congruence. Qed.

Lemma mixer_total x i o ni no fc : matrix_ok (mx_proc x) → Forall matrix_ok (mx_channel x) → is_block i ni fc → is_block o no fc →
  ∃ x' o', mixer_process_R x i Whole o Whole = Ok (x', o') ∧ matrix_ok (mx_proc x') ∧ mx_channel x' = [].
Proof.
  intros Hp Hc (Wi & Ci & Fi) (Wo & Co & Fo).
  assert (Hm : matrix_ok (mx_proc (mixer_events x))).
  { cbn [mixer_events mx_proc]. generalize (mx_proc x) Hp. induction Hc as [|m l Hm Hl IH]; intros m0 H0; cbn [fold_left]; [done|]. by apply IH. }
  unfold mixer_process_R, mixer_process.
  destruct (rows_ok 0%R level_is_zero level_is_unity (λ g : R, g) Rplus Rmult (mx_proc (mixer_events x)) i Whole Whole Hm Wi I (v_channels o Whole) 0 o)
    as (o' & E & _); [done|done|done|cbn; lia|].
  unfold rbind. rewrite E. exists (mixer_events x), o'. done.
Qed.

Lemma biquad_total f q s g b i o n fc : length (bq_delays b) = n → is_block i n fc → is_block o n fc →
  length f = fc → length q = fc → length s = fc → ∃ b' o', bq_process f q s g i Whole o Whole b = Ok (b', o') ∧ length (bq_delays b') = n.
Proof.
  intros Hb Hi Ho Hf Hq Hs. unfold bq_process.
  destruct (rfold_inv (λ bo : biquad * owned R, length (bq_delays bo.1) = n ∧ is_block bo.2 n fc) (bq_frame f q s i Whole Whole) (seq 0 (v_frames o Whole))) with (s := (b, o))
    as ([b1 o1] & -> & Hl & Ho1); [|done|].
  - intros [b0 o0] fr [Hl Ho0] Hfr. cbn [fst snd] in *. apply elem_of_seq in Hfr. destruct Ho as (Wo & Co & Fo). pose proof Ho0 as (W0 & C0 & F0). destruct Hi as (Wi & Ci & Fi). cbn in Hfr.
    unfold bq_frame. destruct (lookup_lt_is_Some_2 f fr) as [vf ->]; [lia|]. destruct (lookup_lt_is_Some_2 q fr) as [vq ->]; [lia|].
    destruct (lookup_lt_is_Some_2 s fr) as [vs ->]; [lia|]. cbn [runwrap rbind]. destruct (if same_parameters _ _ then _ else _) as [c last].
    destruct (channels_ok i Whole Whole Wi I c fr (v_channels o0 Whole) (bq_delays b0) o0) as (ds & o2 & E & L & _ & W); [done|done|cbn; lia..|].
    rewrite E. cbn [rbind]. eexists. split; [done|]. cbn [fst snd bq_delays]. split; [lia|]. eapply block_keeps; [exact Ho0|].
    destruct W as (W1 & W2 & _). split; [|done]. unfold wf in *. destruct W2 as (D1 & D2 & _). congruence.
  - cbn [rbind fst snd] in *. destruct Ho1 as (W1 & C1 & F1).
    destruct (gain_apply 0%R (λ g, close32R g 0) (λ g, close32R g 1) Rmult g o1 Whole) as (o2 & -> & _); [done|done|]. cbn [rbind]. eauto.
Qed.

Lemma convolving_inv impulse mx c : wf impulse → frames impulse ≠ 0 → mx ≠ 0 → convolving impulse mx c → ∃ past, cinv impulse mx past c.
Proof.
  intros Hw Hf Hm. induction 1 as [c E|c b c' out _ [past IH] Hb E].
  - destruct (ConvolutionProofs.new_ok impulse Hw Hf mx Hm) as (c' & E' & H). rewrite E in E'. injection E' as <-. eauto.
  - destruct (conv_ok impulse Hf mx Hm b Hb past c IH) as (c1 & o1 & E1 & H & _). rewrite E in E1. injection E1 as <- <-. eauto.
Qed.

Lemma receive_sorted {P} (q : evproc P) : StronglySorted ev_before (ep_pending q) → StronglySorted ev_before (ep_pending (receive_events q)) ∧ ep_channel (receive_events q) = [].
Proof. intros H. unfold receive_events. destruct (ep_channel q) eqn:E; [done|]. split; [|done]. cbn [ep_pending]. apply sort_ok. Qed.

Lemma adsr_total sr t a i o n no fc max_fr : (0 < Z.of_nat sr <= 2 ^ 29)%Z → block_ok sr max_fr → ep_rate (as_queue a) = sr → max_fr ≤ length (as_buffer a) →
  StronglySorted ev_before (ep_pending (as_queue a)) → Forall (λ e, ev_clear e = false) (ep_channel (as_queue a)) →
  fc ≤ max_fr → is_block i n fc → is_block o no fc →
  ∃ a' o', adsr_process sr t i Whole o Whole a = Ok (a', o') ∧ ep_rate (as_queue a') = sr ∧ length (as_buffer a') = length (as_buffer a) ∧
    StronglySorted ev_before (ep_pending (as_queue a')) ∧ ep_channel (as_queue a') = [].
Proof.
  intros Hsr (B1 & B2 & B3) Hr Hl Hs Hc Hfc (Wi & Ci & Fi) (Wo & Co & Fo). destruct a as [q e buf]. cbn [as_queue as_env as_buffer] in *.
  destruct (decide (fc = 0)) as [->|Hne].
  - unfold adsr_process. cbn [as_queue as_env as_buffer]. destruct (receive_sorted q Hs) as [Hs' Hc'].
    assert (v_frames i Whole `min` v_frames o Whole = 0) as -> by (cbn; lia).
    unfold event_block. cbn [event_loop]. rewrite Nat.ltb_irrefl. cbn [rbind].
    destruct (zip_channels_ok (λ x _ : R, x) (λ ch, let? l := get_channel_data i Whole ch 0 in Ok (zip_with Rmult l buf)) Whole
      (v_channels i Whole `min` v_channels o Whole) o Wo I) as (o' & -> & _).
    { cbn. lia. } { intros ch Hch. destruct (get_channel_data_ok i Whole ch 0 Wi I) as (l & -> & _); [cbn in *; lia|cbn; lia|]. cbn [rbind]. eauto. }
    cbn [rbind]. eexists _, o'. split; [done|]. cbn [as_queue as_buffer ep_rate ep_pending ep_channel]. done.
  - assert (Hfr : v_frames i Whole `min` v_frames o Whole = fc) by (cbn; lia).
    destruct (AdsrProofs.process_ok sr t i Whole o Whole q e buf) as (d & rest & buf' & o' & _ & Hr' & L & W); [done..| | |].
    { rewrite Hfr. split; [lia|]. split; [lia|]. nia. } { lia. }
    destruct (env_run _ _ _) as [vs e']. destruct W as (E & _). eexists _, o'. split; [exact E|]. cbn [as_queue as_buffer ep_rate ep_pending ep_channel]. done.
Qed.

Lemma deliver_eq {P} (es : list (event P)) q : deliver es q = EvProc (ep_pending q) (ep_channel q ++ es) (ep_rate q).
Proof. apply sends. Qed.
Lemma inbox_head {X} (Q : X → Prop) (l : list (list X)) : Forall (Forall Q) l → Forall Q (default [] (head l)) ∧ Forall (Forall Q) (tl l).
Proof. destruct 1; cbn; [repeat constructor|done]. Qed.

Lemma effect_run_ok max_fr sr : run_ok (effect_good max_fr sr) effect_run max_fr sr.
Proof.
  intros ni no names p t values i o fc Hfc Hg Hi Ho Hri Hro Hv.
  enough (∃ p' o', effect_run p t values i o = Ok (p', o') ∧ effect_good max_fr sr ni no names p') as (p' & o' & E & Hg').
  { exists p', o'. split; [done|]. split; [|done]. eapply block_keeps; [exact Ho|]. pose proof (effect_keeps p t values i o) as H. by rewrite E in H. }
  pose proof Hi as (Wi & Ci & Fi). pose proof Ho as (Wo & Co & Fo).
  destruct p; cbn [effect_good effect_run] in *.
  - destruct (Hv "gain" Hg) as (g & -> & _). cbn [rbind].
    destruct (gain_process_ok 0%R (λ g, close32R g 0) (λ g, close32R g 1) Rmult g i Whole o Whole) as (o' & E & _); [done..|cbn; lia|].
    unfold gain_process_R. rewrite E. cbn [rbind]. by exists FGain, o'.
  - destruct Hg as (Hg & -> & ->). destruct (Hv "pan" Hg) as (g & -> & L). cbn [rbind].
    destruct (pan_process_ok Rmult pan_gains g i Whole o Whole) as (o' & E & _); [done..|cbn; lia|cbn; lia|]. unfold pan_process_R. rewrite E. cbn [rbind]. by exists FPan, o'.
  - destruct Hg as (H1 & H2 & H3). apply inbox_head in H3 as [H3 H4].
    destruct (mixer_total (mixer_deliver (default [] (head inbox)) x) i o ni no fc) as (x' & o' & -> & E1 & E2); [done| |done|done|].
    { cbn. by apply Forall_app. }
    cbn [rbind]. eexists _, o'. split; [done|]. cbn [effect_good]. by rewrite E2.
  - destruct Hg as (H1 & -> & H3). assert (∀ name, name ∈ ({[ "frequency"; "q"; "shelf-gain"; "gain" ]} : gset string) → name ∈ names) as Hn by set_solver.
    destruct (Hv "frequency") as (v1 & -> & L1); [apply Hn; set_solver|]. destruct (Hv "q") as (v2 & -> & L2); [apply Hn; set_solver|].
    destruct (Hv "shelf-gain") as (v3 & -> & L3); [apply Hn; set_solver|]. destruct (Hv "gain") as (v4 & -> & L4); [apply Hn; set_solver|]. cbn [rbind].
    destruct (biquad_total v1 v2 v3 v4 b i o no fc) as (b' & o' & -> & L); [done..|]. cbn [rbind]. eexists _, o'. split; [done|]. cbn [effect_good]. done.
  - destruct Hg as (H1 & impulse & mx & G1 & G2 & G3 & G4 & G5 & G6). assert (∀ name, name ∈ ({[ "wet"; "dry" ]} : gset string) → name ∈ names) as Hn by set_solver.
    destruct (Hv "wet") as (v1 & -> & L1); [apply Hn; set_solver|]. destruct (Hv "dry") as (v2 & -> & L2); [apply Hn; set_solver|]. cbn [rbind].
    destruct (convolving_inv impulse mx c) as [past Hc]; [done|lia|lia|done|].
    assert (Hb : vblock_ok (channels impulse) (VBlock v1 v2 i Whole o Whole)).
    { unfold vblock_ok, vframes. cbn. split; [done|]. split; [done|]. split; [done|]. split; [done|]. split; [lia|]. split; [lia|]. split; [lia|]. split; lia. }
    destruct (conv_ok impulse ltac:(lia) mx ltac:(lia) _ Hb past c Hc) as (c' & o' & E & _). cbn [vb_wet vb_dry vb_in vb_iv vb_out vb_ov] in E. rewrite E. cbn [rbind].
    eexists _, o'. split; [done|]. cbn [effect_good]. split; [done|]. exists impulse, mx. do 5 (split; [done|]). eapply convolving_block; [exact G6|exact Hb|exact E].
  - done.
  - destruct Hg as (H1 & H2 & H3 & H4 & H5 & H6 & H7). apply inbox_head in H7 as [H7 H8].
    rewrite deliver_eq. cbn [ep_rate]. rewrite H3.
    destruct (adsr_total sr t (AdsrState (EvProc (ep_pending (as_queue a)) (ep_channel (as_queue a) ++ default [] (head inbox)) sr) (as_env a) (as_buffer a)) i o ni no fc max_fr)
      as (a' & o' & -> & E1 & E2 & E3 & E4); [done..| |done|done|done|].
    { cbn. by apply Forall_app. }
    cbn [rbind]. eexists _, o'. split; [done|]. cbn [effect_good]. rewrite E4. do 3 (split; [done|]). split; [cbn in E2; lia|]. split; [done|]. split; [constructor|done].
  - done.
  - done.
  - done.
  - done.
  - done.
Qed.

(** ** New nodes *)
Lemma params_dom l : dom (params l) =@{gset string} list_to_set l.*1.
Proof.
  unfold params. rewrite dom_list_to_map_L. f_equal. rewrite <-list_fmap_compose. apply list_fmap_ext. by intros ? [].
Qed.
Lemma new_param_calm {V} (N : num V) v : calm (new_param N v).
Proof. constructor. Qed.
Lemma params_calm l name p : params l !! name = Some p → calm p.
Proof.
  intros H. apply elem_of_list_to_map_2 in H. apply elem_of_list_fmap in H as ([n v] & E & _). injection E as -> ->. apply new_param_calm.
Qed.

Lemma gain_node_fit max_fr sr cc g : node_fit (effect_good max_fr sr) cc cc (gain_node g).
Proof. split; [apply params_calm|]. cbn [ds_params ds_proc gain_node pan_node effect_good]. rewrite params_dom. cbn. set_solver. Qed.
Lemma pan_node_fit max_fr sr g : node_fit (effect_good max_fr sr) 2 2 (pan_node g).
Proof. split; [apply params_calm|]. cbn [ds_params ds_proc gain_node pan_node effect_good]. rewrite params_dom. cbn. set_solver. Qed.
Lemma biquad_node_fit max_fr sr cc ty f q s g : node_fit (effect_good max_fr sr) cc cc (biquad_node sr cc ty f q s g).
Proof.
  split; [apply params_calm|]. cbn [ds_params ds_proc biquad_node effect_good]. rewrite params_dom. cbn. split; [set_solver|]. split; [done|]. by rewrite replicate_length.
Qed.
Lemma convolution_node_fit max_fr sr impulse maximum c wet dry : wf impulse → 0 < frames impulse → 0 < maximum → new_convolution impulse maximum = Ok c →
  node_fit (effect_good max_fr sr) (channels impulse) (channels impulse) (convolution_node c wet dry).
Proof.
  intros H1 H2 H3 H4. split; [apply params_calm|]. cbn [ds_params ds_proc convolution_node effect_good]. rewrite params_dom. cbn. split; [set_solver|].
  exists impulse, maximum. do 5 (split; [done|]). by constructor.
Qed.
Lemma adsr_node_fit max_fr sr cc inbox : (0 < Z.of_nat sr <= 2 ^ 29)%Z → block_ok sr max_fr → Forall (Forall (λ e, ev_clear e = false)) inbox →
  node_fit (effect_good max_fr sr) cc cc (adsr_node sr max_fr inbox).
Proof.
  intros H1 H2 H3. split; [intros name p H; cbn in H; apply lookup_empty_Some in H; done|]. cbn [ds_params ds_proc adsr_node effect_good]. do 3 (split; [done|]).
  split; [cbn; rewrite replicate_length; lia|]. split; [constructor|]. split; [constructor|done].
Qed.
Lemma mixer_node_fit max_fr sr inputs outputs x inbox : mixer_new 0%R inputs outputs = Ok x → Forall (Forall matrix_ok) inbox →
  node_fit (effect_good max_fr sr) inputs outputs (mixer_node x inbox).
Proof.
  intros H1 H2. split; [intros name p H; cbn in H; apply lookup_empty_Some in H; done|]. cbn [ds_params ds_proc mixer_node effect_good].
  unfold mixer_new, matrix_new, rassert in H1. destruct (_ <=? _); [|done]. destruct (_ <=? _); [|done]. cbn [rbind] in H1. injection H1 as <-.
  cbn [mx_proc mx_channel]. split; [|split; [constructor|done]]. unfold matrix_ok, matrix_empty. cbn [m_inputs m_outputs m_cells]. rewrite replicate_length. cbn. lia.
Qed.

(** every matrix the node sends is one *)
Lemma new_matrix_ok i o m : matrix_new 0%R i o = Ok m → matrix_ok m.
Proof.
  unfold matrix_new, rassert, max_io. destruct (Nat.leb_spec i 8); [|done]. destruct (Nat.leb_spec o 8); [|done]. intros E. injection E as <-.
  done.
Qed.
Lemma set_level_ok m i o l m' : matrix_ok m → set_level m i o l = Ok m' → matrix_ok m'.
Proof.
  intros (H1 & H2 & H3). unfold set_level. destruct (get_index m i o); [|done]. cbn [rbind]. destruct (_ <? _); [|done]. intros E. injection E as <-.
  unfold matrix_ok. cbn. by rewrite insert_length.
Qed.
