(** Proofs about engines of the library's nodes. *)
From stdpp Require Import gmap list list_numbers strings sorting.
From Coq Require Import ZArith Lia ZifyBool ZifyNat Reals Lra.
From Verif Require Import Base Graph GraphSpec TopoSort TopoSortSpec TopoSortProofs Buffer BufferSpec DspGraph DspGraphSpec Float Timestamp EventProcessor EventProcessorSpec
  Processor ProcessorSpec AudioParam AudioParamR Mixer MixerR Biquad Convolution ConvolutionSpec Adsr Oscillator Sampler Node NodeSpec NodeProofs LimitsSpec LimitsProofs
  Chain ChainSpec ChainProofs Effects EffectShape EffectsSpec EffectsProofs StreamSpec StreamProofs DeviceProofs.
Local Open Scope nat_scope.

Lemma device_fits sr max_fr d st : lasting d → device_ok sr max_fr d → device_state sr max_fr d = Ok st →
  node_fit (effect_good max_fr sr) (device_inputs d) (device_outputs d) st.
Proof.
  destruct d as [cc gain|pan|ins outs inbox|cc t f q s g|impulse maximum wet dry|cc inbox|outs fuel table f g|outs fuel smp fade inbox|cc|cc curve|cc count size inbox|cc fuel attack release frequency inbox]; intros Hl Hok E;
    cbn [device_state device_ok device_inputs device_outputs] in *; try done.
  - injection E as <-. apply gain_node_fit.
  - injection E as <-. apply pan_node_fit.
  - destruct (mixer_new 0%R ins outs) eqn:Em; [|done]. injection E as <-. by apply mixer_node_fit.
  - injection E as <-. apply biquad_node_fit.
  - destruct (new_convolution impulse maximum) eqn:Ec; [|done]. injection E as <-. destruct Hok as (? & ? & ?). by eapply convolution_node_fit.
  - injection E as <-. destruct Hok as (? & ? & ?). by apply adsr_node_fit.
Qed.

Lemma library_never_aborts nbuf MC MF sr sh dr (os : list (nop R R effect)) :
  0 < nbuf → 0 < MF → (∀ k, any_order (sh k)) → (∀ k l, dr k l ≡ₚ l) → (0 < Z.of_nat sr <= 2 ^ 53)%Z →
  NoDup (phist_edge_ids (to_pop <$> os)) → careful (effect_good MF sr) nbuf MC sempty false os →
  ∃ st l, prun 0%R Rplus (dsp_process R_num (λ v, v) effect_run) sh dr (new_processor 0%R nbuf sr MC MF) (to_pop <$> os) = Ok (st, l).
Proof.
  intros H1 H2 H3 H4.
  exact (careful_never_aborts R_num (λ v, v) 0%R Rplus effect_run (effect_good MF sr) nbuf MC MF sr sh dr (effect_run_ok MF sr) effect_shape H1 H2 H3 H4 os).
Qed.

Lemma library_chain nbuf MC MF sr sh dr fi ds ks eids cs before after st l :
  let os := before ++ (create <$> ks) ++ cs ++ after : list (nop R R effect) in
  made sr MF ds ks → connect_nodes (chain_of fi ks) eids = Some cs →
  good_setup (dsp_process R_num (λ v, v) effect_run) nbuf MF sr sh dr (to_pop <$> os) → undisturbed fi ks before after → unprocessed [] (to_pop <$> os) = [] →
  prun 0%R Rplus (dsp_process R_num (λ v, v) effect_run) sh dr (new_processor 0%R nbuf sr MC MF) (to_pop <$> os) = Ok (st, l) →
  let on := running false (sent (to_pop <$> before)) in
  let pos := frames_played false (to_pop <$> before) in
  ∃ xs, streams_through sr (blocks_of MF sr on pos after) (λ n name, events_of MF sr n name on pos after) ds xs ∧
    head xs = Some (input_stream 0%R MC fi on after) ∧ ∀ y, last xs = Some y → heard_as 0%R MC on after (drop (callbacks before) l) y.
Proof.
  intros os Hm Ec Hg Hu Hun E on pos. pose proof Hg as (_ & _ & Hmf & _).
  destruct (engine_chain R_num (λ v, v) 0%R Rplus effect_run nbuf MC MF sr sh dr fi ks eids cs before after st l Ec Hg Hu Hun E) as (rss & R1 & R2 & R3 & R4). fold on pos in R2, R4.
  pose proof (Forall2_length _ _ _ Hm) as Hlen. exists (input_stream 0%R MC fi on after :: (given 0%R <$> rss)). split; [split|split].
  - cbn. rewrite fmap_length. lia.
  - intros i n d x y Hd Hx Hy. change ((given 0%R <$> rss) !! i = Some y) in Hy. rewrite list_lookup_fmap in Hy. apply fmap_Some in Hy as (rs & Hrs & ->).
    destruct (Forall2_lookup_l _ _ _ _ _ Hm Hd) as (k & Hk & Hi & Hin & Hout & Hst & Hok). cbn [fst snd] in *.
    destruct (R2 i k rs Hk Hrs) as (Hb & st' & Hs). rewrite Hi, Hin, Hout in Hs.
    assert (Hp : performs sr (times rs) (λ name, events_of MF sr n name on pos after) d (taken 0%R rs) (given 0%R rs)).
    { eapply device_performs; [done|exact Hst|exact Hs|]. unfold times. rewrite Hb. by apply blocks_fit. }
    unfold times in Hp. rewrite Hb in Hp. eapply performs_ext; [|exact Hp]. intros ch Hch. rewrite <-Hin in Hch. destruct i as [|i].
    + cbn in Hx. injection Hx as <-. destruct (last rss) as [rs'|] eqn:El; [|apply last_None in El as ->; done].
      eapply (between_streams 0%R MF MC Hmf); [exact (R4 k rs rs' Hk Hrs eq_refl)|done].
    + change ((given 0%R <$> rss) !! i = Some x) in Hx. rewrite list_lookup_fmap in Hx. apply fmap_Some in Hx as (rs0 & Hrs0 & ->).
      destruct (lookup_lt_is_Some_2 ks i) as [k0 Hk0]; [apply lookup_lt_Some in Hk; lia|]. destruct (R2 i k0 rs0 Hk0 Hrs0) as (Hb0 & _).
      destruct Hs as (_ & Hround & _). rewrite <-Hin in Hround. eapply (feeds_streams 0%R); [exact (R3 i k rs0 rs Hk Hrs0 Hrs)|exact Hround| |done].
      transitivity (snd <$> blocks_of MF sr on pos after); [rewrite <-Hb0|rewrite <-Hb]; by rewrite <-list_fmap_compose.
  - done.
  - intros y Hy. destruct ks as [|k ks]; [by destruct fi|]. destruct rss as [|rs rss]; [done|].
    rewrite fmap_cons, last_cons_cons, <-fmap_cons in Hy. rewrite fmap_last in Hy. apply fmap_Some in Hy as (rs' & El & ->).
    eapply (between_streams 0%R MF MC Hmf). exact (R4 k rs rs' eq_refl eq_refl El).
Qed.
