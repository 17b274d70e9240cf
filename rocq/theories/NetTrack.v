(** Clips in a network. *)
From stdpp Require Import gmap list list_numbers strings sorting.
From Coq Require Import ZArith Lia ZifyBool ZifyNat Reals Lra.
From Verif Require Import Base Graph GraphSpec TopoSort TopoSortSpec TopoSortProofs Buffer BufferSpec DspGraph DspGraphSpec Float Timestamp EventProcessor EventProcessorSpec
  Sampler SamplerSpec EventChannel Recorder Processor ProcessorSpec AudioParam AudioParamR BiquadSpec Node NodeSpec NodeProofs NodeExamples LimitsSpec LimitsProofs
  Chain ChainSpec ChainProofs Effects EffectShape EffectsSpec EffectsProofs StreamSpec StreamProofs DeviceProofs LibraryProofs LibraryExamples NetSpec NetProofs NetLibrary MelodySpec NetMelody TrackSpec TrackProofs.
Local Open Scope nat_scope.

Lemma library_track nbuf MC MF sr sh dr ds ks ws before after st l n outputs fuel smp fade n0 score clips :
  let os := before ++ (create <$> ks) ++ ws ++ after : list (nop R R effect) in
  made sr MF ds ks → good_setup (dsp_process R_num (λ v, v) effect_run) nbuf MF sr sh dr (to_pop <$> os) → settled ks ws before after →
  unprocessed [] (to_pop <$> os) = [] →
  prun 0%R Rplus (dsp_process R_num (λ v, v) effect_run) sh dr (new_processor 0%R nbuf sr MC MF) (to_pop <$> os) = Ok (st, l) →
  let on := running false (sent (to_pop <$> before)) in
  let pos := frames_played false (to_pop <$> before) in
  let blocks := blocks_of MF sr on pos after in
  (n, DSampler outputs fuel smp fade (requests sampler_sends n0 (track_calls sr score))) ∈ ds →
  concat score = cues clips → cued pos score blocks → apart (length fade) (frames smp) clips → Forall (clip_ok sr) clips →
  clock_frame sr (pos + length_of blocks) → clock_holds sr (length blocks) (2 * length clips) →
  ∃ played (xs ys : id → stream R),
    Forall2 (clip_as sr) clips played ∧
    (∀ ch i, ch < outputs → i < length_of blocks → at_ (ys n ch) i = track_value smp fade ch played (pos + i)) ∧
    (∀ n d, (n, d) ∈ ds → performs sr blocks (λ name, events_of MF sr n name on pos after) d (xs n) (ys n)) ∧
    (∀ n d ch i, (n, d) ∈ ds → ch < device_inputs d → i < length_of blocks →
       at_ (xs n ch) i = mix_of (λ m c, at_ (ys m c) i) (at_ (input_stream 0%R MC (bool_decide (net_input ws = Some n)) on after ch) i) (connections_into n ws) ch) ∧
    (∀ o, net_output ws = Some o → o ∈ ds.*1 → heard_as 0%R MC on after (drop (callbacks before) l) (ys o)).
Proof.
  intros os Hm Hg Hse Hun E on pos blocks Hd Hc Hin Hsp Hcl Hre Hclock.
  destruct (library_net nbuf MC MF sr sh dr ds ks ws before after st l Hm Hg Hse Hun E) as (g & xs & ys & _ & _ & _ & R3 & R4 & R5). fold on pos in R3, R4, R5. fold blocks in R3, R4.
  assert (Hok : device_ok sr MF (DSampler outputs fuel smp fade (requests sampler_sends n0 (track_calls sr score)))).
  { apply elem_of_list_lookup in Hd as [i Hd]. by destruct (Forall2_lookup_l _ _ _ _ _ Hm Hd) as (k & Hk & _ & _ & _ & _ & Hok). }
  destruct Hok as (Hsr & (B1 & B2 & B3) & _ & Hfade & _). assert (HMF : 0 < MF) by (by destruct Hg as (_ & _ & ? & _)).
  pose proof (R3 _ _ Hd) as Hp. cbn [performs] in Hp. destruct Hp as (_ & _ & dl & Har & Hy).
  destruct (track_stream sr Hsr smp fade Hfade outputs pos blocks n0 score clips dl) as (played & P1 & P2 & P3 & P4); [by apply blocks_stream| |done..|].
  { eapply Forall_impl; [apply (blocks_fit MF sr after HMF on pos)|]. intros [t fc] [F1 F2]. cbn [snd] in *. split; [done|]. split; [lia|]. nia. }
  exists played, xs, ys. split; [done|]. split; [|by split; [|split]]. intros ch i Hch Hi.
  destruct (find_frame _ _ P3 i Hi) as (k & b & hs & fr & K1 & K2 & K3 & -> & K5). rewrite (Hy P2 ch k b hs fr Hch K1 K2 K3), K5, P4 by done. cbn [default from_option Datatypes.id]. by apply plan_value.
Qed.

(** ** A sampler that plays to the output and into a recorder *)
Definition deck_sample : owned R := Owned [1; 2; 3; 4; 5]%R 1 5 100.
Definition deck_score : list (list cue) := [[Play 3 1; Halt 5]; [Play 8 0]; [Halt 9]].
Definition deck : list (id * device) :=
  [(0, DSampler 2 10 deck_sample [0; 1]%R (requests sampler_sends 1 (track_calls 100 deck_score))); (1, DRecorder 2 2 4 studio_inbox)].
Definition deck_links : list (link R effect) := (λ nd, Link nd.1 (device_inputs nd.2) (device_outputs nd.2) (rack_state nd.2)) <$> deck.
Definition deck_calls : list (nop R R effect) := [NConnect 20 0 1 (Connection 0 0 2); NOutput 0].
Definition deck_history : list (nop R R effect) := solo_before ++ (create <$> deck_links) ++ deck_calls ++ solo_after.
Lemma deck_runs : ∃ st l, prun 0%R Rplus (dsp_process R_num (λ v, v) effect_run) (λ _, rev_order) (λ _ l, l) (new_processor 0%R 8 100 2 4) (to_pop <$> deck_history) = Ok (st, l).
Proof.
  enough (H : match prun 0%R Rplus (dsp_process R_num (λ v, v) effect_run) (λ _, rev_order) (λ _ l, l) (new_processor 0%R 8 100 2 4) (to_pop <$> deck_history) with Ok _ => true | Panic _ => false end = true).
  { destruct (prun _ _ _ _ _ _ _) as [[st l]|p]; [by eexists _, _|discriminate H]. }
  vm_compute. reflexivity.
Qed.
Lemma deck_made : made 100 4 deck deck_links.
Proof.
  unfold made, deck_links. rewrite Forall2_fmap_r. apply Forall_Forall2_diag, Forall_forall. intros [n d] H. destruct rack_small as [H1 H2].
  apply elem_of_cons in H as [H|H]; [|apply elem_of_list_singleton in H]; injection H as -> ->; do 4 (split; [done|]); cbn [device_ok snd].
  - do 3 (split; [done|]). split; [cbn; lia|]. cbn. lia.
  - split; [lia|]. split; [lia|]. split; [split; [lia|]; split; lia|]. repeat constructor.
Qed.
Lemma deck_setup : good_setup (dsp_process R_num (λ v, v) effect_run) 8 4 100 (λ _, rev_order) (λ _ l, l) (to_pop <$> deck_history).
Proof.
  split; [exact effect_shape|]. do 3 (split; [lia|]). split; [intros _; apply rev_order_any|]. split; [done|]. split.
  - unfold deck_history, solo_before, solo_after, deck_calls, deck_links, deck. cbn [fmap list_fmap app create].
    repeat (constructor; [first [exact (callE_ok _ _)|done]|]). constructor.
  - change (NoDup [20]). repeat (constructor; [set_solver|]). constructor.
Qed.
Lemma deck_settled : settled deck_links deck_calls solo_before solo_after.
Proof.
  assert (H : ∀ o : nop R R effect, o ∈ solo_before ++ solo_after → o = NStart ∨ ∃ n x, o = callE n x).
  { intros o Hin. unfold solo_before, solo_after in Hin. cbn [app] in Hin. repeat (apply elem_of_cons in Hin as [Hin|Hin]; [subst o; first [by left|right; by eexists _, _]|]). by apply elem_of_nil in Hin. }
  assert (H' : ∀ o : nop R R effect, o ∈ solo_after → o = NStart ∨ ∃ n x, o = callE n x) by (intros o Hin; apply H, elem_of_app; by right).
  split; [unfold deck_calls; by repeat constructor|]. split; [|split; [|split; [|split; [|split]]]].
  - intros eid m n c Hin _. unfold deck_calls in Hin. apply elem_of_cons in Hin as [Hin|Hin]; [injection Hin as -> -> -> ->; apply elem_of_list_here|]. apply elem_of_list_singleton in Hin. discriminate Hin.
  - intros k eid m c _ Hin. by destruct (H _ Hin) as [?|(? & ? & ?)].
  - intros k _ Hin. by destruct (H' _ Hin) as [?|(? & ? & ?)].
  - intros k m _ Hin. by destruct (H' _ Hin) as [?|(? & ? & ?)].
  - change (net_input deck_calls) with (@None nat). cbn iota. intros m Hin. by destruct (H _ Hin) as [?|(? & ? & ?)].
  - intros o m _ Hin. by destruct (H' _ Hin) as [?|(? & ? & ?)].
Qed.
