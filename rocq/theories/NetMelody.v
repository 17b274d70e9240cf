(** A melody in a network. *)
From stdpp Require Import gmap list list_numbers strings sorting.
From Coq Require Import ZArith Lia ZifyBool ZifyNat Reals Lra.
From Verif Require Import Base Graph GraphSpec TopoSort TopoSortSpec TopoSortProofs Buffer BufferSpec DspGraph DspGraphSpec Float Timestamp EventProcessor EventProcessorSpec Adsr AdsrSpec
  EventChannel Sampler Recorder Processor ProcessorSpec AudioParam AudioParamR BiquadSpec Node NodeSpec NodeProofs NodeExamples LimitsSpec LimitsProofs
  Chain ChainSpec ChainProofs Effects EffectShape EffectsSpec EffectsProofs StreamSpec StreamProofs DeviceProofs LibraryProofs LibraryExamples NetSpec NetProofs NetLibrary MelodySpec MelodyProofs.
Local Open Scope nat_scope.

Lemma stream_blocks_app sr a b : ∀ pos, stream_blocks sr pos (a ++ b) ↔ stream_blocks sr pos a ∧ stream_blocks sr (pos + length_of a) b.
Proof.
  induction a as [|[t fc] a IH]; intros pos; cbn [app stream_blocks]; [rewrite Nat.add_0_r; tauto|]. rewrite IH. change (length_of ((t, fc) :: a)) with (fc + length_of a). rewrite Nat.add_assoc. tauto.
Qed.
Lemma callback_stream MF sr n position : 0 < MF → stream_blocks sr position (callback_blocks MF sr position n) ∧ length_of (callback_blocks MF sr position n) = n.
Proof.
  intros Hm. unfold callback_blocks. set (m := (n + (MF - 1)) / MF).
  assert (H : ∀ j, j ≤ m → let bs := (λ k, ((time_of sr position + time_of sr (k * MF))%Z, chunk_len MF n k)) <$> seq 0 j in stream_blocks sr position bs ∧ length_of bs = (j * MF) `min` n).
  { induction j as [|j IH]; intros Hj; [done|]. destruct (IH ltac:(lia)) as [I1 I2]. cbn zeta. rewrite seq_S, fmap_app, stream_blocks_app. unfold length_of in *.
    assert (Hlt : j * MF < n).
    { assert (j < m) by lia. unfold m in *. assert (S j * MF ≤ n + (MF - 1)); [|nia]. etransitivity; [apply Nat.mul_le_mono_r, Hj|]. rewrite Nat.mul_comm. apply Nat.mul_div_le. lia. }
    split.
    - split; [done|]. cbn [fmap list_fmap stream_blocks]. split; [|done]. exists position, (j * MF). split; [rewrite I2; lia|done].
    - rewrite ?fmap_app. assert (Hs : ∀ l l', sum_list (l ++ l') = sum_list l + sum_list l') by (intros l l'; induction l as [|x l IHl]; cbn; lia). rewrite Hs, I2. cbn. unfold chunk_len. lia. }
  destruct (H m) as [H1 H2]; [done|]. split; [done|]. rewrite H2. apply Nat.min_r. unfold m.
  pose proof (Nat.div_mod (n + (MF - 1)) MF ltac:(lia)) as E. pose proof (Nat.mod_upper_bound (n + (MF - 1)) MF ltac:(lia)). lia.
Qed.
Lemma blocks_stream {V A P} MF sr (os : list (nop V A P)) : 0 < MF → ∀ on position, stream_blocks sr position (NodeSpec.blocks_of MF sr on position os).
Proof.
  intros Hm. induction os as [|o os IH]; intros on position; [done|]. destruct o; cbn [NodeSpec.blocks_of]; try apply IH. destruct on; [|apply IH].
  match goal with |- context [callback_blocks _ _ _ ?k] => set (fr := k) end. destruct (callback_stream MF sr fr position Hm) as [H1 H2]. apply stream_blocks_app. split; [done|]. rewrite H2. apply IH.
Qed.

Lemma library_melody nbuf MC MF sr sh dr ds ks ws before after st l n cc n0 ta td s tr a d r score notes :
  let os := before ++ (create <$> ks) ++ ws ++ after : list (nop R R effect) in
  made sr MF ds ks → good_setup (dsp_process R_num (λ v, v) effect_run) nbuf MF sr sh dr (to_pop <$> os) → settled ks ws before after →
  unprocessed [] (to_pop <$> os) = [] →
  prun 0%R Rplus (dsp_process R_num (λ v, v) effect_run) sh dr (new_processor 0%R nbuf sr MC MF) (to_pop <$> os) = Ok (st, l) →
  let on := running false (sent (to_pop <$> before)) in
  let pos := frames_played false (to_pop <$> before) in
  let blocks := blocks_of MF sr on pos after in
  (n, DAdsr cc (requests adsr_sends n0 (score_calls sr ta td s tr score))) ∈ ds →
  (0 <= ta)%R → (0 <= td)%R → (0 <= tr)%R → (0 <= s <= 1)%R →
  is_stage (ta * INR sr) a → is_stage (td * INR sr) d → is_stage (tr * INR sr) r →
  concat score = marks notes → in_time pos score blocks → spaced (a + d) r notes →
  Forall (λ fg : nat * nat, reachable_frame sr fg.1 ∧ reachable_frame sr fg.2) notes → reachable_frame sr (pos + length_of blocks) →
  ∃ played (xs ys : id → stream R),
    Forall2 (λ note p : nat * nat, lands sr note.1 p.1 ∧ lands sr note.2 p.2) notes played ∧
    (∀ ch i, ch < cc → i < length_of blocks →
       at_ (ys n ch) i = (at_ (xs n ch) i * melody_value (ta * INR sr) a (td * INR sr) d s (tr * INR sr) r played (pos + i))%R) ∧
    (∀ n d, (n, d) ∈ ds → performs sr blocks (λ name, events_of MF sr n name on pos after) d (xs n) (ys n)) ∧
    (∀ n d ch i, (n, d) ∈ ds → ch < device_inputs d → i < length_of blocks →
       at_ (xs n ch) i = mix_of (λ m c, at_ (ys m c) i) (at_ (input_stream 0%R MC (bool_decide (net_input ws = Some n)) on after ch) i) (connections_into n ws) ch) ∧
    (∀ o, net_output ws = Some o → o ∈ ds.*1 → heard_as 0%R MC on after (drop (callbacks before) l) (ys o)).
Proof.
  intros os Hm Hg Hse Hun E on pos blocks Hd Hta Htd Htr Hs Ha Hdd Hr Hc Hin Hsp Hrf Hre.
  destruct (library_net nbuf MC MF sr sh dr ds ks ws before after st l Hm Hg Hse Hun E) as (g & xs & ys & _ & _ & _ & R3 & R4 & R5). fold on pos in R3, R4, R5. fold blocks in R3, R4.
  assert (Hok : device_ok sr MF (DAdsr cc (requests adsr_sends n0 (score_calls sr ta td s tr score)))).
  { apply elem_of_list_lookup in Hd as [i Hd]. by destruct (Forall2_lookup_l _ _ _ _ _ Hm Hd) as (k & Hk & _ & _ & _ & _ & Hok). }
  destruct Hok as (Hsr & (B1 & B2 & B3) & _). assert (HMF : 0 < MF) by (by destruct Hg as (_ & _ & ? & _)).
  destruct (R3 _ _ Hd) as (_ & _ & dl & Har & Hy).
  destruct (melody_heard sr Hsr ta td s tr a d r Hta Htd Htr Hs Ha Hdd Hr pos blocks n0 score notes dl) as (played & P1 & P2); [by apply blocks_stream| |done..|].
  { eapply Forall_impl; [apply (blocks_fit MF sr after HMF on pos)|]. intros [t fc] [F1 F2]. cbn [snd] in *. split; [done|]. split; [lia|]. nia. }
  exists played, xs, ys. split; [done|]. split; [|by split; [|split]]. intros ch i Hch Hi. cbv zeta in Hy. rewrite (Hy ch i Hch Hi). by rewrite P2.
Qed.

(** ** A gain and an ADSR node after it *)
Definition band_score : list (list mark) := [[On 3; Off 6]; [On 8]; [Off 11]].
Definition band : list (id * device) :=
  [(0, DGain 2 (/ 2)%R);
   (1, DAdsr 2 (requests adsr_sends 1 (score_calls 100 (/ 100) (/ 100) (/ 2) (/ 100) band_score)))].
Definition band_links : list (link R effect) := (λ nd, Link nd.1 (device_inputs nd.2) (device_outputs nd.2) (rack_state nd.2)) <$> band.
Definition band_calls : list (nop R R effect) := [NInput 0; NConnect 20 0 1 (Connection 0 0 2); NOutput 1].
Definition band_history : list (nop R R effect) := solo_before ++ (create <$> band_links) ++ band_calls ++ solo_after.
Lemma band_made : made 100 4 band band_links.
Proof.
  unfold made, band_links. rewrite Forall2_fmap_r. apply Forall_Forall2_diag, Forall_forall. intros [n d] H. destruct rack_small as [H1 H2].
  apply elem_of_cons in H as [H|H]; [|apply elem_of_list_singleton in H]; injection H as -> ->; do 4 (split; [done|]); cbn [device_ok snd].
  - done.
  - split; [done|]. split; [done|]. repeat constructor.
Qed.
Lemma band_setup : good_setup (dsp_process R_num (λ v, v) effect_run) 8 4 100 (λ _, rev_order) (λ _ l, l) (to_pop <$> band_history).
Proof.
  split; [exact effect_shape|]. do 3 (split; [lia|]). split; [intros _; apply rev_order_any|]. split; [done|]. split.
  - unfold band_history, solo_before, solo_after, band_calls, band_links, band. cbn [fmap list_fmap app create].
    repeat (constructor; [first [exact (callE_ok _ _)|done]|]). constructor.
  - change (NoDup [20]). repeat (constructor; [set_solver|]). constructor.
Qed.
Lemma band_settled : settled band_links band_calls solo_before solo_after.
Proof.
  assert (H : ∀ o : nop R R effect, o ∈ solo_before ++ solo_after → o = NStart ∨ ∃ n x, o = callE n x).
  { intros o Hin. unfold solo_before, solo_after in Hin. cbn [app] in Hin. repeat (apply elem_of_cons in Hin as [Hin|Hin]; [subst o; first [by left|right; by eexists _, _]|]). by apply elem_of_nil in Hin. }
  assert (H' : ∀ o : nop R R effect, o ∈ solo_after → o = NStart ∨ ∃ n x, o = callE n x) by (intros o Hin; apply H, elem_of_app; by right).
  split; [unfold band_calls; by repeat constructor|]. split; [|split; [|split; [|split; [|split]]]].
  - intros eid m n c Hin _. unfold band_calls in Hin. apply elem_of_cons in Hin as [Hin|Hin]; [discriminate Hin|]. apply elem_of_cons in Hin as [Hin|Hin]; [injection Hin as -> -> -> ->; apply elem_of_list_here|]. apply elem_of_list_singleton in Hin. discriminate Hin.
  - intros k eid m c _ Hin. by destruct (H _ Hin) as [?|(? & ? & ?)].
  - intros k _ Hin. by destruct (H' _ Hin) as [?|(? & ? & ?)].
  - intros k m _ Hin. by destruct (H' _ Hin) as [?|(? & ? & ?)].
  - change (net_input band_calls) with (Some 0). cbn iota. intros m Hin. by destruct (H' _ Hin) as [?|(? & ? & ?)].
  - intros o m _ Hin. by destruct (H' _ Hin) as [?|(? & ? & ?)].
Qed.
Lemma band_stage : is_stage (/ 100 * INR 100) 1.
Proof. split; [lia|]. split; [|intros j Hj; lia]. rewrite (INR_IZR_INZ 100). change (Z.of_nat 100) with 100%Z. change (INR 1) with 1%R. lra. Qed.
Local Opaque rack_state.
Lemma band_careful : careful (effect_good 4 100) 8 2 sempty false band_history.
Proof.
  assert (F : ∀ n d, (n, d) ∈ band → device_inputs d ≤ 2 ∧ device_outputs d ≤ 2 ∧ node_fit (effect_good 4 100) (device_inputs d) (device_outputs d) (rack_state d)).
  { intros n d H. assert (Hok : made 100 4 band band_links) by exact band_made. apply elem_of_list_lookup in H as [i H]. destruct (Forall2_lookup_l _ _ _ _ _ Hok H) as (k & Hk & _ & _ & _ & Hst & Hd).
    unfold band_links in Hk. rewrite list_lookup_fmap, H in Hk. injection Hk as <-. cbn [k_state snd] in Hst. apply elem_of_list_lookup_2 in H.
    split; [|split; [|apply (device_fits 100 4 d); [|done|done]]]; unfold band in H; apply elem_of_cons in H as [H|H]; [..|apply elem_of_list_singleton in H| |apply elem_of_list_singleton in H| |apply elem_of_list_singleton in H]; injection H as -> ->; (done || (cbn; lia)). }
  unfold band_history, solo_before, solo_after, band_calls, callE. cbn [app].
  apply do_start. apply ranked_callback; [intros c Hc; by apply elem_of_nil in Hc|eapply Nat.le_trans; [apply small_empty|lia]|].
  assert (Hnew : ∀ s n d (os : list (nop R R effect)), (n, d) ∈ band → s_nodes s !! n = None →
    careful (effect_good 4 100) 8 2 (SGraph (<[n := (device_inputs d, device_outputs d, dom (ds_params (rack_state d)))]> (s_nodes s)) (s_conns s)) true os →
    careful (effect_good 4 100) 8 2 s true (NNew n (device_inputs d) (device_outputs d) (rack_state d) :: os)).
  { intros s n d os H Hn Hc. destruct (F n d H) as (F1 & F2 & F3). eapply do_new; [reflexivity|done..]. }
  unfold band_links, band. cbn [fmap list_fmap]. unfold create. cbn [k_id k_ins k_outs k_state fst snd app].
  do 2 (match goal with |- LimitsSpec.careful _ _ _ _ _ (NNew ?n (device_inputs ?d) _ _ :: _) => apply (Hnew _ n d) end;
    [unfold band; repeat first [apply elem_of_list_here|apply elem_of_list_further]|find_node|cbn [s_nodes s_conns sempty app]]).
  apply do_input. apply do_connect; [find_node|find_node|new_conn|cbn; lia|cbn; lia|cbn [s_nodes s_conns sempty app]]. apply do_output. cbn [s_nodes s_conns sempty app].
  assert (Hs : ∀ a b, small_plan 2 (<[1:=b]> (<[0:=a]> ∅))) by (intros; do 2 apply small_insert; apply small_empty).
  assert (Hs8 : ∀ a b, small_plan 6 (<[1:=b]> (<[0:=a]> ∅))) by (intros; eapply Nat.le_trans; [apply Hs|lia]).
  apply ranked_callback; [new_conn|apply Hs8|]. apply ranked_callback; [new_conn|apply Hs8|]. done.
Qed.
Lemma band_runs : ∃ st l, prun 0%R Rplus (dsp_process R_num (λ v, v) effect_run) (λ _, rev_order) (λ _ l, l) (new_processor 0%R 8 100 2 4) (to_pop <$> band_history) = Ok (st, l).
Proof.
  apply library_never_aborts; [lia|lia|intros _; apply rev_order_any|done|lia| |exact band_careful].
  change (NoDup [20]). repeat (constructor; [set_solver|]). constructor.
Qed.
