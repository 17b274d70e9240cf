(** Melodies, clips and automations in one network. *)
From stdpp Require Import gmap list list_numbers strings sorting.
From Coq Require Import ZArith Lia ZifyBool ZifyNat Reals Lra.
From Verif Require Import Base Graph GraphSpec TopoSort TopoSortSpec TopoSortProofs Buffer BufferSpec DspGraph DspGraphSpec Float Timestamp EventProcessor EventProcessorSpec Adsr AdsrSpec
  Sampler SamplerSpec EventChannel Recorder Processor ProcessorSpec AudioParam AudioParamR Biquad BiquadSpec Node NodeSpec NodeProofs NodeExamples LimitsSpec LimitsProofs
  Chain ChainSpec ChainProofs Effects EffectShape EffectsSpec EffectsProofs StreamSpec StreamProofs DeviceProofs LibraryProofs LibraryExamples NetProofs NetLibrary
  AutomationSpec AutomationProofs AutomationCases NetAutomationSpec NetAutomation
  NetSpec MelodySpec MelodyProofs NetMelody TrackSpec TrackProofs NetTrack ProgramSpec.
Local Open Scope nat_scope.

Section program.
Context (sr MF : nat) (q : Z) (Hq : (Z.of_nat sr * q = 2 ^ 32)%Z) (Hq0 : (0 < q)%Z) (HMF : 0 < MF).
Context (on : bool) (pos : nat) (os : list (nop R R effect)).
Notation blocks := (NodeSpec.blocks_of MF sr on pos os).
Context (Hend : exact_frame q (pos + length_of blocks)).

Lemma exact_reachable f : exact_frame q f → reachable_frame sr f.
Proof. intros [H1 H2]. split; nia. Qed.
Lemma exact_clock f : exact_frame q f → clock_frame sr f.
Proof. intros [H1 H2]. split; nia. Qed.
Lemma exact_lands f g : exact_frame q f → lands sr f g → g = f.
Proof. intros [H1 _] [_ H]. by apply (H q). Qed.

Lemma performs_melody events cc n0 ta td s tr a d r score notes x y :
  device_ok sr MF (DAdsr cc (requests adsr_sends n0 (score_calls sr ta td s tr score))) →
  performs sr blocks events (DAdsr cc (requests adsr_sends n0 (score_calls sr ta td s tr score))) x y →
  asks_melody sr q pos blocks ta td s tr a d r score notes →
  ∀ ch i, ch < cc → i < length_of blocks →
    at_ (y ch) i = (at_ (x ch) i * melody_value (ta * INR sr) a (td * INR sr) d s (tr * INR sr) r notes (pos + i))%R.
Proof.
  intros (Hsr & (B1 & B2 & B3) & _) (_ & _ & dl & Har & Hy) ((Hta & Htd & Htr & Hs) & Ha & Hd & Hr & Hc & Hin & Hsp & Hex).
  destruct (melody_heard sr Hsr ta td s tr a d r Hta Htd Htr Hs Ha Hd Hr pos blocks n0 score notes dl) as (played & P1 & P2); [by apply blocks_stream| |by apply exact_reachable|done|done|done| |done|].
  { eapply Forall_impl; [apply (blocks_fit MF sr os HMF on pos)|]. intros [t fc] [F1 F2]. cbn [snd] in *. split; [done|]. split; [lia|]. nia. }
  { eapply Forall_impl; [exact Hex|]. intros [f g] [H1 H2]. split; by apply exact_reachable. }
  assert (played = notes) as ->.
  { clear -P1 Hex Hq Hq0. induction P1 as [|[f g] [f' g'] notes played [L1 L2] _ IH]; [done|]. apply Forall_cons in Hex as [[E1 E2] Hex]. cbn [fst snd] in *.
    apply exact_lands in L1; [|done]. apply exact_lands in L2; [|done]. subst. f_equal. by apply IH. }
  intros ch i Hch Hi. cbv zeta in Hy. rewrite (Hy ch i Hch Hi). by rewrite P2.
Qed.

Lemma performs_clips events outputs fuel smp fade n0 score clips x y :
  device_ok sr MF (DSampler outputs fuel smp fade (requests sampler_sends n0 (track_calls sr score))) →
  performs sr blocks events (DSampler outputs fuel smp fade (requests sampler_sends n0 (track_calls sr score))) x y →
  asks_clips sr q pos blocks (length fade) (Buffer.frames smp) score clips →
  ∀ ch i, ch < outputs → i < length_of blocks → at_ (y ch) i = track_value smp fade ch clips (pos + i).
Proof.
  intros (Hsr & (B1 & B2 & B3) & _ & Hfade & _) (_ & _ & dl & Har & Hy) (Hc & Hin & Hsp & Hex & Hclock).
  destruct (track_stream sr Hsr smp fade Hfade outputs pos blocks n0 score clips dl) as (played & P1 & P2 & P3 & P4); [by apply blocks_stream| |by apply exact_clock|done|done|done| |done|done|].
  { eapply Forall_impl; [apply (blocks_fit MF sr os HMF on pos)|]. intros [t fc] [F1 F2]. cbn [snd] in *. split; [done|]. split; [lia|]. nia. }
  { eapply Forall_impl; [exact Hex|]. intros c (H1 & H2 & H3). split; [by apply exact_clock|]. split; [by apply exact_clock|done]. }
  assert (played = clips) as ->.
  { clear -P1 Hex Hq Hq0. induction P1 as [|[f p t] [f' p' t'] clips played (L1 & L2 & L3) _ IH]; [done|]. apply Forall_cons in Hex as [(E1 & E2 & _) Hex]. cbn [cl_from cl_to cl_first] in *.
    apply exact_lands in L1; [|done]. apply exact_lands in L2; [|done]. subst. f_equal; [f_equal; lia|by apply IH]. }
  intros ch i Hch Hi.
  destruct (find_frame _ _ P3 i Hi) as (k & b & hs & fr & K1 & K2 & K3 & -> & K5). rewrite (Hy P2 ch k b hs fr Hch K1 K2 K3), K5, P4 by done. cbn [default from_option Datatypes.id]. by apply plan_value.
Qed.
End program.

Lemma library_program nbuf MC MF sr q sh dr ds ks ws before after st l :
  let os := before ++ (create <$> ks) ++ ws ++ after : list (nop R R effect) in
  (Z.of_nat sr * q = 2 ^ 32)%Z → (0 < q)%Z →
  made sr MF ds ks → good_setup (dsp_process R_num (λ v, v) effect_run) nbuf MF sr sh dr (to_pop <$> os) → settled ks ws before after →
  unprocessed [] (to_pop <$> os) = [] →
  prun 0%R Rplus (dsp_process R_num (λ v, v) effect_run) sh dr (new_processor 0%R nbuf sr MC MF) (to_pop <$> os) = Ok (st, l) →
  let on := running false (sent (to_pop <$> before)) in
  let pos := frames_played false (to_pop <$> before) in
  let blocks := blocks_of MF sr on pos after in
  exact_frame q (pos + length_of blocks) →
  ∃ xs ys : id → stream R,
    (∀ n d, (n, d) ∈ ds → follows_automation sr pos (length_of blocks) (asks_for q on pos after n) d (xs n) (ys n)) ∧
    (∀ n cc number ta td s tr a d r score notes, (n, DAdsr cc (requests adsr_sends number (score_calls sr ta td s tr score))) ∈ ds →
       asks_melody sr q pos blocks ta td s tr a d r score notes → ∀ ch i, ch < cc → i < length_of blocks →
       at_ (ys n ch) i = (at_ (xs n ch) i * melody_value (ta * INR sr) a (td * INR sr) d s (tr * INR sr) r notes (pos + i))%R) ∧
    (∀ n outputs fuel smp fade number score clips, (n, DSampler outputs fuel smp fade (requests sampler_sends number (track_calls sr score))) ∈ ds →
       asks_clips sr q pos blocks (length fade) (Buffer.frames smp) score clips → ∀ ch i, ch < outputs → i < length_of blocks →
       at_ (ys n ch) i = track_value smp fade ch clips (pos + i)) ∧
    (∀ n d, (n, d) ∈ ds → performs sr blocks (λ name, events_of MF sr n name on pos after) d (xs n) (ys n)) ∧
    (∀ n d ch i, (n, d) ∈ ds → ch < device_inputs d → i < length_of blocks →
       at_ (xs n ch) i = mix_of (λ m c, at_ (ys m c) i) (at_ (input_stream 0%R MC (bool_decide (net_input ws = Some n)) on after ch) i) (connections_into n ws) ch) ∧
    (∀ o, net_output ws = Some o → o ∈ ds.*1 → heard_as 0%R MC on after (drop (callbacks before) l) (ys o)).
Proof.
  intros os Hq Hq0 Hm Hg Hse Hun E on pos blocks Hend. assert (HMF : 0 < MF) by (by destruct Hg as (_ & _ & ? & _)).
  destruct (library_net nbuf MC MF sr sh dr ds ks ws before after st l Hm Hg Hse Hun E) as (g & xs & ys & _ & _ & _ & R3 & R4 & R5).
  assert (Hok : ∀ n d, (n, d) ∈ ds → device_ok sr MF d).
  { intros n d Hd. apply elem_of_list_lookup in Hd as [i Hd]. by destruct (Forall2_lookup_l _ _ _ _ _ Hm Hd) as (k & Hk & _ & _ & _ & _ & Hok). }
  exists xs, ys. split; [|split; [|split; [|by split; [|split]]]].
  - intros n d Hd. apply (performs_automation sr q MF); [done|done|done|apply Hend|]. by apply R3.
  - intros n cc n0 ta td s tr a d r score notes Hd Ha. apply (performs_melody sr MF q Hq Hq0 HMF on pos after Hend (λ name, events_of MF sr n name on pos after) cc n0 ta td s tr a d r score notes (xs n) (ys n)); [by eapply Hok|by apply R3|done].
  - intros n outputs fuel smp fade n0 score clips Hd Ha. apply (performs_clips sr MF q Hq Hq0 HMF on pos after Hend (λ name, events_of MF sr n name on pos after) outputs fuel smp fade n0 score clips (xs n) (ys n)); [by eapply Hok|by apply R3|done].
Qed.

(** ** A gain that is automated and an ADSR node after it *)
Definition tune_score : list (list mark) := [[On 1; Off 4]; [On 6]; [Off 9]].
Definition tune_device : device := DAdsr 2 (requests adsr_sends 1 (score_calls 64 (/ 64) (/ 64) (/ 2) (/ 64) tune_score)).
Definition tune : list (id * device) := [(0, DGain 2 1%R); (1, tune_device)].
Definition state64 (d : device) : dspstate R effect := match device_state 64 4 d with Ok st => st | Panic _ => gain_node 0 end.
Definition tune_links : list (link R effect) := [Link 0 2 2 (gain_node 1); Link 1 2 2 (state64 tune_device)].
Definition tune_calls : list (nop R R effect) := [NInput 0; NConnect 20 0 1 (Connection 0 0 2); NOutput 1].
Definition tune_after : list (nop R R effect) :=
  [desk_change 0 "gain" line_down; desk_change 0 "gain" jump_up; desk_call 2 10%R; desk_change 0 "gain" line_up; desk_call 6 10%R].
Definition tune_history : list (nop R R effect) := desk_before ++ (create <$> tune_links) ++ tune_calls ++ tune_after.
Lemma small64 : (0 < Z.of_nat 64 <= 2 ^ 29)%Z ∧ block_ok 64 4.
Proof. split; [lia|]. split; [lia|]. split; lia. Qed.
Lemma tune_made : made 64 4 tune tune_links.
Proof.
  destruct small64 as [H1 H2]. unfold made, tune, tune_links. constructor; [by repeat split|]. constructor; [|constructor]. do 4 (split; [done|]). cbn [device_ok snd tune_device].
  split; [done|]. split; [done|]. repeat constructor.
Qed.
Lemma tune_setup : good_setup (dsp_process R_num (λ v, v) effect_run) 8 4 64 (λ _, rev_order) (λ _ l, l) (to_pop <$> tune_history).
Proof.
  split; [exact effect_shape|]. do 3 (split; [lia|]). split; [intros _; apply rev_order_any|]. split; [done|]. split.
  - unfold tune_history, desk_before, tune_after, tune_calls, tune_links. cbn [fmap list_fmap app create].
    repeat (constructor; [first [exact (desk_call_ok _ _)|done]|]). constructor.
  - change (NoDup [20]). repeat (constructor; [set_solver|]). constructor.
Qed.
Lemma tune_settled : settled tune_links tune_calls desk_before tune_after.
Proof.
  assert (H : ∀ o : nop R R effect, o ∈ desk_before ++ tune_after → o = NStart ∨ (∃ n x, o = desk_call n x) ∨ ∃ n name m, o = desk_change n name m).
  { intros o Hin. unfold desk_before, tune_after in Hin. cbn [app] in Hin.
    repeat (apply elem_of_cons in Hin as [Hin|Hin]; [subst o; first [by left|right; left; by eexists _, _|right; right; by eexists _, _, _]|]). by apply elem_of_nil in Hin. }
  assert (H' : ∀ o : nop R R effect, o ∈ tune_after → o = NStart ∨ (∃ n x, o = desk_call n x) ∨ ∃ n name m, o = desk_change n name m) by (intros o Hin; apply H, elem_of_app; by right).
  split; [unfold tune_calls; by repeat constructor|]. split; [|split; [|split; [|split; [|split]]]].
  - intros eid m n c Hin _. unfold tune_calls in Hin. apply elem_of_cons in Hin as [Hin|Hin]; [discriminate Hin|].
    apply elem_of_cons in Hin as [Hin|Hin]; [injection Hin as -> -> -> ->; change (k_id <$> tune_links) with [0; 1]; set_solver|]. apply elem_of_list_singleton in Hin. discriminate Hin.
  - intros k eid m c _ Hin. by destruct (H _ Hin) as [?|[(? & ? & ?)|(? & ? & ? & ?)]].
  - intros k _ Hin. by destruct (H' _ Hin) as [?|[(? & ? & ?)|(? & ? & ? & ?)]].
  - intros k m _ Hin. by destruct (H' _ Hin) as [?|[(? & ? & ?)|(? & ? & ? & ?)]].
  - change (net_input tune_calls) with (Some 0). cbn iota. intros m Hin. by destruct (H' _ Hin) as [?|[(? & ? & ?)|(? & ? & ? & ?)]].
  - intros o m _ Hin. by destruct (H' _ Hin) as [?|[(? & ? & ?)|(? & ? & ? & ?)]].
Qed.
Lemma tune_stage : is_stage (/ 64 * INR 64) 1.
Proof. split; [lia|]. split; [|intros j Hj; lia]. rewrite (INR_IZR_INZ 64). change (Z.of_nat 64) with 64%Z. change (INR 1) with 1%R. lra. Qed.
Lemma tune_gain : asks_for (2 ^ 26) true 0 tune_after 0 "gain" 1 straight_ride.
Proof.
  split; [exact straight_in_turn|]. split; [exact straight_fit|]. exists [line_down; jump_up; line_up]. split; [|exact (ride_order line_down)].
  cbn. repeat (split; [first [reflexivity|lia]|]). reflexivity.
Qed.
Lemma tune_melody : asks_melody 64 (2 ^ 26) 0 (NodeSpec.blocks_of 4 64 true 0 tune_after) (/ 64) (/ 64) (/ 2) (/ 64) 1 1 1 tune_score [(1, 4); (6, 9)].
Proof.
  split; [lra|]. do 3 (split; [exact tune_stage|]). split; [reflexivity|]. split; [|split].
  - cbn. repeat (split || constructor); cbn; lia.
  - cbn. lia.
  - unfold exact_frame. repeat (constructor; [cbn [fst snd]; lia|]). constructor.
Qed.
Lemma tune_careful : careful (effect_good 4 64) 8 2 sempty false tune_history.
Proof.
  assert (F : ∀ d st, lasting d → device_ok 64 4 d → device_state 64 4 d = Ok st → node_fit (effect_good 4 64) (device_inputs d) (device_outputs d) st) by (intros; by apply device_fits).
  assert (F1 := F (DGain 2 1%R) (gain_node 1) I I eq_refl). assert (F2 := F tune_device (state64 tune_device) I).
  assert (Hok : device_ok 64 4 tune_device). { destruct small64 as [H1 H2]. split; [done|]. split; [done|]. repeat constructor. }
  specialize (F2 Hok eq_refl). change (device_inputs tune_device) with 2 in F2. change (device_outputs tune_device) with 2 in F2. cbn [device_inputs device_outputs] in F1. clear F.
  assert (D1 : "gain" ∈ dom (ds_params (gain_node 1))) by (cbn; set_solver).
  unfold tune_history, desk_before, tune_after, tune_calls, desk_call, desk_change, tune_links. cbn [fmap list_fmap]. unfold create. cbn [k_id k_ins k_outs k_state app].
  set (g := gain_node 1) in *. set (b := state64 tune_device) in *. clearbody g b.
  apply do_start.
  do 2 (eapply do_new; [reflexivity|find_node|lia|lia|assumption|cbn [s_nodes s_conns sempty]]).
  apply do_input. apply do_connect; [find_node|find_node|new_conn|cbn; lia|cbn; lia|cbn [s_nodes s_conns sempty app]]. apply do_output. cbn [s_nodes s_conns sempty app].
  assert (Hc : ∀ m name (x : move) (os : list (nop R R effect)) (s : sgraph (nat * nat * gset string) connection), mv_shape x ≠ Curve → (∀ i o names, s_nodes s !! m = Some (i, o, names) → name ∈ names) →
    careful (effect_good 4 64) 8 2 s true os → careful (effect_good 4 64) 8 2 s true (NChange m name (change_of (2 ^ 26) x) :: os)).
  { intros m name x os s Hx Hn Ho. apply do_change; [done| |done]. intros [t Ht]. unfold change_of in Ht. cbn in Ht. by destruct (mv_shape x). }
  assert (Hs : ∀ a b, small_plan 6 (<[1:=b]> (<[0:=a]> ∅))).
  { intros. eapply Nat.le_trans; [do 2 apply small_insert; apply small_empty|lia]. }
  do 2 (apply Hc; [done|intros i o names E; cbn [s_nodes] in E; repeat (rewrite lookup_insert_ne in E by done); rewrite lookup_insert in E; injection E as <- <- <-; assumption|]).
  apply (do_call64 _ _ _ _ _ _ _ _ (λ n, n)); [intros _; split; [new_conn|cbn [s_nodes]; apply (Nat.add_le_mono_r _ 6 2); apply Hs]|].
  apply Hc; [done|intros i o names E; cbn [s_nodes] in E; repeat (rewrite lookup_insert_ne in E by done); rewrite lookup_insert in E; injection E as <- <- <-; assumption|].
  apply (do_call64 _ _ _ _ _ _ _ _ (λ n, n)); [intros _; split; [new_conn|cbn [s_nodes]; apply (Nat.add_le_mono_r _ 6 2); apply Hs]|].
  done.
Qed.
Lemma tune_runs : ∃ st l, prun 0%R Rplus (dsp_process R_num (λ v, v) effect_run) (λ _, rev_order) (λ _ l, l) (new_processor 0%R 8 64 2 4) (to_pop <$> tune_history) = Ok (st, l).
Proof.
  apply library_never_aborts; [lia|lia|intros _; apply rev_order_any|done|lia| |exact tune_careful].
  change (NoDup [20]). repeat (constructor; [set_solver|]). constructor.
Qed.

(** ** A sampler that plays to the output *)
Definition play_sample : owned R := Owned [1; 2; 3; 4; 5]%R 1 5 64.
Definition play_score : list (list cue) := [[Play 1 1; Halt 3]; [Play 6 0]; [Halt 7]].
Definition play_device : device := DSampler 2 10 play_sample [0; 1]%R (requests sampler_sends 1 (track_calls 64 play_score)).
Definition play_links : list (link R effect) := [Link 0 0 2 (state64 play_device)].
Definition play_calls : list (nop R R effect) := [NOutput 0].
Definition play_after : list (nop R R effect) := [desk_call 2 10%R; desk_call 6 10%R].
Definition play_history : list (nop R R effect) := desk_before ++ (create <$> play_links) ++ play_calls ++ play_after.
Lemma play_runs : ∃ st l, prun 0%R Rplus (dsp_process R_num (λ v, v) effect_run) (λ _, rev_order) (λ _ l, l) (new_processor 0%R 8 64 2 4) (to_pop <$> play_history) = Ok (st, l).
Proof.
  enough (H : match prun 0%R Rplus (dsp_process R_num (λ v, v) effect_run) (λ _, rev_order) (λ _ l, l) (new_processor 0%R 8 64 2 4) (to_pop <$> play_history) with Ok _ => true | Panic _ => false end = true).
  { destruct (prun _ _ _ _ _ _ _) as [[st l]|p]; [by eexists _, _|discriminate H]. }
  vm_compute. reflexivity.
Qed.
Lemma play_made : made 64 4 [(0, play_device)] play_links.
Proof.
  destruct small64 as [H1 H2]. constructor; [|constructor]. do 4 (split; [done|]). cbn [device_ok snd play_device]. do 3 (split; [done|]). split; [cbn; lia|]. cbn. lia.
Qed.
Lemma play_setup : good_setup (dsp_process R_num (λ v, v) effect_run) 8 4 64 (λ _, rev_order) (λ _ l, l) (to_pop <$> play_history).
Proof.
  split; [exact effect_shape|]. do 3 (split; [lia|]). split; [intros _; apply rev_order_any|]. split; [done|]. split.
  - unfold play_history, desk_before, play_after, play_calls, play_links. cbn [fmap list_fmap app create].
    repeat (constructor; [first [exact (desk_call_ok _ _)|done]|]). constructor.
  - constructor.
Qed.
Lemma play_settled : settled play_links play_calls desk_before play_after.
Proof.
  assert (H : ∀ o : nop R R effect, o ∈ desk_before ++ play_after → o = NStart ∨ ∃ n x, o = desk_call n x).
  { intros o Hin. unfold desk_before, play_after in Hin. cbn [app] in Hin. repeat (apply elem_of_cons in Hin as [Hin|Hin]; [subst o; first [by left|right; by eexists _, _]|]). by apply elem_of_nil in Hin. }
  assert (H' : ∀ o : nop R R effect, o ∈ play_after → o = NStart ∨ ∃ n x, o = desk_call n x) by (intros o Hin; apply H, elem_of_app; by right).
  split; [unfold play_calls; by repeat constructor|]. split; [|split; [|split; [|split; [|split]]]].
  - intros eid m n c Hin _. unfold play_calls in Hin. apply elem_of_list_singleton in Hin. discriminate Hin.
  - intros k eid m c _ Hin. by destruct (H _ Hin) as [?|(? & ? & ?)].
  - intros k _ Hin. by destruct (H' _ Hin) as [?|(? & ? & ?)].
  - intros k m _ Hin. by destruct (H' _ Hin) as [?|(? & ? & ?)].
  - change (net_input play_calls) with (@None nat). cbn iota. intros m Hin. by destruct (H _ Hin) as [?|(? & ? & ?)].
  - intros o m _ Hin. by destruct (H' _ Hin) as [?|(? & ? & ?)].
Qed.
Lemma play_clips : asks_clips 64 (2 ^ 26) 0 (NodeSpec.blocks_of 4 64 true 0 play_after) 2 5 play_score [Clip 1 1 3; Clip 6 0 7].
Proof.
  split; [reflexivity|]. split; [|split; [|split]].
  - cbn. repeat (split || constructor); cbn; lia.
  - cbn. lia.
  - unfold exact_frame. do 2 (constructor; [cbn [cl_from cl_to cl_first]; lia|]). constructor.
  - unfold clock_holds. change (length (NodeSpec.blocks_of 4 64 true 0 play_after)) with 3. cbn [length]. lia.
Qed.
