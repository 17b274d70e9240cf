(** A gain and an ADSR node after it, whose notes are shorter than the attack. *)
From stdpp Require Import gmap list list_numbers strings sorting.
From Coq Require Import ZArith Lia ZifyBool ZifyNat Reals Lra.
From Verif Require Import Base Graph GraphSpec TopoSort TopoSortSpec TopoSortProofs Buffer BufferSpec DspGraph DspGraphSpec Float Timestamp EventProcessor EventProcessorSpec Adsr AdsrSpec
  Sampler SamplerSpec EventChannel Recorder Processor ProcessorSpec AudioParam AudioParamR Biquad BiquadSpec Node NodeSpec NodeProofs NodeExamples LimitsSpec LimitsProofs
  Chain ChainSpec ChainProofs Effects EffectShape EffectsSpec EffectsProofs StreamSpec StreamProofs DeviceProofs LibraryProofs LibraryExamples NetProofs NetLibrary
  AutomationSpec AutomationProofs AutomationCases NetAutomationSpec NetAutomation
  NetSpec MelodySpec MelodyProofs NetMelody TrackSpec TrackProofs NetTrack ProgramSpec AdsrCurve AdsrNote AnyNotesSpec AnyNotes AdsrCutSpec NetProgram ShortNotes.
Local Open Scope nat_scope.

Definition pluck_score : list (list mark) := [[On 1; Off 3]; [On 5]; [Off 6]].
Definition pluck_device : device := DAdsr 2 (requests adsr_sends 1 (score_calls 64 (/ 16) (/ 64) (/ 2) (/ 64) pluck_score)).
Definition pluck : list (id * device) := [(0, DGain 2 1%R); (1, pluck_device)].
Definition pluck_links : list (link R effect) := [Link 0 2 2 (gain_node 1); Link 1 2 2 (state64 pluck_device)].
Definition pluck_calls : list (nop R R effect) := [NInput 0; NConnect 20 0 1 (Connection 0 0 2); NOutput 1].
Definition pluck_after : list (nop R R effect) :=
  [desk_change 0 "gain" line_down; desk_change 0 "gain" jump_up; desk_call 2 10%R; desk_change 0 "gain" line_up; desk_call 6 10%R].
Definition pluck_history : list (nop R R effect) := desk_before ++ (create <$> pluck_links) ++ pluck_calls ++ pluck_after.
Lemma pluck_made : made 64 4 pluck pluck_links.
Proof.
  destruct small64 as [H1 H2]. unfold made, pluck, pluck_links. constructor; [by repeat split|]. constructor; [|constructor]. do 4 (split; [done|]). cbn [device_ok snd pluck_device].
  split; [done|]. split; [done|]. repeat constructor.
Qed.
Lemma pluck_setup : good_setup (dsp_process R_num (λ v, v) effect_run) 8 4 64 (λ _, rev_order) (λ _ l, l) (to_pop <$> pluck_history).
Proof.
  split; [exact effect_shape|]. do 3 (split; [lia|]). split; [intros _; apply rev_order_any|]. split; [done|]. split.
  - unfold pluck_history, desk_before, pluck_after, pluck_calls, pluck_links. cbn [fmap list_fmap app create].
    repeat (constructor; [first [exact (desk_call_ok _ _)|done]|]). constructor.
  - change (NoDup [20]). repeat (constructor; [set_solver|]). constructor.
Qed.
Lemma pluck_settled : settled pluck_links pluck_calls desk_before pluck_after.
Proof.
  assert (H : ∀ o : nop R R effect, o ∈ desk_before ++ pluck_after → o = NStart ∨ (∃ n x, o = desk_call n x) ∨ ∃ n name m, o = desk_change n name m).
  { intros o Hin. unfold desk_before, pluck_after in Hin. cbn [app] in Hin.
    repeat (apply elem_of_cons in Hin as [Hin|Hin]; [subst o; first [by left|right; left; by eexists _, _|right; right; by eexists _, _, _]|]). by apply elem_of_nil in Hin. }
  assert (H' : ∀ o : nop R R effect, o ∈ pluck_after → o = NStart ∨ (∃ n x, o = desk_call n x) ∨ ∃ n name m, o = desk_change n name m) by (intros o Hin; apply H, elem_of_app; by right).
  split; [unfold pluck_calls; by repeat constructor|]. split; [|split; [|split; [|split; [|split]]]].
  - intros eid m n c Hin _. unfold pluck_calls in Hin. apply elem_of_cons in Hin as [Hin|Hin]; [discriminate Hin|].
    apply elem_of_cons in Hin as [Hin|Hin]; [injection Hin as -> -> -> ->; change (k_id <$> pluck_links) with [0; 1]; set_solver|]. apply elem_of_list_singleton in Hin. discriminate Hin.
  - intros k eid m c _ Hin. by destruct (H _ Hin) as [?|[(? & ? & ?)|(? & ? & ? & ?)]].
  - intros k _ Hin. by destruct (H' _ Hin) as [?|[(? & ? & ?)|(? & ? & ? & ?)]].
  - intros k m _ Hin. by destruct (H' _ Hin) as [?|[(? & ? & ?)|(? & ? & ? & ?)]].
  - change (net_input pluck_calls) with (Some 0). cbn iota. intros m Hin. by destruct (H' _ Hin) as [?|[(? & ? & ?)|(? & ? & ? & ?)]].
  - intros o m _ Hin. by destruct (H' _ Hin) as [?|[(? & ? & ?)|(? & ? & ? & ?)]].
Qed.
Lemma pluck_careful : careful (effect_good 4 64) 8 2 sempty false pluck_history.
Proof.
  assert (F : ∀ d st, lasting d → device_ok 64 4 d → device_state 64 4 d = Ok st → node_fit (effect_good 4 64) (device_inputs d) (device_outputs d) st) by (intros; by apply device_fits).
  assert (F1 := F (DGain 2 1%R) (gain_node 1) I I eq_refl). assert (F2 := F pluck_device (state64 pluck_device) I).
  assert (Hok : device_ok 64 4 pluck_device). { destruct small64 as [H1 H2]. split; [done|]. split; [done|]. repeat constructor. }
  specialize (F2 Hok eq_refl). change (device_inputs pluck_device) with 2 in F2. change (device_outputs pluck_device) with 2 in F2. cbn [device_inputs device_outputs] in F1. clear F.
  assert (D1 : "gain" ∈ dom (ds_params (gain_node 1))) by (cbn; set_solver).
  unfold pluck_history, desk_before, pluck_after, pluck_calls, desk_call, desk_change, pluck_links. cbn [fmap list_fmap]. unfold create. cbn [k_id k_ins k_outs k_state app].
  set (g := gain_node 1) in *. set (b := state64 pluck_device) in *. clearbody g b.
  apply do_start.
  do 2 (eapply do_new; [reflexivity|find_node|lia|lia|assumption|cbn [s_nodes s_conns sempty]]).
  apply do_input. apply do_connect; [find_node|find_node|new_conn|cbn; lia|cbn; lia|cbn [s_nodes s_conns sempty app]]. apply do_output. cbn [s_nodes s_conns sempty app].
  assert (Hc : ∀ m name (x : move) (os : list (nop R R effect)) (s : sgraph (nat * nat * gset string) connection), mv_shape x ≠ Curve → (∀ i o names, s_nodes s !! m = Some (i, o, names) → name ∈ names) →
    careful (effect_good 4 64) 8 2 s true os → careful (effect_good 4 64) 8 2 s true (NChange m name (change_of (2 ^ 26) x) :: os)).
  { intros m name x os s Hx Hn Ho. apply do_change; [done| |done]. intros [t Ht]. unfold change_of in Ht. cbn in Ht. by destruct (mv_shape x). }
  assert (Hs : ∀ a b, small_plan 6 (<[1:=b]> (<[0:=a]> ∅))).
  { intros. eapply Nat.le_trans; [do 2 apply small_insert; apply small_empty|lia]. }
  do 2 (apply Hc; [done|intros i o names E; cbn [s_nodes] in E; repeat (rewrite lookup_insert_ne in E by done); rewrite lookup_insert in E; injection E as <- <- <-; assumption|]).
  apply (do_call64 _ _ _ _ _ _ _ _ (λ n, n)); [intros _; split; [new_conn|cbn [s_nodes]; apply (Nat.add_le_mono_r _ 6 2); apply Hs]|].
  apply Hc; [done|intros i o names E; cbn [s_nodes] in E; repeat (rewrite lookup_insert_ne in E by done); rewrite lookup_insert in E; injection E as <- <- <-; assumption|].
  apply (do_call64 _ _ _ _ _ _ _ _ (λ n, n)); [intros _; split; [new_conn|cbn [s_nodes]; apply (Nat.add_le_mono_r _ 6 2); apply Hs]|].
  done.
Qed.
Lemma pluck_runs : ∃ st l, prun 0%R Rplus (dsp_process R_num (λ v, v) effect_run) (λ _, rev_order) (λ _ l, l) (new_processor 0%R 8 64 2 4) (to_pop <$> pluck_history) = Ok (st, l).
Proof.
  apply library_never_aborts; [lia|lia|intros _; apply rev_order_any|done|lia| |exact pluck_careful].
  change (NoDup [20]). repeat (constructor; [set_solver|]). constructor.
Qed.
Lemma pluck_short : short_notes (/ 16 * INR 64) (/ 2) (/ 64 * INR 64) 0 0 [(1, 3); (5, 6)].
Proof.
  assert (E : (/ 16 * INR 64 = 4)%R) by (rewrite (INR_IZR_INZ 64); change (Z.of_nat 64) with 64%Z; lra). rewrite E.
  assert (Hf : fallen (/ 2) (/ 64 * INR 64) 0 0 1 = 0%R).
  { unfold fallen. cbn [Nat.leb Nat.sub]. unfold falls_from. replace (/ 64 * INR 64)%R with 1%R by (rewrite (INR_IZR_INZ 64); change (Z.of_nat 64) with 64%Z; lra).
    replace (INR 1 / 1)%R with 1%R by (cbn; lra). rewrite Rpower_1 by lra. rewrite Rmax_left; lra. }
  cbn [short_notes]. rewrite Hf. split; [lia|]. split; [lia|]. split.
  - intros k Hk. replace k with 0 by lia. unfold rises_from. eapply Rle_lt_trans; [apply Rmin_r|].
    pose proof (power_above (1 / 11) 4 (INR 1) ltac:(lra) ltac:(lra) ltac:(cbn; lra)). lra.
  - split; [lia|]. split; [lia|]. split; [intros k Hk; lia|done].
Qed.
