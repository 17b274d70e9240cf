(** A rack of the library's nodes between the input and the output, and a sampler. *)
From stdpp Require Import gmap list list_numbers strings sorting.
From Coq Require Import ZArith Lia ZifyBool ZifyNat Reals Lra.
From Verif Require Import Base Graph GraphSpec TopoSort TopoSortSpec TopoSortProofs Buffer BufferSpec BufferProofs DspGraph DspGraphSpec Float Timestamp EventProcessor EventProcessorSpec
  Processor ProcessorSpec AudioParam AudioParamR Mixer MixerR Biquad Convolution ConvolutionSpec ConvolutionProofs ConvolutionCases Adsr Oscillator Sampler Node NodeSpec NodeExamples
  LimitsSpec LimitsProofs Chain ChainSpec Effects EffectShape EffectsSpec EffectsProofs StreamSpec LibraryProofs.
Local Open Scope nat_scope.

Definition callE (n : nat) (x : R) : nop R R effect := NCallback (Owned (replicate n x) 1 n 100) Whole (Owned (replicate n 0%R) 1 n 100) Whole.
Definition rack_impulse : owned R := Owned [1; / 2; 0; / 4; 1; 1]%R 2 3 100.
Definition rack_matrix : matrix R := Matrix 2 2 (1%R :: replicate 63 (/ 2)%R).
(** a mixer that gets its matrix in its second block, an envelope that is triggered in the middle of the first *)
Definition rack : list (id * device) :=
  [(0, DGain 2 (/ 2)%R); (1, DBiquad 2 LowPass 20%R 1%R 0%R 1%R); (2, DConvolution rack_impulse 4 1%R (/ 2)%R); (3, DMixer 2 2 [[]; [rack_matrix]]);
   (4, DAdsr 2 [[Event (time_of 100 3) 0 false NoteOn]]); (5, DPan (/ 2)%R)].
Definition rack_state (d : device) : dspstate R effect := match device_state 100 4 d with Ok st => st | Panic _ => gain_node 0 end.
Definition rack_links : list (link R effect) := (λ nd, Link nd.1 (device_inputs nd.2) (device_outputs nd.2) (rack_state nd.2)) <$> rack.
Definition rack_before : list (nop R R effect) := [NStart; callE 2 5%R].
Definition rack_after : list (nop R R effect) :=
  [callE 6 10%R; NChange 0 "gain" (Change 1%R (time_of 100 10) Immediate); NChange 1 "q" (Change 2%R (time_of 100 12) (Linear (time_of 100 10))); NStop; callE 1 10%R; NStart; callE 5 10%R;
   NCancel 5 "pan" None; callE 3 1%R].
Definition rack_calls : list (nop R R effect) :=
  [NInput 0; NConnect 20 0 1 (Connection 0 0 2); NConnect 21 1 2 (Connection 0 0 2); NConnect 22 2 3 (Connection 0 0 2); NConnect 23 3 4 (Connection 0 0 2);
   NConnect 24 4 5 (Connection 0 0 2); NOutput 5].
Definition rack_history : list (nop R R effect) := rack_before ++ (create <$> rack_links) ++ rack_calls ++ rack_after.

Lemma rack_small : (0 < Z.of_nat 100 <= 2 ^ 29)%Z ∧ block_ok 100 4.
Proof. split; [lia|]. split; [lia|]. split; lia. Qed.
Lemma rack_ok n d : (n, d) ∈ rack → device_ok 100 4 d ∧ lasting d ∧ device_state 100 4 d = Ok (rack_state d).
Proof.
  intros H. unfold rack in H. repeat (apply elem_of_cons in H as [H|H]; [injection H as -> ->|]); [..|by apply elem_of_nil in H]; cbn [device_ok lasting].
  - done. - done.
  - split; [split; [done|cbn; lia]|]. split; [done|].
    destruct (session_reverberated rack_impulse 4 []) as (c & outs & Ec & _); [done|cbn; lia|lia|constructor|]. unfold rack_state. cbn [device_state]. rewrite Ec. done.
  - split; [|done]. constructor; [constructor|]. constructor; [|constructor]. constructor; [|constructor]. split; [cbn; lia|]. split; [cbn; lia|done].
  - destruct rack_small as [H1 H2]. split; [|done]. split; [done|]. split; [done|]. constructor; [|constructor]. by constructor.
  - done.
Qed.
Lemma rack_made : made 100 4 rack rack_links.
Proof.
  unfold made, rack_links. rewrite Forall2_fmap_r. apply Forall_Forall2_diag, Forall_forall. intros [n d] H. destruct (rack_ok n d H) as (H1 & _ & H2). done.
Qed.
Lemma rack_connected : connect_nodes (chain_of true rack_links) [20; 21; 22; 23; 24] = Some rack_calls.
Proof. reflexivity. Qed.
Lemma callE_ok n x : pop_ok (to_pop (callE n x)).
Proof. cbn. unfold wf. cbn. rewrite !replicate_length. repeat split; lia. Qed.
Lemma rack_setup : good_setup (dsp_process R_num (λ v, v) effect_run) 8 4 100 (λ _, rev_order) (λ _ l, l) (to_pop <$> rack_history).
Proof.
  split; [exact effect_shape|]. do 3 (split; [lia|]). split; [intros _; apply rev_order_any|]. split; [done|]. split.
  - unfold rack_history, rack_before, rack_after, rack_calls, rack_links, rack. cbn [fmap list_fmap app create].
    repeat (constructor; [first [exact (callE_ok _ _)|done]|]). constructor.
  - change (NoDup [20; 21; 22; 23; 24]). repeat (constructor; [set_solver|]). constructor.
Qed.
Lemma rack_undisturbed : undisturbed true rack_links rack_before rack_after.
Proof.
  split; [|split; [|split; [|split]]].
  - intros k eid m c Hk Hin. unfold rack_before, rack_after, callE in Hin. cbn [app] in Hin.
    repeat (apply elem_of_cons in Hin as [Hin|Hin]; [discriminate Hin|]). by apply elem_of_nil in Hin.
  - intros k Hk Hin. unfold rack_after, callE in Hin. repeat (apply elem_of_cons in Hin as [Hin|Hin]; [discriminate Hin|]). by apply elem_of_nil in Hin.
  - intros k m Hk Hin. unfold rack_after, callE in Hin. repeat (apply elem_of_cons in Hin as [Hin|Hin]; [discriminate Hin|]). by apply elem_of_nil in Hin.
  - intros m Hin. unfold rack_after, callE in Hin. repeat (apply elem_of_cons in Hin as [Hin|Hin]; [discriminate Hin|]). by apply elem_of_nil in Hin.
  - intros m Hin. unfold rack_after, callE in Hin. repeat (apply elem_of_cons in Hin as [Hin|Hin]; [discriminate Hin|]). by apply elem_of_nil in Hin.
Qed.
Lemma rack_processed : unprocessed [] (to_pop <$> rack_history) = [].
Proof. reflexivity. Qed.

Definition small_plan (n : nat) (m : gmap id (nat * nat * gset string)) : Prop := size m ≤ n.
Lemma small_insert n i x m : small_plan n m → small_plan (S n) (<[i := x]> m).
Proof. unfold small_plan. intros H. rewrite map_size_insert. destruct (m !! i); cbn; lia. Qed.
Lemma small_empty : small_plan 0 ∅.
Proof. unfold small_plan. by rewrite map_size_empty. Qed.
Ltac find_node := cbn [s_nodes s_conns sempty]; repeat (rewrite lookup_insert_ne by done); rewrite ?lookup_insert; first [done|by eexists].
Ltac new_conn := let c := fresh in let Hc := fresh in intros c Hc; cbn [s_conns app] in Hc;
  repeat (apply elem_of_cons in Hc as [->|Hc]; [cbn; lia|]); by apply elem_of_nil in Hc.
Lemma ranked_callback s n (x y : R) (os : list (nop R R effect)) : (∀ c, c ∈ s_conns s → c_from c < c_to c) → small_plan 6 (s_nodes s) →
  careful (effect_good 4 100) 8 2 s true os → careful (effect_good 4 100) 8 2 s true (NCallback (Owned (replicate n x) 1 n 100) Whole (Owned (replicate n y) 1 n 100) Whole :: os).
Proof. intros H1 H2. apply (do_callback _ _ _ _ _ _ _ _ (λ n, n)). intros _. split; [done|]. unfold small_plan in H2. lia. Qed.

Lemma rack_careful : careful (effect_good 4 100) 8 2 sempty false rack_history.
Proof.
  assert (F : ∀ n d, (n, d) ∈ rack → device_inputs d ≤ 2 ∧ device_outputs d ≤ 2 ∧ node_fit (effect_good 4 100) (device_inputs d) (device_outputs d) (rack_state d)).
  { intros n d H. destruct (rack_ok n d H) as (H1 & H2 & H3). split; [|split; [|by apply device_fits]];
      unfold rack in H; repeat (apply elem_of_cons in H as [H|H]; [injection H as -> ->; cbn; lia|]); by apply elem_of_nil in H. }
  unfold rack_history, rack_before, rack_after, rack_calls, callE. cbn [app].
  apply do_start. apply ranked_callback; [intros c Hc; by apply elem_of_nil in Hc|eapply Nat.le_trans; [apply small_empty|lia]|].
  assert (Hnew : ∀ s n d (os : list (nop R R effect)), (n, d) ∈ rack → s_nodes s !! n = None →
    careful (effect_good 4 100) 8 2 (SGraph (<[n := (device_inputs d, device_outputs d, dom (ds_params (rack_state d)))]> (s_nodes s)) (s_conns s)) true os →
    careful (effect_good 4 100) 8 2 s true (NNew n (device_inputs d) (device_outputs d) (rack_state d) :: os)).
  { intros s n d os H Hn Hc. destruct (F n d H) as (F1 & F2 & F3). eapply do_new; [reflexivity|done..]. }
  unfold rack_links, rack. cbn [fmap list_fmap]. unfold create. cbn [k_id k_ins k_outs k_state fst snd app].
  do 6 (match goal with |- LimitsSpec.careful _ _ _ _ _ (NNew ?n (device_inputs ?d) _ _ :: _) => apply (Hnew _ n d) end;
    [unfold rack; repeat first [apply elem_of_list_here|apply elem_of_list_further]|find_node|cbn [s_nodes s_conns sempty app]]).
  apply do_input. do 5 (apply do_connect; [find_node|find_node|new_conn|cbn; lia|cbn; lia|cbn [s_nodes s_conns sempty app]]). apply do_output. cbn [s_nodes s_conns sempty app].
  assert (Hs : ∀ a b c d e f, small_plan 6 (<[5:=f]> (<[4:=e]> (<[3:=d]> (<[2:=c]> (<[1:=b]> (<[0:=a]> ∅))))))).
  { intros. do 6 apply small_insert. apply small_empty. }
  apply ranked_callback; [new_conn|apply Hs|].
  apply do_change; [|by intros [s H]|].
  { intros i o names E. cbn [s_nodes] in E. repeat (rewrite lookup_insert_ne in E by done). rewrite lookup_insert in E. injection E as <- <- <-.
    change (rack_state _) with (gain_node (/ 2)). unfold gain_node. cbn [ds_params]. rewrite params_dom. cbn. set_solver. }
  apply do_change; [|by intros [s H]|].
  { intros i o names E. cbn [s_nodes] in E. repeat (rewrite lookup_insert_ne in E by done). rewrite lookup_insert in E. injection E as <- <- <-.
    change (rack_state _) with (biquad_node 100 2 LowPass 20 1 0 1). unfold biquad_node. cbn [ds_params]. rewrite params_dom. cbn. set_solver. }
  apply do_stop, (do_callback _ _ _ _ _ _ _ _ (λ n, n)); [done|]. apply do_start.
  apply ranked_callback; [new_conn|apply Hs|].
  apply do_cancel.
  { intros i o names E. cbn [s_nodes] in E. rewrite lookup_insert in E. injection E as <- <- <-.
    change (rack_state _) with (pan_node (/ 2)). unfold pan_node. cbn [ds_params]. rewrite params_dom. cbn. set_solver. }
  apply ranked_callback; [new_conn|apply Hs|]. done.
Qed.
Lemma rack_runs : ∃ st l, prun 0%R Rplus (dsp_process R_num (λ v, v) effect_run) (λ _, rev_order) (λ _ l, l) (new_processor 0%R 8 100 2 4) (to_pop <$> rack_history) = Ok (st, l).
Proof.
  apply library_never_aborts; [lia|lia|intros _; apply rev_order_any|done|lia| |exact rack_careful].
  change (NoDup [20; 21; 22; 23; 24]). repeat (constructor; [set_solver|]). constructor.
Qed.

(** ** A sampler *)
Definition solo_sample : owned R := Owned [1; 2; 3; 4; 5]%R 1 5 100.
Definition solo : list (id * device) := [(0, DSampler 2 10 solo_sample [0; 1]%R [[Event (time_of 100 1) 0 false (SStart 0%Z)]])].
Definition solo_links : list (link R effect) := (λ nd, Link nd.1 (device_inputs nd.2) (device_outputs nd.2) (rack_state nd.2)) <$> solo.
Definition solo_before : list (nop R R effect) := [NStart; callE 2 5%R].
Definition solo_after : list (nop R R effect) := [callE 6 10%R; callE 2 10%R].
Definition solo_history : list (nop R R effect) := solo_before ++ (create <$> solo_links) ++ [NOutput 0] ++ solo_after.
Lemma solo_runs : ∃ st l, prun 0%R Rplus (dsp_process R_num (λ v, v) effect_run) (λ _, rev_order) (λ _ l, l) (new_processor 0%R 8 100 2 4) (to_pop <$> solo_history) = Ok (st, l).
Proof. eexists _, _. vm_compute. reflexivity. Qed.
Lemma solo_made : made 100 4 solo solo_links.
Proof.
  unfold made, solo_links. rewrite Forall2_fmap_r. apply Forall_Forall2_diag, Forall_forall. intros [n d] H. apply elem_of_list_singleton in H. injection H as -> ->.
  destruct rack_small as [H1 H2]. do 4 (split; [done|]). cbn [device_ok snd]. do 3 (split; [done|]). split; [cbn; lia|]. cbn. lia.
Qed.
Lemma solo_connected : connect_nodes (chain_of false solo_links) [] = Some [NOutput (V := R) (A := R) (P := effect) 0].
Proof. reflexivity. Qed.
Lemma solo_setup : good_setup (dsp_process R_num (λ v, v) effect_run) 8 4 100 (λ _, rev_order) (λ _ l, l) (to_pop <$> solo_history).
Proof.
  split; [exact effect_shape|]. do 3 (split; [lia|]). split; [intros _; apply rev_order_any|]. split; [done|]. split.
  - unfold solo_history, solo_before, solo_after, solo_links, solo. cbn [fmap list_fmap app].
    repeat (constructor; [first [exact (callE_ok _ _)|done]|]). constructor.
  - constructor.
Qed.
Lemma solo_undisturbed : undisturbed false solo_links solo_before solo_after.
Proof.
  split; [intros k eid m c Hk Hin|split; [intros k Hk Hin|split; [intros k m Hk Hin|split; intros m Hin]]]; unfold solo_before, solo_after, callE in Hin; cbn [app] in Hin;
    repeat (apply elem_of_cons in Hin as [Hin|Hin]; [discriminate Hin|]); by apply elem_of_nil in Hin.
Qed.
