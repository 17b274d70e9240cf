(** Automations in a network. *)
From stdpp Require Import gmap list list_numbers strings.
From Coq Require Import ZArith Lia ZifyBool ZifyNat Reals Lra.
From Verif Require Import Base Graph GraphSpec TopoSort TopoSortSpec TopoSortProofs Buffer BufferSpec DspGraph DspGraphSpec Float Timestamp
  Processor ProcessorSpec AudioParam AudioParamSpec AudioParamR Biquad BiquadSpec Node NodeSpec NodeProofs NodeExamples LimitsSpec LimitsProofs
  Chain ChainSpec ChainProofs Effects EffectShape EffectsSpec EffectsProofs StreamSpec StreamProofs DeviceProofs LibraryProofs LibraryExamples NetProofs NetLibrary
  AutomationSpec AutomationProofs AutomationCases NetAutomationSpec NetSpec.
Local Open Scope nat_scope.

Lemma at_automation v l pos n i : i < n → at_ (automation v l <$> seq pos n) i = automation v l (pos + i).
Proof. intros H. unfold at_. by rewrite list_lookup_fmap, lookup_seq_lt. Qed.
Lemma valued_unique sr v es vs vs' : valued sr v es vs → valued sr v es vs' → vs = vs'.
Proof. intros [p E] [p' E']. rewrite E in E'. by injection E'. Qed.

Lemma performs_automation sr q MF on pos (os : list (nop R R effect)) n d x y : (Z.of_nat sr * q = 2 ^ 32)%Z → (0 < q)%Z → 0 < MF →
  let blocks := blocks_of MF sr on pos os in
  (Z.of_nat (pos + length_of blocks) * q <= 2 ^ 53)%Z →
  performs sr blocks (λ name, events_of MF sr n name on pos os) d x y →
  follows_automation sr pos (length_of blocks) (asks_for q on pos os n) d x y.
Proof.
  intros Hq Hq0 Hm blocks Hb (_ & _ & H).
  assert (Hv : ∀ name v l g, asks_for q on pos os n name v l → valued sr v (events_of MF sr n name on pos os) g → g = automation v l <$> seq pos (length_of blocks)).
  { intros name v l g (H1 & H2 & calls & H3 & H4) Hg. eapply valued_unique; [exact Hg|]. by apply (automation_engine sr q Hq Hq0 MF n name on pos os v l calls). }
  destruct d; cbn [follows_automation] in *; try done.
  - destruct H as (g & Hg & H). intros l Hl ch i Hch Hi. rewrite (Hv _ _ _ _ Hl Hg) in H. specialize (H ch i Hch Hi). by rewrite at_automation in H.
  - destruct H as (g & Hg & H). intros l Hl i Hi. rewrite (Hv _ _ _ _ Hl Hg) in H. specialize (H i Hi). by rewrite at_automation in H.
  - destruct H as (fs & qs & ss & gs & H1 & H2 & H3 & H4 & H). intros lf lq ls lg Lf Lq Ls Lg ch Hch. destruct (H ch Hch) as (v & F & G).
    rewrite (Hv _ _ _ _ Lf H1), (Hv _ _ _ _ Lq H2), (Hv _ _ _ _ Ls H3) in F. rewrite (Hv _ _ _ _ Lg H4) in G. exists v. split.
    + match type of F with follows _ ?cs _ _ => match goal with |- follows _ ?cs' _ _ => replace cs' with cs; [exact F|] end end.
      apply list_eq. intros i. rewrite !(list_lookup_fmap _ (seq _ _) i). destruct (decide (i < length_of blocks)) as [Hi|Hi]; [|by rewrite !lookup_seq_ge by lia].
      rewrite !lookup_seq_lt by done. cbn [fmap option_fmap option_map]. rewrite Nat.add_0_l. by rewrite !at_automation.
    + intros i Hi. specialize (G i Hi). by rewrite at_automation in G.
  - destruct H as (ws & ds & H1 & H2 & H). intros lw ld Lw Ld ch i Hch Hi. rewrite (Hv _ _ _ _ Lw H1), (Hv _ _ _ _ Ld H2) in H. specialize (H ch i Hch Hi). by rewrite !at_automation in H.
  - destruct H as (fs & gs & H1 & H2 & H). intros lf lg Lf Lg Hf ch i Hch Hi. rewrite (Hv _ _ _ _ Lf H1), (Hv _ _ _ _ Lg H2) in H. destruct (H Hf) as [_ H']. specialize (H' ch i Hch Hi). by rewrite at_automation in H'.
Qed.

Lemma library_automation nbuf MC MF sr q sh dr ds ks ws before after st l :
  let os := before ++ (create <$> ks) ++ ws ++ after : list (nop R R effect) in
  (Z.of_nat sr * q = 2 ^ 32)%Z → (0 < q)%Z →
  made sr MF ds ks → good_setup (dsp_process R_num (λ v, v) effect_run) nbuf MF sr sh dr (to_pop <$> os) → settled ks ws before after →
  unprocessed [] (to_pop <$> os) = [] →
  prun 0%R Rplus (dsp_process R_num (λ v, v) effect_run) sh dr (new_processor 0%R nbuf sr MC MF) (to_pop <$> os) = Ok (st, l) →
  let on := running false (sent (to_pop <$> before)) in
  let pos := frames_played false (to_pop <$> before) in
  let frames := length_of (blocks_of MF sr on pos after) in
  (Z.of_nat (pos + frames) * q <= 2 ^ 53)%Z →
  ∃ xs ys : id → stream R,
    (∀ n d, (n, d) ∈ ds → follows_automation sr pos frames (asks_for q on pos after n) d (xs n) (ys n)) ∧
    (∀ n d, (n, d) ∈ ds → performs sr (blocks_of MF sr on pos after) (λ name, events_of MF sr n name on pos after) d (xs n) (ys n)) ∧
    (∀ n d ch i, (n, d) ∈ ds → ch < device_inputs d → i < frames →
       at_ (xs n ch) i = mix_of (λ m c, at_ (ys m c) i) (at_ (input_stream 0%R MC (bool_decide (net_input ws = Some n)) on after ch) i) (connections_into n ws) ch) ∧
    (∀ o, net_output ws = Some o → o ∈ ds.*1 → heard_as 0%R MC on after (drop (callbacks before) l) (ys o)).
Proof.
  intros os Hq Hq0 Hm Hg Hse Hun E on pos frames Hb.
  destruct (library_net nbuf MC MF sr sh dr ds ks ws before after st l Hm Hg Hse Hun E) as (g & xs & ys & _ & _ & _ & R3 & R4 & R5).
  exists xs, ys. split; [|by split; [|split]]. intros n d Hd. apply (performs_automation sr q MF); [done|done|by destruct Hg as (_ & _ & ? & _)|done|]. by apply R3.
Qed.

(** ** A gain, a filter that is swept and a panner, one after the other *)
Definition desk : list (id * device) := [(0, DGain 2 1%R); (1, DBiquad 2 LowPass 8%R 1%R 0%R 1%R); (2, DPan 0%R)].
Definition desk_links : list (link R effect) :=
  [Link 0 2 2 (gain_node 1); Link 1 2 2 (biquad_node 64 2 LowPass 8%R 1%R 0%R 1%R); Link 2 2 2 (pan_node 0)].
Definition desk_calls : list (nop R R effect) := [NInput 0; NConnect 20 0 1 (Connection 0 0 2); NConnect 21 1 2 (Connection 0 0 2); NOutput 2].
Definition desk_call (n : nat) (x : R) : nop R R effect := NCallback (Owned (replicate n x) 1 n 64) Whole (Owned (replicate n 0%R) 1 n 64) Whole.
(** from 8 Hz to 16 Hz over frames 2 to 5, from the middle to the right over frames 3 and 4 *)
Definition sweep : move := Move Line 2 4 16.
Definition to_right : move := Move Line 3 2 1.
Definition desk_change (n : id) (name : string) (m : move) : nop R R effect := NChange n name (change_of (2 ^ 26) m).
Definition desk_before : list (nop R R effect) := [NStart].
Definition desk_after : list (nop R R effect) :=
  [desk_change 0 "gain" line_down; desk_change 0 "gain" jump_up; desk_change 1 "frequency" sweep; desk_call 2 10%R;
   desk_change 2 "pan" to_right; desk_change 0 "gain" line_up; desk_call 6 10%R].
Definition desk_history : list (nop R R effect) := desk_before ++ (create <$> desk_links) ++ desk_calls ++ desk_after.

Lemma desk_made : made 64 4 desk desk_links.
Proof. unfold made, desk, desk_links. repeat (constructor; [by repeat split|]). constructor. Qed.
Lemma desk_call_ok n x : pop_ok (to_pop (desk_call n x)).
Proof. cbn. unfold wf. cbn. rewrite !replicate_length. repeat split; lia. Qed.
Lemma desk_setup : good_setup (dsp_process R_num (λ v, v) effect_run) 8 4 64 (λ _, rev_order) (λ _ l, l) (to_pop <$> desk_history).
Proof.
  split; [exact effect_shape|]. do 3 (split; [lia|]). split; [intros _; apply rev_order_any|]. split; [done|]. split.
  - unfold desk_history, desk_before, desk_after, desk_calls, desk_links. cbn [fmap list_fmap app create].
    repeat (constructor; [first [exact (desk_call_ok _ _)|done]|]). constructor.
  - change (NoDup [20; 21]). repeat (constructor; [set_solver|]). constructor.
Qed.
Lemma desk_settled : settled desk_links desk_calls desk_before desk_after.
Proof.
  assert (H : ∀ o : nop R R effect, o ∈ desk_before ++ desk_after → o = NStart ∨ (∃ n x, o = desk_call n x) ∨ ∃ n name m, o = desk_change n name m).
  { intros o Hin. unfold desk_before, desk_after in Hin. cbn [app] in Hin.
    repeat (apply elem_of_cons in Hin as [Hin|Hin]; [subst o; first [by left|right; left; by eexists _, _|right; right; by eexists _, _, _]|]). by apply elem_of_nil in Hin. }
  assert (H' : ∀ o : nop R R effect, o ∈ desk_after → o = NStart ∨ (∃ n x, o = desk_call n x) ∨ ∃ n name m, o = desk_change n name m) by (intros o Hin; apply H, elem_of_app; by right).
  split; [unfold desk_calls; by repeat constructor|]. split; [|split; [|split; [|split; [|split]]]].
  - intros eid m n c Hin _. unfold desk_calls in Hin. apply elem_of_cons in Hin as [Hin|Hin]; [discriminate Hin|].
    do 2 (apply elem_of_cons in Hin as [Hin|Hin]; [injection Hin as -> -> -> ->; change (k_id <$> desk_links) with [0; 1; 2]; set_solver|]). apply elem_of_list_singleton in Hin. discriminate Hin.
  - intros k eid m c _ Hin. by destruct (H _ Hin) as [?|[(? & ? & ?)|(? & ? & ? & ?)]].
  - intros k _ Hin. by destruct (H' _ Hin) as [?|[(? & ? & ?)|(? & ? & ? & ?)]].
  - intros k m _ Hin. by destruct (H' _ Hin) as [?|[(? & ? & ?)|(? & ? & ? & ?)]].
  - change (net_input desk_calls) with (Some 0). cbn iota. intros m Hin. by destruct (H' _ Hin) as [?|[(? & ? & ?)|(? & ? & ? & ?)]].
  - intros o m _ Hin. by destruct (H' _ Hin) as [?|[(? & ? & ?)|(? & ? & ? & ?)]].
Qed.
Lemma desk_gain : asks_for (2 ^ 26) true 0 desk_after 0 "gain" 1 straight_ride.
Proof.
  split; [exact straight_in_turn|]. split; [exact straight_fit|]. exists [line_down; jump_up; line_up]. split; [|exact (ride_order line_down)].
  cbn. repeat (split; [first [reflexivity|lia]|]). reflexivity.
Qed.
Lemma desk_sweep : asks_for (2 ^ 26) true 0 desk_after 1 "frequency" 8 [sweep].
Proof.
  pose proof eps_small as He. split; [done|]. split.
  - split; [|done]. split; [cbn; lia|]. right. cbn [mv_to mv_frames sweep]. replace (INR 4) with 4%R by (cbn; lra). rewrite Rabs_right; lra.
  - exists [sweep]. split; [|done]. cbn. repeat (split; [first [reflexivity|lia]|]). reflexivity.
Qed.
Lemma desk_pan : asks_for (2 ^ 26) true 0 desk_after 2 "pan" 0 [to_right].
Proof.
  pose proof eps_small as He. split; [done|]. split.
  - split; [|done]. split; [cbn; lia|]. right. cbn [mv_to mv_frames to_right]. change (INR 2) with 2%R. rewrite Rabs_right; lra.
  - exists [to_right]. split; [|done]. cbn. repeat (split; [first [reflexivity|lia]|]). reflexivity.
Qed.
Lemma desk_rest n name v : n = 1 → name ≠ "frequency" → asks_for (2 ^ 26) true 0 desk_after n name v [].
Proof.
  intros -> Hn. split; [done|]. split; [done|]. exists []. split; [|done]. unfold desk_after, desk_change, desk_call. cbn [calls_ask].
  do 2 rewrite decide_False by (intros [? _]; done). rewrite decide_False by (intros [_ ?]; congruence). do 2 rewrite decide_False by (intros [? _]; done). done.
Qed.
Lemma desk_careful : careful (effect_good 4 64) 8 2 sempty false desk_history.
Proof.
  assert (F : ∀ d st, lasting d → device_ok 64 4 d → device_state 64 4 d = Ok st → node_fit (effect_good 4 64) (device_inputs d) (device_outputs d) st) by (intros; by apply device_fits).
  assert (F1 := F (DGain 2 1%R) (gain_node 1) I I eq_refl). assert (F2 := F (DBiquad 2 LowPass 8%R 1%R 0%R 1%R) (biquad_node 64 2 LowPass 8%R 1%R 0%R 1%R) I I eq_refl).
  assert (F3 := F (DPan 0%R) (pan_node 0) I I eq_refl). cbn [device_inputs device_outputs] in F1, F2, F3. clear F.
  assert (D1 : "gain" ∈ dom (ds_params (gain_node 1))) by (cbn; set_solver).
  assert (D2 : "frequency" ∈ dom (ds_params (biquad_node 64 2 LowPass 8%R 1%R 0%R 1%R))) by (cbn; set_solver).
  assert (D3 : "pan" ∈ dom (ds_params (pan_node 0))) by (cbn; set_solver).
  unfold desk_history, desk_before, desk_after, desk_calls, desk_call, desk_change, desk_links. cbn [fmap list_fmap]. unfold create. cbn [k_id k_ins k_outs k_state app].
  set (g := gain_node 1) in *. set (b := biquad_node 64 2 LowPass 8%R 1%R 0%R 1%R) in *. set (p := pan_node 0) in *. clearbody g b p.
  apply do_start.
  do 3 (eapply do_new; [reflexivity|find_node|lia|lia|assumption|cbn [s_nodes s_conns sempty]]).
  apply do_input. do 2 (apply do_connect; [find_node|find_node|new_conn|cbn; lia|cbn; lia|cbn [s_nodes s_conns sempty app]]). apply do_output. cbn [s_nodes s_conns sempty app].
  assert (Hc : ∀ m name (x : move) (os : list (nop R R effect)) (s : sgraph (nat * nat * gset string) connection), mv_shape x ≠ Curve → (∀ i o names, s_nodes s !! m = Some (i, o, names) → name ∈ names) →
    careful (effect_good 4 64) 8 2 s true os → careful (effect_good 4 64) 8 2 s true (NChange m name (change_of (2 ^ 26) x) :: os)).
  { intros m name x os s Hx Hn Ho. apply do_change; [done| |done]. intros [t Ht]. unfold change_of in Ht. cbn in Ht. by destruct (mv_shape x). }
  assert (Hs : ∀ a b c, small_plan 6 (<[2:=c]> (<[1:=b]> (<[0:=a]> ∅)))).
  { intros. eapply Nat.le_trans; [do 3 apply small_insert; apply small_empty|lia]. }
  do 3 (apply Hc; [done|intros i o names E; cbn [s_nodes] in E; repeat (rewrite lookup_insert_ne in E by done); rewrite lookup_insert in E; injection E as <- <- <-; assumption|]).
  apply (do_call64 _ _ _ _ _ _ _ _ (λ n, n)); [intros _; split; [new_conn|cbn [s_nodes]; apply (Nat.add_le_mono_r _ 6 2); apply Hs]|].
  do 2 (apply Hc; [done|intros i o names E; cbn [s_nodes] in E; repeat (rewrite lookup_insert_ne in E by done); rewrite lookup_insert in E; injection E as <- <- <-; assumption|]).
  apply (do_call64 _ _ _ _ _ _ _ _ (λ n, n)); [intros _; split; [new_conn|cbn [s_nodes]; apply (Nat.add_le_mono_r _ 6 2); apply Hs]|].
  done.
Qed.
Lemma desk_runs : ∃ st l, prun 0%R Rplus (dsp_process R_num (λ v, v) effect_run) (λ _, rev_order) (λ _ l, l) (new_processor 0%R 8 64 2 4) (to_pop <$> desk_history) = Ok (st, l).
Proof.
  apply library_never_aborts; [lia|lia|intros _; apply rev_order_any|done|lia| |exact desk_careful].
  change (NoDup [20; 21]). repeat (constructor; [set_solver|]). constructor.
Qed.
