(** Networks of the library's nodes. *)
From stdpp Require Import gmap list list_numbers strings sorting.
From Coq Require Import ZArith Lia ZifyBool ZifyNat Reals Lra.
From Verif Require Import Base Graph GraphSpec TopoSort TopoSortSpec TopoSortProofs Buffer BufferSpec DspGraph DspGraphSpec Float Timestamp EventProcessor Sampler Recorder RecorderSpec
  Processor ProcessorSpec AudioParam AudioParamR BiquadSpec Node NodeSpec NodeProofs NodeExamples LimitsSpec LimitsProofs
  Chain ChainSpec ChainProofs Effects EffectShape EffectsSpec EffectsProofs StreamSpec StreamProofs DeviceProofs SinkProofs LibraryProofs LibraryExamples NetSpec NetProofs.
Local Open Scope nat_scope.

Lemma foldl_sum l : ∀ acc : R, foldl Rplus acc l = (acc + foldr Rplus 0 l)%R.
Proof. induction l as [|x l IH]; intros acc; cbn; [lra|]. rewrite IH. lra. Qed.
Lemma hears_mix ys base cs ch : hears Rplus ys base cs ch = mix_of ys base cs ch.
Proof.
  unfold mix_of, alone, first_carries. destruct cs as [|c cs]; cbn [hears].
  - rewrite decide_False by tauto. cbn. lra.
  - destruct (decide (cs = [] ∧ straight c)) as [[-> H]|H]; [by rewrite decide_True by done|].
    assert (E : match cs with [] => if decide (straight c) then Some (c_from c) else None | _ :: _ => None end = None).
    { destruct cs; [|done]. rewrite decide_False; [done|]. intros Hs. by apply H. }
    rewrite E. rewrite foldl_sum. destruct (decide (carries c ch)) as [Hc|Hc].
    + rewrite filter_cons_True by done. cbn. lra.
    + by rewrite filter_cons_False by done.
Qed.

Lemma library_net nbuf MC MF sr sh dr ds ks ws before after st l :
  let os := before ++ (create <$> ks) ++ ws ++ after : list (nop R R effect) in
  made sr MF ds ks → good_setup (dsp_process R_num (λ v, v) effect_run) nbuf MF sr sh dr (to_pop <$> os) → settled ks ws before after →
  unprocessed [] (to_pop <$> os) = [] →
  prun 0%R Rplus (dsp_process R_num (λ v, v) effect_run) sh dr (new_processor 0%R nbuf sr MC MF) (to_pop <$> os) = Ok (st, l) →
  let on := running false (sent (to_pop <$> before)) in
  let pos := frames_played false (to_pop <$> before) in
  let blocks := blocks_of MF sr on pos after in
  ∃ a (xs ys : id → stream R), graph_is st a ∧
    (∀ n d, (n, d) ∈ ds → ∃ st', s_nodes (a_graph a) !! n = Some (Dsp (device_inputs d) (device_outputs d) st') ∧ reports sr blocks d (xs n) (ds_proc st')) ∧
    (∀ n d ch, (n, d) ∈ ds → length (xs n ch) = length_of blocks) ∧
    (∀ n d, (n, d) ∈ ds → performs sr blocks (λ name, events_of MF sr n name on pos after) d (xs n) (ys n)) ∧
    (∀ n d ch i, (n, d) ∈ ds → ch < device_inputs d → i < length_of blocks →
       at_ (xs n ch) i = mix_of (λ m c, at_ (ys m c) i) (at_ (input_stream 0%R MC (bool_decide (net_input ws = Some n)) on after ch) i) (connections_into n ws) ch) ∧
    (∀ o, net_output ws = Some o → o ∈ ds.*1 → heard_as 0%R MC on after (drop (callbacks before) l) (ys o)).
Proof.
  intros os Hm Hg Hs Hun E on pos blocks.
  destruct (engine_net R_num (λ v, v) 0%R Rplus effect_run nbuf MC MF sr sh dr ks ws before after st l Hg Hs Hun E) as (a & rss & Ha & R1 & R2 & R3). fold on pos in R1, R2, R3. fold blocks in R1, R2.
  assert (Hids : k_id <$> ks = ds.*1).
  { clear -Hm. induction Hm as [|d k ds ks (E & _) _ IH]; [done|]. change (k_id k :: (k_id <$> ks) = d.1 :: ds.*1). by rewrite E, IH. }
  exists a, (λ n, taken 0%R (rss n)), (λ n, given 0%R (rss n)). split; [exact Ha|]. split; [|split; [|split; [|split]]].
  - intros n d Hd. apply elem_of_list_lookup in Hd as [i Hd].
    destruct (Forall2_lookup_l _ _ _ _ _ Hm Hd) as (k & Hk & Hi & Hin & Hout & Hst & Hok). cbn [fst snd] in *.
    destruct (R1 k) as (Hb & st' & Hl & Hse); [by eapply elem_of_list_lookup_2|]. rewrite Hi, Hin, Hout in *.
    exists st'. split; [exact Hl|]. assert (Hp : reports sr (times (rss n)) d (taken 0%R (rss n)) (ds_proc st')).
    { eapply device_reports; [done|exact Hst|exact Hse| |]; unfold times; rewrite Hb; [apply blocks_fit; by destruct Hg as (_ & _ & ? & _)|]. intros Hsr. by apply blocks_nonneg. }
    unfold times in Hp. by rewrite Hb in Hp.
  - intros n d ch Hd. apply elem_of_list_lookup in Hd as [i Hd].
    destruct (Forall2_lookup_l _ _ _ _ _ Hm Hd) as (k & Hk & Hi & _). cbn [fst snd] in *.
    destruct (R1 k) as (Hb & _); [by eapply elem_of_list_lookup_2|]. rewrite Hi in Hb. rewrite taken_length, <-Hb. unfold length_of. f_equal. by rewrite <-list_fmap_compose.
  - intros n d Hd. apply elem_of_list_lookup in Hd as [i Hd].
    destruct (Forall2_lookup_l _ _ _ _ _ Hm Hd) as (k & Hk & Hi & Hin & Hout & Hst & Hok). cbn [fst snd] in *.
    destruct (R1 k) as (Hb & st' & Hl & Hse); [by eapply elem_of_list_lookup_2|]. rewrite Hi, Hin, Hout in *.
    assert (Hp : performs sr (times (rss n)) (λ name, events_of MF sr n name on pos after) d (taken 0%R (rss n)) (given 0%R (rss n))).
    { eapply device_performs; [done|exact Hst|exact Hse|]. unfold times. rewrite Hb. apply blocks_fit. by destruct Hg as (_ & _ & ? & _). }
    unfold times in Hp. by rewrite Hb in Hp.
  - intros n d ch i Hd Hch Hi'. apply elem_of_list_lookup in Hd as [j Hd].
    destruct (Forall2_lookup_l _ _ _ _ _ Hm Hd) as (k & Hk & Hi & Hin & Hout & Hst & Hok). cbn [fst snd] in *.
    rewrite <-Hi. unfold at_ at 1. rewrite (R2 k ch i); [|by eapply elem_of_list_lookup_2|by rewrite Hin|done]. cbn. by rewrite hears_mix.
  - intros o Ho Hin. apply R3; [done|]. by rewrite Hids.
Qed.

(** a take in a network *)
Lemma library_take nbuf MC MF sr sh dr ds ks ws before after st l n cc count size inbox bs b :
  let os := before ++ (create <$> ks) ++ ws ++ after : list (nop R R effect) in
  made sr MF ds ks → good_setup (dsp_process R_num (λ v, v) effect_run) nbuf MF sr sh dr (to_pop <$> os) → settled ks ws before after →
  unprocessed [] (to_pop <$> os) = [] →
  prun 0%R Rplus (dsp_process R_num (λ v, v) effect_run) sh dr (new_processor 0%R nbuf sr MC MF) (to_pop <$> os) = Ok (st, l) →
  let on := running false (sent (to_pop <$> before)) in
  let pos := frames_played false (to_pop <$> before) in
  let blocks := blocks_of MF sr on pos after in
  (n, DRecorder cc count size inbox) ∈ ds → blocks = bs ++ [b] → one_take (length bs) inbox →
  ∃ a (xs ys : id → stream R) st' r got rest, graph_is st a ∧
    s_nodes (a_graph a) !! n = Some (Dsp cc 0 st') ∧ ds_proc st' = FRecorder r got rest ∧
    (∀ more r' got', Forall (λ o, o = HandleNote ∨ o = TakeRecording) more →
       rrun 0%R code_note_capacity code_event_capacity r got more = Ok (r', got') → rp_notes (rc_proc r') = [] →
       RecorderSpec.received got' r' = stream_frames cc (xs n) (length_of bs) ∧ rc_is_recording r' = false) ∧
    (∀ n d, (n, d) ∈ ds → performs sr blocks (λ name, events_of MF sr n name on pos after) d (xs n) (ys n)) ∧
    (∀ n d ch i, (n, d) ∈ ds → ch < device_inputs d → i < length_of blocks →
       at_ (xs n ch) i = mix_of (λ m c, at_ (ys m c) i) (at_ (input_stream 0%R MC (bool_decide (net_input ws = Some n)) on after ch) i) (connections_into n ws) ch).
Proof.
  intros os Hm Hg Hs Hun E on pos blocks Hd Hbl Hin.
  destruct (library_net nbuf MC MF sr sh dr ds ks ws before after st l Hm Hg Hs Hun E) as (a & xs & ys & Ha & R1 & R2 & R3 & R4 & _). fold on pos in R1, R2, R3, R4. fold blocks in R1, R2, R3, R4.
  assert (Hok : device_ok sr MF (DRecorder cc count size inbox)).
  { apply elem_of_list_lookup in Hd as [i Hd]. by destruct (Forall2_lookup_l _ _ _ _ _ Hm Hd) as (k & Hk & _ & _ & _ & _ & Hok). }
  destruct (R1 _ _ Hd) as (st' & Hn & Hr).
  assert (Hb : Forall (λ b : timestamp * nat, (0 < b.2 ≤ MF) ∧ (0 <= b.1)%Z) blocks).
  { apply Forall_and. split; [apply blocks_fit; by destruct Hg as (_ & _ & ? & _)|]. apply blocks_nonneg. apply Hok. }
  pose proof (R2 _ _ 0 Hd) as Hlen. rewrite Hbl in *.
  assert (H : ∀ more r' got', ∃ r got rest, ds_proc st' = FRecorder r got rest ∧
    (Forall (λ o, o = HandleNote ∨ o = TakeRecording) more → rrun 0%R code_note_capacity code_event_capacity r got more = Ok (r', got') → rp_notes (rc_proc r') = [] →
     RecorderSpec.received got' r' = stream_frames cc (xs n) (length_of bs) ∧ rc_is_recording r' = false)).
  { intros more r' got'. eapply one_take_recorded; [exact Hok|exact Hb| |exact Hr|done]. intros ch. exact (R2 _ _ ch Hd). }
  destruct Hr as (r & got & rest & Hp & _). exists a, xs, ys, st', r, got, rest. split; [done|]. split; [done|]. split; [done|]. split; [|by split].
  intros more r' got' Hm' Em Hn'. destruct (H more r' got') as (r2 & got2 & rest2 & Hp2 & H'). rewrite Hp in Hp2. injection Hp2 as <- <- <-. by apply H'.
Qed.

(** ** The nodes of the rack (LibraryExamples.v) as a network: node 0 feeds three others, nodes 3 and 5 mix *)
Definition patch_calls : list (nop R R effect) :=
  [NConnect 20 0 1 (Connection 0 0 2); NConnect 21 0 2 (Connection 0 0 2); NInput 0; NConnect 22 1 3 (Connection 0 0 2); NConnect 23 2 3 (Connection 0 1 1);
   NConnect 24 3 4 (Connection 0 0 2); NOutput 5; NConnect 25 4 5 (Connection 0 0 2); NConnect 26 0 5 (Connection 1 0 1)].
Definition patch_history : list (nop R R effect) := rack_before ++ (create <$> rack_links) ++ patch_calls ++ rack_after.
Lemma patch_setup : good_setup (dsp_process R_num (λ v, v) effect_run) 8 4 100 (λ _, rev_order) (λ _ l, l) (to_pop <$> patch_history).
Proof.
  split; [exact effect_shape|]. do 3 (split; [lia|]). split; [intros _; apply rev_order_any|]. split; [done|]. split.
  - unfold patch_history, rack_before, rack_after, patch_calls, rack_links, rack. cbn [fmap list_fmap app create].
    repeat (constructor; [first [exact (callE_ok _ _)|done]|]). constructor.
  - change (NoDup [20; 21; 22; 23; 24; 25; 26]). repeat (constructor; [set_solver|]). constructor.
Qed.
Lemma patch_settled : settled rack_links patch_calls rack_before rack_after.
Proof.
  destruct rack_undisturbed as (U1 & U2 & U3 & U4 & U5). split; [|split; [|split; [exact U1|split; [exact U2|split; [exact U3|split]]]]].
  - unfold patch_calls. repeat (constructor; [done|]). constructor.
  - intros eid m n c Hin _. change (k_id <$> rack_links) with [0; 1; 2; 3; 4; 5]. unfold patch_calls in Hin.
    repeat (apply elem_of_cons in Hin as [Hin|Hin]; [first [discriminate Hin|injection Hin as -> -> -> ->; repeat first [apply elem_of_list_here|apply elem_of_list_further]]|]).
    by apply elem_of_nil in Hin.
  - change (net_input patch_calls) with (Some 0). intros m Hin. apply U4 in Hin. by injection Hin as <-.
  - change (net_output patch_calls) with (Some 5). intros o m [= <-] Hin. apply U5 in Hin. by injection Hin as <-.
Qed.
Lemma state_gain cc g : rack_state (DGain cc g) = gain_node g.
Proof. reflexivity. Qed.
Lemma state_biquad cc t f q s g : rack_state (DBiquad cc t f q s g) = biquad_node 100 cc t f q s g.
Proof. reflexivity. Qed.
Lemma state_pan p : rack_state (DPan p) = pan_node p.
Proof. reflexivity. Qed.
Local Opaque rack_state.
Lemma patch_careful : careful (effect_good 4 100) 8 2 sempty false patch_history.
Proof.
  assert (F : ∀ n d, (n, d) ∈ rack → device_inputs d ≤ 2 ∧ device_outputs d ≤ 2 ∧ node_fit (effect_good 4 100) (device_inputs d) (device_outputs d) (rack_state d)).
  { intros n d H. destruct (rack_ok n d H) as (H1 & H2 & H3). split; [|split; [|by apply device_fits]];
      unfold rack in H; repeat (apply elem_of_cons in H as [H|H]; [injection H as -> ->; cbn; lia|]); by apply elem_of_nil in H. }
  unfold patch_history, rack_before, rack_after, patch_calls, callE. cbn [app].
  apply do_start. apply ranked_callback; [intros c Hc; by apply elem_of_nil in Hc|eapply Nat.le_trans; [apply small_empty|lia]|].
  assert (Hnew : ∀ s n d (os : list (nop R R effect)), (n, d) ∈ rack → s_nodes s !! n = None →
    careful (effect_good 4 100) 8 2 (SGraph (<[n := (device_inputs d, device_outputs d, dom (ds_params (rack_state d)))]> (s_nodes s)) (s_conns s)) true os →
    careful (effect_good 4 100) 8 2 s true (NNew n (device_inputs d) (device_outputs d) (rack_state d) :: os)).
  { intros s n d os H Hn Hc. destruct (F n d H) as (F1 & F2 & F3). eapply do_new; [reflexivity|done..]. }
  unfold rack_links, rack. cbn [fmap list_fmap]. unfold create. cbn [k_id k_ins k_outs k_state fst snd app].
  do 6 (match goal with |- LimitsSpec.careful _ _ _ _ _ (NNew ?n (device_inputs ?d) _ _ :: _) => apply (Hnew _ n d) end;
    [unfold rack; repeat first [apply elem_of_list_here|apply elem_of_list_further]|find_node|cbn [s_nodes s_conns sempty app]]).
  do 2 (apply do_connect; [find_node|find_node|new_conn|cbn; lia|cbn; lia|cbn [s_nodes s_conns sempty app]]). apply do_input. do 3 (apply do_connect; [find_node|find_node|new_conn|cbn; lia|cbn; lia|cbn [s_nodes s_conns sempty app]]).
  apply do_output. do 2 (apply do_connect; [find_node|find_node|new_conn|cbn; lia|cbn; lia|cbn [s_nodes s_conns sempty app]]). cbn [s_nodes s_conns sempty app].
  assert (Hs : ∀ a b c d e f, small_plan 6 (<[5:=f]> (<[4:=e]> (<[3:=d]> (<[2:=c]> (<[1:=b]> (<[0:=a]> ∅))))))).
  { intros. do 6 apply small_insert. apply small_empty. }
  apply ranked_callback; [new_conn|apply Hs|].
  apply do_change; [|by intros [s H]|].
  { intros i o names E. cbn [s_nodes] in E. repeat (rewrite lookup_insert_ne in E by done). rewrite lookup_insert in E. injection E as <- <- <-.
    rewrite state_gain. unfold gain_node. cbn [ds_params]. rewrite params_dom. cbn. set_solver. }
  apply do_change; [|by intros [s H]|].
  { intros i o names E. cbn [s_nodes] in E. repeat (rewrite lookup_insert_ne in E by done). rewrite lookup_insert in E. injection E as <- <- <-.
    rewrite state_biquad. unfold biquad_node. cbn [ds_params]. rewrite params_dom. cbn. set_solver. }
  apply do_stop, (do_callback _ _ _ _ _ _ _ _ (λ n, n)); [done|]. apply do_start.
  apply ranked_callback; [new_conn|apply Hs|].
  apply do_cancel.
  { intros i o names E. cbn [s_nodes] in E. rewrite lookup_insert in E. injection E as <- <- <-.
    rewrite state_pan. unfold pan_node. cbn [ds_params]. rewrite params_dom. cbn. set_solver. }
  apply ranked_callback; [new_conn|apply Hs|]. done.
Qed.
Lemma patch_runs : ∃ st l, prun 0%R Rplus (dsp_process R_num (λ v, v) effect_run) (λ _, rev_order) (λ _ l, l) (new_processor 0%R 8 100 2 4) (to_pop <$> patch_history) = Ok (st, l).
Proof.
  apply library_never_aborts; [lia|lia|intros _; apply rev_order_any|done|lia| |exact patch_careful].
  change (NoDup [20; 21; 22; 23; 24; 25; 26]). repeat (constructor; [set_solver|]). constructor.
Qed.


(** ** A sampler that plays to the output and into a recorder *)
Definition studio_inbox : list (list (rop R)) := [[RecordNow]; [HandleNote]; [HandleNote; StopNow]].
Definition studio : list (id * device) :=
  [(0, DSampler 2 10 solo_sample [0; 1]%R [[Event (time_of 100 1) 0 false (SStart 0%Z)]]); (1, DRecorder 2 2 4 studio_inbox)].
Definition studio_links : list (link R effect) := (λ nd, Link nd.1 (device_inputs nd.2) (device_outputs nd.2) (rack_state nd.2)) <$> studio.
Definition studio_calls : list (nop R R effect) := [NConnect 20 0 1 (Connection 0 0 2); NOutput 0].
Definition studio_history : list (nop R R effect) := solo_before ++ (create <$> studio_links) ++ studio_calls ++ solo_after.
Lemma studio_runs : ∃ st l, prun 0%R Rplus (dsp_process R_num (λ v, v) effect_run) (λ _, rev_order) (λ _ l, l) (new_processor 0%R 8 100 2 4) (to_pop <$> studio_history) = Ok (st, l).
Proof. eexists _, _. vm_compute. reflexivity. Qed.
Lemma studio_made : made 100 4 studio studio_links.
Proof.
  unfold made, studio_links. rewrite Forall2_fmap_r. apply Forall_Forall2_diag, Forall_forall. intros [n d] H. destruct rack_small as [H1 H2].
  apply elem_of_cons in H as [H|H]; [|apply elem_of_list_singleton in H]; injection H as -> ->; do 4 (split; [done|]); cbn [device_ok snd].
  - do 3 (split; [done|]). split; [cbn; lia|]. cbn. lia.
  - split; [lia|]. split; [lia|]. split; [split; [lia|]; split; lia|]. repeat constructor.
Qed.
Lemma studio_setup : good_setup (dsp_process R_num (λ v, v) effect_run) 8 4 100 (λ _, rev_order) (λ _ l, l) (to_pop <$> studio_history).
Proof.
  split; [exact effect_shape|]. do 3 (split; [lia|]). split; [intros _; apply rev_order_any|]. split; [done|]. split.
  - unfold studio_history, solo_before, solo_after, studio_calls, studio_links, studio. cbn [fmap list_fmap app create].
    repeat (constructor; [first [exact (callE_ok _ _)|done]|]). constructor.
  - change (NoDup [20]). repeat (constructor; [set_solver|]). constructor.
Qed.
Lemma studio_settled : settled studio_links studio_calls solo_before solo_after.
Proof.
  assert (H : ∀ o : nop R R effect, o ∈ solo_before ++ solo_after → o = NStart ∨ ∃ n x, o = callE n x).
  { intros o Hin. unfold solo_before, solo_after in Hin. cbn [app] in Hin. repeat (apply elem_of_cons in Hin as [Hin|Hin]; [subst o; first [by left|right; by eexists _, _]|]). by apply elem_of_nil in Hin. }
  assert (H' : ∀ o : nop R R effect, o ∈ solo_after → o = NStart ∨ ∃ n x, o = callE n x) by (intros o Hin; apply H, elem_of_app; by right).
  split; [unfold studio_calls; by repeat constructor|]. split; [|split; [|split; [|split; [|split]]]].
  - intros eid m n c Hin _. unfold studio_calls in Hin. apply elem_of_cons in Hin as [Hin|Hin]; [injection Hin as -> -> -> ->; apply elem_of_list_here|]. apply elem_of_list_singleton in Hin. discriminate Hin.
  - intros k eid m c _ Hin. by destruct (H _ Hin) as [?|(? & ? & ?)].
  - intros k _ Hin. by destruct (H' _ Hin) as [?|(? & ? & ?)].
  - intros k m _ Hin. by destruct (H' _ Hin) as [?|(? & ? & ?)].
  - change (net_input studio_calls) with (@None nat). cbn iota. intros m Hin. by destruct (H _ Hin) as [?|(? & ? & ?)].
  - intros o m _ Hin. by destruct (H' _ Hin) as [?|(? & ? & ?)].
Qed.
(** the recorder afterwards *)
Definition studio_recorder : option (recorder R * list (owned R)) :=
  match prun 0%R Rplus (dsp_process R_num (λ v, v) effect_run) (λ _, rev_order) (λ _ l, l) (new_processor 0%R 8 100 2 4) (to_pop <$> studio_history) with
  | Ok (st, _) => match get_node (dg_graph (p_graph st)) 1 with Some (Dsp _ _ (DspState _ (FRecorder r got _))) => Some (r, got) | _ => None end
  | Panic _ => None
  end.
Lemma studio_reads : match studio_recorder with
  | Some (r, got) => match rrun 0%R code_note_capacity code_event_capacity r got [HandleNote; HandleNote; HandleNote; HandleNote; TakeRecording] with
                     | Ok (r', got') => bool_decide (length (rp_notes (rc_proc r')) = 0) && bool_decide (length (RecorderSpec.received got' r') = 6)
                     | Panic _ => false
                     end
  | None => false
  end = true.
Proof. vm_compute. reflexivity. Qed.
