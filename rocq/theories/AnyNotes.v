(** Any notes, from the calls to the samples. *)
From stdpp Require Import gmap list list_numbers strings sorting.
From Coq Require Import ZArith Lia ZifyBool ZifyNat Reals Lra.
From Verif Require Import Base Graph GraphSpec TopoSort TopoSortSpec TopoSortProofs Buffer BufferSpec DspGraph DspGraphSpec Float Timestamp TimestampProofs EventProcessor EventProcessorSpec EventProcessorProofs Adsr AdsrSpec AdsrProofs
  EventChannel Sampler Recorder Processor ProcessorSpec AudioParam AudioParamR BiquadSpec Node NodeSpec NodeProofs NodeExamples LimitsSpec LimitsProofs
  Chain ChainSpec ChainProofs Effects EffectShape EffectsSpec EffectsProofs StreamSpec StreamProofs DeviceProofs LibraryProofs LibraryExamples NetSpec NetProofs NetLibrary MelodySpec ScoreProofs MelodyProofs NetMelody AnyNotesSpec.
Local Open Scope nat_scope.

Lemma order_ge ms : ∀ pos, in_order pos ms → Forall (λ m, pos ≤ frame_of_mark m) ms.
Proof. induction ms as [|m ms IH]; intros pos H; [constructor|]. destruct H as [H1 H2]. constructor; [done|]. eapply Forall_impl; [exact (IH _ H2)|]. cbn. lia. Qed.
Lemma order_sorted ms : ∀ pos, in_order pos ms → StronglySorted (λ x y, frame_of_mark x ≤ frame_of_mark y) ms.
Proof. induction ms as [|m ms IH]; intros pos H; [constructor|]. destruct H as [H1 H2]. constructor; [by eapply IH|]. by apply order_ge. Qed.
Lemma order_ascending ms : ∀ pos, ascending pos (frame_of_mark <$> ms) → in_order pos ms.
Proof. induction ms as [|m ms IH]; intros pos H; [done|]. destruct H as [H1 H2]. split; [done|]. by apply IH. Qed.
Lemma history_none ms pos n : Forall (λ m, pos + n ≤ frame_of_mark m) ms → notes_history pos ms n = replicate n AFrame.
Proof.
  revert pos. induction n as [|n IH]; intros pos H; [done|]. unfold notes_history in *. cbn [seq mbind list_bind replicate].
  replace (filter (λ m, frame_of_mark m = pos) ms) with (@nil mark).
  - cbn. f_equal. apply IH. eapply Forall_impl; [exact H|]. cbn. lia.
  - clear -H. induction H as [|m ms Hm _ IHm]; [done|]. rewrite filter_cons_False by lia. done.
Qed.
Lemma history_split ms pos a b : notes_history pos ms (a + b) = notes_history pos ms a ++ notes_history (pos + a) ms b.
Proof. unfold notes_history. by rewrite seq_app, bind_app. Qed.
Lemma history_drop m ms pos n : frame_of_mark m < pos → notes_history pos (m :: ms) n = notes_history pos ms n.
Proof.
  intros Hm. unfold notes_history. revert pos Hm. induction n as [|n IH]; intros pos Hm; [done|]. cbn [seq mbind list_bind]. rewrite filter_cons_False by lia. f_equal. apply (IH (S pos)). lia.
Qed.
Lemma history_now m ms n : notes_history (frame_of_mark m) (m :: ms) (S n) = AAct (note_action m) :: notes_history (frame_of_mark m) ms (S n).
Proof.
  unfold notes_history. cbn [seq mbind list_bind]. rewrite filter_cons_True by done. cbn [fmap list_fmap app]. do 2 f_equal. apply (history_drop m ms (S (frame_of_mark m)) n). lia.
Qed.
Lemma history_spread ms : ∀ pos n, in_order pos ms → notes_history pos ms n = spread pos ((λ m, (frame_of_mark m, note_action m)) <$> ms) n.
Proof.
  induction ms as [|m ms IH]; intros pos n H; [by apply history_none|]. destruct H as [H1 H2]. cbn [fmap list_fmap spread].
  destruct (Nat.ltb_spec (frame_of_mark m) (pos + n)) as [Hlt|Hge].
  - replace n with ((frame_of_mark m - pos) + S (n - (frame_of_mark m - pos) - 1)) at 1 by lia. rewrite history_split, history_none.
    + f_equal. replace (pos + (frame_of_mark m - pos)) with (frame_of_mark m) by lia. rewrite history_now. f_equal. rewrite IH by done. f_equal. lia.
    + apply Forall_cons. split; [lia|]. eapply Forall_impl; [exact (order_ge _ _ H2)|]. cbn. lia.
  - apply history_none. apply Forall_cons. split; [lia|]. eapply Forall_impl; [exact (order_ge _ _ H2)|]. cbn. lia.
Qed.

Section notes.
Context (sr : nat) (Hsr : (0 < Z.of_nat sr <= 2 ^ 29)%Z) (ta td s tr : R).
Lemma notes_heard pos blocks n0 score all ds : stream_blocks sr pos blocks → Forall (λ b : timestamp * nat, block_ok sr b.2) blocks → reachable_frame sr (pos + length_of blocks) →
  concat score = all → in_time pos score blocks → in_order pos all → Forall (λ m, reachable_frame sr (frame_of_mark m)) all →
  arrives sr [] (requests adsr_sends n0 (score_calls sr ta td s tr score)) blocks ds → 0 < length_of blocks →
  ∃ played, Forall2 (played_mark sr) all played ∧ in_order pos played ∧
    concat (zip_with (λ b d, block_history sr b.1 b.2 d) blocks ds) = adsr_settings ta td s tr ++ notes_history pos played (length_of blocks).
Proof.
  intros Hb Hok Hre Hc Hin Hsp Hrm Har HN. assert (H0 : 0 < sr) by lia.
  assert (Hge : Forall (λ m, pos ≤ frame_of_mark m) all) by (by apply order_ge).
  set (inbox := requests adsr_sends n0 (score_calls sr ta td s tr score)) in *.
  assert (Hcat : concat inbox = number n0 (as_event <$> (settings ta td s tr ++ (timed sr <$> all)))) by (unfold inbox; by rewrite requests_concat, score_concat, Hc).
  destruct (play_ops sr Hsr pos blocks inbox ds Hb Hok Hre Har) as (gs & G1 & G2 & G3).
  { rewrite Hcat. apply events_sorted.
    assert (Hsm : StronglySorted (λ x y : timestamp * adsr_action, (x.1 <= y.1)%Z) (timed sr <$> all)).
    { pose proof (order_sorted _ _ Hsp) as H. clear -H Hrm Hsr. induction H as [|m ms Hs IH Hm]; [constructor|]. apply Forall_cons in Hrm as [R1 R2]. cbn [fmap list_fmap]. constructor; [by apply IH|].
      apply Forall_fmap. apply Forall_forall. intros m' Hm'. change (time_of sr (frame_of_mark m) <= time_of sr (frame_of_mark m'))%Z. rewrite Forall_forall in Hm. specialize (Hm m' Hm'). rewrite !time_frame. destruct R1.
      destruct (decide (frame_of_mark m = frame_of_mark m')) as [->|]; [lia|]. rewrite Forall_forall in R2. destruct (R2 m' Hm').
      pose proof (frame_time_strict (Z.of_nat (frame_of_mark m)) (Z.of_nat (frame_of_mark m')) (Z.of_nat sr) ltac:(lia) ltac:(lia) ltac:(lia)). lia. }
    assert (Hpos : Forall (λ x : timestamp * adsr_action, (0 <= x.1)%Z) (timed sr <$> all)).
    { apply Forall_fmap. eapply Forall_impl; [exact Hrm|]. intros m Hm. cbn [timed fst compose]. cbn. by apply (time_nonneg sr Hsr). }
    unfold settings. cbn [app]. do 4 (constructor; [|repeat (constructor; [done|]); exact Hpos]). exact Hsm. }
  { assert (Hq : ∀ sc n p bl, in_time p sc bl → pos ≤ p → Forall (λ m, reachable_frame sr (frame_of_mark m)) (concat sc) →
      inbox_due sr pos p (requests adsr_sends n ((λ ms : list mark, call_of sr <$> ms) <$> sc)) bl).
    { assert (Hone : ∀ ms n p, Forall (λ m, p ≤ frame_of_mark m) ms → pos ≤ p → Forall (λ m, reachable_frame sr (frame_of_mark m)) ms → Forall (due sr pos p) (number n ((call_of sr <$> ms) ≫= adsr_sends))).
      { intros ms n p M1 M2 M3. rewrite sends_marks. apply number_Forall, Forall_fmap, Forall_forall. intros m Hm k. rewrite Forall_forall in M1, M3.
        right. exists (frame_of_mark m). split; [done|]. split; [by apply M3|]. specialize (M1 m Hm). lia. }
      intros sc. induction sc as [|ms sc IH]; intros n p bl I1 I2 I3; [done|]. cbn [concat] in I3. apply Forall_app in I3 as [I3 I4]. cbn [fmap list_fmap requests].
      destruct bl as [|[t fc] bl]; destruct I1 as [I1 I5]; (split; [by apply Hone|]); apply IH; try done; lia. }
    unfold inbox. destruct score as [|ms score].
    - destruct blocks as [|[t fc] blocks]; split; try done; by repeat (constructor; [by left|]).
    - cbn [score_calls requests mbind list_bind]. rewrite <-Hc in Hrm. cbn [concat] in Hrm. apply Forall_app in Hrm as [Hr1 Hr2].
      assert (Hf : Forall (due sr pos pos) (number n0 ((call_of sr <$> ms) ≫= adsr_sends)) → True) by done. clear Hf.
      assert (Hfirst : in_time pos [ms] [] → Forall (due sr pos pos) (number n0 (adsr_sends (ASetAdsr ta td s tr) ++ ((call_of sr <$> ms) ≫= adsr_sends)))).
      { intros [M1 _]. rewrite number_app. apply Forall_app. split; [by repeat (constructor; [by left|])|]. rewrite sends_marks. apply number_Forall, Forall_fmap, Forall_forall. intros m Hm k.
        rewrite Forall_forall in M1, Hr1. right. exists (frame_of_mark m). split; [done|]. split; [by apply Hr1|]. specialize (M1 m Hm). lia. }
      destruct blocks as [|[t fc] blocks]; destruct Hin as [I1 I2]; (split; [by apply Hfirst|]); apply Hq; try done; lia. }
  rewrite Hcat in *. rewrite events_data in G3. rewrite fmap_app, number_app in G1. apply Forall2_app_inv_l in G1 as (gs1 & gs2 & F1 & F2 & ->).
  assert (E1 : gs1 = replicate 4 pos).
  { assert (Hall : Forall (λ g, g = pos) gs1).
    { assert (Hz : ∀ e g, ev_time e = 0%Z → landed (P := adsr_action) sr pos e g → g = pos).
      { intros e g E [[_ ?]|(f & Ef & Rf & Pf & [Lf _])]; [done|]. assert (f ≤ 0) by (apply (time_le sr Hsr); [done|by apply reachable_0|rewrite time_0 by done; lia]). lia. }
      unfold settings in F1. cbn [fmap list_fmap number imap] in F1. clear -F1 Hz.
      do 4 (inversion F1 as [|? ? ? ? X1 F1']; subst; clear F1; rename F1' into F1; constructor; [by eapply Hz; [|exact X1]|clear X1]). inversion F1. constructor. }
    apply Forall2_length in F1. cbn in F1. do 4 (destruct gs1 as [|? gs1]; [done|apply Forall_cons in Hall as [-> Hall]]). by destruct gs1. }
  assert (E2 : ∃ played, gs2 = frame_of_mark <$> played ∧ Forall2 (played_mark sr) all played).
  { assert (Hl : ∀ m n g, reachable_frame sr (frame_of_mark m) → pos ≤ frame_of_mark m → landed sr pos (as_event (timed sr m) n) g → lands sr (frame_of_mark m) g).
    { intros m n g Rm Pm [[Et ->]|(f & Et & Rf & Pf & Lf)]; cbn in Et.
      - assert (frame_of_mark m ≤ 0) by (apply (time_le sr Hsr); [done|by apply reachable_0|rewrite time_0 by done; lia]). replace (frame_of_mark m) with pos by lia. apply lands_self.
      - assert (frame_of_mark m = f) as -> by (apply (anti_symm (≤)); apply (time_le sr Hsr); (done || lia)). done. }
    revert F2. generalize (n0 + length (as_event <$> settings ta td s tr)). intros n F2. clear -F2 Hrm Hge Hl. revert n gs2 F2 Hrm Hge.
    induction all as [|m all IH]; intros n gs2 F2 Hrm Hge; [inversion F2; by exists []|].
    change (as_event <$> (timed sr <$> m :: all)) with ([as_event (timed sr m)] ++ (as_event <$> (timed sr <$> all))) in F2.
    rewrite number_app in F2. cbn [number imap app] in F2. inversion F2 as [|? g1 ? gs' L1 F2']; subst.
    apply Forall_cons in Hrm as [R1 Hrm]. apply Forall_cons in Hge as [R2 Hge]. destruct (IH _ _ F2' Hrm Hge) as (played & -> & Hp).
    apply Hl in L1; [|done..]. exists ((match m with On _ => On g1 | Off _ => Off g1 end) :: played). split; [by destruct m|]. constructor; [|done]. by destruct m. }
  destruct E2 as (played & -> & Hp). exists played. split; [done|]. rewrite E1 in *.
  assert (G2' : in_order pos played) by (apply order_ascending; by destruct G2 as (_ & _ & _ & _ & G2)). split; [done|]. rewrite G3.
  assert (Ez : zip (replicate 4 pos ++ (frame_of_mark <$> played)) (settings ta td s tr ++ (timed sr <$> all)).*2 =
    [(pos, SetAttack ta); (pos, SetDecay td); (pos, SetSustain s); (pos, SetRelease tr)] ++ ((λ m, (frame_of_mark m, note_action m)) <$> played)).
  { cbn. do 4 f_equal. clear -Hp. induction Hp as [|m p all played [E _] _ IH]; [done|]. cbn. f_equal; [|exact IH]. rewrite E. by destruct m. }
  rewrite Ez, (history_spread played pos (length_of blocks) G2'). set (N := length_of blocks) in *.
  assert (Hact : ∀ x l, spread pos ((pos, x) :: l) N = AAct x :: spread pos l N).
  { intros x l. cbn [spread]. rewrite Nat.sub_diag, Nat.sub_0_r. by destruct (Nat.ltb_spec pos (pos + N)); [|lia]. }
  cbn [app]. rewrite !Hact. done.
Qed.
End notes.

Lemma library_notes nbuf MC MF sr sh dr ds ks ws before after st l n cc n0 ta td s tr score all :
  let os := before ++ (create <$> ks) ++ ws ++ after : list (nop R R effect) in
  made sr MF ds ks → good_setup (dsp_process R_num (λ v, v) effect_run) nbuf MF sr sh dr (to_pop <$> os) → settled ks ws before after →
  unprocessed [] (to_pop <$> os) = [] →
  prun 0%R Rplus (dsp_process R_num (λ v, v) effect_run) sh dr (new_processor 0%R nbuf sr MC MF) (to_pop <$> os) = Ok (st, l) →
  let on := running false (sent (to_pop <$> before)) in
  let pos := frames_played false (to_pop <$> before) in
  let blocks := blocks_of MF sr on pos after in
  (n, DAdsr cc (requests adsr_sends n0 (score_calls sr ta td s tr score))) ∈ ds →
  concat score = all → in_time pos score blocks → in_order pos all →
  Forall (λ m, reachable_frame sr (frame_of_mark m)) all → reachable_frame sr (pos + length_of blocks) →
  ∃ played (xs ys : id → stream R),
    Forall2 (played_mark sr) all played ∧ in_order pos played ∧
    (∀ ch i, ch < cc → i < length_of blocks →
       at_ (ys n ch) i = (at_ (xs n ch) i * at_ (env_values sr (adsr_settings ta td s tr ++ notes_history pos played (length_of blocks))) i)%R) ∧
    (∀ n d, (n, d) ∈ ds → performs sr blocks (λ name, events_of MF sr n name on pos after) d (xs n) (ys n)) ∧
    (∀ n d ch i, (n, d) ∈ ds → ch < device_inputs d → i < length_of blocks →
       at_ (xs n ch) i = mix_of (λ m c, at_ (ys m c) i) (at_ (input_stream 0%R MC (bool_decide (net_input ws = Some n)) on after ch) i) (connections_into n ws) ch) ∧
    (∀ o, net_output ws = Some o → o ∈ ds.*1 → heard_as 0%R MC on after (drop (callbacks before) l) (ys o)).
Proof.
  intros os Hm Hg Hse Hun E on pos blocks Hd Hc Hin Hor Hrf Hre.
  destruct (library_net nbuf MC MF sr sh dr ds ks ws before after st l Hm Hg Hse Hun E) as (g & xs & ys & _ & _ & _ & R3 & R4 & R5). fold on pos in R3, R4, R5. fold blocks in R3, R4.
  assert (Hok : device_ok sr MF (DAdsr cc (requests adsr_sends n0 (score_calls sr ta td s tr score)))).
  { apply elem_of_list_lookup in Hd as [i Hd]. by destruct (Forall2_lookup_l _ _ _ _ _ Hm Hd) as (k & Hk & _ & _ & _ & _ & Hok). }
  destruct Hok as (Hsr & (B1 & B2 & B3) & _). assert (HMF : 0 < MF) by (by destruct Hg as (_ & _ & ? & _)).
  destruct (R3 _ _ Hd) as (_ & _ & dl & Har & Hy).
  destruct (decide (length_of blocks = 0)) as [Hz|Hz].
  { exists all, xs, ys. split; [apply Forall_Forall2_diag, Forall_forall; intros m _; split; [done|apply lands_self]|]. split; [done|]. split; [|by split; [|split]]. intros ch i _ Hi. lia. }
  destruct (notes_heard sr Hsr ta td s tr pos blocks n0 score all dl) as (played & P1 & P2 & P3); [by apply blocks_stream| |done..|lia|].
  { eapply Forall_impl; [apply (blocks_fit MF sr after HMF on pos)|]. intros [t fc] [F1 F2]. cbn [snd] in *. split; [done|]. split; [lia|]. nia. }
  exists played, xs, ys. split; [done|]. split; [done|]. split; [|by split; [|split]]. intros ch i Hch Hi. cbv zeta in Hy. rewrite (Hy ch i Hch Hi). by rewrite P3.
Qed.

(** ** A gain and an ADSR node after it: notes started again, ended twice, and cut short *)
Definition choir_score : list (list mark) := [[On 3; On 4; Off 5]; [Off 6; On 7]; [Off 8]].
Definition choir : list (id * device) :=
  [(0, DGain 2 (/ 2)%R);
   (1, DAdsr 2 (requests adsr_sends 1 (score_calls 100 (/ 100) (/ 100) (/ 2) (/ 100) choir_score)))].
Definition choir_links : list (link R effect) := (λ nd, Link nd.1 (device_inputs nd.2) (device_outputs nd.2) (rack_state nd.2)) <$> choir.
Definition choir_calls : list (nop R R effect) := [NInput 0; NConnect 20 0 1 (Connection 0 0 2); NOutput 1].
Definition choir_history : list (nop R R effect) := solo_before ++ (create <$> choir_links) ++ choir_calls ++ solo_after.
Lemma choir_made : made 100 4 choir choir_links.
Proof.
  unfold made, choir_links. rewrite Forall2_fmap_r. apply Forall_Forall2_diag, Forall_forall. intros [n d] H. destruct rack_small as [H1 H2].
  apply elem_of_cons in H as [H|H]; [|apply elem_of_list_singleton in H]; injection H as -> ->; do 4 (split; [done|]); cbn [device_ok snd].
  - done.
  - split; [done|]. split; [done|]. repeat constructor.
Qed.
Lemma choir_setup : good_setup (dsp_process R_num (λ v, v) effect_run) 8 4 100 (λ _, rev_order) (λ _ l, l) (to_pop <$> choir_history).
Proof.
  split; [exact effect_shape|]. do 3 (split; [lia|]). split; [intros _; apply rev_order_any|]. split; [done|]. split.
  - unfold choir_history, solo_before, solo_after, choir_calls, choir_links, choir. cbn [fmap list_fmap app create].
    repeat (constructor; [first [exact (callE_ok _ _)|done]|]). constructor.
  - change (NoDup [20]). repeat (constructor; [set_solver|]). constructor.
Qed.
Lemma choir_settled : settled choir_links choir_calls solo_before solo_after.
Proof.
  assert (H : ∀ o : nop R R effect, o ∈ solo_before ++ solo_after → o = NStart ∨ ∃ n x, o = callE n x).
  { intros o Hin. unfold solo_before, solo_after in Hin. cbn [app] in Hin. repeat (apply elem_of_cons in Hin as [Hin|Hin]; [subst o; first [by left|right; by eexists _, _]|]). by apply elem_of_nil in Hin. }
  assert (H' : ∀ o : nop R R effect, o ∈ solo_after → o = NStart ∨ ∃ n x, o = callE n x) by (intros o Hin; apply H, elem_of_app; by right).
  split; [unfold choir_calls; by repeat constructor|]. split; [|split; [|split; [|split; [|split]]]].
  - intros eid m n c Hin _. unfold choir_calls in Hin. apply elem_of_cons in Hin as [Hin|Hin]; [discriminate Hin|]. apply elem_of_cons in Hin as [Hin|Hin]; [injection Hin as -> -> -> ->; apply elem_of_list_here|]. apply elem_of_list_singleton in Hin. discriminate Hin.
  - intros k eid m c _ Hin. by destruct (H _ Hin) as [?|(? & ? & ?)].
  - intros k _ Hin. by destruct (H' _ Hin) as [?|(? & ? & ?)].
  - intros k m _ Hin. by destruct (H' _ Hin) as [?|(? & ? & ?)].
  - change (net_input choir_calls) with (Some 0). cbn iota. intros m Hin. by destruct (H' _ Hin) as [?|(? & ? & ?)].
  - intros o m _ Hin. by destruct (H' _ Hin) as [?|(? & ? & ?)].
Qed.
Local Opaque rack_state.
Lemma choir_careful : careful (effect_good 4 100) 8 2 sempty false choir_history.
Proof.
  assert (F : ∀ n d, (n, d) ∈ choir → device_inputs d ≤ 2 ∧ device_outputs d ≤ 2 ∧ node_fit (effect_good 4 100) (device_inputs d) (device_outputs d) (rack_state d)).
  { intros n d H. assert (Hok : made 100 4 choir choir_links) by exact choir_made. apply elem_of_list_lookup in H as [i H]. destruct (Forall2_lookup_l _ _ _ _ _ Hok H) as (k & Hk & _ & _ & _ & Hst & Hd).
    unfold choir_links in Hk. rewrite list_lookup_fmap, H in Hk. injection Hk as <-. cbn [k_state snd] in Hst. apply elem_of_list_lookup_2 in H.
    split; [|split; [|apply (device_fits 100 4 d); [|done|done]]]; unfold choir in H; apply elem_of_cons in H as [H|H]; [..|apply elem_of_list_singleton in H| |apply elem_of_list_singleton in H| |apply elem_of_list_singleton in H]; injection H as -> ->; (done || (cbn; lia)). }
  unfold choir_history, solo_before, solo_after, choir_calls, callE. cbn [app].
  apply do_start. apply ranked_callback; [intros c Hc; by apply elem_of_nil in Hc|eapply Nat.le_trans; [apply small_empty|lia]|].
  assert (Hnew : ∀ s n d (os : list (nop R R effect)), (n, d) ∈ choir → s_nodes s !! n = None →
    careful (effect_good 4 100) 8 2 (SGraph (<[n := (device_inputs d, device_outputs d, dom (ds_params (rack_state d)))]> (s_nodes s)) (s_conns s)) true os →
    careful (effect_good 4 100) 8 2 s true (NNew n (device_inputs d) (device_outputs d) (rack_state d) :: os)).
  { intros s n d os H Hn Hc. destruct (F n d H) as (F1 & F2 & F3). eapply do_new; [reflexivity|done..]. }
  unfold choir_links, choir. cbn [fmap list_fmap]. unfold create. cbn [k_id k_ins k_outs k_state fst snd app].
  do 2 (match goal with |- LimitsSpec.careful _ _ _ _ _ (NNew ?n (device_inputs ?d) _ _ :: _) => apply (Hnew _ n d) end;
    [unfold choir; repeat first [apply elem_of_list_here|apply elem_of_list_further]|find_node|cbn [s_nodes s_conns sempty app]]).
  apply do_input. apply do_connect; [find_node|find_node|new_conn|cbn; lia|cbn; lia|cbn [s_nodes s_conns sempty app]]. apply do_output. cbn [s_nodes s_conns sempty app].
  assert (Hs : ∀ a b, small_plan 2 (<[1:=b]> (<[0:=a]> ∅))) by (intros; do 2 apply small_insert; apply small_empty).
  assert (Hs8 : ∀ a b, small_plan 6 (<[1:=b]> (<[0:=a]> ∅))) by (intros; eapply Nat.le_trans; [apply Hs|lia]).
  apply ranked_callback; [new_conn|apply Hs8|]. apply ranked_callback; [new_conn|apply Hs8|]. done.
Qed.
Lemma choir_runs : ∃ st l, prun 0%R Rplus (dsp_process R_num (λ v, v) effect_run) (λ _, rev_order) (λ _ l, l) (new_processor 0%R 8 100 2 4) (to_pop <$> choir_history) = Ok (st, l).
Proof.
  apply library_never_aborts; [lia|lia|intros _; apply rev_order_any|done|lia| |exact choir_careful].
  change (NoDup [20]). repeat (constructor; [set_solver|]). constructor.
Qed.
