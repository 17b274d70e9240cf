(** Proofs about networks of nodes (NetSpec.v). *)
From stdpp Require Import gmap list list_numbers strings.
From Coq Require Import ZArith Lia ZifyBool ZifyNat.
From Verif Require Import Base Graph GraphSpec TopoSort Buffer BufferSpec BufferProofs DspGraph DspGraphSpec DspGraphProofs
  Float Timestamp Processor ProcessorSpec ProcessorProofs AudioParam AudioParamSpec Node NodeSpec NodeProofs NodeGain Chain ChainSpec ChainProofs
  Effects EffectsSpec StreamSpec StreamProofs NetSpec.
Local Open Scope nat_scope.

(** choosing for each id in a list *)
Lemma choose_ids {X Y} (f : X → id) (Q : X → Y → Prop) (y0 : Y) (l : list X) : NoDup (f <$> l) → (∀ x, x ∈ l → ∃ y, Q x y) →
  ∃ g : id → Y, ∀ x, x ∈ l → Q x (g (f x)).
Proof.
  induction l as [|x l IH]; intros Hnd H.
  - exists (λ _, y0). by intros x Hx%elem_of_nil.
  - cbn in Hnd. apply NoDup_cons in Hnd as [Hx Hnd]. destruct IH as [g Hg]; [done|intros x' Hx'; apply H; by right|].
    destruct (H x ltac:(by left)) as [y Hy]. exists (λ n, if decide (n = f x) then y else g n).
    intros x' [->|Hx']%elem_of_cons; [by rewrite decide_True|]. rewrite decide_False; [by apply Hg|].
    intros E. apply Hx. rewrite <-E. by apply elem_of_list_fmap_1.
Qed.

Section mix.
Context {A : Type} (zero : A) (add : A → A → A).

Lemma mixed_hears (outs : id → owned A) cs ch fr : ∀ acc, mixed zero add outs cs acc ch fr =
  foldl add acc (brought (λ m c, heard_at zero (outs m) c fr) ch <$> filter (λ c, carries c ch) cs).
Proof.
  induction cs as [|c cs IH]; intros acc; [done|]. unfold mixed in *. cbn [foldl]. rewrite IH.
  destruct (decide (carries c ch)) as [Hc|Hc].
  - rewrite filter_cons_True by done. unfold delivers. by rewrite decide_True by exact Hc.
  - rewrite filter_cons_False by done. unfold delivers. by rewrite decide_False by exact Hc.
Qed.
Lemma heard_hears (outs : id → owned A) sys cs ch fr :
  heard zero add outs sys cs ch fr = hears add (λ m c, heard_at zero (outs m) c fr) (sys ch fr) cs ch.
Proof.
  destruct cs as [|c cs]; [done|]. cbn [heard hears]. destruct (decide (cs = [] ∧ straight c)) as [H|H]; [by rewrite decide_True by exact H|]. rewrite decide_False by exact H.
  rewrite mixed_hears. f_equal. unfold overwrite, delivers. destruct (decide (carries c ch)) as [Hc|Hc]; [by rewrite decide_True by exact Hc|by rewrite decide_False by exact Hc].
Qed.
Lemma hears_ext (ys ys' : id → nat → A) base base' cs ch : base = base' → (∀ c, c ∈ cs → ∀ ch', ys (c_from c) ch' = ys' (c_from c) ch') →
  hears add ys base cs ch = hears add ys' base' cs ch.
Proof.
  intros <- H. destruct cs as [|c cs]; [done|]. cbn [hears]. case_decide; [apply H; by left|]. f_equal.
  - case_decide; [|done]. unfold brought. apply H. by left.
  - apply list_fmap_ext. intros i c' Hi. unfold brought. apply H. apply elem_of_list_lookup_2 in Hi.
    apply elem_of_list_filter in Hi as [_ Hi]. by right.
Qed.
End mix.

Section net.
Context {V A P : Type} (N : num V) (to_sample : V → A) (zero : A) (add : A → A → A).
Context (run : P → timestamp → (string → res (list A)) → owned A → owned A → res (P * owned A)).
Context (MC MF sr : nat).
Notation dstate := (dspstate V P).
Notation proc := (dsp_process N to_sample run).
Notation irun := (irun zero add proc MC MF sr).
Notation astep := (astep zero add proc MC MF sr).
Notation session := (session N to_sample zero run sr).
Notation pops := (fmap to_pop).
Notation cnt n := ((n + (MF - 1)) / MF).
Notation round := (@round V A).
Implicit Types (ks : list (link V P)) (os : list (nop V A P)) (a : @astate dstate).

(** the state of the graph: connections into the nodes, who gets the input and who gives the output *)
Definition netted a (ids : list id) (cs : id → list (conn connection)) (inp out : option id) : Prop :=
  (∀ n, n ∈ ids → conns_of (a_graph a) n Incoming = cs n ∧ (a_in a = Some (EInput, n) ↔ inp = Some n)) ∧
  (∀ o, out = Some o → a_out a = Some (EOutput, o)).

Definition quiet_net (ids : list id) (inp out : option id) os : Prop :=
  (∀ n eid m c, n ∈ ids → NConnect eid m n c ∉ os) ∧ (∀ n, n ∈ ids → NDrop n ∉ os) ∧ (∀ n m, n ∈ ids → NDisconnect m n ∉ os) ∧
  (∀ m, NInput m ∈ os → match inp with Some i => m = i | None => m ∉ ids end) ∧ (∀ o m, out = Some o → NOutput m ∈ os → m = o).
Lemma quiet_net_tail ids inp out o os : quiet_net ids inp out (o :: os) → quiet_net ids inp out os.
Proof.
  intros (Q1 & Q2 & Q3 & Q4 & Q5). split; [|split; [|split; [|split]]].
  - intros n eid m c Hn Hin. apply (Q1 n eid m c Hn). by right.
  - intros n Hn Hin. apply (Q2 n Hn). by right.
  - intros n m Hn Hin. apply (Q3 n m Hn). by right.
  - intros m Hin. apply Q4. by right.
  - intros o' m Ho Hin. apply (Q5 o' m Ho). by right.
Qed.

(** what the nodes hear in a history *)
Definition net_streams ks (cs : id → list (conn connection)) (inp : option id) (on : bool) (pos : nat) os (rss : id → list round) : Prop :=
  ∀ k ch, k ∈ ks → ch < k_ins k → taken zero (rss (k_id k)) ch =
    (λ i, hears add (λ m, frame_of zero (given zero (rss m)) i) (frame_of zero (input_stream zero MC (bool_decide (inp = Some (k_id k))) on os) i ch) (cs (k_id k)) ch)
      <$> seq 0 (length_of (blocks_of MF sr on pos os)).
Definition net_rounds a ks (on : bool) (pos : nat) os (rss : id → list round) : Prop :=
  ∀ k, k ∈ ks → (λ r, (r_time r, r_frames r)) <$> rss (k_id k) = blocks_of MF sr on pos os ∧
    ∃ st', s_nodes (a_graph a) !! k_id k = Some (Dsp (k_ins k) (k_outs k) st') ∧ session (k_ins k) (k_outs k) (k_state k) (λ name, events_of MF sr (k_id k) name on pos os) (rss (k_id k)) st'.

Lemma callback_length pos n : 0 < MF → length_of (callback_blocks MF sr pos n) = n.
Proof.
  intros Hmf. destruct (join_chunks MF ((λ j, replicate (chunk_len MF n j) ()) <$> seq 0 (cnt n)) Hmf n) as [J _].
  { rewrite <-list_fmap_compose. apply list_fmap_ext. intros i x _. cbn. by rewrite replicate_length. }
  rewrite join_length, <-list_fmap_compose in J. rewrite <-J at 2. unfold length_of, callback_blocks. f_equal. rewrite <-list_fmap_compose.
  apply list_fmap_ext. intros i x _. cbn. by rewrite replicate_length.
Qed.
Lemma length_of_app l l' : length_of (l ++ l') = length_of l + length_of l'.
Proof. unfold length_of. by rewrite fmap_app, sum_list_with_app || rewrite fmap_app; induction (l.*2) as [|x r IH]; [done|]; cbn; lia. Qed.

Lemma frame_of_l (y1 y2 y : stream A) i ch : y ch = y1 ch ++ y2 ch → i < length (y1 ch) → frame_of zero y i ch = frame_of zero y1 i ch.
Proof. intros E Hi. unfold frame_of. by rewrite E, lookup_app_l. Qed.
Lemma frame_of_r (y1 y2 y : stream A) n i ch : y ch = y1 ch ++ y2 ch → length (y1 ch) = n → frame_of zero y (n + i) ch = frame_of zero y2 i ch.
Proof. intros E <-. unfold frame_of. rewrite E, lookup_app_r by lia. do 2 f_equal. lia. Qed.

(** a callback of a network *)
Lemma callback_net ks cs inp out inpb iv ov a a1 o0 o1 pos :
  0 < MF → holds a ks → NoDup (k_id <$> ks) → netted a (k_id <$> ks) cs inp out → (∀ k c, k ∈ ks → c ∈ cs (k_id k) → c_from c ∈ k_id <$> ks) →
  chunks zero add proc MC MF sr inpb iv ov (v_frames o0 ov) pos 0 a o0 a1 o1 → valid_view o0 ov →
  ∃ (rss : id → list round),
    (∀ k, k ∈ ks → ∃ st, s_nodes (a_graph a1) !! k_id k = Some (Dsp (k_ins k) (k_outs k) st) ∧
       (λ r, (r_time r, r_frames r)) <$> rss (k_id k) = callback_blocks MF sr pos (v_frames o0 ov) ∧
       session (k_ins k) (k_outs k) (k_state k) (λ _, (λ b, PBlock b.1 b.2) <$> callback_blocks MF sr pos (v_frames o0 ov)) (rss (k_id k)) st) ∧
    netted a1 (k_id <$> ks) cs inp out ∧ same_dims o0 o1 ∧
    (∀ k ch, k ∈ ks → ch < k_ins k → taken zero (rss (k_id k)) ch =
      (λ i, hears add (λ m, frame_of zero (given zero (rss m)) i)
        (if decide (inp = Some (k_id k) ∧ ch < v_channels inpb iv ∧ ch < MC) then heard_at zero inpb (off_ch iv + ch) (off_fr iv + i) else zero) (cs (k_id k)) ch)
      <$> seq 0 (v_frames o0 ov)) ∧
    (∀ o ch fr, out = Some o → o ∈ k_id <$> ks → ch < v_channels o0 ov → fr < v_frames o0 ov →
      sample o1 (off_ch ov + ch) (off_fr ov + fr) = if decide (ch < MC) then Some (frame_of zero (given zero (rss o)) fr ch) else sample o0 (off_ch ov + ch) (off_fr ov + fr)) ∧
    (∀ ch fr, ¬ in_rect (off_ch ov) (off_fr ov) (v_channels o0 ov) (v_frames o0 ov) ch fr → sample o1 ch fr = sample o0 ch fr).
Proof.
  intros Hmf Hh Hnd Hw Hcl Hch Hv. set (n := v_frames o0 ov) in *.
  destruct (callback_sessions N to_sample zero add run MC MF sr _ _ _ _ _ _ _ _ _ Hmf Hch eq_refl Hv)
    as (state & os' & C0 & Ce & D1 & K1 & Kn & R2 & R3).
  destruct Hw as (W1 & W2).
  assert (Kc : ∀ j m, j ≤ cnt n → conns_of (a_graph (state j)) m Incoming = conns_of (a_graph a) m Incoming).
  { intros j m Hj. unfold conns_of. rewrite <-C0. f_equal. apply (state_const zero add (λ j, s_conns (a_graph (state j))) (cnt n)); [|done]. intros; by apply K1. }
  assert (Ki : ∀ j, j ≤ cnt n → a_in (state j) = a_in a).
  { intros j Hj. rewrite <-C0. apply (state_const zero add (λ j, a_in (state j)) (cnt n)); [|done]. intros; by apply K1. }
  assert (Ko : ∀ j, j ≤ cnt n → a_out (state j) = a_out a).
  { intros j Hj. rewrite <-C0. apply (state_const zero add (λ j, a_out (state j)) (cnt n)); [|done]. intros; by apply K1. }
  assert (Kd : ∀ j m, j ≤ cnt n → is_Some (s_nodes (a_graph a) !! m) → is_Some (s_nodes (a_graph (state j)) !! m)).
  { intros j m Hj Hm. apply elem_of_dom. rewrite (state_const zero add (λ j, dom (s_nodes (a_graph (state j)))) (cnt n)); [|intros; by apply K1|done].
    rewrite C0. by apply elem_of_dom. }
  destruct (choose_ids k_id (λ k rs, (∃ st, s_nodes (a_graph a1) !! k_id k = Some (Dsp (k_ins k) (k_outs k) st) ∧
      (λ r, (r_time r, r_frames r)) <$> rs = callback_blocks MF sr pos n ∧
      session (k_ins k) (k_outs k) (k_state k) (λ _, (λ b, PBlock b.1 b.2) <$> callback_blocks MF sr pos n) rs st) ∧
      (∀ j, j < cnt n → ∃ r, rs !! j = Some r ∧ r_out r = os' j (k_id k) ∧
        ∀ ch fr, ch < k_ins k → fr < chunk_len MF n j → sample (r_in r) ch fr =
          Some (heard zero add (os' j) (system_input zero (a_in (state j)) MC inpb (chunk_view MF inpb iv n j) (k_id k))
            (conns_of (a_graph (state j)) (k_id k) Incoming) ch fr))) [] ks Hnd) as (rss & Hg).
  { intros k Hk. apply elem_of_list_lookup in Hk as [i Hk]. destruct (Kn (k_id k) (k_ins k) (k_outs k) (k_state k) (Hh i k Hk)) as (st' & rs & T1 & T2 & T3 & T4). exists rs. eauto. }
  assert (Hin : ∀ m, m ∈ k_id <$> ks → ∃ k, k ∈ ks ∧ m = k_id k) by (intros m Hm; apply elem_of_list_fmap in Hm as (k & -> & Hk); eauto).
  assert (Hfrm : ∀ k, k ∈ ks → r_frames <$> rss (k_id k) = chunk_len MF n <$> seq 0 (cnt n)).
  { intros k Hk. destruct (Hg k Hk) as ((st & _ & B & _) & _). apply (f_equal (fmap snd)) in B. rewrite <-list_fmap_compose in B. unfold callback_blocks in B. by rewrite <-list_fmap_compose in B. }
  assert (Hpos : ∀ fr, fr < n → fr / MF < cnt n ∧ fr mod MF < chunk_len MF n (fr / MF)).
  { intros fr Hfr. pose proof (Nat.div_mod fr MF ltac:(lia)) as Hdm. pose proof (Nat.mod_upper_bound fr MF ltac:(lia)) as Hmb. split.
    - apply (chunk_count zero add run); [done|]. lia.
    - unfold chunk_len. lia. }
  assert (Hgiven : ∀ m fr ch, m ∈ k_id <$> ks → fr < n → frame_of zero (given zero (rss m)) fr ch = heard_at zero (os' (fr / MF) m) ch (fr mod MF)).
  { intros m fr ch Hm Hfr. apply Hin in Hm as (k & Hk & ->). destruct (Hpos fr Hfr) as [Hj Hl]. destruct (Hg k Hk) as (_ & F).
    assert (E : given zero (rss (k_id k)) ch = (λ fr, heard_at zero (os' (fr / MF) (k_id k)) ch (fr mod MF)) <$> seq 0 n).
    { unfold given. apply (chunks_are MF Hmf); [by apply Hfrm|intros r; by rewrite fmap_length, seq_length|]. intros f Hf. destruct (Hpos f Hf) as [Hj' Hl'].
      destruct (F _ Hj') as (r & Hr & Ho & _). exists r. split; [done|]. rewrite heard_fmap by (eapply chunk_frames; [exact Hmf|by apply Hfrm|done|done]). by rewrite Ho. }
    unfold frame_of. rewrite E, list_lookup_fmap, lookup_seq_lt by done. done. }
  exists rss. split; [|split; [|split; [done|split; [|split]]]].
  - intros k Hk. apply (Hg k Hk).
  - rewrite <-Ce. split.
    + intros m Hm. rewrite Kc, Ki by lia. by apply W1.
    + intros o Ho. rewrite Ko by lia. by apply W2.
  - intros k ch Hk Hch'. destruct (Hg k Hk) as (_ & F). unfold taken. apply (chunks_are MF Hmf); [by apply Hfrm|intros r; by rewrite fmap_length, seq_length|].
    intros fr Hfr. destruct (Hpos fr Hfr) as [Hj Hl]. destruct (F _ Hj) as (r & Hr & Ho & Hi). exists r. split; [done|].
    rewrite heard_fmap by (eapply chunk_frames; [exact Hmf|by apply Hfrm|done|done]). unfold heard_at at 1. rewrite Hi by done. cbn [default from_option]. f_equal.
    rewrite heard_hears. destruct (W1 (k_id k)) as [W1a W1b]; [by apply elem_of_list_fmap_1|]. rewrite Kc, W1a by lia. apply hears_ext.
    + unfold system_input. rewrite Ki by lia. cbn [chunk_view v_channels r_channels off_ch off_fr r_channel r_frame].
      pose proof (Nat.div_mod fr MF ltac:(lia)) as Hdm.
      destruct (decide (inp = Some (k_id k) ∧ ch < v_channels inpb iv ∧ ch < MC)) as [[Hfi Hc]|Hn].
      * rewrite decide_True by (split; [by apply W1b|lia]). f_equal; lia.
      * rewrite decide_False; [done|]. intros [Hi' ?]. apply Hn. split; [by apply W1b|lia].
    + intros c Hc ch'. rewrite Hgiven; [done|by eapply Hcl|done].
  - intros o ch fr Ho Hom Hch' Hfr. destruct (Hpos fr Hfr) as [Hj Hl].
    rewrite R2 by done. unfold output_node. rewrite Ko by lia. rewrite (W2 o Ho). apply Hin in Hom as (k & Hk & ->).
    rewrite decide_True; [|apply Kd; [lia|]; apply elem_of_list_lookup in Hk as [i Hk]; rewrite (Hh _ _ Hk); eauto].
    rewrite <-Hgiven by (by try apply elem_of_list_fmap_1). done.
  - exact R3.
Qed.

Lemma advance (Q : link V P → dstate → Prop) ks : (∀ k, k ∈ ks → ∃ st, Q k st) →
  ∃ ks1, Forall2 (λ k k1, k_id k1 = k_id k ∧ k_ins k1 = k_ins k ∧ k_outs k1 = k_outs k ∧ Q k (k_state k1)) ks ks1.
Proof.
  induction ks as [|k ks IH]; intros H; [by exists []|]. destruct (H k ltac:(by left)) as [st Hst].
  destruct IH as [ks1 H1]; [intros k' Hk'; apply H; by right|]. exists (Link (k_id k) (k_ins k) (k_outs k) st :: ks1). by constructor.
Qed.

Lemma net_session cs inp out os : 0 < MF → ∀ a on pos a' l ks, irun a on pos (pops os) a' l → Forall pop_ok (pops os) →
  quiet_net (k_id <$> ks) inp out os → holds a ks → NoDup (k_id <$> ks) → netted a (k_id <$> ks) cs inp out →
  (∀ n c, n ∈ k_id <$> ks → c ∈ cs n → c_from c ∈ k_id <$> ks) →
  ∃ rss, net_rounds a' ks on pos os rss ∧ net_streams ks cs inp on pos os rss ∧
    ∀ o, out = Some o → o ∈ k_id <$> ks → heard_as zero MC on os l (given zero (rss o)).
Proof.
  intros Hmf. induction os as [|o os IH]; intros a on pos a' l ks H Hok Hq Hh Hnd Hw Hcl.
  - inversion H; subst. exists (λ _, []). split; [|split].
    + intros k Hk. split; [done|]. exists (k_state k). apply elem_of_list_lookup in Hk as [i Hi]. split; [by eapply Hh|]. apply session_nil.
    + by intros k ch Hk Hch.
    + done.
  - cbn in Hok. apply Forall_cons in Hok as [Hok1 Hok2]. pose proof (quiet_net_tail _ _ _ _ _ Hq) as Hq2.
    change (pops (o :: os)) with (to_pop o :: pops os) in H.
    destruct (to_pop o) as [c|inpb iv outb ov] eqn:Ex.
    + destruct c as [| |c].
      * destruct o; try discriminate Ex. inversion H; subst. by eapply (IH _ true).
      * destruct o; try discriminate Ex. inversion H; subst. by eapply (IH _ false).
      * inversion H as [| | |? ? ? ? a1 ? ? ? Hs Hr| |]; subst. destruct Hq as (Q1 & Q2 & Q3 & Q4 & Q5).
        destruct (advance (λ k st1, s_nodes (a_graph a1) !! k_id k = Some (Dsp (k_ins k) (k_outs k) st1) ∧
            session (k_ins k) (k_outs k) (k_state k) (λ name, events_of MF sr (k_id k) name false 0 [o]) [] st1 ∧
            (∀ on pos name l, events_of MF sr (k_id k) name on pos (o :: l) = events_of MF sr (k_id k) name false 0 [o] ++ events_of MF sr (k_id k) name on pos l) ∧
            (∀ on pos l, blocks_of MF sr on pos (o :: l) = blocks_of MF sr on pos l)) ks) as (ks1 & Hks).
        { intros k Hk. pose proof Hk as Hk2. apply elem_of_list_lookup in Hk2 as [i Hi].
          eapply (command_session N to_sample zero add run MC MF sr (k_id k) (k_ins k) (k_outs k) o c a a1 (k_state k) Ex); [|exact Hs|by eapply Hh].
          intros ->. eapply Q2; [|by left]. by apply elem_of_list_fmap_1. }
        assert (Hids : k_id <$> ks1 = k_id <$> ks).
        { clear -Hks. induction Hks as [|k k1 ks ks1 (E & _) _ IH]; [done|]. cbn. by rewrite E, IH. }
        destruct (IH a1 on pos a' l ks1 Hr Hok2) as (rss & R1 & R2 & R3); rewrite ?Hids; [done| |done| |done|].
        { intros i k1 Hk1. destruct (Forall2_lookup_r _ _ _ _ _ Hks Hk1) as (k & Hk & -> & -> & -> & T & _). exact T. }
        { destruct Hw as [W1 W2]. split.
          - intros n Hn. destruct (W1 n Hn) as [W1a W1b]. split.
            + rewrite <-W1a. apply (command_same N to_sample zero add run MC MF sr n o c a a1 Ex); [| |exact Hs].
              * intros eid m x ->. apply (Q1 n eid m x Hn). by left.
              * intros m ->. apply (Q3 n m Hn). by left.
            + rewrite <-W1b. destruct o; try discriminate Ex; injection Ex as <-; inversion Hs; subst; cbn; try done.
              specialize (Q4 n0 ltac:(by left)). rewrite W1b. destruct inp as [i|]; [subst; split; congruence|].
              split; [intros [= ->]; done|done].
          - intros o' Ho'. pose proof (W2 o' Ho') as W2a. pose proof (λ m, Q5 o' m Ho') as Q6. destruct o; try discriminate Ex; injection Ex as <-; inversion Hs; subst; cbn; try done.
            by rewrite (Q6 n ltac:(by left)). }
        rewrite Hids in R3. exists rss. split; [|split].
        -- intros k Hk. apply elem_of_list_lookup in Hk as [i Hi]. destruct (Forall2_lookup_l _ _ _ _ _ Hks Hi) as (k1 & Hk1 & E1 & E2 & E3 & _ & S1 & Ev & Eb).
           destruct (R1 k1) as (B2 & st' & Hl & S2); [by eapply elem_of_list_lookup_2|]. rewrite E1, E2, E3 in *.
           split; [by rewrite Eb|]. exists st'. split; [done|].
           eapply session_ext; [|exact (session_app N to_sample zero run sr _ _ _ _ _ _ _ _ _ S1 S2)]. intros name. cbv beta. symmetry. apply Ev.
        -- intros k ch Hk Hch. apply elem_of_list_lookup in Hk as [i Hi]. destruct (Forall2_lookup_l _ _ _ _ _ Hks Hi) as (k1 & Hk1 & E1 & E2 & E3 & _ & S1 & Ev & Eb).
           rewrite Eb. rewrite <-E1, <-E2 in *. rewrite (R2 k1 ch) by (by try eapply elem_of_list_lookup_2).
           by destruct o.
        -- intros o' Ho' Hin. pose proof (R3 o' Ho' Hin) as R. by destruct o.
    + destruct o; try discriminate Ex. injection Ex as -> -> -> ->. inversion H as [| | | |? ? ? ? ? ? out' ? ? ? Hs Hr|? ? ? ? ? ? out0 out' a1 ? ? ? Hs Hch Hr]; subst.
      * destruct (IH _ _ _ _ _ _ Hr Hok2 Hq2 Hh Hnd Hw Hcl) as (rss & R1 & R2 & R3). exists rss. split; [done|]. split; [done|].
        intros o Ho Hin. cbn. exists out', l0. split; [done|]. split; [done|]. by apply R3.
      * destruct Hs as (_ & Hdim & Hsil). destruct (same_dims_view outb out0 ov Hdim) as (V1 & V2 & V3 & V4).
        destruct Hok1 as (O1 & O2 & O3 & O4 & O5). rewrite <-V1 in Hch.
        destruct (callback_net ks cs inp out inpb iv ov a a1 out0 out' pos Hmf Hh Hnd Hw) as (rs1 & K1 & K2 & K3 & K4 & K5 & K6).
        { intros k c' Hk. apply Hcl. by apply elem_of_list_fmap_1. } { done. } { by apply V3. }
        destruct (advance _ ks K1) as (ks1 & Hks).
        assert (Hids : k_id <$> ks1 = k_id <$> ks).
        { clear -Hks. induction Hks as [|k k1 ks ks1 (E & _) _ IH]; [done|]. cbn. by rewrite E, IH. }
        rewrite <-V1 in Hr.
        destruct (IH a1 true (pos + v_frames out0 ov) a' l0 ks1 Hr Hok2) as (rs2 & R1 & R2 & R3); rewrite ?Hids; [done| |done|done|done|].
        { intros i k1 Hk1. destruct (Forall2_lookup_r _ _ _ _ _ Hks Hk1) as (k & Hk & -> & -> & -> & T & _). exact T. }
        rewrite Hids in R3. exists (λ m, rs1 m ++ rs2 m).
        assert (Hlen : ∀ m ch, m ∈ k_id <$> ks → length (given zero (rs1 m) ch) = v_frames out0 ov).
        { intros m ch Hm. apply elem_of_list_fmap in Hm as (k & -> & Hk). destruct (K1 k Hk) as (st & _ & B & _). rewrite given_length.
          transitivity (length_of (callback_blocks MF sr pos (v_frames out0 ov))); [|by apply callback_length]. rewrite <-B. unfold length_of. f_equal. by rewrite <-list_fmap_compose. }
        split; [|split].
        -- intros k Hk. apply elem_of_list_lookup in Hk as [i Hi]. destruct (Forall2_lookup_l _ _ _ _ _ Hks Hi) as (k1 & Hk1 & E1 & E2 & E3 & _ & B1 & S1).
           destruct (R1 k1) as (B2 & st' & Hl & S2); [by eapply elem_of_list_lookup_2|]. rewrite E1, E2, E3 in *. cbn [blocks_of events_of]. rewrite <-V1.
           split; [by rewrite fmap_app, B1, B2|]. exists st'. split; [done|]. exact (session_app N to_sample zero run sr _ _ _ _ _ _ _ _ _ S1 S2).
        -- intros k ch Hk Hch'. assert (Hm : k_id k ∈ k_id <$> ks) by (by apply elem_of_list_fmap_1). cbn [blocks_of input_stream]. rewrite <-V1.
           rewrite length_of_app, callback_length, seq_app, fmap_app by done. rewrite taken_app. f_equal.
           ++ rewrite K4 by done. apply list_fmap_ext. intros i fr Hfr. apply lookup_seq in Hfr as [-> Hfr]. cbn. apply hears_ext.
              ** unfold frame_of. rewrite lookup_app_l by (by rewrite fmap_length, seq_length). rewrite list_lookup_fmap, lookup_seq_lt by done. cbn.
                 destruct (decide (inp = Some (k_id k))) as [->|Hn].
                 --- rewrite bool_decide_true by done. destruct (decide (ch < v_channels inpb iv ∧ ch < MC)).
                     +++ rewrite !decide_True by done. done.
                     +++ rewrite !decide_False by tauto. done.
                 --- rewrite bool_decide_false by done. rewrite !decide_False; [done|intros [? _]; done|tauto].
              ** intros c Hc ch0. symmetry. eapply frame_of_l; [apply given_app|]. rewrite Hlen; [done|by eapply Hcl].
           ++ pose proof Hk as Hk2. apply elem_of_list_lookup in Hk2 as [i Hi]. destruct (Forall2_lookup_l _ _ _ _ _ Hks Hi) as (k1 & Hk1 & E1 & E2 & E3 & _).
              rewrite <-E1 in *. rewrite (R2 k1 ch) by (try lia; by eapply elem_of_list_lookup_2).
              rewrite (Nat.add_comm 0 (v_frames out0 ov)). rewrite <-fmap_add_seq. rewrite <-list_fmap_compose. apply list_fmap_ext. intros j x Hx. apply lookup_seq in Hx as [-> Hx]. cbn.
              apply hears_ext.
              ** unfold frame_of. rewrite lookup_app_r by (rewrite fmap_length, seq_length; lia). rewrite fmap_length, seq_length. do 2 f_equal. lia.
              ** intros c Hc ch0. symmetry. eapply frame_of_r; [apply given_app|]. apply Hlen. by eapply Hcl.
        -- intros o Ho Hin. cbn [heard_as]. exists out', l0. split; [done|]. split; [by eapply same_dims_trans|]. split; [|split].
           ++ intros ch fr Hch' Hfr. rewrite given_app. rewrite <-V1 in Hfr. rewrite lookup_app_l by (by rewrite Hlen).
              rewrite (K5 o ch fr Ho Hin) by (rewrite ?V2; done). destruct (decide (ch < MC)).
              ** destruct (lookup_lt_is_Some_2 (given zero (rs1 o) ch) fr) as [x Hx]; [by rewrite Hlen|]. unfold frame_of. rewrite Hx. eauto.
              ** rewrite Hsil. rewrite decide_True by (unfold in_rect; lia).
                 destruct (valid_off outb ov O4) as [Hvo1 Hvo2].
                 destruct (proj2 (sample_is_Some outb (off_ch ov + ch) (off_fr ov + fr) O3)) as [x Hx]; [lia|]. by rewrite Hx.
           ++ intros ch fr Hout. rewrite K6 by (by rewrite V1, V2). rewrite Hsil. by rewrite decide_False.
           ++ eapply (heard_as_ext zero MC); [|exact (R3 o Ho Hin)]. intros ch. cbn. rewrite given_app, drop_app_alt by (rewrite Hlen; done). done.
Qed.

(** the wiring *)
Lemma wires_graph_only ws : Forall wires ws → graph_only (V:=V) (A:=A) (P:=P) ws.
Proof. intros H. eapply Forall_impl; [exact H|]. intros o Ho. destruct o; try done; cbn; eauto. Qed.
Lemma wire_run ws : Forall wires ws → ∀ a on pos a' l, irun a on pos (pops ws) a' l →
  l = [] ∧ s_nodes (a_graph a') = s_nodes (a_graph a) ∧
  (∀ n, conns_of (a_graph a') n Incoming = conns_of (a_graph a) n Incoming ++ connections_into n ws) ∧
  a_in a' = match net_input ws with Some i => Some (EInput, i) | None => a_in a end ∧
  a_out a' = match net_output ws with Some o => Some (EOutput, o) | None => a_out a end.
Proof.
  induction 1 as [|o ws Ho Hws IH]; intros a on pos a' l H.
  - inversion H; subst. do 2 (split; [done|]). split; [|done]. intros n. by rewrite app_nil_r.
  - change (pops (o :: ws)) with (to_pop o :: pops ws) in H. destruct o as [| |eid x y cn| |i|o| | | | |]; try done; cbn [to_pop] in H;
      inversion H as [| | |? ? ? ? a1 ? ? ? Hs Hr| |]; subst; destruct (IH _ _ _ _ _ Hr) as (-> & I2 & I3 & I4 & I5).
    + inversion Hs as [| |? ? ? ? ? s' Hst| | | | | |]; subst. inversion Hst; subst. cbn [a_graph s_nodes a_in a_out] in *.
      split; [done|]. split; [done|]. split; [|done]. intros n. rewrite I3. unfold conns_of, connections_into. cbn [s_conns omap list_omap c_to].
      rewrite filter_app, <-app_assoc. f_equal. destruct (decide (y = n)) as [->|Hn].
      * rewrite filter_cons_True by done. done.
      * rewrite filter_cons_False by done. done.
    + inversion Hs; subst. cbn [a_graph a_in a_out] in *. split; [done|]. split; [done|]. split; [done|]. split; [|done]. rewrite I4.
      unfold net_input. cbn [omap list_omap]. rewrite last_cons. by destruct (last _).
    + inversion Hs; subst. cbn [a_graph a_in a_out] in *. split; [done|]. split; [done|]. split; [done|]. split; [done|]. rewrite I5.
      unfold net_output. cbn [omap list_omap]. rewrite last_cons. by destruct (last _).
Qed.
End net.

Section final.
Context {V A P : Type} (N : num V) (to_sample : V → A) (zero : A) (add : A → A → A).
Context (run : P → timestamp → (string → res (list A)) → owned A → owned A → res (P * owned A)).
Context (nbuf MC MF sr : nat) (sh : nat → oracle) (dr : nat → list endpoint → list endpoint).
Notation proc := (dsp_process N to_sample run).

Lemma engine_net ks ws before after st l :
  let os := before ++ (create <$> ks) ++ ws ++ after : list (nop V A P) in
  good_setup proc nbuf MF sr sh dr (to_pop <$> os) → settled ks ws before after → unprocessed [] (to_pop <$> os) = [] →
  prun zero add proc sh dr (new_processor zero nbuf sr MC MF) (to_pop <$> os) = Ok (st, l) →
  let on := running false (sent (to_pop <$> before)) in
  let pos := frames_played false (to_pop <$> before) in
  ∃ a (rss : id → list (@round V A)), graph_is st a ∧
    (∀ k, k ∈ ks → (λ r, (r_time r, r_frames r)) <$> rss (k_id k) = blocks_of MF sr on pos after ∧
      ∃ st', s_nodes (a_graph a) !! k_id k = Some (Dsp (k_ins k) (k_outs k) st') ∧ session N to_sample zero run sr (k_ins k) (k_outs k) (k_state k) (λ name, events_of MF sr (k_id k) name on pos after) (rss (k_id k)) st') ∧
    connected zero add MC (length_of (blocks_of MF sr on pos after)) on ks ws after (λ n, taken zero (rss n)) (λ n, given zero (rss n)) ∧
    (∀ o, net_output ws = Some o → o ∈ k_id <$> ks → heard_as zero MC on after (drop (callbacks before) l) (given zero (rss o))).
Proof.
  intros os Hg (D0 & Dc & D1 & D2 & D3 & D4 & D5) Hu E on pos. destruct (history_irun N to_sample zero add run nbuf MC MF sr sh dr os st l Hg E Hu) as (a & Ha & Hi).
  destruct Hg as (_ & _ & Hmf & _ & _ & _ & Hok & _). unfold os in Hok, Hi. rewrite !fmap_app, !Forall_app in Hok. rewrite !fmap_app in Hi.
  destruct Hok as (Hok1 & Hok2 & _ & Hok).
  destruct (irun_app zero add proc MC MF sr _ _ _ _ _ _ _ Hi) as (a1 & l1 & l2 & I1 & -> & I2).
  destruct (irun_app zero add proc MC MF sr _ _ _ _ _ _ _ I2) as (a2 & l3 & l4 & I3 & -> & I4).
  destruct (irun_app zero add proc MC MF sr _ _ _ _ _ _ _ I4) as (a3 & l5 & l6 & I5 & -> & I6).
  destruct (create_run N to_sample zero add run MC MF sr ks _ _ _ _ _ I3) as (N1 & N2 & N3 & N4 & N5 & ->).
  assert (Hfree : ∀ n, n ∈ k_id <$> ks → conns_of (a_graph a1) n Incoming = [] ∧ length l1 = callbacks before).
  { intros n Hn. apply elem_of_list_fmap in Hn as (k & -> & Hk). eapply (before_free N to_sample zero add run MC MF sr); [exact Hmf|exact I1|done| |done].
    intros eid m c Hin. apply (D1 k eid m c Hk). apply elem_of_app. by left. }
  destruct (wire_run N to_sample zero add run MC MF sr ws D0 _ _ _ _ _ I5) as (-> & W1 & W2 & W3 & W4).
  destruct (graph_only_run _ (create_graph_only (A:=A) ks) on) as [G1 G2]. destruct (graph_only_run _ (wires_graph_only _ D0) on) as [G3 G4].
  fold on in I6. rewrite G1, G2, G3, G4 in I6. replace (0 + _ + 0 + 0) with pos in I6 by (unfold pos; lia).
  destruct (net_session N to_sample zero add run MC MF sr (λ n, connections_into n ws) (net_input ws) (net_output ws) after Hmf _ _ _ _ _ ks I6 Hok) as (rss & R1 & R2 & R3).
  { split; [|split; [|split; [|split]]].
    - intros n eid m c Hn Hin. apply elem_of_list_fmap in Hn as (k & -> & Hk). apply (D1 k eid m c Hk). apply elem_of_app. by right.
    - intros n Hn Hin. apply elem_of_list_fmap in Hn as (k & -> & Hk). by apply (D2 k Hk).
    - intros n m Hn Hin. apply elem_of_list_fmap in Hn as (k & -> & Hk). by apply (D3 k m Hk).
    - intros m Hin. destruct (net_input ws); [by apply D4|]. apply D4. apply elem_of_app. by right.
    - exact D5. }
  { intros i k Hk. rewrite W1. by eapply N3. }
  { done. }
  { split.
    - intros n Hn. split.
      + rewrite W2. unfold conns_of. rewrite N5. fold (conns_of (a_graph a1) n Incoming). by rewrite (proj1 (Hfree n Hn)).
      + rewrite W3. destruct (net_input ws) as [i|] eqn:Ei; [split; congruence|]. split; [|done]. intros Hin. exfalso.
        destruct (input_set N to_sample zero add run MC MF sr _ Hmf _ _ _ _ _ I3 Hok2) as [E2|(m & Hm & _)].
        * rewrite E2 in Hin. destruct (input_set N to_sample zero add run MC MF sr _ Hmf _ _ _ _ _ I1 Hok1) as [E1|(m & Hm & E1)]; [by rewrite E1 in Hin|].
          rewrite E1 in Hin. injection Hin as ->. apply (D4 n); [|done]. apply elem_of_app. by left.
        * apply elem_of_list_fmap in Hm as (k & Hm & _). discriminate Hm.
    - intros o Ho. by rewrite W4, Ho. }
  { intros n c Hn Hc. apply elem_of_list_omap in Hc as (x & Hx & Hc). destruct x; try done. case_decide; [|done]. injection Hc as <-. cbn. subst. by eapply Dc. }
  exists a, rss. split; [exact Ha|]. split; [exact R1|]. split.
  - intros k ch i Hk Hch Hi'. cbv beta. rewrite (R2 k ch Hk Hch), list_lookup_fmap, lookup_seq_lt by done. done.
  - intros o Ho Hin. cbn [app]. rewrite drop_app_alt; [by apply R3|]. symmetry. by apply (Hfree o).
Qed.
End final.
