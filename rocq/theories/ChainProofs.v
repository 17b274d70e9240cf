(** Proofs about chains of nodes (ChainSpec.v). *)
From stdpp Require Import gmap list list_numbers strings.
From Coq Require Import ZArith Lia ZifyBool ZifyNat.
From Verif Require Import Base Graph GraphSpec TopoSort Buffer BufferSpec BufferProofs DspGraph DspGraphSpec DspGraphProofs
  Float Timestamp Processor ProcessorSpec ProcessorProofs AudioParam AudioParamSpec Node NodeSpec NodeProofs Chain ChainSpec.

(** choosing for each element of a list *)
Lemma choose_list {X Y} (Q : nat → X → Y → Prop) (l : list X) : (∀ i x, l !! i = Some x → ∃ y, Q i x y) →
  ∃ ys, length ys = length l ∧ ∀ i x y, l !! i = Some x → ys !! i = Some y → Q i x y.
Proof.
  revert Q. induction l as [|x l IH]; intros Q H; [by exists []|].
  destruct (IH (λ i, Q (S i))) as (ys & Hl & Hy); [intros i y Hi; by apply (H (S i))|].
  destruct (H 0 x eq_refl) as (y & Hq). exists (y :: ys). split; [cbn; lia|].
  intros [|i] x' y' Hx Hy'; cbn in *; [congruence|by eapply Hy].
Qed.
Lemma lookup_same_length {X Y} (l : list X) (l' : list Y) i x : length l' = length l → l !! i = Some x → ∃ y, l' !! i = Some y.
Proof. intros Hl Hi. apply lookup_lt_is_Some_2. rewrite Hl. by eapply lookup_lt_Some. Qed.

Section chain.
Context {V A P : Type} (N : num V) (to_sample : V → A) (zero : A) (add : A → A → A).
Context (run : P → timestamp → (string → res (list A)) → owned A → owned A → res (P * owned A)).
Context (MC MF sr : nat).
Notation dstate := (dspstate V P).
Notation proc := (dsp_process N to_sample run).
Notation irun := (irun zero add proc MC MF sr).
Notation astep := (astep zero add proc MC MF sr).
Notation session := (session N to_sample zero run sr).
Notation pops := (fmap to_pop).
Notation cnt n := ((n + (MF - 1)) / MF).
Implicit Types (ks : list (link V P)) (os : list (nop V A P)) (a : @astate dstate).

Lemma command_same n (o : nop V A P) c a a1 : to_pop o = PSend (CGraph c) → (∀ eid m x, o ≠ NConnect eid m n x) → (∀ m, o ≠ NDisconnect m n) →
  astep a (HCmd c) a1 [] → conns_of (a_graph a1) n Incoming = conns_of (a_graph a) n Incoming.
Proof.
  intros Ho Hc Hd Hs. destruct o as [n' i o' st'|n'|eid x y cn|x y|n'|n'|n' nm ch|n' nm e| | |]; cbn in Ho; try discriminate Ho; injection Ho as <-.
  - inversion Hs as [? ? ? s' Hst| | | | | | | |]; subst. by inversion Hst; subst.
  - inversion Hs as [|? ? s' Hst| | | | | | |]; subst. by inversion Hst; subst.
  - inversion Hs as [| |? ? ? ? ? s' Hst| | | | | |]; subst. inversion Hst; subst. unfold conns_of in *. cbn [a_graph s_conns].
    rewrite filter_app. rewrite filter_cons_False; [by rewrite filter_nil, app_nil_r|]. cbn. intros ->. by eapply Hc.
  - inversion Hs as [| | |? ? ? s' Hst| | | | |]; subst. inversion Hst as [| | | | | | | |? ? ? c0 be af E H1 H2]; subst; [done|].
    unfold conns_of in *. cbn [a_graph s_conns] in *. rewrite E, !filter_app. rewrite filter_cons_False; [done|].
    cbn. intros <-. by eapply Hd.
  - by inversion Hs; subst.
  - by inversion Hs; subst.
  - by inversion Hs; subst.
  - by inversion Hs; subst.
Qed.

Definition holds a ks : Prop := ∀ i k, ks !! i = Some k → s_nodes (a_graph a) !! k_id k = Some (Dsp (k_ins k) (k_outs k) (k_state k)).
Definition only_from (m : id) (c : conn connection) : Prop := c_from c = m ∧ src_ch (c_data c) = 0 ∧ dst_ch (c_data c) = 0.
Definition wired (fi : bool) a (ids : list id) : Prop :=
  (∀ n, ids !! 0 = Some n → conns_of (a_graph a) n Incoming = [] ∧ if fi then a_in a = Some (EInput, n) else a_in a ≠ Some (EInput, n)) ∧
  (∀ n, last ids = Some n → a_out a = Some (EOutput, n)) ∧
  (∀ i m n, ids !! i = Some m → ids !! S i = Some n → ∃ c, conns_of (a_graph a) n Incoming = [c] ∧ only_from m c).

(** the result for a history *)
Definition chain_rounds ks (on : bool) (pos : nat) os (rss : list (list (@round V A))) : Prop :=
  length rss = length ks ∧
  (∀ i k rs, ks !! i = Some k → rss !! i = Some rs →
    (λ r, (r_time r, r_frames r)) <$> rs = blocks_of MF sr on pos os ∧
    ∃ st', session (k_ins k) (k_outs k) (k_state k) (λ name, events_of MF sr (k_id k) name on pos os) rs st') ∧
  (∀ i k rs rs', ks !! S i = Some k → rss !! i = Some rs → rss !! S i = Some rs' → feeds zero (k_ins k) rs rs').

Definition quiet_nodes (fi : bool) (ids : list id) os : Prop :=
  (∀ n eid m c, n ∈ ids → NConnect eid m n c ∉ os) ∧ (∀ n, n ∈ ids → NDrop n ∉ os) ∧ (∀ n m, n ∈ ids → NDisconnect m n ∉ os) ∧
  (∀ m, NInput m ∈ os → if fi then ids !! 0 = Some m else ids !! 0 ≠ Some m) ∧ (∀ m, NOutput m ∈ os → last ids = Some m).

Lemma quiet_nodes_tail fi ids o os : quiet_nodes fi ids (o :: os) → quiet_nodes fi ids os.
Proof.
  intros (Q1 & Q2 & Q3 & Q4 & Q5). split; [|split; [|split; [|split]]].
  - intros n eid m c Hn Hin. apply (Q1 n eid m c Hn). by right.
  - intros n Hn Hin. apply (Q2 n Hn). by right.
  - intros n m Hn Hin. apply (Q3 n m Hn). by right.
  - intros m Hin. apply Q4. by right.
  - intros m Hin. apply Q5. by right.
Qed.

Lemma chain_session fi os : 0 < MF → ∀ a on pos a' l ks, irun a on pos (pops os) a' l → Forall pop_ok (pops os) →
  quiet_nodes fi (k_id <$> ks) os → holds a ks → wired fi a (k_id <$> ks) →
  ∃ rss, chain_rounds ks on pos os rss ∧
    ∀ k rs rs', ks !! 0 = Some k → rss !! 0 = Some rs → last rss = Some rs' → heard_between zero MF fi MC (k_ins k) on os l rs rs'.
Proof.
  intros Hmf. induction os as [|o os IH]; intros a on pos a' l ks H Hok Hq Hh Hw.
  - inversion H; subst. exists (replicate (length ks) []). split.
    + split; [apply replicate_length|]. split.
      * intros i k rs Hk Hr. apply lookup_replicate in Hr as [-> _]. split; [done|]. exists (k_state k). apply session_nil.
      * intros i k rs rs' Hk Hr Hr'. apply lookup_replicate in Hr as [-> _]. apply lookup_replicate in Hr' as [-> _]. constructor.
    + intros k rs rs' Hk Hr Hr'. apply lookup_replicate in Hr as [-> _]. rewrite last_lookup in Hr'. apply lookup_replicate in Hr' as [-> _]. done.
  - cbn in Hok. apply Forall_cons in Hok as [Hok1 Hok2]. pose proof (quiet_nodes_tail _ _ _ _ Hq) as Hq2.
    change (pops (o :: os)) with (to_pop o :: pops os) in H.
    destruct (to_pop o) as [c|inp iv out ov] eqn:Ex.
    + destruct c as [| |c].
      * destruct o; try discriminate Ex. inversion H; subst. by eapply (IH _ true).
      * destruct o; try discriminate Ex. inversion H; subst. by eapply (IH _ false).
      * inversion H as [| | |? ? ? ? a1 ? ? ? Hs Hr| |]; subst. destruct Hq as (Q1 & Q2 & Q3 & Q4 & Q5).
        destruct (choose_list (λ _ k st1, s_nodes (a_graph a1) !! k_id k = Some (Dsp (k_ins k) (k_outs k) st1) ∧
            session (k_ins k) (k_outs k) (k_state k) (λ name, events_of MF sr (k_id k) name false 0 [o]) [] st1 ∧
            (∀ on pos name l, events_of MF sr (k_id k) name on pos (o :: l) = events_of MF sr (k_id k) name false 0 [o] ++ events_of MF sr (k_id k) name on pos l) ∧
            (∀ on pos l, blocks_of MF sr on pos (o :: l) = blocks_of MF sr on pos l)) ks) as (sts & Hl & Hst).
        { intros i k Hk. eapply (command_session N to_sample zero add run MC MF sr (k_id k) (k_ins k) (k_outs k) o c a a1 (k_state k) Ex); [|exact Hs|by eapply Hh].
          intros ->. eapply Q2; [|by left]. apply elem_of_list_fmap_1. by eapply elem_of_list_lookup_2. }
        set (ks1 := zip_with (λ k st, Link (k_id k) (k_ins k) (k_outs k) st) ks sts).
        assert (Hids : k_id <$> ks1 = k_id <$> ks).
        { unfold ks1. clear -Hl. revert sts Hl. induction ks as [|k ks IH]; intros [|st sts] Hl; try done. cbn in *. f_equal. apply IH. lia. }
        assert (Hks1 : ∀ i k, ks !! i = Some k → ∃ st1, sts !! i = Some st1 ∧ ks1 !! i = Some (Link (k_id k) (k_ins k) (k_outs k) st1)).
        { intros i k Hk. destruct (lookup_same_length ks sts i k Hl Hk) as [st1 Hst1]. exists st1. split; [done|].
          unfold ks1. rewrite lookup_zip_with, Hk. cbn. by rewrite Hst1. }
        assert (Hlen : length ks1 = length ks) by (unfold ks1; rewrite zip_with_length; lia).
        destruct (IH a1 on pos a' l ks1 Hr Hok2) as (rss & (R1 & R2 & R3) & R4).
        { by rewrite Hids. }
        { intros i k1 Hk1. destruct (lookup_same_length ks1 ks i k1 ltac:(lia) Hk1) as [k Hk].
          destruct (Hks1 i k Hk) as (st1 & Hst1 & E). rewrite E in Hk1. injection Hk1 as <-. cbn.
          exact (proj1 (Hst i k st1 Hk Hst1)). }
        { rewrite Hids. destruct Hw as (W1 & W2 & W3).
          assert (Hsame : ∀ n, n ∈ k_id <$> ks → conns_of (a_graph a1) n Incoming = conns_of (a_graph a) n Incoming).
          { intros n Hn. apply (command_same n o c a a1 Ex); [| |exact Hs].
            - intros eid m x ->. apply (Q1 n eid m x Hn). by left.
            - intros m ->. apply (Q3 n m Hn). by left. }
          split; [|split].
          - intros n Hn. rewrite Hsame by (by eapply elem_of_list_lookup_2). destruct (W1 n Hn) as [W1a W1b]. split; [done|].
            destruct o; try discriminate Ex; injection Ex as <-; inversion Hs; subst; cbn; try done.
            specialize (Q4 n0 ltac:(by left)). destruct fi; [congruence|]. intros Eq. injection Eq as ->. done.
          - intros n Hn. pose proof (W2 n Hn) as W2a.
            destruct o; try discriminate Ex; injection Ex as <-; inversion Hs; subst; cbn; try done.
            specialize (Q5 n0 ltac:(by left)). congruence.
          - intros i m n Hm Hn. rewrite Hsame by (by eapply elem_of_list_lookup_2). by apply W3 with i. }
        exists rss. split; [split; [|split]|].
        -- lia.
        -- intros i k rs Hk Hrs. destruct (Hks1 i k Hk) as (st1 & Hst1 & E).
           destruct (Hst i k st1 Hk Hst1) as (_ & S1 & E1 & E2). destruct (R2 i _ rs E Hrs) as (B2 & st' & S2). cbn in S2.
           split; [by rewrite E2|]. exists st'.
           eapply session_ext; [|exact (session_app N to_sample zero run sr _ _ _ _ _ _ _ _ _ S1 S2)]. intros name. cbv beta. symmetry. apply E1.
        -- intros i k rs rs' Hk Hrs Hrs'. destruct (Hks1 (S i) k Hk) as (st1 & Hst1 & E). exact (R3 i _ rs rs' E Hrs Hrs').
        -- intros k rs rs' Hk Hrs Hrs'. destruct (Hks1 0 k Hk) as (st1 & Hst1 & E). pose proof (R4 _ rs rs' E Hrs Hrs') as R. cbn in R. by destruct o.
    + destruct o; try discriminate Ex. injection Ex as -> -> -> ->. inversion H as [| | | |? ? ? ? ? ? out' ? ? ? Hs Hr|? ? ? ? ? ? out0 out' a1 ? ? ? Hs Hch Hr]; subst.
      * destruct (IH _ _ _ _ _ _ Hr Hok2 Hq2 Hh Hw) as (rss & R & R4). exists rss. split; [exact R|].
        intros k rs rs' Hk Hrs Hrs'. cbn. exists out', l0. split; [done|]. split; [done|]. by apply R4.
      * destruct Hs as (_ & Hdim & Hsil). destruct (same_dims_view out out0 ov Hdim) as (V1 & V2 & V3 & V4).
        destruct Hok1 as (O1 & O2 & O3 & O4 & O5).
        destruct (callback_sessions N to_sample zero add run MC MF sr _ _ _ _ _ _ _ _ _ Hmf Hch V1 (V3 O4))
          as (state & os' & C0 & Ce & D1 & K1 & Kn & R2 & R3).
        destruct Hw as (W1 & W2 & W3).
        assert (Kc : ∀ j n, j ≤ cnt (v_frames out ov) → conns_of (a_graph (state j)) n Incoming = conns_of (a_graph a) n Incoming).
        { intros j n Hj. unfold conns_of. rewrite <-C0. f_equal. apply (state_const zero add (λ j, s_conns (a_graph (state j))) (cnt (v_frames out ov))); [|done]. intros; by apply K1. }
        assert (Ki : ∀ j, j ≤ cnt (v_frames out ov) → a_in (state j) = a_in a).
        { intros j Hj. rewrite <-C0. apply (state_const zero add (λ j, a_in (state j)) (cnt (v_frames out ov))); [|done]. intros; by apply K1. }
        assert (Ko : ∀ j, j ≤ cnt (v_frames out ov) → a_out (state j) = a_out a).
        { intros j Hj. rewrite <-C0. apply (state_const zero add (λ j, a_out (state j)) (cnt (v_frames out ov))); [|done]. intros; by apply K1. }
        assert (Kd : ∀ j n, j ≤ cnt (v_frames out ov) → is_Some (s_nodes (a_graph a) !! n) → is_Some (s_nodes (a_graph (state j)) !! n)).
        { intros j n Hj Hn. apply elem_of_dom. rewrite (state_const zero add (λ j, dom (s_nodes (a_graph (state j)))) (cnt (v_frames out ov))); [|intros; by apply K1|done].
          rewrite C0. by apply elem_of_dom. }
        destruct (choose_list (λ _ k y, s_nodes (a_graph a1) !! k_id k = Some (Dsp (k_ins k) (k_outs k) y.1) ∧
            (λ r, (r_time r, r_frames r)) <$> y.2 = callback_blocks MF sr pos (v_frames out ov) ∧
            session (k_ins k) (k_outs k) (k_state k) (λ _, (λ b, PBlock b.1 b.2) <$> callback_blocks MF sr pos (v_frames out ov)) y.2 y.1 ∧
            (∀ j, j < cnt (v_frames out ov) → ∃ r, y.2 !! j = Some r ∧ r_out r = os' j (k_id k) ∧
              ∀ ch fr, ch < k_ins k → fr < chunk_len MF (v_frames out ov) j → sample (r_in r) ch fr =
                Some (heard zero add (os' j) (system_input zero (a_in (state j)) MC inp (chunk_view MF inp iv (v_frames out ov) j) (k_id k))
                  (conns_of (a_graph (state j)) (k_id k) Incoming) ch fr))) ks) as (ys & Hl & Hy).
        { intros i k Hk. destruct (Kn (k_id k) (k_ins k) (k_outs k) (k_state k) (Hh i k Hk)) as (st' & rs & T). by exists (st', rs). }
        set (ks1 := zip_with (λ k y, Link (k_id k) (k_ins k) (k_outs k) (y : _ * list (@round V A)).1) ks ys).
        assert (Hids : k_id <$> ks1 = k_id <$> ks).
        { unfold ks1. clear -Hl. revert ys Hl. induction ks as [|k ks IH]; intros [|st sts] Hl; try done. cbn in *. f_equal. apply IH. lia. }
        assert (Hks1 : ∀ i k, ks !! i = Some k → ∃ y, ys !! i = Some y ∧ ks1 !! i = Some (Link (k_id k) (k_ins k) (k_outs k) y.1)).
        { intros i k Hk. destruct (lookup_same_length ks ys i k Hl Hk) as [y Hy1]. exists y. split; [done|].
          unfold ks1. rewrite lookup_zip_with, Hk. cbn. by rewrite Hy1. }
        assert (Hlen : length ks1 = length ks) by (unfold ks1; rewrite zip_with_length; lia).
        destruct (IH a1 true (pos + v_frames out ov) a' l0 ks1 Hr Hok2) as (rss & (Q1 & Q2 & Q3) & Q4).
        { by rewrite Hids. }
        { intros i k1 Hk1. destruct (lookup_same_length ks1 ks i k1 ltac:(lia) Hk1) as [k Hk].
          destruct (Hks1 i k Hk) as (y & Hy1 & E). rewrite E in Hk1. injection Hk1 as <-. cbn.
          exact (proj1 (Hy i k y Hk Hy1)). }
        { rewrite Hids, <-Ce. split; [|split].
          - intros n Hn. rewrite Kc, Ki by lia. by apply W1.
          - intros n Hn. rewrite Ko by lia. by apply W2.
          - intros i m n Hm Hn. rewrite Kc by lia. by apply W3 with i. }
        exists (zip_with (λ y rs, y.2 ++ rs) ys rss).
        assert (Hsplit : ∀ i rs, zip_with (λ y rs, y.2 ++ rs) ys rss !! i = Some rs → ∃ y rs2, ys !! i = Some y ∧ rss !! i = Some rs2 ∧ rs = y.2 ++ rs2).
        { intros i rs Hi. apply lookup_zip_with_Some in Hi as (y & rs2 & -> & ? & ?). eauto. }
        assert (Hnum : ∀ i k y, ks !! i = Some k → ys !! i = Some y → length y.2 = cnt (v_frames out ov)).
        { intros i k y Hk Hy1. destruct (Hy i k y Hk Hy1) as (_ & B & _). apply (f_equal length) in B. rewrite fmap_length in B. rewrite B.
          unfold callback_blocks. by rewrite fmap_length, seq_length. }
        split; [split; [|split]|].
        -- rewrite zip_with_length. lia.
        -- intros i k rs Hk Hrs. destruct (Hsplit i rs Hrs) as (y & rs2 & Hy1 & Hrs2 & ->).
           destruct (Hks1 i k Hk) as (y' & Hy1' & E). replace y' with y in * by congruence.
           destruct (Hy i k y Hk Hy1) as (_ & B1 & S1 & _). destruct (Q2 i _ rs2 E Hrs2) as (B2 & st' & S2). cbn in S2.
           split; [by rewrite fmap_app, B1, B2|]. exists st'. exact (session_app N to_sample zero run sr _ _ _ _ _ _ _ _ _ S1 S2).
        -- intros i k rs rs' Hk Hrs Hrs'. destruct (Hsplit _ _ Hrs) as (y & rs2 & Hy1 & Hrs2 & ->). destruct (Hsplit _ _ Hrs') as (y' & rs2' & Hy1' & Hrs2' & ->).
           destruct (Hks1 (S i) k Hk) as (y'' & Hy1'' & E). replace y'' with y' in * by congruence.
           apply Forall2_app; [|exact (Q3 i _ rs2 rs2' E Hrs2 Hrs2')].
           destruct (lookup_lt_is_Some_2 ks i) as [k0 Hk0]; [pose proof (lookup_lt_Some _ _ _ Hk); lia|].
           destruct (Hy i k0 y Hk0 Hy1) as (_ & _ & _ & F). destruct (Hy (S i) k y' Hk Hy1') as (_ & B' & _ & F').
           apply Forall2_same_length_lookup. split; [by rewrite (Hnum i k0 y), (Hnum (S i) k y')|].
           intros j r r' Hrj Hrj'. pose proof (lookup_lt_Some _ _ _ Hrj) as Hj. rewrite (Hnum i k0 y Hk0 Hy1) in Hj.
           destruct (F j Hj) as (r0 & Hr0 & Ho & _). replace r0 with r in * by congruence.
           destruct (F' j Hj) as (r0' & Hr0' & _ & Hi). replace r0' with r' in * by congruence.
           intros ch fr Hchn Hfr.
           assert (r_frames r' = chunk_len MF (v_frames out ov) j) as Hfrm.
           { apply (f_equal (.!! j)) in B'. rewrite list_lookup_fmap, Hrj' in B'. unfold callback_blocks in B'.
             rewrite list_lookup_fmap, lookup_seq_lt in B' by done. cbn in B'. by injection B' as _ ->. }
           rewrite Hi by (rewrite <-?Hfrm; done). f_equal. rewrite Kc by lia.
           destruct (W3 i (k_id k0) (k_id k)) as (c & -> & F1 & F2 & F3).
           { by rewrite list_lookup_fmap, Hk0. } { by rewrite list_lookup_fmap, Hk. }
           cbn [heard]. rewrite decide_True by done. by rewrite F1, Ho.
        -- intros k rs rs' Hk Hrs Hrs'. destruct (Hsplit _ _ Hrs) as (y & rs2 & Hy1 & Hrs2 & ->).
           assert (Hlast : last rss = rss !! (length ks - 1)) by (rewrite last_lookup; f_equal; lia).
           rewrite last_lookup, zip_with_length in Hrs'. replace (pred (length ys `min` length rss)) with (length ks - 1) in Hrs' by lia.
           destruct (Hsplit _ _ Hrs') as (y' & rs2' & Hy1' & Hrs2' & ->).
           destruct (Hks1 0 k Hk) as (y'' & Hy1'' & E). replace y'' with y in * by congruence.
           cbn. exists out', l0. split; [done|]. exists y.2, rs2, y'.2, rs2'. split; [done|]. split; [done|].
           split; [|apply (Q4 _ rs2 rs2' E Hrs2); congruence].
           destruct (lookup_lt_is_Some_2 ks (length ks - 1)) as [kl Hkl]; [pose proof (lookup_lt_Some _ _ _ Hk); lia|].
           destruct (Hy 0 k y Hk Hy1) as (_ & B1 & _ & F). destruct (Hy _ kl y' Hkl Hy1') as (_ & B1' & _ & F').
           assert (Hfrm : ∀ l : list (@round V A), (λ r, (r_time r, r_frames r)) <$> l = callback_blocks MF sr pos (v_frames out ov) →
             r_frames <$> l = chunk_len MF (v_frames out ov) <$> seq 0 (cnt (v_frames out ov))).
           { intros l B. apply (f_equal (fmap snd)) in B. rewrite <-list_fmap_compose in B. unfold callback_blocks in B. by rewrite <-list_fmap_compose in B. }
           destruct (W1 (k_id k)) as [W1a W1b]; [by rewrite list_lookup_fmap, Hk|].
           assert (W2a : a_out a = Some (EOutput, k_id kl)).
           { apply W2. rewrite last_lookup, fmap_length, list_lookup_fmap. replace (pred (length ks)) with (length ks - 1) by lia. by rewrite Hkl. }
           split; [by eapply same_dims_trans|]. split; [by apply Hfrm|]. split; [by rewrite !Hfrm|]. split; [|split].
           ++ intros ch fr Hch' Hfr. assert (Hj : fr / MF < cnt (v_frames out ov)).
              { apply (chunk_count zero add run); [done|]. pose proof (Nat.mul_div_le fr MF ltac:(lia)). lia. }
              destruct (F _ Hj) as (r & Hr' & Hro & Hri). exists r. split; [done|].
              pose proof (Nat.div_mod fr MF ltac:(lia)) as Hdm. pose proof (Nat.mod_upper_bound fr MF ltac:(lia)) as Hmb.
              rewrite Hri; [|done|unfold chunk_len; lia]. f_equal. rewrite Kc by lia. rewrite W1a. cbn [heard].
              unfold system_input. rewrite Ki by lia. cbn [chunk_view v_channels r_channels off_ch off_fr r_channel r_frame].
              destruct (decide (fi = true ∧ ch < v_channels inp iv ∧ ch < MC)) as [[Hfi Hc]|Hn].
              ** rewrite decide_True by (subst fi; split; [done|lia]). f_equal; lia.
              ** rewrite decide_False; [done|]. intros [Hin ?]. destruct fi; [|done]. apply Hn. split; [done|lia].
           ++ intros ch fr Hch' Hfr. assert (Hj : fr / MF < cnt (v_frames out ov)).
              { apply (chunk_count zero add run); [done|]. pose proof (Nat.mul_div_le fr MF ltac:(lia)). lia. }
              destruct (F' _ Hj) as (r & Hr' & Hro & Hri). exists r. split; [done|].
              rewrite R2 by (rewrite ?V2; done). unfold output_node. rewrite Ko by lia. rewrite W2a.
              rewrite decide_True by (apply Kd; [lia|]; rewrite (Hh _ _ Hkl); eauto). rewrite <-Hro. destruct (decide (ch < MC)); [done|].
              rewrite Hsil. rewrite decide_True by (unfold in_rect; lia).
              destruct (valid_off out ov O4) as [Hvo1 Hvo2].
              destruct (proj2 (sample_is_Some out (off_ch ov + ch) (off_fr ov + fr) O3)) as [x Hx]; [lia|]. by rewrite Hx.
           ++ intros ch fr Hout. rewrite R3 by (by rewrite V2). rewrite Hsil. by rewrite decide_False.
Qed.

(** requests about the graph neither start nor stop the engine *)
Definition graph_only os : Prop := Forall (λ o, ∃ c, to_pop o = PSend (CGraph c)) os.
Lemma graph_only_run os : graph_only os → ∀ on, running on (sent (pops os)) = on ∧ frames_played on (pops os) = 0.
Proof.
  induction 1 as [|o os [c Hc] _ IH]; intros on; [done|]. change (pops (o :: os)) with (to_pop o :: pops os). rewrite Hc. cbn. apply IH.
Qed.
Lemma create_graph_only ks : graph_only (create <$> ks).
Proof. apply Forall_fmap, Forall_true. intros k. cbn. eauto. Qed.
Lemma connect_graph_only l : ∀ eids (cs : list (nop V A P)), connect_nodes l eids = Some cs → graph_only cs.
Proof.
  induction l as [|x l IH]; intros eids cs E; [done|]. destruct x as [|s o|]; destruct l as [|[|d o'|] more]; try done.
  - destruct more; [injection E as <-; repeat constructor; cbn; eauto|].
    change ((λ r, NInput d :: r) <$> connect_nodes (ENode d o' :: e :: more) eids = Some cs) in E.
    destruct (connect_nodes (ENode d o' :: e :: more) eids) as [r|] eqn:E2; [|done]. injection E as <-. constructor; [cbn; eauto|]. by eapply IH.
  - destruct eids as [|eid eids]; [by destruct more|].
    destruct more as [|e more]; [injection E as <-; repeat constructor; cbn; eauto|].
    change ((λ r, NConnect eid s d (Connection 0 0 o) :: r) <$> connect_nodes (ENode d o' :: e :: more) eids = Some cs) in E.
    destruct (connect_nodes (ENode d o' :: e :: more) eids) as [r|] eqn:E2; [|done]. injection E as <-. constructor; [cbn; eauto|]. by eapply IH.
  - destruct more; [|done]. injection E as <-. repeat constructor; cbn; eauto.
Qed.

(** creating the nodes *)
Lemma create_run ks : ∀ a on pos a' l, irun a on pos (pops (create <$> ks)) a' l →
  NoDup (k_id <$> ks) ∧ (∀ n, n ∈ k_id <$> ks → s_nodes (a_graph a) !! n = None) ∧ holds a' ks ∧
  (∀ n, n ∉ k_id <$> ks → s_nodes (a_graph a') !! n = s_nodes (a_graph a) !! n) ∧ s_conns (a_graph a') = s_conns (a_graph a) ∧ l = [].
Proof.
  induction ks as [|k ks IH]; intros a on pos a' l H.
  - inversion H; subst. split; [constructor|]. split; [by intros n Hn%elem_of_nil|]. split; [done|]. done.
  - change (pops (create <$> k :: ks)) with (PSend (CGraph (GAddDsp (k_id k) (Dsp (k_ins k) (k_outs k) (k_state k)))) :: pops (create (A:=A) <$> ks)) in H.
    inversion H as [| | |? ? ? ? a1 ? ? ? Hs Hr| |]; subst. inversion Hs as [? ? ? s' Hst| | | | | | | |]; subst. inversion Hst as [? ? ? Hnone| | | | | | | |]; subst.
    destruct (IH _ _ _ _ _ Hr) as (H1 & H2 & H3 & H4 & H5 & H6). cbn in H2, H4, H5.
    assert (Hk : k_id k ∉ k_id <$> ks).
    { intros Hin. specialize (H2 _ Hin). by rewrite lookup_insert in H2. }
    change (k_id <$> k :: ks) with (k_id k :: (k_id <$> ks)).
    split; [by constructor|]. split; [|split; [|split; [|split; [done|done]]]].
    + intros n [->|Hn]%elem_of_cons; [done|]. rewrite <-(H2 n Hn). rewrite lookup_insert_ne; [done|]. by intros <-.
    + intros [|i] k' Hk'; cbn in Hk'; [|by eapply H3]. injection Hk' as <-. rewrite (H4 _ Hk). apply lookup_insert.
    + intros n Hn. rewrite not_elem_of_cons in Hn. rewrite H4 by tauto. apply lookup_insert_ne. intros <-. tauto.
Qed.

(** the connections between them and the output *)
Lemma link_run ks : ∀ k eids (cs : list (nop V A P)) a on pos a' l,
  connect_nodes (((λ k, ENode (k_id k) (k_outs k)) <$> k :: ks) ++ [EOut]) eids = Some cs → irun a on pos (pops cs) a' l → NoDup (k_id <$> k :: ks) →
  l = [] ∧ s_nodes (a_graph a') = s_nodes (a_graph a) ∧ a_in a' = a_in a ∧
  (∀ n, last (k_id <$> k :: ks) = Some n → a_out a' = Some (EOutput, n)) ∧
  (∀ n, n ∉ k_id <$> ks → conns_of (a_graph a') n Incoming = conns_of (a_graph a) n Incoming) ∧
  (∀ i m n, (k_id <$> k :: ks) !! i = Some m → (k_id <$> ks) !! i = Some n →
     ∃ c, conns_of (a_graph a') n Incoming = conns_of (a_graph a) n Incoming ++ [c] ∧ only_from m c).
Proof.
  induction ks as [|k2 ks IH]; intros k eids cs a on pos a' l E H Hnd.
  - cbn in E. injection E as <-. cbn in H. inversion H as [| | |? ? ? ? a1 ? ? ? Hs Hr| |]; subst. inversion Hs; subst. inversion Hr; subst.
    do 3 (split; [done|]). split; [by intros n [= ->]|]. split; [done|]. intros i m n _ Hn. by destruct i.
  - destruct eids as [|eid eids]; [by destruct ks|].
    assert (E' : (λ r, NConnect eid (k_id k) (k_id k2) (Connection 0 0 (k_outs k)) :: r) <$>
      connect_nodes (((λ k, ENode (k_id k) (k_outs k)) <$> k2 :: ks) ++ [EOut]) eids = Some cs) by (by destruct ks). clear E.
    destruct (connect_nodes (((λ k, ENode (k_id k) (k_outs k)) <$> k2 :: ks) ++ [EOut]) eids) as [r|] eqn:E; [|done].
    injection E' as <-. change (pops (?x :: r)) with (to_pop x :: pops r) in H. cbn [to_pop] in H.
    inversion H as [| | |? ? ? ? a1 ? ? ? Hs Hr| |]; subst. inversion Hs as [| |? ? ? ? ? s' Hst| | | | | |]; subst. inversion Hst; subst.
    change (k_id <$> k :: k2 :: ks) with (k_id k :: (k_id <$> k2 :: ks)) in *. apply NoDup_cons in Hnd as [Hk Hnd].
    destruct (IH k2 eids r _ _ _ _ _ E Hr Hnd) as (G1 & G2 & G3 & G4 & G5 & G6).
    change (k_id <$> k2 :: ks) with (k_id k2 :: (k_id <$> ks)) in *. apply NoDup_cons in Hnd as [Hk2 Hnd].
    assert (Hadd : ∀ n, n ≠ k_id k2 → conns_of (SGraph (s_nodes (a_graph a)) (s_conns (a_graph a) ++ [Conn eid (k_id k) (k_id k2) (Connection 0 0 (k_outs k))])) n Incoming =
      conns_of (a_graph a) n Incoming).
    { intros n Hn. unfold conns_of. cbn [s_conns]. rewrite filter_app, filter_cons_False; [by rewrite filter_nil, app_nil_r|]. cbn. congruence. }
    split; [done|]. split; [done|]. split; [done|]. split; [|split].
    + intros n Hn. by apply G4.
    + intros n Hn. rewrite not_elem_of_cons in Hn. destruct Hn as [Hn1 Hn2]. rewrite G5 by done. by apply Hadd.
    + intros [|i] m n Hm Hn.
      * cbn in Hm, Hn. injection Hm as <-. injection Hn as <-. eexists. rewrite G5 by done. unfold conns_of. cbn [a_graph s_conns].
        rewrite filter_app, (filter_cons_True _ _ []) by done. split; [done|]. done.
      * cbn in Hm, Hn. destruct (G6 i m n Hm Hn) as (c & Hc & F). exists c. split; [|done]. rewrite Hc. f_equal. apply Hadd.
        intros ->. apply Hk2. by eapply elem_of_list_lookup_2.
Qed.

(** the input is what it was set to *)
Lemma input_set os : 0 < MF → ∀ a on pos a' l, irun a on pos (pops os) a' l → Forall pop_ok (pops os) →
  a_in a' = a_in a ∨ ∃ m, NInput m ∈ os ∧ a_in a' = Some (EInput, m).
Proof.
  intros Hmf. induction os as [|o os IH]; intros a on pos a' l H Hok.
  - inversion H; subst. by left.
  - cbn in Hok. apply Forall_cons in Hok as [Hok1 Hok2]. change (pops (o :: os)) with (to_pop o :: pops os) in H.
    assert (Hlater : ∀ a1 on1 pos1 l1, irun a1 on1 pos1 (pops os) a' l1 → a_in a1 = a_in a ∨ (∃ m, o = NInput m ∧ a_in a1 = Some (EInput, m)) →
      a_in a' = a_in a ∨ ∃ m, NInput m ∈ o :: os ∧ a_in a' = Some (EInput, m)).
    { intros a1 on1 pos1 l1 H1 H2. destruct (IH _ _ _ _ _ H1 Hok2) as [->|(m & Hm & ->)]; [|right; exists m; split; [by right|done]].
      destruct H2 as [->|(m & -> & ->)]; [by left|right; exists m; split; [by left|done]]. }
    destruct (to_pop o) as [c|inp iv out ov] eqn:Ex.
    + destruct c as [| |c]; inversion H as [| | |? ? ? ? a1 ? ? ? Hs Hr| |]; subst; [by eapply Hlater; [eassumption|left]..|].
      eapply Hlater; [exact Hr|]. destruct o; try discriminate Ex; injection Ex as <-; inversion Hs; subst; cbn; try (by left). right. by eexists.
    + inversion H as [| | | |? ? ? ? ? ? out' ? ? ? Hs Hr|? ? ? ? ? ? out0 out' a1 ? ? ? Hs Hch Hr]; subst; [by eapply Hlater; [eassumption|left]|].
      eapply Hlater; [exact Hr|]. left. destruct Hs as (_ & Hdim & _). destruct (same_dims_view out out0 ov Hdim) as (V1 & V2 & V3 & V4).
      destruct (callback_sessions N to_sample zero add run MC MF sr _ _ _ _ _ _ _ _ _ Hmf Hch V1 (V3 (proj1 (proj2 (proj2 (proj2 Hok1))))))
          as (state & os' & C0 & Ce & D1 & K1 & _). rewrite <-Ce, <-C0.
      apply (state_const zero add (λ j, a_in (state j)) (cnt (v_frames out ov))); [|done]. intros; by apply K1.
Qed.

Lemma chain_run fi ks eids (cs : list (nop V A P)) a on pos a' l :
  connect_nodes (chain_of fi ks) eids = Some cs → irun a on pos (pops cs) a' l → NoDup (k_id <$> ks) → (∀ n, n ∈ k_id <$> ks → conns_of (a_graph a) n Incoming = []) →
  (fi = false → ∀ n, (k_id <$> ks) !! 0 = Some n → a_in a ≠ Some (EInput, n)) →
  l = [] ∧ s_nodes (a_graph a') = s_nodes (a_graph a) ∧ wired fi a' (k_id <$> ks).
Proof.
  intros E H Hnd Hf Hno. destruct ks as [|k ks]; [by destruct fi|].
  assert (∃ r a0, connect_nodes (((λ k, ENode (k_id k) (k_outs k)) <$> k :: ks) ++ [EOut]) eids = Some r ∧ irun a0 on pos (pops r) a' l ∧ a_graph a0 = a_graph a ∧
    if fi then a_in a0 = Some (EInput, k_id k) else a_in a0 ≠ Some (EInput, k_id k)) as (r & a0 & E' & Hr & Hg & Hi).
  { destruct fi.
    - assert (E' : (λ r, NInput (k_id k) :: r) <$> connect_nodes (((λ k, ENode (k_id k) (k_outs k)) <$> k :: ks) ++ [EOut]) eids = Some cs) by (by destruct ks). clear E.
      destruct (connect_nodes (((λ k, ENode (k_id k) (k_outs k)) <$> k :: ks) ++ [EOut]) eids) as [r|] eqn:E; [|done].
      injection E' as <-. change (pops (?x :: r)) with (to_pop x :: pops r) in H. cbn [to_pop] in H.
      inversion H as [| | |? ? ? ? a1 ? ? ? Hs Hr| |]; subst. inversion Hs; subst. exists r. eexists. split; [done|]. split; [exact Hr|]. done.
    - exists cs, a. split; [exact E|]. split; [done|]. split; [done|]. by apply Hno. }
  destruct (link_run ks k eids r _ _ _ _ _ E' Hr Hnd) as (H1 & H2 & H3 & H4 & H5 & H6). rewrite Hg in H2, H5, H6.
  split; [done|]. split; [done|]. change (k_id <$> k :: ks) with (k_id k :: (k_id <$> ks)) in *. apply NoDup_cons in Hnd as [Hk Hnd].
  split; [|split; [done|]].
  - intros n Hn. cbn in Hn. injection Hn as <-. split; [|by rewrite H3]. rewrite H5 by done. apply Hf. by left.
  - intros i m n Hm Hn. cbn in Hn. destruct (H6 i m n Hm Hn) as (c & Hc & F). exists c. split; [|done]. rewrite Hc.
    rewrite Hf; [done|]. right. by eapply elem_of_list_lookup_2.
Qed.
End chain.

Section final.
Context {V A P : Type} (N : num V) (to_sample : V → A) (zero : A) (add : A → A → A).
Context (run : P → timestamp → (string → res (list A)) → owned A → owned A → res (P * owned A)).
Context (nbuf MC MF sr : nat) (sh : nat → oracle) (dr : nat → list endpoint → list endpoint).
Notation proc := (dsp_process N to_sample run).

Lemma engine_chain fi ks eids cs before after st l :
  let os := before ++ (create <$> ks) ++ cs ++ after : list (nop V A P) in
  connect_nodes (chain_of fi ks) eids = Some cs →
  good_setup proc nbuf MF sr sh dr (to_pop <$> os) → undisturbed fi ks before after → unprocessed [] (to_pop <$> os) = [] →
  prun zero add proc sh dr (new_processor zero nbuf sr MC MF) (to_pop <$> os) = Ok (st, l) →
  let on := running false (sent (to_pop <$> before)) in
  let pos := frames_played false (to_pop <$> before) in
  ∃ rss, length rss = length ks ∧
    (∀ i k rs, ks !! i = Some k → rss !! i = Some rs →
      (λ r, (r_time r, r_frames r)) <$> rs = blocks_of MF sr on pos after ∧
      ∃ st', session N to_sample zero run sr (k_ins k) (k_outs k) (k_state k) (λ name, events_of MF sr (k_id k) name on pos after) rs st') ∧
    (∀ i k rs rs', ks !! S i = Some k → rss !! i = Some rs → rss !! S i = Some rs' → feeds zero (k_ins k) rs rs') ∧
    (∀ k rs rs', ks !! 0 = Some k → rss !! 0 = Some rs → last rss = Some rs' →
      heard_between zero MF fi MC (k_ins k) on after (drop (callbacks before) l) rs rs').
Proof.
  intros os Ec Hg (D1 & D2 & D3 & D4 & D5) Hu E on pos. destruct (history_irun N to_sample zero add run nbuf MC MF sr sh dr os st l Hg E Hu) as (a & Ha & Hi).
  destruct Hg as (_ & _ & Hmf & _ & _ & _ & Hok & _). unfold os in Hok, Hi. rewrite !fmap_app, !Forall_app in Hok. rewrite !fmap_app in Hi.
  destruct Hok as (Hok1 & Hok2 & _ & Hok).
  destruct (irun_app zero add proc MC MF sr _ _ _ _ _ _ _ Hi) as (a1 & l1 & l2 & I1 & -> & I2).
  destruct (irun_app zero add proc MC MF sr _ _ _ _ _ _ _ I2) as (a2 & l3 & l4 & I3 & -> & I4).
  destruct (irun_app zero add proc MC MF sr _ _ _ _ _ _ _ I4) as (a3 & l5 & l6 & I5 & -> & I6).
  destruct (create_run N to_sample zero add run MC MF sr ks _ _ _ _ _ I3) as (N1 & N2 & N3 & N4 & N5 & ->).
  assert (Hfree : ∀ n, n ∈ k_id <$> ks → conns_of (a_graph a1) n Incoming = [] ∧ length l1 = callbacks before).
  { intros n Hn. apply elem_of_list_fmap in Hn as (k & -> & Hk). eapply (before_free N to_sample zero add run MC MF sr); [exact Hmf|exact I1|done| |done].
    intros eid m c Hin. apply (D1 k eid m c Hk). apply elem_of_app. by left. }
  destruct (chain_run N to_sample zero add run MC MF sr fi ks eids cs _ _ _ _ _ Ec I5 N1) as (-> & W1 & W2).
  { intros n Hn. unfold conns_of. rewrite N5. by apply Hfree. }
  { intros -> n Hn Hin. rewrite <-head_lookup in Hn.
    destruct (input_set N to_sample zero add run MC MF sr _ Hmf _ _ _ _ _ I3 Hok2) as [E2|(m & Hm & _)].
    - rewrite E2 in Hin. destruct (input_set N to_sample zero add run MC MF sr _ Hmf _ _ _ _ _ I1 Hok1) as [E1|(m & Hm & E1)]; [by rewrite E1 in Hin|].
      rewrite E1 in Hin. injection Hin as ->. apply (D4 n); [|done]. apply elem_of_app. by left.
    - apply elem_of_list_fmap in Hm as (k & Hm & _). discriminate Hm. }
  destruct (graph_only_run _ (create_graph_only (A:=A) ks) on) as [G1 G2]. destruct (graph_only_run _ (connect_graph_only _ _ _ Ec) on) as [G3 G4].
  fold on in I6. rewrite G1, G2, G3, G4 in I6. replace (0 + _ + 0 + 0) with pos in I6 by (unfold pos; lia).
  destruct (chain_session N to_sample zero add run MC MF sr fi after Hmf _ _ _ _ _ ks I6 Hok) as (rss & (R1 & R2 & R3) & R4).
  { split; [|split; [|split; [|split]]].
    - intros n eid m c Hn Hin. apply elem_of_list_fmap in Hn as (k & -> & Hk). apply (D1 k eid m c Hk). apply elem_of_app. by right.
    - intros n Hn Hin. apply elem_of_list_fmap in Hn as (k & -> & Hk). by apply (D2 k Hk).
    - intros n m Hn Hin. apply elem_of_list_fmap in Hn as (k & -> & Hk). by apply (D3 k m Hk).
    - intros m Hin. rewrite <-head_lookup. specialize (D4 m). destruct fi; [by apply D4|]. apply D4. apply elem_of_app. by right.
    - by apply D5. }
  { intros i k Hk. rewrite W1. by eapply N3. }
  { exact W2. }
  exists rss. split; [done|]. split; [exact R2|]. split; [exact R3|].
  intros k rs rs' Hk Hrs Hrs'. cbn [app]. rewrite drop_app_alt; [by apply R4|].
  symmetry. apply (Hfree (k_id k)). apply elem_of_list_fmap_1. by eapply elem_of_list_lookup_2.
Qed.
End final.
