(** A gain node between the input and the output of the engine. *)
From stdpp Require Import gmap list list_numbers strings.
From Coq Require Import ZArith Lia ZifyBool ZifyNat Reals Lra.
From Verif Require Import Base Graph GraphSpec TopoSort Buffer BufferSpec BufferProofs EffectSpec EffectProofs DspGraph DspGraphSpec DspGraphProofs
  Float Timestamp Processor ProcessorSpec AudioParam AudioParamSpec AudioParamProofs AudioParamR AudioParamRProofs Mixer MixerR MixerSpec GainProofs Node NodeSpec NodeProofs.

Lemma join_chunks {X} MF (ls : list (list X)) : 0 < MF → ∀ n, length <$> ls = chunk_len MF n <$> seq 0 ((n + (MF - 1)) / MF) →
  length (mjoin ls) = n ∧ ∀ fr, fr < n → mjoin ls !! fr = ls !! (fr / MF) ≫= lookup (fr mod MF).
Proof.
  intros Hmf. induction ls as [|l ls IH]; intros n H.
  - symmetry in H. apply fmap_nil_inv in H. assert ((n + (MF - 1)) / MF = 0) as H0 by (destruct ((n + (MF - 1)) / MF); done).
    apply Nat.div_small_iff in H0; [|lia]. assert (n = 0) by lia. split; [done|lia].
  - destruct ((n + (MF - 1)) / MF) as [|c] eqn:Ec; [done|]. cbn in H. injection H as Hl H.
    assert (Hn : 0 < n). { destruct n; [|lia]. rewrite Nat.div_small in Ec by lia. done. }
    assert (Hc : (n - MF + (MF - 1)) / MF = c).
    { destruct (decide (n ≤ MF)).
      - assert (c = 0) as ->. { assert ((n + (MF - 1)) / MF < 2) by (apply Nat.div_lt_upper_bound; lia). lia. }
        apply Nat.div_small. lia.
      - replace (n + (MF - 1)) with (n - MF + (MF - 1) + 1 * MF) in Ec by lia. rewrite Nat.div_add in Ec by lia. lia. }
    destruct (IH (n - MF)) as [L1 L2].
    { rewrite Hc. change (length <$> ls = chunk_len MF n <$> seq 1 c) in H. rewrite H, <-fmap_S_seq, <-list_fmap_compose.
      apply list_fmap_ext. intros i k _. cbn. unfold chunk_len. lia. }
    unfold chunk_len in Hl. change (mjoin (l :: ls)) with (l ++ mjoin ls). rewrite app_length, L1. split; [lia|]. intros fr Hfr.
    destruct (decide (fr < MF)) as [Hlt|Hge].
    + rewrite lookup_app_l by lia. rewrite Nat.div_small, Nat.mod_small by done. done.
    + rewrite lookup_app_r by lia. replace (length l) with MF by lia. rewrite L2 by lia.
      replace fr with (fr - MF + 1 * MF) at 3 4 by lia. rewrite Nat.div_add, Nat.mod_add by lia.
      rewrite Nat.add_comm. done.
Qed.

Lemma gain_run_ok values t (i o : owned R) ni no fc g : is_block i ni fc → is_block o no fc → values "gain" = Ok g →
  ∃ o', gain_run gain_process_R () t values i o = Ok ((), o') ∧
    written o Whole o' (λ ch fr x y, y = gained 0%R (λ g, close32R g 0) (λ g, close32R g 1) Rmult g fr (default x (seen i Whole ch fr))).
Proof.
  intros (Hw & Hc & Hf) (Hw2 & Hc2 & Hf2) Hv. unfold gain_run. rewrite Hv. cbn [rbind].
  destruct (gain_process_ok 0%R (λ g, close32R g 0) (λ g, close32R g 1) Rmult g i Whole o Whole) as (o' & E & W); [done..|cbn; lia|].
  unfold gain_process_R. rewrite E. exists o'. done.
Qed.

Lemma gain_shape : proc_shape (dsp_process R_num (λ v, v) (gain_run gain_process_R)).
Proof.
  intros t [m []] i o st' o' ni no fc E Hi Ho. unfold dsp_process in E.
  destruct (process_params _ _ _ _ _) as [m'|]; [|done]. cbn [rbind ds_proc] in E.
  destruct (parameter_values (λ v : R, v) (snd <$> m') "gain") as [g|] eqn:Ev.
  - destruct (gain_run_ok _ t i o ni no fc g Hi Ho Ev) as (o1 & E1 & W1). rewrite E1 in E. injection E as <- <-.
    destruct W1 as (W & (S1 & S2 & S3) & _). destruct Ho as (O1 & O2 & O3). split; [done|]. split; congruence.
  - unfold gain_run in E. rewrite Ev in E. done.
Qed.

(** ** What a round of the gain node does *)
Lemma gain_round sr cc p rs p' names : runs (λ v : R, v) 0%R (gain_run gain_process_R) sr cc p rs p' →
  Forall (round_ok sr cc cc names) rs → "gain" ∈ names →
  ∀ k r, rs !! k = Some r → ∃ g, r_values r !! "gain" = Some g ∧ length g = r_frames r ∧
    ∀ ch fr, ch < cc → fr < r_frames r → ∃ x y v, sample (r_in r) ch fr = Some x ∧ sample (r_out r) ch fr = Some y ∧
      g !! fr = Some v ∧ (Rabs (y - x * v) <= / 2 ^ 22 * Rabs x)%R.
Proof.
  intros Hruns Hok Hn. induction Hruns as [|p r p1 rs p2 E H IH]; intros k r0 Hk; [done|].
  apply Forall_cons in Hok as [(Hi & Hr & Ho & Hd & Hl) Hok].
  destruct k as [|k]; [|by eapply IH]. injection Hk as <-. clear IH H.
  assert (is_Some (r_values r !! "gain")) as [g Hg] by (apply elem_of_dom; by rewrite Hd).
  exists g. split; [done|]. pose proof (Hl _ _ Hg) as Hlg. split; [done|].
  destruct p, p1. assert (Hz : is_block (new_buffer 0%R (r_frames r) cc sr) cc (r_frames r)).
  { split; [|done]. unfold wf. cbn. rewrite replicate_length. lia. }
  destruct (gain_run_ok (parameter_values (λ v : R, v) (r_values r)) (r_time r) (r_in r) _ cc cc (r_frames r) ((λ v, v) <$> g) Hi Hz) as (o' & E' & W).
  { unfold parameter_values. by rewrite Hg. }
  rewrite E' in E. injection E as <-. rewrite list_fmap_id in W. destruct W as (_ & _ & _ & W). intros ch fr Hch Hfr.
  destruct (W ch fr) as (x & y & _ & Hy & ->); [done|done|].
  destruct Hi as (Wi & Ci & Fi). destruct (proj2 (sample_is_Some (r_in r) ch fr Wi)) as [s Hs]; [lia|].
  destruct (lookup_lt_is_Some_2 g fr) as [v Hv]; [lia|].
  assert (Es : seen (r_in r) Whole ch fr = Some s). { unfold seen. cbn. rewrite decide_True by lia. done. }
  rewrite Es in Hy. cbn [default from_option id] in Hy.
  unfold seen in Hy. case_decide; [|done]. cbn in Hy. eexists s, _, v. split; [done|]. split; [exact Hy|]. split; [done|].
  by apply gained_error.
Qed.

Lemma heard_amplified sr MF MC cc (os : list (nop R R unit)) : 0 < MF → ∀ on l rs p p' names,
  runs (λ v : R, v) 0%R (gain_run gain_process_R) sr cc p rs p' → Forall (round_ok sr cc cc names) rs → "gain" ∈ names →
  heard_through 0%R MF MC cc on os l rs → amplified (/ 2 ^ 22) MC cc on os l (values_got "gain" rs).
Proof.
  intros Hmf. induction os as [|o os IH]; intros on l rs p p' names Hr Hok Hn H.
  - destruct H as [-> ->]. done.
  - destruct o; cbn [heard_through amplified] in *; try by eapply IH.
    destruct H as (out' & l' & -> & H). exists out', l'. split; [done|]. destruct on; [|by destruct H; eauto].
    destruct H as (rs1 & rs2 & -> & (P1 & P2 & P3 & P4) & H).
    assert (∃ q, runs (λ v : R, v) 0%R (gain_run gain_process_R) sr cc p rs1 q ∧ runs (λ v : R, v) 0%R (gain_run gain_process_R) sr cc q rs2 p') as (q & R1 & R2).
    { clear -Hr. remember (rs1 ++ rs2) as rs eqn:E. revert rs1 E. induction Hr; intros rs1 E.
      - symmetry in E. apply app_nil in E as [-> ->]. eexists. split; constructor.
      - destruct rs1 as [|r1 rs1]; [cbn in E; subst rs2; eexists; split; [constructor|by econstructor]|].
        cbn in E. injection E as <- ->. destruct (IHHr rs1 eq_refl) as (q & Q1 & Q2). exists q. split; [by econstructor|done]. }
    apply Forall_app in Hok as [O1 O2].
    exists (values_got "gain" rs1), (values_got "gain" rs2). split; [by unfold values_got; rewrite bind_app|].
    pose proof (gain_round sr cc p rs1 q names R1 O1 Hn) as G.
    destruct (join_chunks MF ((λ r, default [] (r_values r !! "gain")) <$> rs1) Hmf (v_frames out ov)) as [J1 J2].
    { rewrite <-P2, <-list_fmap_compose. apply list_fmap_ext. intros k r Hk. cbn. destruct (G k r Hk) as (g & -> & Hg & _). done. }
    assert (Ej : mjoin ((λ r, default [] (r_values r !! "gain")) <$> rs1) = values_got "gain" rs1).
    { unfold values_got. clear. induction rs1 as [|r rs1 IH]; [done|]. 
      change (default [] (r_values r !! "gain") ++ mjoin ((λ r, default [] (r_values r !! "gain")) <$> rs1) = default [] (r_values r !! "gain") ++ (rs1 ≫= λ r, default [] (r_values r !! "gain"))).
      by rewrite IH. }
    rewrite Ej in J1, J2. split; [done|]. split; [done|]. split; [|split; [done|by eapply IH]].
    intros ch fr Hch Hfr. destruct (P3 ch fr Hfr) as (r & Hk & Hin & Hout). specialize (Hout Hch). destruct (G _ _ Hk) as (g & Hg & Hlg & Hs).
    assert (Hfc : fr mod MF < r_frames r).
    { assert (Hk' : (r_frames <$> rs1) !! (fr / MF) = Some (r_frames r)) by (rewrite list_lookup_fmap, Hk; done).
      rewrite P2, list_lookup_fmap in Hk'. apply fmap_Some in Hk' as (j & Hj & ->). apply lookup_seq in Hj as [-> Hj]. unfold chunk_len.
      pose proof (Nat.div_mod fr MF ltac:(lia)). pose proof (Nat.mod_upper_bound fr MF ltac:(lia)). lia. }
    destruct (lookup_lt_is_Some_2 g (fr mod MF)) as [v Hv]; [lia|]. exists v. eexists. split.
    { rewrite J2 by done. rewrite list_lookup_fmap, Hk. cbn. rewrite Hg. cbn. done. }
    split; [exact Hout|]. cbv zeta. unfold incoming. destruct (decide (ch < cc)) as [Hc|Hc].
    + destruct (Hs ch (fr mod MF) Hc Hfc) as (x & y & v' & Hx & Hy & Hv' & Hb). rewrite Hv in Hv'. injection Hv' as <-.
      rewrite Hin in Hx by done. injection Hx as <-. destruct (decide (ch < MC)).
      * unfold heard_at at 1. rewrite Hy. cbn [default from_option id].
        destruct (decide (ch < v_channels inp iv ∧ ch < MC)) as [Hd|Hd].
        -- rewrite decide_True by tauto. exact Hb.
        -- rewrite decide_False by tauto. exact Hb.
      * rewrite decide_False by tauto. rewrite Rmult_0_l, Rminus_0_r, Rabs_R0. lra.
    + rewrite (decide_False (P := ch < v_channels inp iv ∧ ch < MC ∧ ch < cc)) by tauto.
      assert ((if decide (ch < MC) then heard_at 0%R (r_out r) ch (fr mod MF) else 0%R) = 0%R) as ->.
      { destruct (decide (ch < MC)) as [?|?]; [|reflexivity]. unfold heard_at. destruct (sample (r_out r) ch (fr mod MF)) eqn:Es; [|done].
        exfalso. rewrite Forall_lookup in O1. destruct (O1 _ _ Hk) as (_ & _ & (Wo & Co & _) & _).
        destruct (proj1 (sample_is_Some (r_out r) ch (fr mod MF) Wo)); [eauto|]. lia. }
      rewrite Rmult_0_l, Rminus_0_r, Rabs_R0. lra.
Qed.

Section final.
Context (nbuf MC MF sr : nat) (sh : nat → oracle) (dr : nat → list endpoint → list endpoint).
Notation proc := (dsp_process R_num (λ v : R, v) (gain_run gain_process_R)).
Implicit Types os : list (nop R R unit).

Lemma engine_gain n cc initial before after st l :
  let os := before ++ NNew n cc cc (gain_state R_num initial) :: NInput n :: NOutput n :: after in
  good_setup proc nbuf MF sr sh dr (to_pop <$> os) → direct n before after → unprocessed [] (to_pop <$> os) = [] →
  prun 0%R Rplus proc sh dr (new_processor 0%R nbuf sr MC MF) (to_pop <$> os) = Ok (st, l) →
  let on := running false (sent (to_pop <$> before)) in
  let pos := frames_played false (to_pop <$> before) in
  ∃ p gains, run_events R_num sr (new_param R_num initial) (events_of MF sr n "gain" on pos after) = Ok (p, gains) ∧
    amplified (/ 2 ^ 22) MC cc on after (drop (callbacks before) l) gains.
Proof.
  intros os Hg Hd Hu E on pos.
  destruct (engine_direct_session R_num (λ v : R, v) 0%R Rplus (gain_run gain_process_R) nbuf MC MF sr sh dr n cc cc
    (gain_state R_num initial) before after st l Hg Hd Hu E) as (st' & rs & B & (S1 & S2 & S3 & S4) & H).
  destruct (S4 "gain" (new_param R_num initial)) as (p' & _ & Ep); [apply lookup_singleton|].
  exists p', (values_got "gain" rs). split; [done|]. eapply heard_amplified; [apply Hg|exact S1|exact S2| |exact H].
  cbn. rewrite dom_singleton. set_solver.
Qed.
End final.

(** ** Changes that take effect on different frames *)
Lemma run_events_aops {V} (N : num V) sr l : (∀ e, PCancel e ∉ l) → ∀ p, run_events N sr p l = run_param N sr p (aops_of l).
Proof.
  induction l as [|ev l IH]; intros Hn p; [done|].
  assert (Hn' : ∀ e, PCancel e ∉ l) by (intros e He; apply (Hn e); by right).
  destruct ev as [c|e|t n].
  - change (aops_of (PChange c :: l)) with (AAdd c :: aops_of l). cbn [run_events run_param]. by apply IH.
  - exfalso. apply (Hn e). by left.
  - change (aops_of (PBlock t n :: l)) with (ABlock t n :: aops_of l). cbn [run_events run_param].
    destruct (AudioParam.process N t n sr p) as [[p1 out]|]; [|done]. cbn [rbind]. by rewrite IH.
Qed.

Lemma events_of_elem {V A P} MF sr n name (os : list (nop V A P)) : ∀ on pos,
  (∀ c, PChange c ∈ events_of MF sr n name on pos os → NChange n name c ∈ os) ∧
  (∀ e, PCancel e ∈ events_of MF sr n name on pos os → NCancel n name e ∈ os).
Proof.
  induction os as [|o os IH]; intros on pos; [split; set_solver|].
  destruct o; cbn [events_of];
    try (match goal with |- context [events_of MF sr n name ?b ?q os] => destruct (IH b q) as [H1 H2] end; split; intros ? H; right; eauto; fail).
  - destruct (IH on pos) as [H1 H2]. split; intros x H; apply elem_of_app in H as [H|H]; try (right; eauto; fail);
      destruct (decide _) as [[-> ->]|]; try (apply elem_of_list_singleton in H; try discriminate H; injection H as ->; by left); by apply elem_of_nil in H.
  - destruct (IH on pos) as [H1 H2]. split; intros x H; apply elem_of_app in H as [H|H]; try (right; eauto; fail);
      destruct (decide _) as [[-> ->]|]; try (apply elem_of_list_singleton in H; try discriminate H; injection H as ->; by left); by apply elem_of_nil in H.
  - destruct on.
    + destruct (IH true (pos + v_frames out ov)) as [H1 H2]. split; intros x H; apply elem_of_app in H as [H|H]; try (right; eauto; fail);
        apply elem_of_list_fmap in H as (? & H & _); discriminate H.
    + destruct (IH false pos) as [H1 H2]. split; intros ? H; right; eauto.
Qed.

Section scheduled.
Context (nbuf MC MF sr : nat) (sh : nat → oracle) (dr : nat → list endpoint → list endpoint).
Notation proc := (dsp_process R_num (λ v : R, v) (gain_run gain_process_R)).

Lemma engine_gain_scheduled n cc initial before after st l :
  let os := before ++ NNew n cc cc (gain_state R_num initial) :: NInput n :: NOutput n :: after in
  good_setup proc nbuf MF sr sh dr (to_pop <$> os) → direct n before after → unprocessed [] (to_pop <$> os) = [] →
  (∀ e, NCancel n "gain" e ∉ after) → (∀ c, NChange n "gain" c ∈ after → c_method c = Immediate) →
  let on := running false (sent (to_pop <$> before)) in
  let pos := frames_played false (to_pop <$> before) in
  let h := timeline sr (aops_of (events_of MF sr n "gain" on pos after)) in
  distinct_frames h →
  prun 0%R Rplus proc sh dr (new_processor 0%R nbuf sr MC MF) (to_pop <$> os) = Ok (st, l) →
  ∃ gains, Forall2 (value_is initial h) (frame_positions h) gains ∧
    amplified (/ 2 ^ 22) MC cc on after (drop (callbacks before) l) gains.
Proof.
  intros os Hg Hd Hu Hnc Him on pos h Hdf E.
  destruct (engine_gain nbuf MC MF sr sh dr n cc initial before after st l Hg Hd Hu E) as (p & gains & Er & Ha).
  destruct (events_of_elem MF sr n "gain" after on pos) as [X1 X2].
  rewrite run_events_aops in Er by (intros e He; by apply (Hnc e), X2).
  destruct (run_param_value R_num sr initial (aops_of (events_of MF sr n "gain" on pos after))) as (p' & out & E' & Hv).
  { apply R_steady. }
  { intros c Hc. unfold aops_of in Hc. apply elem_of_list_bind in Hc as (ev & Hc & Hin).
    destruct ev; try (apply elem_of_list_singleton in Hc; discriminate Hc); [|by apply elem_of_nil in Hc].
    apply elem_of_list_singleton in Hc. injection Hc as ->. by apply Him, X1. }
  { intros c _. apply R_steady. }
  { exact Hdf. }
  exists gains. split; [|exact Ha]. cbv zeta in Er. fold on pos in Er. rewrite Er in E'. injection E' as <- <-. exact Hv.
Qed.
End scheduled.
