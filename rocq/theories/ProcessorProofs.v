(** The audio callback refines the abstract engine. *)
From stdpp Require Import gmap list sets.
From Coq Require Import ZArith Lia ZifyBool ZifyNat.
From Verif Require Import Base Graph GraphSpec GraphProofs TopoSort TopoSortSpec TopoSortProofs
  Buffer BufferSpec BufferProofs DspGraph DspGraphSpec DspGraphProofs
  Float FloatProofs Timestamp TimestampProofs Processor ProcessorSpec.

Section proofs.
Context {A St : Type}.
Context (zero : A) (add : A → A → A).
Context (proc : timestamp → St → owned A → owned A → res (St * owned A)).
Context (nbuf MC MF sr : nat).
Context (node_ok : nat → nat → St → Prop).
Context (Hshape : proc_shape proc) (Hprogress : proc_ok proc MF sr node_ok) (Hnbuf : 0 < nbuf).
Context (sh : nat → oracle) (dr : nat → list endpoint → list endpoint).
Context (Hsh : ∀ k, any_order (sh k)) (Hdr : ∀ k l, dr k l ≡ₚ l).
Implicit Types (g : dspgraph A St) (a : @astate St) (b out inp : owned A) (st : processor A St).

Notation astep := (astep zero add proc MC MF sr).
Notation arun := (arun zero add proc MC MF sr).
Notation readya := (readya zero nbuf MC MF sr).
Notation chunks := (chunks zero add proc MC MF sr).
Notation estep := (estep zero add proc MC MF sr).
Notation erun := (erun zero add proc MC MF sr).
Notation time_of := (time_of sr).

(** ** Commands *)
Definition cmd_edge_ids (c : command St) : list id :=
  match c with CGraph c => gcmd_edge_ids c | _ => [] end.
Definition cmd_ok (c : command St) : Prop :=
  match c with CGraph c => hop_ok (T := timestamp) (HCmd (A := A) c) | _ => True end.

Lemma commands_ok q : ∀ st a st', readya (p_graph st) a → Forall cmd_ok q →
  NoDup (q ≫= cmd_edge_ids) →
  (∀ e, e ∈ q ≫= cmd_edge_ids → e ∉ c_id <$> s_conns (a_graph a)) →
  rfold (apply_command sh) q st = Ok st' →
  ∃ a', arun a (graph_commands q) a' [] ∧ readya (p_graph st') a' ∧
    p_started st' = running (p_started st) q ∧ p_queue st' = p_queue st ∧
    p_rate st' = p_rate st ∧ p_position st' = p_position st ∧ p_time st' = p_time st ∧
    p_max st' = p_max st ∧
    (∀ e, e ∈ c_id <$> s_conns (a_graph a') → e ∈ c_id <$> s_conns (a_graph a) ∨ e ∈ q ≫= cmd_edge_ids).
Proof.
  induction q as [|c q IH]; intros st a st' Hra Hok Hnd Hf E.
  - injection E as <-. exists a. split; [constructor|]. do 7 (split; [done|]). auto.
  - apply Forall_cons in Hok as [Hc Hok]. cbn in Hnd, Hf.
    apply NoDup_app in Hnd as (Hnd1 & Hnd2 & Hnd3). cbn [rfold] in E.
    destruct c as [| |c]; cbn [apply_command rbind] in E.
    + destruct (IH (Processor true (p_rate st) (p_queue st) (p_position st) (p_time st) (p_graph st)
            (p_max st) (p_clock st)) a st' Hra Hok Hnd3) with (2 := E) as (a' & H1 & H2 & H3 & H4 & H5 & H6 & H7 & H8 & H9).
      { intros e He. apply Hf. set_solver. }
      exists a'. cbn in *. done.
    + destruct (IH (Processor false (p_rate st) (p_queue st) (p_position st) (p_time st) (p_graph st)
            (p_max st) (p_clock st)) a st' Hra Hok Hnd3) with (2 := E) as (a' & H1 & H2 & H3 & H4 & H5 & H6 & H7 & H8 & H9).
      { intros e He. apply Hf. set_solver. }
      exists a'. cbn in *. done.
    + pose proof (hstep_ok zero add proc nbuf MC MF sr node_ok Hshape Hprogress Hnbuf sh dr (p_clock st)
                    (p_graph st) a (HCmd c) Hsh Hdr Hra Hc) as Hst.
      cbn [hstep] in Hst.
      destruct (gcmd_step (sh (p_clock st)) (p_clock st) (p_graph st) c) as [g|p]; cbn [rbind] in E, Hst; [|done].
      destruct Hst as (a1 & Hst & Hra1). { intros e He. apply Hf. set_solver. }
      destruct (IH (Processor (p_started st) (p_rate st) (p_queue st) (p_position st) (p_time st) g
            (p_max st) (S (p_clock st))) a1 st') as (a' & H1 & H2 & H3 & H4 & H5 & H6 & H7 & H8 & H9); [done|done|done| |done|].
      { intros e He Hin. destruct (astep_ids zero add proc MC MF sr _ _ _ _ Hst e Hin) as [H|H].
        - eapply Hf; [|exact H]. set_solver.
        - eapply Hnd2; done. }
      exists a'. cbn in *. split; [|split; [done|do 6 (split; [done|])]].
      * change (@nil (owned A)) with ([] ++ @nil (owned A)). econstructor; [exact Hst|exact H1].
      * intros e He. destruct (H9 e He) as [H|H]; [|set_solver].
        destruct (astep_ids zero add proc MC MF sr _ _ _ _ Hst e H) as [H'|H']; [auto|set_solver].
Qed.

(** ** Chunks *)
Lemma block_renderable a inp iv out ov t a' l :
  renderable node_ok nbuf MC (a_graph a) → astep a (HBlock inp iv out ov t) a' l →
  renderable node_ok nbuf MC (a_graph a').
Proof.
  intros [R1 R2 R3 R4 R5] Hst. inversion Hst; subst. cbn [a_graph].
  match goal with H : block_equations _ _ _ _ _ _ _ _ _ _ |- _ => destruct H as [Hd Heq] end.
  split; cbn [s_nodes s_conns]; try done.
  - rewrite <-size_dom, Hd, size_dom. done.
  - intros n d' Hn.
    assert (Hin : n ∈ dom (s_nodes (a_graph a))) by (rewrite <-Hd; apply elem_of_dom; eauto).
    apply elem_of_dom in Hin as [d Hd'].
    destruct (Heq n d Hd') as (i & st' & Hi & Hr & Hs & Hp & Ho & Hn'). rewrite Hn in Hn'. injection Hn' as ->.
    destruct (R4 n d Hd') as (Q1 & Q2 & Q3). cbn. split; [done|]. split; [done|].
    destruct (Hprogress t (d_in d) (d_out d) (d_state d) i (new_buffer zero (v_frames out ov `min` MF) (d_out d) sr)
                (v_frames out ov `min` MF)) as (st2 & o2 & E & _ & Hk); try done.
    + lia.
    + split; [apply new_buffer_wf|done].
    + rewrite E in Hp. injection Hp as -> ->. done.
Qed.

Lemma block_ids a inp iv out ov t a' l : astep a (HBlock inp iv out ov t) a' l →
  s_conns (a_graph a') = s_conns (a_graph a).
Proof. intros H. by inversion H. Qed.

Lemma chunk_loop_ok inp iv ov n pos : ∀ fuel k clock g a out, 0 < MF →
  readya g a → wf inp → valid_view inp iv → v_frames inp iv = n →
  wf out → valid_view out ov → v_frames out ov = n →
  n ≤ fuel + k * MF →
  outcome (chunk_loop zero add proc fuel sh dr sr MF (time_of pos) inp iv ov (n `min` (k * MF)) clock g out)
    (λ '(_, g', out'), ∃ a', chunks inp iv ov n pos k a out a' out' ∧ readya g' a' ∧
        s_conns (a_graph a') = s_conns (a_graph a))
    (¬ renderable node_ok nbuf MC (a_graph a)).
Proof.
  induction fuel as [|fuel IH]; intros k clock g a out Hmf Hra Hi Hiv Hin Ho Hov Hon Hfuel;
    cbn [chunk_loop]; rewrite Hon.
  - destruct (Nat.ltb_spec (n `min` (k * MF)) n) as [Hlt|Hge]; [lia|]. cbn.
    exists a. split; [|done]. apply chunks_done. lia.
  - destruct (Nat.ltb_spec (n `min` (k * MF)) n) as [Hlt|Hge].
    2:{ cbn. exists a. split; [|done]. apply chunks_done. lia. }
    assert (Hk : k * MF < n) by lia.
    replace (n `min` (k * MF)) with (k * MF) by lia.
    assert (Hlen : (n - k * MF) `min` MF = chunk_len MF n k) by (unfold chunk_len; lia).
    rewrite Hlen.
    assert (Hck : chunk_len MF n k + k * MF ≤ n ∧ chunk_len MF n k ≤ MF) by (unfold chunk_len; lia).
    assert (Hs1 : slice_frames inp iv (k * MF) (chunk_len MF n k) = Ok (chunk_view MF inp iv n k)).
    { unfold slice_frames, slice, rassert, range_is_valid. cbn.
      destruct (Nat.leb_spec (v_channels inp iv) (v_channels inp iv)); [|lia].
      destruct (Nat.leb_spec (k * MF + chunk_len MF n k) (v_frames inp iv)); [done|lia]. }
    assert (Hs2 : slice_frames out ov (k * MF) (chunk_len MF n k) = Ok (chunk_view MF out ov n k)).
    { unfold slice_frames, slice, rassert, range_is_valid. cbn.
      destruct (Nat.leb_spec (v_channels out ov) (v_channels out ov)); [|lia].
      destruct (Nat.leb_spec (k * MF + chunk_len MF n k) (v_frames out ov)); [done|lia]. }
    rewrite Hs1, Hs2. cbn [rbind].
    change (incremented_by_samples (time_of pos) (Z.of_nat (k * MF)) (Z.of_nat sr))
      with (time_of pos + time_of (k * MF))%Z.
    pose proof (hstep_ok zero add proc nbuf MC MF sr node_ok Hshape Hprogress Hnbuf sh dr clock g a
      (HBlock inp (chunk_view MF inp iv n k) out (chunk_view MF out ov n k) (time_of pos + time_of (k * MF))%Z)
      Hsh Hdr Hra) as Hst.
    cbn [hstep] in Hst.
    destruct (process zero add proc (sh clock) (dr clock) g inp (chunk_view MF inp iv n k) out
                (chunk_view MF out ov n k) (time_of pos + time_of (k * MF))%Z) as [[g1 out1]|p]; cbn [rbind] in *.
    2:{ cbn in *. apply Hst; [|set_solver]. cbn.
        split; [done|]. split; [split; [done|]; cbn; lia|]. split; [done|]. split; [split; [done|]; cbn; lia|]. done. }
    destruct Hst as (a1 & Hst & Hra1).
    { cbn. split; [done|]. split; [split; [done|]; cbn; lia|]. split; [done|]. split; [split; [done|]; cbn; lia|]. done. }
    { set_solver. }
    assert (Hout : wf out1 ∧ same_dims out out1).
    { inversion Hst; subst. match goal with H : output_is _ _ _ _ _ _ _ |- _ => destruct H as (? & ? & _) end. done. }
    destruct Hout as [Hwf1 Hdim].
    destruct (same_dims_view out out1 ov Hdim) as (Hv1 & Hv2 & Hv3 & Hv4).
    replace (k * MF + chunk_len MF n k) with (n `min` (S k * MF)) by (unfold chunk_len; lia).
    pose proof (IH (S k) (S clock) g1 a1 out1 Hmf Hra1 Hi Hiv Hin Hwf1 (Hv3 Hov) ltac:(lia) ltac:(cbn; lia)) as Hnext.
    eapply outcome_mono; [| |exact Hnext].
    + intros [[c g2] out2] (a2 & Hc & Hr & Hcn). exists a2. split; [by eapply chunks_next|].
      split; [done|]. rewrite Hcn. by eapply block_ids.
    + intros Hbad Hrd. apply Hbad. by eapply block_renderable.
Qed.

(** a maximum of 0 frames never finishes *)
Lemma chunk_loop_stuck inp iv ov n pos : ∀ fuel clock g a out x, MF = 0 →
  readya g a → wf inp → valid_view inp iv → v_frames inp iv = n →
  wf out → valid_view out ov → v_frames out ov = n → 0 < n →
  chunk_loop zero add proc fuel sh dr sr MF (time_of pos) inp iv ov 0 clock g out ≠ Ok x.
Proof.
  induction fuel as [|fuel IH]; intros clock g a out x Hmf Hra Hi Hiv Hin Ho Hov Hon Hn;
    cbn [chunk_loop]; rewrite Hon.
  - destruct (Nat.ltb_spec 0 n); [done|lia].
  - destruct (Nat.ltb_spec 0 n); [|lia].
    replace ((n - 0) `min` MF) with 0 by lia.
    assert (Hs1 : slice_frames inp iv 0 0 = Ok (Sub iv (Range 0 0 (v_channels inp iv) 0))).
    { unfold slice_frames, slice, rassert, range_is_valid. cbn. by rewrite Nat.leb_refl. }
    assert (Hs2 : slice_frames out ov 0 0 = Ok (Sub ov (Range 0 0 (v_channels out ov) 0))).
    { unfold slice_frames, slice, rassert, range_is_valid. cbn. by rewrite Nat.leb_refl. }
    rewrite Hs1, Hs2. cbn [rbind].
    set (t := incremented_by_samples _ _ _).
    pose proof (hstep_ok zero add proc nbuf MC MF sr node_ok Hshape Hprogress Hnbuf sh dr clock g a
      (HBlock inp (Sub iv (Range 0 0 (v_channels inp iv) 0)) out (Sub ov (Range 0 0 (v_channels out ov) 0)) t)
      Hsh Hdr Hra) as Hst.
    cbn [hstep] in Hst.
    destruct (process _ _ _ _ _ _ _ _ _ _ _) as [[g1 out1]|p]; cbn [rbind] in *; [|done].
    destruct Hst as (a1 & Hst & Hra1).
    { cbn. split; [done|]. split; [split; [done|]; cbn; lia|]. split; [done|]. split; [split; [done|]; cbn; lia|]. done. }
    { set_solver. }
    assert (Hout : wf out1 ∧ same_dims out out1).
    { inversion Hst; subst. match goal with H : output_is _ _ _ _ _ _ _ |- _ => destruct H as (? & ? & _) end. done. }
    destruct Hout as [Hwf1 Hdim].
    destruct (same_dims_view out out1 ov Hdim) as (Hv1 & Hv2 & Hv3 & Hv4).
    cbn [Nat.add]. eapply (IH (S clock) g1 a1); [done|done|done|done|done|done|tauto|lia|done].
Qed.


(** ** Callbacks *)
Record pinv st (e : estate St) : Prop := {
  pi_started : p_started st = e_started e;
  pi_queue : p_queue st = e_sent e;
  pi_graph : readya (p_graph st) (e_graph e);
  pi_position : p_position st = e_frames e;
  pi_time : p_time st = time_of (e_frames e);
  pi_rate : p_rate st = sr;
  pi_max : p_max st = MF;
}.

Definition fresh_ids (ids : list id) a : Prop :=
  NoDup ids ∧ ∀ e, e ∈ ids → e ∉ c_id <$> s_conns (a_graph a).

Lemma fresh_mono ids ids' a a' : fresh_ids (ids ++ ids') a →
  (∀ e, e ∈ c_id <$> s_conns (a_graph a') → e ∈ c_id <$> s_conns (a_graph a) ∨ e ∈ ids) →
  fresh_ids ids' a'.
Proof.
  intros [Hnd Hf] Hsub. apply NoDup_app in Hnd as (H1 & H2 & H3). split; [done|].
  intros e He Hin. destruct (Hsub e Hin) as [H|H].
  - eapply Hf; [|exact H]. set_solver.
  - eapply H2; done.
Qed.

Lemma clear_silences out ov : wf out → valid_view out ov →
  ∃ out', clear zero out ov = Ok out' ∧ silenced zero out ov out'.
Proof. intros Hw Hv. exact (fill_with_value_ok out ov zero Hw Hv). Qed.

Lemma callback_ok st e inp iv out ov st' out' ids : 0 < MF → pinv st e →
  pop_ok (St := St) (PCallback inp iv out ov) → Forall cmd_ok (e_sent e) →
  fresh_ids ((e_sent e ≫= cmd_edge_ids) ++ ids) (e_graph e) →
  callback zero add proc sh dr st inp iv out ov = Ok (st', out') →
  ∃ e', estep e (PCallback inp iv out ov) e' [out'] ∧ pinv st' e' ∧ e_sent e' = [] ∧
    fresh_ids ids (e_graph e').
Proof.
  intros Hmf [I1 I2 I3 I4 I5 I6 I7] (O1 & O2 & O3 & O4 & O5) Hq Hf E.
  unfold callback in E. destruct (v_frames inp iv =? v_frames out ov) eqn:Efr; [|lia]. cbn [rassert] in E.
  destruct (clear_silences out ov O3 O4) as (out0 & Ec & Hsil). rewrite Ec in E. cbn [rbind] in E.
  unfold process_commands in E. rewrite I2 in E.
  destruct (rfold (apply_command sh) (e_sent e) (with_queue st [])) as [st1|p] eqn:Ecmd; cbn [rbind] in E; [|done].
  assert (Hfq : NoDup (e_sent e ≫= cmd_edge_ids)) by (destruct Hf as [Hf _]; by apply NoDup_app in Hf as [? _]).
  destruct (commands_ok (e_sent e) (with_queue st []) (e_graph e) st1 I3 Hq Hfq) with (2 := Ecmd)
    as (a' & H1 & H2 & H3 & H4 & H5 & H6 & H7 & H8 & H9).
  { intros x Hx. apply Hf. set_solver. }
  assert (Hf' : fresh_ids ids a') by (by eapply fresh_mono).
  cbn in H3, H4, H5, H6, H7, H8. rewrite I1 in H3.
  destruct (p_started st1) eqn:Est.
  - unfold process_graph in E.
    destruct Hsil as (S1 & S2 & S3). destruct (same_dims_view out out0 ov S2) as (V1 & V2 & V3 & V4).
    rewrite V1, H5, H7, H8, I5, I6, I7 in E.
    pose proof (chunk_loop_ok inp iv ov (v_frames out ov) (e_frames e) (v_frames out ov) 0 (p_clock st1)
                  (p_graph st1) a' out0 Hmf H2 O1 O2 O5 S1 (V3 O4) V1 ltac:(lia)) as Hl.
    rewrite Nat.mul_0_l, Nat.min_0_r in Hl.
    destruct (chunk_loop _ _ _ _ _ _ _ _ _ _ _ _ _ _ _ _) as [[[clock g'] out2]|p]; cbn [rbind] in E; [|done].
    injection E as <- <-. destruct Hl as (a'' & Hc & Hr & Hcn).
    exists (EState true [] a'' (e_frames e + v_frames out ov)). split; [|split; [|split; [done|]]].
    + eapply e_play; [exact H1|by rewrite <-H3|by split|exact Hc].
    + split; cbn; try done; try congruence.
      rewrite H6, I4, <- I6, <- H5. unfold time_of, ProcessorSpec.time_of. rewrite H5, I6. done.
    + destruct Hf' as [? Hf']. split; [done|]. cbn. rewrite Hcn. done.
  - injection E as <- <-.
    exists (EState false [] a' (e_frames e)). split; [|split; [|split; [done|done]]].
    + by eapply e_idle.
    + split; cbn; try done; try congruence.
Qed.

Lemma cmd_of_pop_ids c : pop_edge_ids (PSend (A := A) c) = cmd_edge_ids c.
Proof. by destruct c. Qed.

Lemma pstep_ok st e o st' l ids : 0 < MF → pinv st e → pop_ok o → Forall cmd_ok (e_sent e) →
  fresh_ids ((e_sent e ≫= cmd_edge_ids) ++ pop_edge_ids o ++ ids) (e_graph e) →
  pstep zero add proc sh dr st o = Ok (st', l) →
  ∃ e', estep e o e' l ∧ pinv st' e' ∧ Forall cmd_ok (e_sent e') ∧
    fresh_ids ((e_sent e' ≫= cmd_edge_ids) ++ ids) (e_graph e').
Proof.
  intros Hmf HI Ho Hq Hf E. destruct o as [c|inp iv out ov]; cbn [pstep] in E.
  - injection E as <- <-. eexists. split; [constructor|]. destruct HI as [I1 I2 I3 I4 I5 I6 I7].
    split; [split; cbn; congruence|]. split; cbn.
    + apply Forall_app. split; [done|]. constructor; [|done]. destruct c; done.
    + rewrite cmd_of_pop_ids in Hf. rewrite bind_app. cbn. rewrite app_nil_r, <-app_assoc. done.
  - destruct (callback _ _ _ _ _ _ _ _ _ _) as [[st1 out1]|p] eqn:Ec; cbn [rbind] in E; [|done].
    injection E as <- <-. cbn in Hf.
    destruct (callback_ok _ _ _ _ _ _ _ _ ids Hmf HI Ho Hq Hf Ec) as (e' & H1 & H2 & H3 & H4).
    exists e'. rewrite H3. done.
Qed.

Lemma prun_ok os : ∀ st e st' l, 0 < MF → pinv st e → Forall pop_ok os → Forall cmd_ok (e_sent e) →
  fresh_ids ((e_sent e ≫= cmd_edge_ids) ++ phist_edge_ids os) (e_graph e) →
  prun zero add proc sh dr st os = Ok (st', l) →
  ∃ e', erun e os e' l ∧ pinv st' e' ∧ Forall cmd_ok (e_sent e') ∧
    fresh_ids (e_sent e' ≫= cmd_edge_ids) (e_graph e').
Proof.
  induction os as [|o os IH]; intros st e st' l Hmf HI Hok Hq Hf E.
  - injection E as <- <-. exists e. split; [constructor|]. cbn in Hf. rewrite app_nil_r in Hf. done.
  - apply Forall_cons in Hok as [Ho Hok]. cbn [prun] in E.
    destruct (pstep zero add proc sh dr st o) as [[st1 l1]|p] eqn:E1; cbn [rbind] in E; [|done].
    destruct (prun zero add proc sh dr st1 os) as [[st2 l2]|p] eqn:E2; cbn [rbind] in E; [|done].
    injection E as <- <-.
    destruct (pstep_ok st e o st1 l1 (phist_edge_ids os) Hmf HI Ho Hq Hf E1) as (e1 & H1 & H2 & H3 & H4).
    destruct (IH st1 e1 st2 l2 Hmf H2 Hok H3 H4 E2) as (e2 & Q1 & Q2 & Q3 & Q4).
    exists e2. split; [by econstructor|done].
Qed.

Notation new_engine := (new_processor zero nbuf sr MC MF).

Lemma new_pinv : (0 < Z.of_nat sr <= 2 ^ 53)%Z → pinv new_engine einit.
Proof.
  intros Hsr. split; cbn; try done.
  - by eapply new_ready.
  - symmetry. apply (frame_time_0 (Z.of_nat sr)). done.
Qed.

Lemma engine_ok os st l : 0 < MF → (0 < Z.of_nat sr <= 2 ^ 53)%Z → Forall pop_ok os → NoDup (phist_edge_ids os) →
  prun zero add proc sh dr new_engine os = Ok (st, l) →
  ∃ e, erun einit os e l ∧ pinv st e ∧ Forall cmd_ok (e_sent e) ∧
    fresh_ids (e_sent e ≫= cmd_edge_ids) (e_graph e).
Proof.
  intros Hmf Hsr Hok Hnd E.
  eapply prun_ok; [done|by apply new_pinv|done|constructor| |done].
  split; [done|]. intros e _. cbn. apply not_elem_of_nil.
Qed.

(** a callback does not abort if the graph can be rendered *)
Lemma callback_total st e inp iv out ov : 0 < MF → pinv st e → e_sent e = [] →
  pop_ok (St := St) (PCallback inp iv out ov) → renderable node_ok nbuf MC (a_graph (e_graph e)) →
  ∃ st' out', callback zero add proc sh dr st inp iv out ov = Ok (st', out').
Proof.
  intros Hmf [I1 I2 I3 I4 I5 I6 I7] Hnil (O1 & O2 & O3 & O4 & O5) Hrd. unfold callback.
  destruct (v_frames inp iv =? v_frames out ov) eqn:Efr; [|lia]. cbn [rassert].
  destruct (clear_silences out ov O3 O4) as (out0 & Ec & S1 & S2 & S3). rewrite Ec. cbn [rbind].
  unfold process_commands. rewrite I2, Hnil. cbn [rfold rbind with_queue p_started].
  destruct (p_started st); [|eauto].
  unfold process_graph. cbn [p_rate p_max p_time p_clock p_graph with_queue].
  destruct (same_dims_view out out0 ov S2) as (V1 & V2 & V3 & V4).
  rewrite V1, I5, I6, I7.
  pose proof (chunk_loop_ok inp iv ov (v_frames out ov) (e_frames e) (v_frames out ov) 0 (p_clock st)
                (p_graph st) (e_graph e) out0 Hmf I3 O1 O2 O5 S1 (V3 O4) V1 ltac:(lia)) as Hl.
  rewrite Nat.mul_0_l, Nat.min_0_r in Hl.
  destruct (chunk_loop _ _ _ _ _ _ _ _ _ _ _ _ _ _ _ _) as [[[clock g'] out2]|p]; cbn [rbind] in *; [eauto|done].
Qed.

End proofs.

Section histories.
Context {A St : Type}.
Context (zero : A) (add : A → A → A).
Context (proc : timestamp → St → owned A → owned A → res (St * owned A)).
Context (MC MF sr : nat).
Implicit Types (a : @astate St) (out inp : owned A).
Notation chunks := (chunks zero add proc MC MF sr).
Notation erun := (erun zero add proc MC MF sr).
Notation time_of := (time_of sr).

(** ** Time and switch along a history *)
Lemma running_app on (q1 q2 : list (command St)) : running on (q1 ++ q2) = running (running on q1) q2.
Proof. revert on. induction q1 as [|[] q1 IH]; intros on; cbn; auto. Qed.

Lemma erun_frames os : ∀ e e' l, erun e os e' l →
  e_frames e' = e_frames e + frames_played (running (e_started e) (e_sent e)) os.
Proof.
  induction os as [|o os IH]; intros e e' l H; inversion H as [|? ? e1 l1 ? ? l2 Hst Hrun]; subst.
  - cbn. lia.
  - rewrite (IH _ _ _ Hrun). inversion Hst; subst; cbn [e_frames e_started e_sent running].
    + rewrite running_app. destruct c; done.
    + cbn. rewrite H1. done.
    + cbn. rewrite H1. lia.
Qed.

(** the last start or stop among the commands sent *)
Lemma erun_running os : ∀ e e' l, erun e os e' l →
  running (e_started e') (e_sent e') =
  running (running (e_started e) (e_sent e)) (os ≫= λ o, match o with PSend c => [c] | _ => [] end).
Proof.
  induction os as [|o os IH]; intros e e' l H; inversion H as [|? ? e1 l1 ? ? l2 Hst Hrun]; subst; [done|].
  rewrite (IH _ _ _ Hrun). inversion Hst; subst; cbn [e_frames e_started e_sent running].
  - rewrite running_app. cbn. destruct c; done.
  - cbn. by rewrite H1.
  - cbn. by rewrite H1.
Qed.

(** ** What each frame of a callback is *)
Lemma chunks_frames inp iv ov n pos : 0 < MF → ∀ k a out a' out',
  chunks inp iv ov n pos k a out a' out' → v_frames out ov = n → valid_view out ov →
  ∃ (state : nat → astate) (outs : nat → id → owned A),
    state k = a ∧ (∀ j, k ≤ j → n ≤ j * MF → state j = a') ∧
    same_dims out out' ∧
    (∀ j, k ≤ j → j * MF < n →
       block_equations zero add proc (a_graph (state j))
         (system_input zero (a_in (state j)) MC inp (chunk_view MF inp iv n j))
         (chunk_len MF n j) sr (time_of pos + time_of (j * MF))%Z
         (s_nodes (a_graph (state (S j)))) (outs j) ∧
       s_conns (a_graph (state (S j))) = s_conns (a_graph (state j)) ∧
       a_in (state (S j)) = a_in (state j) ∧ a_out (state (S j)) = a_out (state j)) ∧
    (∀ ch fr, (∃ j f, k ≤ j ∧ j * MF < n ∧ f < chunk_len MF n j ∧
          off_ch ov ≤ ch < off_ch ov + v_channels out ov ∧ fr = off_fr ov + (j * MF + f) ∧
          sample out' ch fr =
            match output_node (a_graph (state j)) (a_out (state j)) with
            | Some m => if decide (ch - off_ch ov < MC) then Some (heard_at zero (outs j m) (ch - off_ch ov) f)
                        else sample out ch fr
            | None => sample out ch fr
            end) ∨
       (¬ (∃ j f, k ≤ j ∧ j * MF < n ∧ f < chunk_len MF n j ∧
          off_ch ov ≤ ch < off_ch ov + v_channels out ov ∧ fr = off_fr ov + (j * MF + f)) ∧
        sample out' ch fr = sample out ch fr)).
Proof.
  intros Hmf k a out a' out' Hc. induction Hc as [k a o Hk|k a o a1 o1 a2 o2 Hk Hst Hc IH]; intros Hfr Hval.
  - exists (λ _, a), (λ _ _, o). split; [done|]. split; [done|]. split; [done|]. split.
    + intros j Hj Hlt. assert (k * MF ≤ j * MF) by nia. lia.
    + intros ch fr. right. split; [|done]. intros (j & f & Hj & Hlt & _).
      assert (k * MF ≤ j * MF) by nia. lia.
  - inversion Hst as [| | | | | | | |? ? ? ? ? ? ? nodes' outs0 Hac Hnp Heq Hout]; subst. cbn [a_graph a_in a_out] in *.
    assert (Hdim : same_dims o o1) by apply Hout.
    destruct (same_dims_view o o1 ov Hdim) as (V1 & V2 & V3 & V4).
    destruct IH as (state & outs & S1 & S2 & S3 & S4 & S5); [lia|tauto|].
    assert (Hlen : chunk_len MF (v_frames o ov) k `min` MF = chunk_len MF (v_frames o ov) k)
      by (unfold chunk_len; lia).
    cbn [v_frames r_frames chunk_view v_channels r_channels off_ch off_fr r_channel r_frame] in Heq, Hout.
    rewrite Hlen in Heq, Hout.
    exists (λ j, if decide (j = k) then a else state j), (λ j, if decide (j = k) then outs0 else outs j).
    rewrite decide_True by done. split; [done|]. split; [|split; [|split]].
    + intros j Hj Hle. destruct (decide (j = k)) as [->|]; [lia|]. apply S2; lia.
    + by eapply same_dims_trans.
    + intros j Hj Hlt. destruct (decide (j = k)) as [->|Hjk].
      * rewrite decide_False by lia. rewrite S1. cbn. done.
      * rewrite decide_False by lia. apply S4; lia.
    + intros ch fr. destruct Hout as (_ & _ & Hout). specialize (Hout ch fr).
      change (off_ch (chunk_view MF o ov (v_frames o ov) k)) with (off_ch ov + 0) in Hout.
      change (off_fr (chunk_view MF o ov (v_frames o ov) k)) with (off_fr ov + k * MF) in Hout.
      destruct (decide (off_ch ov ≤ ch < off_ch ov + v_channels o ov)) as [Hch|Hch].
      2:{ right. split; [intros (j & f & ?); lia|].
          destruct (S5 ch fr) as [(j & f & ? & ? & ? & ? & _)|[_ ->]]; [rewrite V2 in *; lia|].
          rewrite Hout. destruct (output_node (a_graph a) (a_out a)); cbn [fmap option_fmap option_map]; [|done].
          rewrite decide_False; [done|]. unfold in_rect. lia. }
      destruct (S5 ch fr) as [(j & f & Q1 & Q2 & Q3 & Q4 & Q5 & Q6)|[Q1 Q2]].
      * left. exists j, f. do 5 (split; [lia|]). rewrite Q6. rewrite decide_False by lia.
        rewrite !decide_False by lia.
        assert (Hso : sample o1 ch fr = sample o ch fr).
        { rewrite Hout. destruct (output_node (a_graph a) (a_out a)); cbn [fmap option_fmap option_map]; [|done].
          rewrite decide_False; [done|]. unfold in_rect, chunk_len. 
          assert (S k * MF ≤ j * MF) by nia. cbn in *. lia. }
        by rewrite Hso.
      * destruct (decide (off_fr ov + k * MF ≤ fr < off_fr ov + k * MF + chunk_len MF (v_frames o ov) k)) as [Hin|Hin].
        -- left. exists k, (fr - (off_fr ov + k * MF)). do 5 (split; [lia|]).
           rewrite Q2, Hout. rewrite !(decide_True (P := k = k)) by done.
           destruct (output_node (a_graph a) (a_out a)) as [m|]; cbn [fmap option_fmap option_map]; [|done].
           destruct (decide (ch - off_ch ov < MC)) as [Hmc|Hmc].
           ++ rewrite decide_True by (unfold in_rect; lia). do 2 f_equal; lia.
           ++ rewrite decide_False by (unfold in_rect; lia). done.
        -- right. split.
           ++ intros (j & f & R1 & R2 & R3 & R4 & R5). destruct (decide (j = k)) as [->|]; [lia|].
              apply Q1. exists j, f. rewrite V2. do 4 (split; [lia|]). lia.
           ++ rewrite Q2, Hout. destruct (output_node (a_graph a) (a_out a)); cbn [fmap option_fmap option_map]; [|done].
              rewrite decide_False; [done|]. unfold in_rect. lia.
Qed.

End histories.

(** ** Statements without a notion of valid node *)
Section final.
Context {A St : Type}.
Context (zero : A) (add : A → A → A).
Context (proc : timestamp → St → owned A → owned A → res (St * owned A)).
Context (nbuf MC MF sr : nat).
Context (sh : nat → oracle) (dr : nat → list endpoint → list endpoint).

Notation new_engine := (new_processor zero nbuf sr MC MF).
Notation prun := (prun zero add proc sh dr).
Notation callback := (callback zero add proc sh dr).
Notation arun := (arun zero add proc MC MF sr).
Notation erun := (erun zero add proc MC MF sr).
Notation good_setup := (good_setup proc nbuf MF sr sh dr).

Lemma engine_inv os st l : good_setup os → prun new_engine os = Ok (st, l) →
  ∃ e, erun einit os e l ∧ pinv zero nbuf MC MF sr st e ∧ Forall (cmd_ok (A := A)) (e_sent e) ∧
    fresh_ids (e_sent e ≫= cmd_edge_ids) (e_graph e).
Proof.
  intros (H1 & H2 & H3 & H4 & H5 & H6 & H7 & H8) E.
  exact (engine_ok zero add proc nbuf MC MF sr (λ _ _ _, False) H1 (proc_ok_none proc _ _) H2 sh dr H5 H6 os st l H3 H4 H7 H8 E).
Qed.

Lemma engine_refines os st l : good_setup os → prun new_engine os = Ok (st, l) →
  ∃ e, erun einit os e l ∧ observes (dg_graph (p_graph st)) (a_graph (e_graph e)) ∧
    dg_in (p_graph st) = a_in (e_graph e) ∧ dg_out (p_graph st) = a_out (e_graph e) ∧
    p_started st = e_started e ∧ p_queue st = e_sent e ∧ p_time st = time_of sr (e_frames e) ∧
    assigned (dg_pools (p_graph st)) = ∅ ∧
    free (dg_pools (p_graph st)) = replicate nbuf (new_buffer zero MF MC sr).
Proof.
  intros Hg E. destruct (engine_inv os st l Hg E) as (e & He & [I1 I2 [[R1 R2 R3 R4 [R5 R6] R7 R8] [R9 R10]] I4 I5 I6 I7] & _).
  exists e. split; [done|]. split; [by apply rep_observes|]. do 5 (split; [done|]). split; [done|].
  by rewrite R6, R3, R4.
Qed.

Lemma erun_sent os : ∀ e e' l, erun e os e' l → e_sent e' = unprocessed (e_sent e) os.
Proof.
  induction os as [|o os IH]; intros e e' l H; inversion H as [|? ? e1 l1 ? ? l2 Hst Hrun]; subst; [done|].
  rewrite (IH _ _ _ Hrun). inversion Hst; subst; done.
Qed.

Lemma current_time os st l : good_setup os → prun new_engine os = Ok (st, l) →
  p_time st = time_of sr (frames_played false os).
Proof.
  intros Hg E. destruct (engine_refines os st l Hg E) as (e & He & _ & _ & _ & _ & _ & -> & _).
  by rewrite (erun_frames zero add proc MC MF sr os _ _ _ He).
Qed.

Lemma time_monotone n m : n ≤ m → (Z.of_nat m <= 2 ^ 53)%Z → (0 < Z.of_nat sr <= 2 ^ 53)%Z →
  (time_of sr n <= time_of sr m)%Z.
Proof. intros. apply (frame_time_mono (Z.of_nat n) (Z.of_nat m) (Z.of_nat sr)); [lia|done|done]. Qed.

Lemma frames_played_app (os os' : list (pop A St)) : ∀ on,
  frames_played on (os ++ os') = frames_played on os + frames_played (running on (sent os)) os'.
Proof.
  unfold sent. induction os as [|[[| |c]|inp iv out ov] os IH]; intros on; [done|..].
  - exact (IH true).
  - exact (IH false).
  - exact (IH on).
  - cbn [app frames_played]. rewrite IH. cbn. lia.
Qed.

Lemma current_time_monotone os os' st l st' l' : good_setup os → good_setup (os ++ os') →
  (Z.of_nat (frames_played false (os ++ os')) <= 2 ^ 53)%Z →
  prun new_engine os = Ok (st, l) → prun new_engine (os ++ os') = Ok (st', l') →
  (p_time st <= p_time st')%Z.
Proof.
  intros Hg Hg' Hb E E'. rewrite (current_time os st l Hg E), (current_time _ _ _ Hg' E').
  apply time_monotone; [|done|apply Hg]. rewrite frames_played_app. lia.
Qed.

Lemma callback_step os st l inp iv out ov st' out' :
  good_setup os → pop_ok (St := St) (PCallback inp iv out ov) →
  prun new_engine os = Ok (st, l) → callback st inp iv out ov = Ok (st', out') →
  ∃ e e', estep zero add proc MC MF sr e (PCallback inp iv out ov) e' [out'] ∧
    pinv zero nbuf MC MF sr st e ∧ pinv zero nbuf MC MF sr st' e' ∧
    running (e_started e) (e_sent e) = running false (sent os) ∧ e_sent e = unprocessed [] os ∧
    e_frames e = frames_played false os.
Proof.
  intros Hg Ho E Ec. destruct (engine_inv os st l Hg E) as (e & He & HI & Hq & Hf).
  destruct Hg as (H1 & H2 & H3 & H4 & H5 & H6 & H7 & H8).
  destruct (callback_ok zero add proc nbuf MC MF sr (λ _ _ _, False) H1 (proc_ok_none proc _ _) H2 sh dr H5 H6
              st e inp iv out ov st' out' [] H3 HI Ho Hq) as (e' & Hs & HI' & Hs' & _); [by rewrite app_nil_r|done|].
  exists e, e'. do 3 (split; [done|]). split; [|split].
  - by rewrite (erun_running zero add proc MC MF sr os _ _ _ He).
  - exact (erun_sent os _ _ _ He).
  - exact (erun_frames zero add proc MC MF sr os _ _ _ He).
Qed.

Lemma pinv_graph_is (st : processor A St) (e : estate St) : pinv zero nbuf MC MF sr st e → graph_is st (e_graph e).
Proof.
  intros [_ _ [[R1 _ _ _ _ _ _] [R2 R3]] _ _ _ _]. split; [by apply rep_observes|done].
Qed.

Lemma stopped_engine os st l inp iv out ov st' out' :
  good_setup os → pop_ok (St := St) (PCallback inp iv out ov) → running false (sent os) = false →
  prun new_engine os = Ok (st, l) → callback st inp iv out ov = Ok (st', out') →
  silenced zero out ov out' ∧ p_time st' = p_time st ∧ p_queue st' = [] ∧ p_started st' = false ∧
  ∃ a a', graph_is st a ∧ graph_is st' a' ∧
    arun a (graph_commands (unprocessed [] os)) a' [].
Proof.
  intros Hg Ho Hoff E Ec.
  destruct (callback_step os st l inp iv out ov st' out' Hg Ho E Ec) as (e & e' & Hs & HI & HI' & Hr & Hq & Hfr).
  rewrite <-Hr in Hoff. inversion Hs; subst; [|congruence].
  split; [done|]. split; [rewrite (pi_time _ _ _ _ _ _ _ HI), (pi_time _ _ _ _ _ _ _ HI'); done|].
  split; [by rewrite (pi_queue _ _ _ _ _ _ _ HI')|]. split; [by rewrite (pi_started _ _ _ _ _ _ _ HI')|].
  exists (e_graph e), a'. split; [by apply pinv_graph_is|]. split; [by apply (pinv_graph_is _ _ HI')|].
  rewrite <-Hq. done.
Qed.

Lemma started_engine os st l inp iv out ov st' out' :
  good_setup os → pop_ok (St := St) (PCallback inp iv out ov) → running false (sent os) = true →
  prun new_engine os = Ok (st, l) → callback st inp iv out ov = Ok (st', out') →
  p_time st' = time_of sr (frames_played false os + v_frames out ov) ∧ p_queue st' = [] ∧
  p_started st' = true ∧
  ∃ a (state : nat → @astate St) (outs : nat → id → owned A),
    graph_is st a ∧
    arun a (graph_commands (unprocessed [] os)) (state 0) [] ∧
    (∀ j, v_frames out ov ≤ j * MF → graph_is st' (state j)) ∧
    (∀ j, j * MF < v_frames out ov →
       block_equations zero add proc (a_graph (state j))
         (system_input zero (a_in (state j)) MC inp (chunk_view MF inp iv (v_frames out ov) j))
         (chunk_len MF (v_frames out ov) j) sr
         (time_of sr (frames_played false os) + time_of sr (j * MF))%Z
         (s_nodes (a_graph (state (S j)))) (outs j) ∧
       s_conns (a_graph (state (S j))) = s_conns (a_graph (state j)) ∧
       a_in (state (S j)) = a_in (state j) ∧ a_out (state (S j)) = a_out (state j)) ∧
    same_dims out out' ∧
    (∀ ch fr, ch < v_channels out ov → fr < v_frames out ov →
       sample out' (off_ch ov + ch) (off_fr ov + fr) =
       Some (match output_node (a_graph (state (fr / MF))) (a_out (state (fr / MF))) with
             | Some m => if decide (ch < MC) then heard_at zero (outs (fr / MF) m) ch (fr mod MF) else zero
             | None => zero
             end)) ∧
    (∀ ch fr, ¬ in_rect (off_ch ov) (off_fr ov) (v_channels out ov) (v_frames out ov) ch fr →
       sample out' ch fr = sample out ch fr).
Proof.
  intros Hg Ho Hon E Ec.
  destruct (callback_step os st l inp iv out ov st' out' Hg Ho E Ec) as (e & e' & Hs & HI & HI' & Hr & Hq & Hfr).
  assert (Hmf : 0 < MF) by apply Hg.
  rewrite <-Hr in Hon. inversion Hs; subst; [congruence|].
  split; [by rewrite (pi_time _ _ _ _ _ _ _ HI'); cbn; rewrite Hfr|].
  split; [by rewrite (pi_queue _ _ _ _ _ _ _ HI')|]. split; [by rewrite (pi_started _ _ _ _ _ _ _ HI')|].
  destruct Ho as (O1 & O2 & O3 & O4 & O5).
  match goal with H : silenced _ _ _ ?o |- _ => destruct H as (S1 & S2 & S3); rename o into out0 end.
  destruct (same_dims_view out out0 ov S2) as (V1 & V2 & V3 & V4).
  match goal with H : chunks _ _ _ _ _ _ _ _ _ _ _ _ _ _ _ _ |- _ =>
    destruct (chunks_frames zero add proc MC MF sr inp iv ov (v_frames out ov) (e_frames e) Hmf _ _ _ _ _ H V1 (V3 O4))
      as (state & outs & C1 & C2 & C3 & C4 & C5) end.
  exists (e_graph e), state, outs. split; [by apply pinv_graph_is|].
  split; [rewrite C1, <-Hq; done|]. split.
  { intros j Hj. rewrite (C2 j) by lia. by apply (pinv_graph_is _ _ HI'). }
  split. { intros j Hj. rewrite <-Hfr. apply C4; [lia|done]. }
  split; [by eapply same_dims_trans|]. split.
  - intros ch fr Hch Hfr'.
    pose proof (Nat.div_mod fr MF ltac:(lia)) as Hdm. pose proof (Nat.mod_upper_bound fr MF ltac:(lia)) as Hmb.
    assert (Hs0 : sample out0 (off_ch ov + ch) (off_fr ov + fr) = Some zero).
    { rewrite S3. rewrite decide_True by (unfold in_rect; lia).
      destruct (valid_off out ov O4) as [Hvo1 Hvo2].
      destruct (proj2 (sample_is_Some out (off_ch ov + ch) (off_fr ov + fr) O3)) as [x Hx]; [lia|].
      by rewrite Hx. }
    destruct (C5 (off_ch ov + ch) (off_fr ov + fr)) as [(j & f & Q1 & Q2 & Q3 & Q4 & Q5 & Q6)|[Q1 _]].
    + assert (Hj : j = fr / MF).
      { apply (Nat.div_unique fr MF j f); unfold chunk_len in Q3; lia. }
      assert (Hf : f = fr mod MF).
      { apply (Nat.mod_unique fr MF j f); unfold chunk_len in Q3; lia. }
      rewrite Q6, Hs0, Hj, Hf. replace (off_ch ov + ch - off_ch ov) with ch by lia.
      clear. set (x := output_node _ _). clearbody x.
      destruct x; [|reflexivity]. destruct (decide (ch < MC)); reflexivity.
    + exfalso. apply Q1. exists (fr / MF), (fr mod MF). rewrite V2. unfold chunk_len.
      revert Hdm Hmb. generalize (fr / MF) as q, (fr mod MF) as r. intros q r Hdm Hmb.
      split; [lia|]. split; [nia|]. split; [nia|]. split; [lia|]. nia.
  - intros ch fr Hout. destruct (C5 ch fr) as [(j & f & Q1 & Q2 & Q3 & Q4 & Q5 & Q6)|[_ ->]].
    + exfalso. apply Hout. unfold in_rect, chunk_len in *. rewrite V2 in Q4. lia.
    + rewrite S3. by rewrite decide_False.
Qed.

Lemma callback_does_not_abort (node_ok : nat → nat → St → Prop) os st l inp iv out ov :
  good_setup os → proc_ok proc MF sr node_ok → pop_ok (St := St) (PCallback inp iv out ov) →
  prun new_engine os = Ok (st, l) → unprocessed [] os = [] →
  ∃ a, graph_is st a ∧
    (renderable node_ok nbuf MC (a_graph a) →
     ∃ st' out', callback st inp iv out ov = Ok (st', out')).
Proof.
  intros Hg Hp Ho E Hun. destruct (engine_inv os st l Hg E) as (e & He & HI & _).
  exists (e_graph e). split; [by apply pinv_graph_is|]. intros Hrd.
  destruct Hg as (H1 & H2 & H3 & H4 & H5 & H6 & H7 & H8).
  apply (callback_total zero add proc nbuf MC MF sr node_ok H1 Hp H2 sh dr H5 H6 st e inp iv out ov H3 HI); [|done|done].
  by rewrite (erun_sent os _ _ _ He).
Qed.

End final.

(** a started engine with a maximum of 0 frames per block never returns *)
Lemma zero_maximum_hangs {A St : Type} (zero : A) (add : A → A → A)
    (proc : timestamp → St → owned A → owned A → res (St * owned A)) (nbuf MC sr : nat)
    (sh : nat → oracle) (dr : nat → list endpoint → list endpoint)
    (inp : owned A) (iv : view) (out : owned A) (ov : view) fuel x :
  proc_shape proc → 0 < nbuf → (∀ k, any_order (sh k)) → (∀ k l, dr k l ≡ₚ l) →
  pop_ok (St := St) (PCallback inp iv out ov) → 0 < v_frames out ov →
  chunk_loop zero add proc fuel sh dr sr 0 (time_of sr 0) inp iv ov 0 0
    (new_dspgraph zero nbuf 0 MC sr) out ≠ Ok x.
Proof.
  intros H1 H2 H3 H4 (O1 & O2 & O3 & O4 & O5) Hn.
  eapply (chunk_loop_stuck zero add proc nbuf MC 0 sr (λ _ _ _, False) H1 (proc_ok_none proc _ _) H2 sh dr H3 H4
            inp iv ov (v_frames out ov) 0 fuel 0 _ ainit); try done.
  exact (new_ready zero proc nbuf MC 0 sr _ H1 (proc_ok_none proc _ _) H2).
Qed.
