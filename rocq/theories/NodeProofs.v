(** Proofs about nodes in the engine (NodeSpec.v). *)
From stdpp Require Import gmap list list_numbers strings.
From Coq Require Import ZArith Lia ZifyBool ZifyNat.
From Verif Require Import Base Graph GraphSpec TopoSort Buffer BufferSpec BufferProofs DspGraph DspGraphSpec DspGraphProofs
  Float Timestamp Processor ProcessorSpec ProcessorProofs AudioParam AudioParamSpec Node NodeSpec.

(** ** Commands applied when they are sent *)
Section immediate.
Context {A St : Type} (zero : A) (add : A → A → A).
Context (proc : timestamp → St → owned A → owned A → res (St * owned A)) (MC MF sr : nat).
Notation astep := (astep zero add proc MC MF sr).
Notation arun := (arun zero add proc MC MF sr).
Notation erun := (erun zero add proc MC MF sr).
Notation chunks := (chunks zero add proc MC MF sr).
Implicit Types os : list (pop A St).

Inductive irun : @astate St → bool → nat → list (pop A St) → @astate St → list (owned A) → Prop :=
| i_nil a on pos : irun a on pos [] a []
| i_start a on pos os a' l : irun a true pos os a' l → irun a on pos (PSend CStart :: os) a' l
| i_stop a on pos os a' l : irun a false pos os a' l → irun a on pos (PSend CStop :: os) a' l
| i_cmd a on pos c a1 os a' l : astep a (HCmd c) a1 [] → irun a1 on pos os a' l → irun a on pos (PSend (CGraph c) :: os) a' l
| i_idle a pos inp iv out ov out' os a' l : silenced zero out ov out' →
    irun a false pos os a' l → irun a false pos (PCallback inp iv out ov :: os) a' (out' :: l)
| i_play a pos inp iv out ov out0 out' a1 os a' l : silenced zero out ov out0 →
    chunks inp iv ov (v_frames out ov) pos 0 a out0 a1 out' →
    irun a1 true (pos + v_frames out ov) os a' l → irun a true pos (PCallback inp iv out ov :: os) a' (out' :: l).

Lemma arun_app_inv l1 : ∀ a l2 a' l, arun a (l1 ++ l2) a' l → ∃ a1 o1 o2, arun a l1 a1 o1 ∧ arun a1 l2 a' o2 ∧ l = o1 ++ o2.
Proof.
  induction l1 as [|h l1 IH]; intros a l2 a' l H; cbn in H.
  - exists a, [], l. split; [constructor|]. done.
  - inversion H as [|? ? a1 o1 ? ? o2 Hs Hr]; subst. destruct (IH _ _ _ _ Hr) as (a2 & p1 & p2 & H1 & H2 & ->).
    exists a2, (o1 ++ p1), p2. split; [econstructor; eassumption|]. split; [done|]. by rewrite (assoc (++)).
Qed.

Lemma graph_commands_app (q1 q2 : list (command St)) : graph_commands (A := A) (q1 ++ q2) = graph_commands q1 ++ graph_commands q2.
Proof. apply bind_app. Qed.

Lemma arun_one a h a' : arun a [h] a' [] → astep a h a' [].
Proof.
  assert (Hg : ∀ a hs a' l, arun a hs a' l → hs = [h] → l = [] → astep a h a' []).
  { clear. intros a hs a' l H Eh El. destruct H as [|a h' a1 l1 hs a2 l2 H1 H2]; [done|].
    injection Eh as -> ->. apply app_eq_nil in El as [-> ->]. inversion H2; subst. done. }
  intros H. by eapply Hg.
Qed.

Lemma erun_irun os : ∀ e e' l, erun e os e' l → e_sent e' = [] →
  ∃ a1, arun (e_graph e) (graph_commands (e_sent e)) a1 [] ∧
    irun a1 (running (e_started e) (e_sent e)) (e_frames e) os (e_graph e') l.
Proof.
  induction os as [|o os IH]; intros e e' l H Hq.
  - inversion H; subst. exists (e_graph e'). rewrite Hq. split; constructor.
  - inversion H as [|? ? e1 l1 ? ? l2 Hs Hr]; subst. destruct (IH _ _ _ Hr Hq) as (a1 & H1 & H2).
    inversion Hs; subst; cbn [e_graph e_sent e_started e_frames] in *.
    + rewrite graph_commands_app in H1. destruct (arun_app_inv _ _ _ _ _ H1) as (a2 & o1 & o2 & H3 & H4 & Ho).
      symmetry in Ho. apply app_eq_nil in Ho as [-> ->]. exists a2. split; [done|]. cbn [app].
      rewrite running_app in H2. destruct c as [| |c]; cbn in H2, H4.
      * inversion H4; subst. by constructor.
      * inversion H4; subst. by constructor.
      * apply arun_one in H4. econstructor; eassumption.
    + cbn in H1. inversion H1; subst. exists a1. split; [done|]. rewrite H3. cbn [app]. constructor; [done|]. exact H2.
    + cbn in H1. inversion H1; subst. eexists. split; [eassumption|]. rewrite H3. cbn [app]. econstructor; [eassumption..|]. exact H2.
Qed.

Lemma irun_app os1 : ∀ os2 a on pos a' l, irun a on pos (os1 ++ os2) a' l →
  ∃ a1 l1 l2, irun a on pos os1 a1 l1 ∧ l = l1 ++ l2 ∧
    irun a1 (running on (sent os1)) (pos + frames_played on os1) os2 a' l2.
Proof.
  induction os1 as [|o os1 IH]; intros os2 a on pos a' l H; cbn [app] in H.
  - exists a, [], l. split; [constructor|]. split; [done|]. cbn. by rewrite Nat.add_0_r.
  - inversion H; subst; clear H; match goal with H : irun _ _ _ (os1 ++ os2) _ _ |- _ => destruct (IH _ _ _ _ _ _ H) as (a2 & l1 & l2 & I1 & -> & I2) end.
    + exists a2, l1, l2. split; [by constructor|]. done.
    + exists a2, l1, l2. split; [by constructor|]. done.
    + exists a2, l1, l2. split; [by econstructor|]. done.
    + exists a2, (out' :: l1), l2. split; [by constructor|]. split; [done|]. exact I2.
    + exists a2, (out' :: l1), l2. split; [by econstructor|]. split; [done|]. cbn. by rewrite Nat.add_assoc.
Qed.
End immediate.

(** ** Parameters *)
Section node.
Context {V A P : Type} (N : num V) (to_sample : V → A) (zero : A) (add : A → A → A).
Context (run : P → timestamp → (string → res (list A)) → owned A → owned A → res (P * owned A)).
Context (MC MF sr : nat).
Notation proc := (dsp_process N to_sample run).
Notation dstate := (dspstate V P).
Notation runs := (runs to_sample zero run sr).
Notation session := (session N to_sample zero run sr).
Notation run_events := (run_events N sr).

Lemma process_params_ok t fc r (m : gmap string (param V)) m' : process_params N t fc r m = Ok m' →
  ∀ name, match m !! name with
          | Some p => ∃ x, m' !! name = Some x ∧ AudioParam.process N t fc r p = Ok x
          | None => m' !! name = None
          end.
Proof.
  unfold process_params. intros E name.
  assert (Hg : ∀ l (acc m' : gmap string (param V * list V)), NoDup l.*1 → (∀ n, n ∈ l.*1 → acc !! n = None) →
    rfold (λ acc '(name, p), let? x := AudioParam.process N t fc r p in Ok (<[name := x]> acc)) l acc = Ok m' →
    (∀ p, (name, p) ∈ l → ∃ x, m' !! name = Some x ∧ AudioParam.process N t fc r p = Ok x) ∧
    (name ∉ l.*1 → m' !! name = acc !! name)).
  { clear. induction l as [|[nm p] l IH]; intros acc m' Hnd Hacc E; cbn in E.
    - injection E as ->. split; [intros p H; inversion H|done].
    - apply NoDup_cons in Hnd as [Hni Hnd].
      destruct (AudioParam.process N t fc r p) as [x|] eqn:Ex; [|done]. cbn in E.
      destruct (IH (<[nm := x]> acc) m' Hnd) as [H1 H2]; [|exact E|].
      { intros n Hn. rewrite lookup_insert_ne by (intros ->; done). apply Hacc. by right. }
      split.
      + intros p' [Heq|Hin]%elem_of_cons.
        * injection Heq as -> ->. exists x. split; [|done]. rewrite H2 by done. by rewrite lookup_insert.
        * by apply H1.
      + cbn. intros [Hn1 Hn2]%not_elem_of_cons. rewrite H2 by done. by rewrite lookup_insert_ne. }
  destruct (Hg (map_to_list m) ∅ m') as [H1 H2]; [apply NoDup_fst_map_to_list|by intros; apply lookup_empty|done|].
  destruct (m !! name) as [p|] eqn:Ep.
  - apply H1. by apply elem_of_map_to_list.
  - rewrite H2; [apply lookup_empty|]. intros ([? p] & -> & Hin)%elem_of_list_fmap.
    apply elem_of_map_to_list in Hin. cbn in *. congruence.
Qed.

Lemma frame_loop_length ts r : ∀ v (p : param V) p' v' out, frame_loop N ts r v p = Ok (p', v', out) → length out = length ts.
Proof.
  induction ts as [|t ts IH]; intros v p p' v' out E; cbn in E.
  - by injection E as <- <- <-.
  - destruct (value_at_time N t r v p) as [[p1 v1]|] eqn:E1; [|done]. cbn in E.
    destruct (frame_loop N ts r v1 p1) as [[[p2 v2] o2]|] eqn:E2; [|done]. cbn in E. injection E as <- <- <-. cbn. by rewrite (IH _ _ _ _ _ E2).
Qed.
Lemma process_length t fc r (p : param V) p' out : AudioParam.process N t fc r p = Ok (p', out) → length out = fc.
Proof.
  unfold AudioParam.process. destruct (is_static N p); [intros [= <- <-]; apply replicate_length|].
  destruct (frame_loop N (frame_times t fc r) r (pa_value p) p) as [[[p2 v2] o2]|] eqn:E2; [|done]. cbn. intros [= <- <-].
  rewrite (frame_loop_length _ _ _ _ _ _ _ E2). unfold frame_times. by rewrite fmap_length, seq_length.
Qed.

Lemma run_events_app (e1 e2 : list (pevent V)) : ∀ p p1 o1 p2 o2, run_events p e1 = Ok (p1, o1) → run_events p1 e2 = Ok (p2, o2) →
  run_events p (e1 ++ e2) = Ok (p2, o1 ++ o2).
Proof.
  induction e1 as [|e e1 IH]; intros p p1 o1 p2 o2 H1 H2; cbn in *.
  - by injection H1 as <- <-.
  - destruct e as [c|[t|]|t fr]; [by eapply IH..|].
    destruct (AudioParam.process N t fr sr p) as [[p3 o3]|]; [|done]. cbn in *.
    destruct (run_events p3 e1) as [[p4 o4]|] eqn:E4; [|done]. cbn in *. injection H1 as <- <-.
    rewrite (IH _ _ _ _ _ E4 H2). cbn. by rewrite (assoc (++)).
Qed.

Lemma values_got_app name (r1 r2 : list (@round V A)) : values_got name (r1 ++ r2) = values_got name r1 ++ values_got name r2.
Proof. apply bind_app. Qed.

Lemma runs_app outs r1 : ∀ p p1 r2 p2, runs outs p r1 p1 → runs outs p1 r2 p2 → runs outs p (r1 ++ r2) p2.
Proof.
  induction r1 as [|r r1 IH]; intros p p1 r2 p2 H1 H2; inversion H1; subst; [done|]. cbn. econstructor; [eassumption|]. by eapply IH.
Qed.

Lemma session_nil ins outs (st : dstate) : session ins outs st (λ _, []) [] st.
Proof. split; [constructor|]. split; [constructor|]. split; [done|]. intros name p Hp. exists p. done. Qed.

Lemma session_app ins outs (st st1 st2 : dstate) e1 e2 r1 r2 :
  session ins outs st e1 r1 st1 → session ins outs st1 e2 r2 st2 → session ins outs st (λ name, e1 name ++ e2 name) (r1 ++ r2) st2.
Proof.
  intros (A1 & A2 & A3 & A4) (B1 & B2 & B3 & B4). split; [by eapply runs_app|].
  split; [apply Forall_app; split; [done|]; by rewrite <-A3|]. split; [congruence|].
  intros name p Hp. destruct (A4 name p Hp) as (p1 & Hp1 & E1). destruct (B4 name p1 Hp1) as (p2 & Hp2 & E2).
  exists p2. split; [done|]. rewrite values_got_app. by eapply run_events_app.
Qed.

Lemma session_ext ins outs (st st' : dstate) e1 e2 rs : (∀ name, e1 name = e2 name) → session ins outs st e1 rs st' → session ins outs st e2 rs st'.
Proof.
  intros He (A1 & A2 & A3 & A4). do 3 (split; [done|]). intros name p Hp. destruct (A4 name p Hp) as (p' & ? & ?).
  exists p'. split; [done|]. by rewrite <-He.
Qed.

(** one block *)
Lemma block_session ins outs t fc (st st' : dstate) i o :
  proc t st i (new_buffer zero fc outs sr) = Ok (st', o) → is_block i ins fc → rate i = sr → is_block o outs fc →
  ∃ r, r_time r = t ∧ r_frames r = fc ∧ r_in r = i ∧ r_out r = o ∧ session ins outs st (λ _, [PBlock t fc]) [r] st'.
Proof.
  unfold dsp_process. change (frames (new_buffer zero fc outs sr)) with fc. change (rate (new_buffer zero fc outs sr)) with sr.
  destruct (process_params N t fc sr (ds_params st)) as [m|] eqn:Em; [|done]. cbn.
  destruct (run (ds_proc st) t (parameter_values to_sample (snd <$> m)) i (new_buffer zero fc outs sr)) as [[p' o']|] eqn:Er; [|done].
  cbn. intros [= <- <-] Hi Hri Ho. pose proof (process_params_ok _ _ _ _ _ Em) as Hm.
  exists (Round t fc (snd <$> m) i o'). do 4 (split; [done|]). split; [|split; [|split]]; cbn [ds_proc ds_params].
  - econstructor; [|constructor]. exact Er.
  - constructor; [|constructor]. split; [done|]. split; [done|]. split; [done|]. cbn [r_values r_frames]. split.
    + apply set_eq. intros name. rewrite !elem_of_dom, lookup_fmap. specialize (Hm name).
      destruct (ds_params st !! name); [destruct Hm as (x & -> & _); by split; eauto|rewrite Hm; by split; intros [??]].
    + intros name vs. rewrite lookup_fmap. specialize (Hm name).
      destruct (ds_params st !! name); [destruct Hm as ([q o] & -> & E); cbn; intros [= <-]; by eapply process_length|by rewrite Hm].
  - apply set_eq. intros name. rewrite !elem_of_dom, lookup_fmap. specialize (Hm name).
    destruct (ds_params st !! name); [destruct Hm as (x & -> & _); by split; eauto|rewrite Hm; by split; intros [??]].
  - intros name p Hp. specialize (Hm name). rewrite Hp in Hm. destruct Hm as ([q o] & Hq & E). exists q.
    rewrite lookup_fmap, Hq. split; [done|]. cbn. rewrite E. cbn. unfold values_got. cbn. by rewrite lookup_fmap, Hq.
Qed.

(** consecutive blocks *)
Lemma states_session n ins outs (state : nat → @astate dstate) (sys : nat → id → nat → nat → A) (fc : nat → nat)
    (t : nat → timestamp) (os : nat → id → owned A) st c :
  (∀ j, j < c → block_equations zero add proc (a_graph (state j)) (sys j) (fc j) sr (t j) (s_nodes (a_graph (state (S j)))) (os j)) →
  s_nodes (a_graph (state 0)) !! n = Some (Dsp ins outs st) →
  ∃ st' rs, s_nodes (a_graph (state c)) !! n = Some (Dsp ins outs st') ∧ length rs = c ∧
    session ins outs st (λ _, (λ j, PBlock (t j) (fc j)) <$> seq 0 c) rs st' ∧
    ∀ j, j < c → ∃ r, rs !! j = Some r ∧ r_time r = t j ∧ r_frames r = fc j ∧ r_out r = os j n ∧
      ∀ ch fr, ch < ins → fr < fc j →
        sample (r_in r) ch fr = Some (heard zero add (os j) (sys j n) (conns_of (a_graph (state j)) n Incoming) ch fr).
Proof.
  intros Hb Hn. induction c as [|c IH].
  - exists st, []. split; [done|]. split; [done|]. split; [apply session_nil|]. intros j Hj. lia.
  - destruct IH as (st1 & rs & H1 & H2 & H3 & H4); [intros j Hj; apply Hb; lia|].
    destruct (Hb c ltac:(lia)) as (_ & Hc). destruct (Hc n _ H1) as (i & st' & Hi & Hri & Hs & Hp & Ho & Hn').
    cbn [d_in d_out d_state] in *. destruct (block_session ins outs _ _ _ _ _ _ Hp Hi Hri Ho) as (r & R1 & R2 & R3 & R4 & R5).
    exists st', (rs ++ [r]). split; [done|]. split; [rewrite app_length; cbn; lia|]. split.
    + eapply session_ext; [|eapply session_app; [exact H3|exact R5]]. intros name. cbv beta.
      rewrite seq_S, fmap_app. done.
    + intros j Hj. destruct (decide (j = c)) as [->|].
      * exists r. rewrite lookup_app_r, H2, Nat.sub_diag by lia. rewrite R3. done.
      * destruct (H4 j ltac:(lia)) as (r' & Hr' & Hrest). exists r'. rewrite lookup_app_l by lia. done.
Qed.

Lemma chunk_count n j : 0 < MF → j * MF < n ↔ j < (n + (MF - 1)) / MF.
Proof.
  intros H. split; intros Hj.
  - apply Nat.div_le_lower_bound; [lia|]. nia.
  - assert (S j ≤ (n + (MF - 1)) / MF) as Hq by lia. pose proof (Nat.mul_div_le (n + (MF - 1)) MF ltac:(lia)). nia.
Qed.

Notation chunks := (chunks zero add proc MC MF sr).
Notation irun := (irun zero add proc MC MF sr).
Notation astep := (astep zero add proc MC MF sr).
Notation cnt n := ((n + (MF - 1)) / MF).

Lemma callback_sessions inp iv ov fn pos a o a' o' : 0 < MF →
  chunks inp iv ov fn pos 0 a o a' o' → v_frames o ov = fn → valid_view o ov →
  ∃ (state : nat → @astate dstate) (os : nat → id → owned A), state 0 = a ∧ state (cnt fn) = a' ∧ same_dims o o' ∧
    (∀ j, j < cnt fn → s_conns (a_graph (state (S j))) = s_conns (a_graph (state j)) ∧
       a_in (state (S j)) = a_in (state j) ∧ a_out (state (S j)) = a_out (state j) ∧
       dom (s_nodes (a_graph (state (S j)))) = dom (s_nodes (a_graph (state j)))) ∧
    (∀ n ins outs st, s_nodes (a_graph a) !! n = Some (Dsp ins outs st) → ∃ st' rs,
      s_nodes (a_graph a') !! n = Some (Dsp ins outs st') ∧
      (λ r, (r_time r, r_frames r)) <$> rs = callback_blocks MF sr pos fn ∧
      session ins outs st (λ _, (λ b, PBlock b.1 b.2) <$> callback_blocks MF sr pos fn) rs st' ∧
      (∀ j, j < cnt fn → ∃ r, rs !! j = Some r ∧ r_out r = os j n ∧
        ∀ ch fr, ch < ins → fr < chunk_len MF fn j → sample (r_in r) ch fr =
          Some (heard zero add (os j) (system_input zero (a_in (state j)) MC inp (chunk_view MF inp iv fn j) n) (conns_of (a_graph (state j)) n Incoming) ch fr))) ∧
    (∀ ch fr, ch < v_channels o ov → fr < fn → sample o' (off_ch ov + ch) (off_fr ov + fr) =
        match output_node (a_graph (state (fr / MF))) (a_out (state (fr / MF))) with
        | Some m => if decide (ch < MC) then Some (heard_at zero (os (fr / MF) m) ch (fr mod MF)) else sample o (off_ch ov + ch) (off_fr ov + fr)
        | None => sample o (off_ch ov + ch) (off_fr ov + fr)
        end) ∧
    (∀ ch fr, ¬ in_rect (off_ch ov) (off_fr ov) (v_channels o ov) fn ch fr → sample o' ch fr = sample o ch fr).
Proof.
  intros Hmf Hc Hfn Hv.
  destruct (chunks_frames zero add proc MC MF sr inp iv ov fn pos Hmf _ _ _ _ _ Hc Hfn Hv) as (state & os & C1 & C2 & C3 & C4 & C5).
  assert (C4' : ∀ j, j < cnt fn → j * MF < fn) by (intros j; apply chunk_count; done).
  assert (Hend : state (cnt fn) = a').
  { apply C2; [lia|]. apply Nat.nlt_ge. rewrite chunk_count by done. lia. }
  exists state, os. split; [done|]. split; [done|]. split; [done|]. split; [|split; [|split]].
  - intros j Hj. destruct (C4 j ltac:(lia) (C4' _ Hj)) as ((D & _) & E1 & E2 & E3). done.
  - intros n ins outs st Hn.
    destruct (states_session n ins outs state (λ j, system_input zero (a_in (state j)) MC inp (chunk_view MF inp iv fn j)) (chunk_len MF fn)
      (λ j, (time_of sr pos + time_of sr (j * MF))%Z) os st (cnt fn)) as (st' & rs & H1 & H2 & H3 & H4).
    { intros j Hj. apply C4; [lia|]. by apply C4'. }
    { by rewrite C1. }
    exists st', rs. split; [by rewrite <-Hend|]. split; [|split].
    + apply list_eq. intros j. rewrite list_lookup_fmap. unfold callback_blocks. rewrite list_lookup_fmap.
      destruct (decide (j < cnt fn)) as [Hj|Hj].
      * destruct (H4 j Hj) as (r & -> & T1 & T2 & _). rewrite lookup_seq_lt by done. cbn. by rewrite T1, T2.
      * rewrite lookup_ge_None_2 by lia. rewrite lookup_ge_None_2; [done|]. rewrite seq_length. lia.
    + eapply session_ext; [|exact H3]. intros name. cbv beta. unfold callback_blocks. rewrite <-list_fmap_compose. done.
    + intros j Hj. destruct (H4 j Hj) as (r & Hr & _ & _ & Ho & Hi). exists r. done.
  - intros ch fr Hch Hfr. pose proof (Nat.div_mod fr MF ltac:(lia)) as Hdm. pose proof (Nat.mod_upper_bound fr MF ltac:(lia)) as Hmb.
    destruct (C5 (off_ch ov + ch) (off_fr ov + fr)) as [(j & f & Q1 & Q2 & Q3 & Q4 & Q5 & Q6)|[Q1 _]].
    + assert (Hj : j = fr / MF) by (apply (Nat.div_unique fr MF j f); unfold chunk_len in Q3; lia).
      assert (Hf : f = fr mod MF) by (apply (Nat.mod_unique fr MF j f); unfold chunk_len in Q3; lia).
      rewrite Q6, Hj, Hf. by replace (off_ch ov + ch - off_ch ov) with ch by lia.
    + exfalso. apply Q1. exists (fr / MF), (fr mod MF). unfold chunk_len.
      revert Hdm Hmb. generalize (fr / MF) as q, (fr mod MF) as r. intros q r Hdm Hmb.
      split; [lia|]. split; [nia|]. split; [nia|]. split; [lia|]. nia.
  - intros ch fr Hout. destruct (C5 ch fr) as [(j & f & Q1 & Q2 & Q3 & Q4 & Q5 & Q6)|[_ ->]]; [|done].
    exfalso. apply Hout. unfold in_rect, chunk_len in *. lia.
Qed.

Lemma callback_session n ins outs inp iv ov fn pos a o a' o' st : 0 < MF →
  chunks inp iv ov fn pos 0 a o a' o' → v_frames o ov = fn → valid_view o ov → s_nodes (a_graph a) !! n = Some (Dsp ins outs st) →
  ∃ (state : nat → @astate dstate) (os : nat → id → owned A) st' rs, state 0 = a ∧ state (cnt fn) = a' ∧
    s_nodes (a_graph a') !! n = Some (Dsp ins outs st') ∧
    (λ r, (r_time r, r_frames r)) <$> rs = callback_blocks MF sr pos fn ∧
    session ins outs st (λ _, (λ b, PBlock b.1 b.2) <$> callback_blocks MF sr pos fn) rs st' ∧ same_dims o o' ∧
    (∀ j, j < cnt fn → s_conns (a_graph (state (S j))) = s_conns (a_graph (state j)) ∧
       a_in (state (S j)) = a_in (state j) ∧ a_out (state (S j)) = a_out (state j) ∧
       dom (s_nodes (a_graph (state (S j)))) = dom (s_nodes (a_graph (state j)))) ∧
    (∀ j, j < cnt fn → ∃ r, rs !! j = Some r ∧ r_out r = os j n ∧
      ∀ ch fr, ch < ins → fr < chunk_len MF fn j → sample (r_in r) ch fr =
        Some (heard zero add (os j) (system_input zero (a_in (state j)) MC inp (chunk_view MF inp iv fn j) n) (conns_of (a_graph (state j)) n Incoming) ch fr)) ∧
    (∀ ch fr, ch < v_channels o ov → fr < fn → sample o' (off_ch ov + ch) (off_fr ov + fr) =
        match output_node (a_graph (state (fr / MF))) (a_out (state (fr / MF))) with
        | Some m => if decide (ch < MC) then Some (heard_at zero (os (fr / MF) m) ch (fr mod MF)) else sample o (off_ch ov + ch) (off_fr ov + fr)
        | None => sample o (off_ch ov + ch) (off_fr ov + fr)
        end) ∧
    (∀ ch fr, ¬ in_rect (off_ch ov) (off_fr ov) (v_channels o ov) fn ch fr → sample o' ch fr = sample o ch fr).
Proof.
  intros Hmf Hc Hfn Hv Hn. destruct (callback_sessions _ _ _ _ _ _ _ _ _ Hmf Hc Hfn Hv) as (state & os & C1 & C2 & C3 & C4 & C5 & C6 & C7).
  destruct (C5 _ _ _ _ Hn) as (st' & rs & D1 & D2 & D3 & D4). exists state, os, st', rs. done.
Qed.

(** parameter changes *)
Lemma change_session ins outs (st st' : dstate) name c :
  request_parameter_change name c st = Ok st' → session ins outs st (λ nm, if decide (name = nm) then [PChange c] else []) [] st'.
Proof.
  unfold request_parameter_change. destruct (ds_params st !! name) as [p|] eqn:Ep; [|done]. cbn. intros [= <-].
  split; [constructor|]. split; [constructor|]. cbn. split; [apply dom_insert_lookup_L; eauto|].
  intros nm q Hq. destruct (decide (name = nm)) as [<-|Hne].
  - rewrite lookup_insert. eexists. split; [done|]. cbn. by replace q with p by congruence.
  - rewrite lookup_insert_ne by done. exists q. done.
Qed.
Lemma cancel_session ins outs (st st' : dstate) name e :
  cancel_parameter_changes name e st = Ok st' → session ins outs st (λ nm, if decide (name = nm) then [PCancel e] else []) [] st'.
Proof.
  unfold cancel_parameter_changes. destruct (ds_params st !! name) as [p|] eqn:Ep; [|done]. cbn. intros [= <-].
  split; [constructor|]. split; [constructor|]. cbn. split; [apply dom_insert_lookup_L; eauto|].
  intros nm q Hq. destruct (decide (name = nm)) as [<-|Hne].
  - rewrite lookup_insert. eexists. split; [done|]. replace q with p by congruence. by destruct e.
  - rewrite lookup_insert_ne by done. exists q. done.
Qed.

Implicit Types os : list (nop V A P).
Notation pops := (fmap to_pop).

(** a command to the graph, seen from one node *)
Lemma command_session n ins outs (o : nop V A P) c a a1 st : to_pop o = PSend (CGraph c) → o ≠ NDrop n →
  astep a (HCmd c) a1 [] → s_nodes (a_graph a) !! n = Some (Dsp ins outs st) →
  ∃ st1, s_nodes (a_graph a1) !! n = Some (Dsp ins outs st1) ∧
    session ins outs st (λ name, events_of MF sr n name false 0 [o]) [] st1 ∧
    (∀ on pos name l, events_of MF sr n name on pos (o :: l) = events_of MF sr n name false 0 [o] ++ events_of MF sr n name on pos l) ∧
    (∀ on pos l, blocks_of MF sr on pos (o :: l) = blocks_of MF sr on pos l).
Proof.
  intros Ho Hd Hs Hn. destruct o as [n' i o' st'|n'|eid x y cn|x y|n'|n'|n' nm ch|n' nm e| | |]; cbn in Ho; try discriminate Ho; injection Ho as <-.
  - inversion Hs as [? ? ? s' Hst| | | | | | | |]; subst. inversion Hst; subst. exists st. cbn. split; [|split; [apply session_nil|done]].
    rewrite lookup_insert_ne; [done|]. intros ->. congruence.
  - inversion Hs as [|? ? s' Hst| | | | | | |]; subst. exists st. split; [|split; [apply session_nil|done]].
    inversion Hst; subst; [done|]. cbn. rewrite lookup_delete_ne; [done|]. intros ->. done.
  - inversion Hs as [| |? ? ? ? ? s' Hst| | | | | |]; subst. inversion Hst; subst. exists st. split; [done|split; [apply session_nil|done]].
  - inversion Hs as [| | |? ? ? s' Hst| | | | |]; subst. exists st. split; [|split; [apply session_nil|done]]. by inversion Hst; subst.
  - inversion Hs; subst. exists st. split; [done|split; [apply session_nil|done]].
  - inversion Hs; subst. exists st. split; [done|split; [apply session_nil|done]].
  - destruct (decide (n' = n)) as [->|Hne].
    + inversion Hs as [| | | | | |? ? ? d st1 Hd1 Hf|? ? ? Hd1|]; subst; [|congruence].
      replace d with (Dsp ins outs st) in * by congruence. cbn in Hf. exists st1. cbn. rewrite lookup_insert. split; [done|].
      split; [|split; [|done]].
      * eapply session_ext; [|exact (change_session ins outs _ _ _ _ Hf)]. intros name. cbv beta. destruct (decide (nm = name)).
        -- rewrite decide_True by done. done.
        -- rewrite decide_False by tauto. done.
      * intros on pos name l. by rewrite app_nil_r.
    + exists st. cbn. split; [|split; [|split; [|done]]].
      * inversion Hs; subst; [|done]. cbn. rewrite lookup_insert_ne by done. done.
      * eapply session_ext; [|apply session_nil]. intros name. cbv beta. by rewrite decide_False by tauto.
      * intros on pos name l. by rewrite app_nil_r.
  - destruct (decide (n' = n)) as [->|Hne].
    + inversion Hs as [| | | | | |? ? ? d st1 Hd1 Hf|? ? ? Hd1|]; subst; [|congruence].
      replace d with (Dsp ins outs st) in * by congruence. cbn in Hf. exists st1. cbn. rewrite lookup_insert. split; [done|].
      split; [|split; [|done]].
      * eapply session_ext; [|exact (cancel_session ins outs _ _ _ _ Hf)]. intros name. cbv beta. destruct (decide (nm = name)).
        -- rewrite decide_True by done. done.
        -- rewrite decide_False by tauto. done.
      * intros on pos name l. by rewrite app_nil_r.
    + exists st. cbn. split; [|split; [|split; [|done]]].
      * inversion Hs; subst; [|done]. cbn. rewrite lookup_insert_ne by done. done.
      * eapply session_ext; [|apply session_nil]. intros name. cbv beta. by rewrite decide_False by tauto.
      * intros on pos name l. by rewrite app_nil_r.
Qed.

(** C87: the whole history *)
Lemma node_session n ins outs os : 0 < MF → ∀ a on pos a' l st, irun a on pos (pops os) a' l → Forall pop_ok (pops os) → NDrop n ∉ os →
  s_nodes (a_graph a) !! n = Some (Dsp ins outs st) →
  ∃ st' rs, s_nodes (a_graph a') !! n = Some (Dsp ins outs st') ∧
    (λ r, (r_time r, r_frames r)) <$> rs = blocks_of MF sr on pos os ∧
    session ins outs st (λ name, events_of MF sr n name on pos os) rs st'.
Proof.
  intros Hmf. induction os as [|o os IH]; intros a on pos a' l st H Hok Hd Hn.
  - inversion H; subst. exists st, []. split; [done|]. split; [done|]. apply session_nil.
  - apply not_elem_of_cons in Hd as [Hd1 Hd2]. cbn in Hok. apply Forall_cons in Hok as [Hok1 Hok2].
    change (pops (o :: os)) with (to_pop o :: pops os) in H.
    destruct (to_pop o) as [c|inp iv out ov] eqn:Ex.
    + destruct c as [| |c].
      * destruct o; try discriminate Ex. inversion H; subst. by eapply (IH _ true).
      * destruct o; try discriminate Ex. inversion H; subst. by eapply (IH _ false).
      * inversion H as [| | |? ? ? ? a1 ? ? ? Hs Hr| |]; subst.
        destruct (command_session n ins outs o c a a1 st Ex (λ E, Hd1 (eq_sym E)) Hs Hn) as (st1 & N1 & S1 & E1 & E2).
        destruct (IH _ _ _ _ _ _ Hr Hok2 Hd2 N1) as (st' & rs & N2 & B2 & S2).
        exists st', rs. split; [done|]. split; [by rewrite E2|].
        eapply session_ext; [|exact (session_app _ _ _ _ _ _ _ _ _ S1 S2)]. intros name. cbv beta. symmetry. apply E1.
    + destruct o; try discriminate Ex. injection Ex as -> -> -> ->. inversion H as [| | | |? ? ? ? ? ? out' ? ? ? Hs Hr|? ? ? ? ? ? out0 out' a1 ? ? ? Hs Hc Hr]; subst.
      * by eapply (IH _ false).
      * destruct Hs as (_ & Hdim & _). destruct (same_dims_view out out0 ov Hdim) as (V1 & V2 & V3 & V4).
        destruct (callback_session n ins outs _ _ _ _ _ _ _ _ _ st Hmf Hc V1 (V3 (proj1 (proj2 (proj2 (proj2 Hok1))))) Hn)
          as (_ & _ & st1 & rs1 & _ & _ & N1 & B1 & S1 & _).
        destruct (IH _ _ _ _ _ _ Hr Hok2 Hd2 N1) as (st' & rs & N2 & B2 & S2).
        exists st', (rs1 ++ rs). split; [done|]. split; [by rewrite fmap_app, B1, B2|].
        exact (session_app _ _ _ _ _ _ _ _ _ S1 S2).
Qed.

(** ** Between input and output *)
Notation free_input n a := (conns_of (a_graph a) n Incoming = []).

Lemma command_free n (o : nop V A P) c a a1 : to_pop o = PSend (CGraph c) → (∀ eid m x, o ≠ NConnect eid m n x) →
  astep a (HCmd c) a1 [] → free_input n a → free_input n a1.
Proof.
  intros Ho Hd Hs Hf. destruct o as [n' i o' st'|n'|eid x y cn|x y|n'|n'|n' nm ch|n' nm e| | |]; cbn in Ho; try discriminate Ho; injection Ho as <-.
  - inversion Hs as [? ? ? s' Hst| | | | | | | |]; subst. by inversion Hst; subst.
  - inversion Hs as [|? ? s' Hst| | | | | | |]; subst. by inversion Hst; subst.
  - inversion Hs as [| |? ? ? ? ? s' Hst| | | | | |]; subst. inversion Hst; subst. unfold conns_of in *. cbn [a_graph s_conns].
    rewrite filter_app, Hf. rewrite filter_cons_False; [done|]. cbn. intros ->. by eapply Hd.
  - inversion Hs as [| | |? ? ? s' Hst| | | | |]; subst. inversion Hst as [| | | | | | | |? ? ? c0 be af Hc H1 H2]; subst; [done|].
    unfold conns_of in *. cbn [a_graph s_conns] in *. rewrite Hc in Hf. rewrite filter_app in *. apply app_eq_nil in Hf as [-> Hf].
    rewrite filter_cons in Hf. by case_decide.
  - by inversion Hs; subst.
  - by inversion Hs; subst.
  - by inversion Hs; subst.
  - by inversion Hs; subst.
Qed.

Lemma state_const {X} (f : nat → X) c : (∀ j, j < c → f (S j) = f j) → ∀ j, j ≤ c → f j = f 0.
Proof. intros H j. induction j as [|j IH]; intros Hj; [done|]. rewrite H by lia. apply IH. lia. Qed.

Lemma before_free n os : 0 < MF → ∀ a on pos a' l, irun a on pos (pops os) a' l → Forall pop_ok (pops os) → (∀ eid m c, NConnect eid m n c ∉ os) →
  free_input n a → free_input n a' ∧ length l = callbacks os.
Proof.
  intros Hmf. induction os as [|o os IH]; intros a on pos a' l H Hok Hc Hf.
  - inversion H; subst. done.
  - cbn in Hok. apply Forall_cons in Hok as [Hok1 Hok2].
    assert (Hc2 : ∀ eid m c, NConnect eid m n c ∉ os) by (intros eid m c Hin; apply (Hc eid m c); by right).
    change (pops (o :: os)) with (to_pop o :: pops os) in H.
    destruct (to_pop o) as [c|inp iv out ov] eqn:Ex.
    + replace (callbacks (o :: os)) with (callbacks os) by by destruct o.
      destruct c as [| |c].
      * inversion H; subst. by eapply (IH _ true).
      * inversion H; subst. by eapply (IH _ false).
      * inversion H as [| | |? ? ? ? a1 ? ? ? Hs Hr| |]; subst. eapply IH; [eassumption..|].
        eapply command_free; [exact Ex| |exact Hs|done]. intros eid m x ->. apply (Hc eid m x). by left.
    + replace (callbacks (o :: os)) with (S (callbacks os)) by by destruct o.
      inversion H as [| | | |? ? ? ? ? ? out' ? ? ? Hs Hr|? ? ? ? ? ? out0 out' a1 ? ? ? Hs Hch Hr]; subst.
      * cbn. destruct (IH _ _ _ _ _ Hr Hok2 Hc2 Hf). split; [done|lia].
      * cbn. destruct (IH _ _ _ _ _ Hr Hok2 Hc2) as [? ?]; [|split; [done|lia]].
        destruct Hs as (_ & Hdim & _). destruct (same_dims_view out out0 ov Hdim) as (V1 & V2 & V3 & V4).
        destruct (chunks_frames zero add proc MC MF sr inp iv ov (v_frames out ov) pos Hmf _ _ _ _ _ Hch V1 (V3 (proj1 (proj2 (proj2 (proj2 Hok1)))))) as (state & os' & C1 & C2 & C3 & C4 & C5).
        assert (Hend : state (cnt (v_frames out ov)) = a1).
        { apply C2; [lia|]. apply Nat.nlt_ge. rewrite chunk_count by done. lia. }
        rewrite <-Hend. unfold conns_of.
        rewrite (state_const (λ j, s_conns (a_graph (state j))) (cnt (v_frames out ov))); [rewrite C1; exact Hf| |lia].
        intros j Hj. apply C4; [lia|]. by apply chunk_count.
Qed.

Lemma direct_session n ins outs os : 0 < MF → ∀ a on pos a' l st, irun a on pos (pops os) a' l → Forall pop_ok (pops os) → NDrop n ∉ os →
  (∀ eid m c, NConnect eid m n c ∉ os) → (∀ m, NInput m ∈ os → m = n) → (∀ m, NOutput m ∈ os → m = n) →
  s_nodes (a_graph a) !! n = Some (Dsp ins outs st) → free_input n a → a_in a = Some (EInput, n) → a_out a = Some (EOutput, n) →
  ∃ st' rs, s_nodes (a_graph a') !! n = Some (Dsp ins outs st') ∧
    (λ r, (r_time r, r_frames r)) <$> rs = blocks_of MF sr on pos os ∧
    session ins outs st (λ name, events_of MF sr n name on pos os) rs st' ∧
    heard_through zero MF MC ins on os l rs.
Proof.
  intros Hmf. induction os as [|o os IH]; intros a on pos a' l st H Hok Hd Hc Hi Ho Hn Hf Hai Hao.
  - inversion H; subst. exists st, []. split; [done|]. split; [done|]. split; [apply session_nil|]. done.
  - apply not_elem_of_cons in Hd as [Hd1 Hd2]. cbn in Hok. apply Forall_cons in Hok as [Hok1 Hok2].
    assert (Hc2 : ∀ eid m c, NConnect eid m n c ∉ os) by (intros eid m c Hin; apply (Hc eid m c); by right).
    assert (Hi2 : ∀ m, NInput m ∈ os → m = n) by (intros m Hin; apply Hi; by right).
    assert (Ho2 : ∀ m, NOutput m ∈ os → m = n) by (intros m Hin; apply Ho; by right).
    specialize (λ a on pos a' l st H, IH a on pos a' l st H Hok2 Hd2 Hc2 Hi2 Ho2).
    change (pops (o :: os)) with (to_pop o :: pops os) in H.
    destruct (to_pop o) as [c|inp iv out ov] eqn:Ex.
    + destruct c as [| |c].
      * destruct o; try discriminate Ex. inversion H; subst. by eapply (IH _ true).
      * destruct o; try discriminate Ex. inversion H; subst. by eapply (IH _ false).
      * inversion H as [| | |? ? ? ? a1 ? ? ? Hs Hr| |]; subst.
        destruct (command_session n ins outs o c a a1 st Ex (λ E, Hd1 (eq_sym E)) Hs Hn) as (st1 & N1 & S1 & E1 & E2).
        destruct (IH _ _ _ _ _ _ Hr N1) as (st' & rs & N2 & B2 & S2 & T2).
        { eapply command_free; [exact Ex| |exact Hs|done]. intros eid m x ->. apply (Hc eid m x). by left. }
        { destruct o; try discriminate Ex; injection Ex as <-; inversion Hs; subst; cbn; try done.
          do 2 f_equal. apply Hi. by left. }
        { destruct o; try discriminate Ex; injection Ex as <-; inversion Hs; subst; cbn; try done.
          do 2 f_equal. apply Ho. by left. }
        exists st', rs. split; [done|]. split; [by rewrite E2|]. split.
        { eapply session_ext; [|exact (session_app _ _ _ _ _ _ _ _ _ S1 S2)]. intros name. cbv beta. symmetry. apply E1. }
        { by destruct o. }
    + destruct o; try discriminate Ex. injection Ex as -> -> -> ->. inversion H as [| | | |? ? ? ? ? ? out' ? ? ? Hs Hr|? ? ? ? ? ? out0 out' a1 ? ? ? Hs Hch Hr]; subst.
      * destruct (IH _ _ _ _ _ _ Hr Hn Hf Hai Hao) as (st' & rs & N2 & B2 & S2 & T2).
        exists st', rs. do 3 (split; [done|]). cbn. exists out', l0. done.
      * destruct Hs as (_ & Hdim & Hsil). destruct (same_dims_view out out0 ov Hdim) as (V1 & V2 & V3 & V4).
        destruct Hok1 as (O1 & O2 & O3 & O4 & O5).
        destruct (callback_session n ins outs _ _ _ _ _ _ _ _ _ st Hmf Hch V1 (V3 O4) Hn)
          as (state & os' & st1 & rs1 & C0 & Ce & N1 & B1 & S1 & D1 & K1 & R1 & R2 & R3).
        assert (Kc : ∀ j, j ≤ cnt (v_frames out ov) → s_conns (a_graph (state j)) = s_conns (a_graph a)).
        { intros j Hj. rewrite <-C0. apply (state_const (λ j, s_conns (a_graph (state j))) (cnt (v_frames out ov))); [|done]. intros; by apply K1. }
        assert (Ki : ∀ j, j ≤ cnt (v_frames out ov) → a_in (state j) = Some (EInput, n)).
        { intros j Hj. rewrite <-Hai, <-C0. apply (state_const (λ j, a_in (state j)) (cnt (v_frames out ov))); [|done]. intros; by apply K1. }
        assert (Ko : ∀ j, j ≤ cnt (v_frames out ov) → a_out (state j) = Some (EOutput, n)).
        { intros j Hj. rewrite <-Hao, <-C0. apply (state_const (λ j, a_out (state j)) (cnt (v_frames out ov))); [|done]. intros; by apply K1. }
        assert (Kd : ∀ j, j ≤ cnt (v_frames out ov) → is_Some (s_nodes (a_graph (state j)) !! n)).
        { intros j Hj. apply elem_of_dom. rewrite (state_const (λ j, dom (s_nodes (a_graph (state j)))) (cnt (v_frames out ov))); [|intros; by apply K1|done].
          rewrite C0. apply elem_of_dom. eauto. }
        destruct (IH _ _ _ _ _ _ Hr N1) as (st' & rs & N2 & B2 & S2 & T2).
        { rewrite <-Ce. unfold conns_of. rewrite Kc by lia. exact Hf. }
        { rewrite <-Ce. by apply Ki. }
        { rewrite <-Ce. by apply Ko. }
        exists st', (rs1 ++ rs). split; [done|]. split; [by rewrite fmap_app, B1, B2|].
        split; [exact (session_app _ _ _ _ _ _ _ _ _ S1 S2)|]. cbn. exists out', l0. split; [done|]. exists rs1, rs. split; [done|]. split; [|done].
        split; [by eapply same_dims_trans|]. split.
        { apply (f_equal (fmap snd)) in B1. rewrite <-list_fmap_compose in B1. unfold callback_blocks in B1. by rewrite <-list_fmap_compose in B1. }
        split.
        { intros ch fr Hfr. assert (Hj : fr / MF < cnt (v_frames out ov)).
          { apply chunk_count; [done|]. pose proof (Nat.mul_div_le fr MF ltac:(lia)). lia. }
          destruct (R1 _ Hj) as (r & Hr' & Hro & Hri). exists r. split; [done|]. split.
          - intros Hch'. pose proof (Nat.div_mod fr MF ltac:(lia)) as Hdm. pose proof (Nat.mod_upper_bound fr MF ltac:(lia)) as Hmb.
            rewrite Hri; [|done|unfold chunk_len; lia]. f_equal. unfold conns_of. rewrite Kc by lia. fold (conns_of (a_graph a) n Incoming). rewrite Hf. cbn [heard].
            unfold system_input. rewrite Ki by lia. cbn [chunk_view v_channels r_channels off_ch off_fr r_channel r_frame].
            destruct (decide (ch < v_channels inp iv ∧ ch < MC)).
            + rewrite decide_True by (split; [done|lia]). f_equal; lia.
            + rewrite decide_False; [done|]. intros [_ ?]. lia.
          - intros Hch'. rewrite R2 by (rewrite ?V2; done). unfold output_node. rewrite Ko by lia.
            rewrite decide_True by (apply Kd; lia). rewrite <-Hro. destruct (decide (ch < MC)); [done|].
            rewrite Hsil. rewrite decide_True by (unfold in_rect; lia).
            destruct (valid_off out ov O4) as [Hvo1 Hvo2].
            destruct (proj2 (sample_is_Some out (off_ch ov + ch) (off_fr ov + fr) O3)) as [x Hx]; [lia|]. by rewrite Hx. }
        { intros ch fr Hout. rewrite R3 by (by rewrite V2). rewrite Hsil. by rewrite decide_False. }
Qed.
End node.

(** ** The theorems *)
Section final.
Context {V A P : Type} (N : num V) (to_sample : V → A) (zero : A) (add : A → A → A).
Context (run : P → timestamp → (string → res (list A)) → owned A → owned A → res (P * owned A)).
Context (nbuf MC MF sr : nat) (sh : nat → oracle) (dr : nat → list endpoint → list endpoint).
Notation proc := (dsp_process N to_sample run).
Implicit Types os : list (nop V A P).

Lemma history_irun os st l : good_setup proc nbuf MF sr sh dr (to_pop <$> os) →
  prun zero add proc sh dr (new_processor zero nbuf sr MC MF) (to_pop <$> os) = Ok (st, l) → unprocessed [] (to_pop <$> os) = [] →
  ∃ a, graph_is st a ∧ irun zero add proc MC MF sr ainit false 0 (to_pop <$> os) a l.
Proof.
  intros Hg E Hu. destruct (engine_inv zero add proc nbuf MC MF sr sh dr _ _ _ Hg E) as (e & He & HI & _).
  pose proof (erun_sent zero add proc MC MF sr _ _ _ _ He) as Hs. cbn in Hs. rewrite Hu in Hs.
  destruct (erun_irun zero add proc MC MF sr _ _ _ _ He Hs) as (a1 & H1 & H2). cbn in H1, H2. inversion H1; subst.
  exists (e_graph e). split; [by eapply pinv_graph_is|done].
Qed.

Lemma engine_node_session n ins outs st0 before after st l :
  let os := before ++ NNew n ins outs st0 :: after in
  good_setup proc nbuf MF sr sh dr (to_pop <$> os) → NDrop n ∉ after → unprocessed [] (to_pop <$> os) = [] →
  prun zero add proc sh dr (new_processor zero nbuf sr MC MF) (to_pop <$> os) = Ok (st, l) →
  let on := running false (sent (to_pop <$> before)) in
  let pos := frames_played false (to_pop <$> before) in
  ∃ a st' rs, graph_is st a ∧ s_nodes (a_graph a) !! n = Some (Dsp ins outs st') ∧
    (λ r, (r_time r, r_frames r)) <$> rs = blocks_of MF sr on pos after ∧
    session N to_sample zero run sr ins outs st0 (λ name, events_of MF sr n name on pos after) rs st'.
Proof.
  intros os Hg Hd Hu E on pos. destruct (history_irun os st l Hg E Hu) as (a & Ha & Hi).
  unfold os in Hi. rewrite fmap_app in Hi. destruct (irun_app zero add proc MC MF sr _ _ _ _ _ _ _ Hi) as (a1 & l1 & l2 & I1 & -> & I2).
  cbn in I2. inversion I2 as [| | |? ? ? ? a2 ? ? ? Hs Hr| |]; subst. inversion Hs as [? ? ? s' Hst| | | | | | | |]; subst. inversion Hst; subst.
  destruct Hg as (_ & _ & Hmf & _ & _ & _ & Hok & _). unfold os in Hok. rewrite fmap_app, Forall_app in Hok.
  destruct Hok as [_ Hok]. cbn in Hok. apply Forall_cons in Hok as [_ Hok].
  destruct (node_session N to_sample zero add run MC MF sr n ins outs after Hmf _ _ _ _ _ st0 Hr Hok Hd) as (st' & rs & T1 & T2 & T3).
  { cbn. apply lookup_insert. }
  exists a, st', rs. done.
Qed.

Lemma engine_direct_session n ins outs st0 before after st l :
  let os := before ++ NNew n ins outs st0 :: NInput n :: NOutput n :: after in
  good_setup proc nbuf MF sr sh dr (to_pop <$> os) → direct n before after → unprocessed [] (to_pop <$> os) = [] →
  prun zero add proc sh dr (new_processor zero nbuf sr MC MF) (to_pop <$> os) = Ok (st, l) →
  let on := running false (sent (to_pop <$> before)) in
  let pos := frames_played false (to_pop <$> before) in
  ∃ st' rs, (λ r, (r_time r, r_frames r)) <$> rs = blocks_of MF sr on pos after ∧
    session N to_sample zero run sr ins outs st0 (λ name, events_of MF sr n name on pos after) rs st' ∧
    heard_through zero MF MC ins on after (drop (callbacks before) l) rs.
Proof.
  intros os Hg (D1 & D2 & D3 & D4) Hu E on pos. destruct (history_irun os st l Hg E Hu) as (a & Ha & Hi).
  unfold os in Hi. rewrite fmap_app in Hi. destruct (irun_app zero add proc MC MF sr _ _ _ _ _ _ _ Hi) as (a1 & l1 & l2 & I1 & -> & I2).
  destruct Hg as (_ & _ & Hmf & _ & _ & _ & Hok & _). unfold os in Hok. rewrite fmap_app, Forall_app in Hok.
  destruct Hok as [Hok1 Hok]. cbn in Hok. apply Forall_cons in Hok as [_ Hok]. apply Forall_cons in Hok as [_ Hok]. apply Forall_cons in Hok as [_ Hok].
  destruct (before_free N to_sample zero add run MC MF sr n before Hmf _ _ _ _ _ I1 Hok1) as [Hf Hl]; [|done|].
  { intros eid m c Hin. apply (D1 eid m c). apply elem_of_app. by left. }
  cbn in I2. inversion I2 as [| | |? ? ? ? a2 ? ? ? Hs Hr| |]; subst. inversion Hs as [? ? ? s' Hst| | | | | | | |]; subst. inversion Hst; subst.
  inversion Hr as [| | |? ? ? ? a3 ? ? ? Hs3 Hr3| |]; subst. inversion Hs3; subst.
  inversion Hr3 as [| | |? ? ? ? a4 ? ? ? Hs4 Hr4| |]; subst. inversion Hs4; subst.
  destruct (direct_session N to_sample zero add run MC MF sr n ins outs after Hmf _ _ _ _ _ st0 Hr4 Hok D2) as (st' & rs & T1 & T2 & T3 & T4).
  { intros eid m c Hin. apply (D1 eid m c). apply elem_of_app. by right. }
  { done. } { done. }
  { cbn. apply lookup_insert. }
  { exact Hf. } { done. } { done. }
  exists st', rs. rewrite drop_app_alt by done. done.
Qed.
End final.
