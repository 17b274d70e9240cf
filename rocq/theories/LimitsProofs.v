(** Programs that keep within the limits never abort the engine. *)
From stdpp Require Import gmap list list_numbers strings.
From Coq Require Import ZArith Reals Lia ZifyBool ZifyNat.
From Verif Require Import Base Graph GraphSpec GraphProofs TopoSort TopoSortSpec TopoSortProofs Buffer BufferSpec BufferProofs DspGraph DspGraphSpec DspGraphProofs
  Float FloatProofs Timestamp Processor ProcessorSpec ProcessorProofs AudioParam AudioParamSpec Node NodeSpec NodeProofs NodeGain MixerR LimitsSpec.

(** ** Parameters *)
Section params.
Context {V : Type} (N : num V).
Implicit Types p : param V.

Lemma start_calm t sr v p : calm p → ∃ p', start_change N t sr v p = Ok p' ∧ calm p'.
Proof.
  intros Hc. unfold start_change. pose proof Hc as Hc'. unfold calm in Hc'. destruct (pa_changes p) as [|c rest] eqn:E; [eauto|].
  apply Forall_cons in Hc' as [H1 H2]. destruct (c_method c) eqn:Em.
  - destruct (_ <=? _)%Z; [|eauto]. eexists. split; [done|exact H2].
  - destruct (_ <=? _)%Z; [|eauto]. eexists. split; [done|exact H2].
  - exfalso. apply H1. by exists start.
Qed.
Lemma loop_calm sr ts : ∀ v p, calm p → ∃ p' v' out, frame_loop N ts sr v p = Ok (p', v', out) ∧ calm p'.
Proof.
  induction ts as [|t ts IH]; intros v p Hc; cbn [frame_loop]; [eauto|].
  unfold value_at_time. destruct (start_calm t sr v p Hc) as (p1 & -> & H1). cbn [rbind].
  destruct (IH (if (c_end (pa_current p1) <=? t)%Z then c_value (pa_current p1) else n_add N (n_mul N v (pa_coef p1)) (pa_inc p1)) p1 H1)
    as (p2 & v2 & out & -> & H2). cbn [rbind]. eauto.
Qed.
Lemma process_calm t fc sr p : calm p → ∃ p' out, AudioParam.process N t fc sr p = Ok (p', out) ∧ calm p'.
Proof.
  intros Hc. unfold AudioParam.process. destruct (is_static N p); [eauto|].
  destruct (loop_calm sr (frame_times t fc sr) (pa_value p) p Hc) as (p1 & v & out & -> & H1). cbn [rbind]. eauto.
Qed.

Lemma insert_elem (c x : change V) l : x ∈ insert_change c l → x = c ∨ x ∈ l.
Proof.
  induction l as [|y l IH]; cbn [insert_change]; [set_solver|]. destruct (_ <? _)%Z; set_solver.
Qed.
Lemma sort_elem (l : list (change V)) x : x ∈ sort_changes l → x ∈ l.
Proof.
  unfold sort_changes. assert (H : ∀ acc, x ∈ fold_left (λ acc c, insert_change c acc) l acc → x ∈ acc ∨ x ∈ l).
  { induction l as [|y l IH]; intros acc; cbn [fold_left]; [auto|]. intros Hx. destruct (IH _ Hx) as [H|H]; [|set_solver].
    apply insert_elem in H. set_solver. }
  intros Hx. destruct (H [] Hx); set_solver.
Qed.
Lemma add_calm c p : ¬ exponential c → calm p → calm (add_change c p).
Proof.
  unfold calm. rewrite !Forall_forall. intros Hc Hp x Hx. apply sort_elem in Hx. apply elem_of_app in Hx as [Hx|Hx]; [by apply Hp|].
  apply elem_of_list_singleton in Hx as ->. done.
Qed.
Lemma cancel_calm e p : calm p → calm (match e with Some t => cancel_after t p | None => cancel_changes p end).
Proof.
  destruct e; cbn; [|constructor]. unfold calm. rewrite !Forall_forall. intros Hp x Hx. apply elem_of_list_filter in Hx as [_ Hx]. by apply Hp.
Qed.

Lemma process_params_calm t fc sr (m : gmap string (param V)) : (∀ name p, m !! name = Some p → calm p) →
  ∃ m', process_params N t fc sr m = Ok m'.
Proof.
  intros Hm. unfold process_params.
  assert (H : ∀ l (acc : gmap string (param V * list V)), Forall (λ x, calm x.2) l → ∃ m',
    rfold (λ acc '(name, p), let? r := AudioParam.process N t fc sr p in Ok (<[name := r]> acc)) l acc = Ok m').
  { induction l as [|[n p] l IH]; intros acc H; cbn [rfold]; [eauto|]. apply Forall_cons in H as [H1 H2].
    destruct (process_calm t fc sr p H1) as (p' & out & -> & _). cbn [rbind]. by apply IH. }
  apply H. apply Forall_forall. intros [n p] Hx. apply elem_of_map_to_list in Hx. cbn. by eapply Hm.
Qed.
End params.

Section limits.
Context {V A P : Type} (N : num V) (to_sample : V → A) (zero : A) (add : A → A → A).
Context (run : P → timestamp → (string → res (list A)) → owned A → owned A → res (P * owned A)).
Context (good : nat → nat → gset string → P → Prop).
Context (nbuf MC MF sr : nat) (sh : nat → oracle) (dr : nat → list endpoint → list endpoint).
Notation proc := (dsp_process N to_sample run).
Notation node_ok := (node_fit good).
Implicit Types os : list (nop V A P).

Lemma fit_proc_ok t ni no st i o fc : run_ok good run MF sr → fc ≤ MF → node_ok ni no st → is_block i ni fc → is_block o no fc →
  rate i = sr → rate o = sr →
  ∃ st' o', proc t st i o = Ok (st', o') ∧ is_block o' no fc ∧ node_ok ni no st' ∧ dom (ds_params st') = dom (ds_params st).
Proof.
  intros Hrun Hfc [Hc Hg] Hi Ho Hri Hro. unfold dsp_process. pose proof Ho as (_ & _ & Hf). rewrite Hf.
  destruct (process_params_calm N t fc (rate o) (ds_params st) Hc) as (m & Em). rewrite Em. cbn [rbind].
  pose proof (process_params_ok N t fc (rate o) (ds_params st) m Em) as Hm.
  assert (Hdom : dom (fst <$> m) = dom (ds_params st)).
  { rewrite dom_fmap_L. apply set_eq. intros name. rewrite !elem_of_dom. specialize (Hm name). destruct (ds_params st !! name).
    - destruct Hm as (x & Hx & _). rewrite Hx. split; eauto.
    - rewrite Hm. split; intros [? H]; discriminate H. }
  destruct (Hrun ni no (dom (ds_params st)) (ds_proc st) t (parameter_values to_sample (snd <$> m)) i o fc Hfc Hg Hi Ho Hri Hro) as (p' & o' & E & Hb & Hg').
  { intros name Hn. apply elem_of_dom in Hn as [p Hp]. specialize (Hm name). rewrite Hp in Hm. destruct Hm as ([p' out] & Hx & Hpr).
    unfold parameter_values. rewrite lookup_fmap, Hx. cbn. eexists. split; [done|]. rewrite fmap_length. by eapply process_length. }
  rewrite E. cbn [rbind]. eexists _, _. split; [done|]. split; [done|]. split; [|done]. split; cbn [ds_params ds_proc].
  - intros name p Hp. rewrite lookup_fmap in Hp. apply fmap_Some in Hp as ([p1 out] & Hx & ->). cbn.
    specialize (Hm name). destruct (ds_params st !! name) as [p0|] eqn:E0; [|congruence]. destruct Hm as (y & Hy & Hpr).
    rewrite Hx in Hy. injection Hy as <-. destruct (process_calm N t fc (rate o) p0 (Hc _ _ E0)) as (q & out' & Eq & Hq). rewrite Eq in Hpr. by injection Hpr as <- <-.
  - by rewrite Hdom.
Qed.

Context (Hrun : run_ok good run MF sr).
Lemma fit_ok : proc_ok proc MF sr node_ok.
Proof.
  intros t ni no st i o fc Hfc Hn Hi Ho Hri Hro. destruct (fit_proc_ok t ni no st i o fc Hrun Hfc Hn Hi Ho Hri Hro) as (st' & o' & H1 & H2 & H3 & _). eauto.
Qed.

(** ** What the program knows is so *)
Notation label := (λ d : dsp (dspstate V P), (d_in d, d_out d, dom (ds_params (d_state d)))).
Record fits (s : plan) (g : sgraph (dsp (dspstate V P)) connection) : Prop := {
  ft_nodes : label <$> s_nodes g = s_nodes s;
  ft_conns : s_conns g = s_conns s;
  ft_ok n d : s_nodes g !! n = Some d → d_in d ≤ MC ∧ d_out d ≤ MC ∧ node_ok (d_in d) (d_out d) (d_state d);
  ft_bounds c : c ∈ s_conns g → src_ch (c_data c) + ch_count (c_data c) ≤ MC ∧ dst_ch (c_data c) + ch_count (c_data c) ≤ MC;
  ft_single : no_parallel g }.

Lemma fits_some s g n : fits s g → is_Some (s_nodes s !! n) ↔ is_Some (s_nodes g !! n).
Proof. intros F. rewrite <-(ft_nodes _ _ F), lookup_fmap. apply fmap_is_Some. Qed.
Lemma fits_none s g n : fits s g → s_nodes s !! n = None ↔ s_nodes g !! n = None.
Proof. intros F. rewrite <-(ft_nodes _ _ F), lookup_fmap. apply fmap_None. Qed.
Lemma fits_lookup s g n d : fits s g → s_nodes g !! n = Some d → s_nodes s !! n = Some (label d).
Proof. intros F E. by rewrite <-(ft_nodes _ _ F), lookup_fmap, E. Qed.

Lemma fits_render s g : fits s g → acyclic s → size (s_nodes s) + 2 ≤ nbuf → renderable node_ok nbuf MC g.
Proof.
  intros F Ha Hs. destruct F as [F1 F2 F3 F4 F5]. split; [|done| |done|done].
  - unfold acyclic, feeds in *. by rewrite F2.
  - rewrite <-F1, map_size_fmap in Hs. done.
Qed.

Notation astep := (astep (T := timestamp) zero add proc MC MF sr).

Lemma parallel_free {ND} (g : sgraph ND connection) a b : no_parallel g → ∀ c before after,
  s_conns g = before ++ c :: after → c_from c = a → c_to c = b →
  filter (λ c, ¬ (c_from c = a ∧ c_to c = b)) (s_conns g) = before ++ after ∧ no_parallel (SGraph (s_nodes g) (before ++ after)).
Proof.
  intros Hnp c before after E Ha Hb. unfold no_parallel in *. cbn [s_conns]. rewrite E in Hnp |- *.
  rewrite fmap_app, fmap_cons in Hnp. apply NoDup_app in Hnp as (N1 & N2 & N3). apply NoDup_cons in N3 as [N3 N4].
  assert (Hid : ∀ l : list (conn connection), (a, b) ∉ (λ c, (c_from c, c_to c)) <$> l → filter (λ c, ¬ (c_from c = a ∧ c_to c = b)) l = l).
  { clear. induction l as [|c l IH]; intros H; [done|]. rewrite fmap_cons, not_elem_of_cons in H. destruct H as [H1 H2].
    rewrite filter_cons_True, IH; [done|done|]. intros [Hx Hy]. apply H1. by rewrite Hx, Hy. }
  rewrite Ha, Hb in *. split.
  - rewrite filter_app, filter_cons_False by (intros H; apply H; done).
    rewrite !Hid; [done|done|]. intros Hin. eapply N2; [exact Hin|]. by left.
  - rewrite fmap_app. apply NoDup_app. split; [done|]. split; [|done]. intros x Hx Hy. eapply N2; [exact Hx|]. by right.
Qed.

Lemma command_fits o c s on os a a' l : to_pop o = PSend (CGraph c) → careful good nbuf MC s on (o :: os) →
  fits s (a_graph a) → astep a (HCmd c) a' l → ∃ s', fits s' (a_graph a') ∧ careful good nbuf MC s' on os.
Proof.
  intros Eo Hc F Hs. pose proof F as [F1 F2 F3 F4 F5].
  destruct o; try discriminate Eo; injection Eo as <-; cbn [careful] in Hc.
  - destruct Hc as (C1 & C2 & C3 & C4 & C5). inversion Hs as [? ? ? s' Hst| | | | | | | |]; subst. inversion Hst; subst. cbn [a_graph].
    eexists. split; [|exact C5]. split; cbn [s_nodes s_conns]; [by rewrite fmap_insert, F1|done| |done|done].
    intros m d. rewrite lookup_insert_Some. intros [[<- <-]|[_ Hd]]; [done|by eapply F3].
  - destruct Hc as (C1 & C2). inversion Hs as [|? ? s' Hst| | | | | | |]; subst. inversion Hst as [| |? ? H1|? ? H1 H2| | | | |]; subst; cbn [a_graph].
    + eexists. split; [|exact C2]. apply (fits_none _ _ _ F) in H1. rewrite delete_notin by done. by destruct s.
    + eexists. split; [|exact C2]. split; cbn [s_nodes s_conns]; [by rewrite fmap_delete, F1|done| |done|done].
      intros m d. rewrite lookup_delete_Some. intros [_ Hd]. by eapply F3.
  - destruct Hc as (C1 & C2 & C3 & C4 & C5 & C6). inversion Hs as [| |? ? ? ? ? s' Hst| | | | | |]; subst. inversion Hst; subst. cbn [a_graph].
    eexists. split; [|exact C6]. split; cbn [s_nodes s_conns]; [done|by rewrite F2|done| |].
    + intros x [Hx|Hx]%elem_of_app; [by apply F4|]. apply elem_of_list_singleton in Hx as ->. done.
    + unfold no_parallel in *. cbn [s_conns]. rewrite fmap_app. apply NoDup_app. split; [done|]. split; [|apply NoDup_singleton].
      intros x Hx Hy. apply elem_of_list_singleton in Hy as ->. apply elem_of_list_fmap in Hx as (y & E & Hy). injection E as E1 E2.
      rewrite F2 in Hy. by apply (C3 y Hy).
  - inversion Hs as [| | |? ? ? s' Hst| | | | |]; subst. inversion Hst as [| | | | | | |? ? ? H1|? ? ? c before after H1]; subst; cbn [a_graph].
    + eexists. split; [|exact Hc]. rewrite <-F2. replace (filter _ (s_conns (a_graph a))) with (s_conns (a_graph a)); [split; done|].
      symmetry. revert H1. clear. induction (s_conns (a_graph a)) as [|x k IH]; intros H1; [done|]. rewrite filter_cons_True by (apply H1; by left).
      f_equal. apply IH. intros c Hc. apply H1. by right.
    + destruct (parallel_free (a_graph a) (c_from c) (c_to c) F5 c before after) as [E1 E2]; [done..|].
      eexists. split; [|exact Hc]. rewrite <-F2, E1. split; cbn [s_nodes s_conns]; [done|done|done| |done].
      intros x Hx. apply F4. rewrite H1. set_solver.
  - inversion Hs; subst. exists s. done.
  - inversion Hs; subst. exists s. done.
  - destruct Hc as (C1 & C2 & C3). exists s. split; [|done]. inversion Hs as [| | | | | |? ? ? d st' Hn Hf|? ? ? Hn|]; subst; [|done]. cbn [a_graph].
    unfold request_parameter_change in Hf. destruct (ds_params (d_state d) !! name) as [p|] eqn:Ep; [|done]. cbn in Hf. injection Hf as <-.
    assert (Hdm : dom (<[name:=add_change c0 p]> (ds_params (d_state d))) = dom (ds_params (d_state d))).
    { rewrite dom_insert_lookup_L; [done|eauto]. }
    destruct (F3 _ _ Hn) as (Q1 & Q2 & Q3 & Q4).
    split; cbn [s_nodes s_conns]; [|done| |done|done].
    + rewrite fmap_insert. cbn [d_in d_out d_state ds_params]. rewrite Hdm, F1. apply insert_id. by apply (fits_lookup _ _ _ _ F).
    + intros m d'. rewrite lookup_insert_Some. intros [[<- <-]|[_ Hd]]; [|by eapply F3]. cbn [d_in d_out d_state]. split; [done|]. split; [done|].
      split; cbn [ds_params ds_proc]; [|by rewrite Hdm]. intros nm q. rewrite lookup_insert_Some. intros [[<- <-]|[_ Hq]]; [|by eapply Q3].
      apply add_calm; [done|by eapply Q3].
  - destruct Hc as (C1 & C3). exists s. split; [|done]. inversion Hs as [| | | | | |? ? ? d st' Hn Hf|? ? ? Hn|]; subst; [|done]. cbn [a_graph].
    unfold cancel_parameter_changes in Hf. destruct (ds_params (d_state d) !! name) as [p|] eqn:Ep; [|done]. cbn [runwrap rbind] in Hf. injection Hf as <-.
    set (q0 := match end_time with Some t => cancel_after t p | None => cancel_changes p end).
    assert (Hdm : dom (<[name:=q0]> (ds_params (d_state d))) = dom (ds_params (d_state d))).
    { rewrite dom_insert_lookup_L; [done|eauto]. }
    destruct (F3 _ _ Hn) as (Q1 & Q2 & Q3 & Q4).
    split; cbn [s_nodes s_conns]; [|done| |done|done].
    + rewrite fmap_insert. cbn [d_in d_out d_state ds_params]. rewrite Hdm, F1. apply insert_id. by apply (fits_lookup _ _ _ _ F).
    + intros m d'. rewrite lookup_insert_Some. intros [[<- <-]|[_ Hd]]; [|by eapply F3]. cbn [d_in d_out d_state]. split; [done|]. split; [done|].
      split; cbn [ds_params ds_proc]; [|by rewrite Hdm]. intros nm q. rewrite lookup_insert_Some. intros [[<- <-]|[_ Hq]]; [|by eapply Q3].
      apply cancel_calm. by eapply Q3.
Qed.

Lemma block_fits s a inp iv out ov t a' l : fits s (a_graph a) → astep a (HBlock inp iv out ov t) a' l → fits s (a_graph a').
Proof.
  intros [F1 F2 F3 F4 F5] Hst. inversion Hst as [| | | | | | | |? ? ? ? ? ? ? nodes' outs Ha Hp [Hd Heq] Ho]; subst. cbn [a_graph].
  assert (Hx : ∀ n d', nodes' !! n = Some d' → ∃ d, s_nodes (a_graph a) !! n = Some d ∧ label d' = label d ∧ node_ok (d_in d) (d_out d) (d_state d')).
  { intros n d' Hn. assert (Hin : n ∈ dom (s_nodes (a_graph a))) by (rewrite <-Hd; apply elem_of_dom; eauto).
    apply elem_of_dom in Hin as [d Hd']. exists d. split; [done|]. destruct (Heq n d Hd') as (i & st' & Hi & Hr & Hs & Hp' & Ho' & Hn').
    rewrite Hn in Hn'. injection Hn' as ->. destruct (F3 n d Hd') as (Q1 & Q2 & Q3).
    destruct (fit_proc_ok t (d_in d) (d_out d) (d_state d) i (new_buffer zero (v_frames out ov `min` MF) (d_out d) sr)
                (v_frames out ov `min` MF) Hrun ltac:(lia) Q3 Hi) as (st2 & o2 & E & _ & Hk & Hdm); [split; [apply new_buffer_wf|done]|done|done|].
    rewrite E in Hp'. injection Hp' as -> ->. cbn [d_in d_out d_state]. rewrite Hdm. done. }
  split; cbn [s_nodes s_conns]; [|done| |done|done].
  - rewrite <-F1. apply map_eq. intros n. rewrite !lookup_fmap. destruct (nodes' !! n) as [d'|] eqn:E.
    + destruct (Hx n d' E) as (d & -> & El & _). cbn [fmap option_fmap option_map]. by f_equal.
    + assert (n ∉ dom nodes') as Hn by (by apply not_elem_of_dom). rewrite Hd in Hn. apply not_elem_of_dom in Hn. by rewrite Hn.
  - intros n d' Hn. destruct (Hx n d' Hn) as (d & E & El & Hk). injection El as E1 E2 E3. rewrite E1, E2. destruct (F3 _ _ E) as (? & ? & _). done.
Qed.

Context (Hshape : proc_shape proc) (Hnbuf : 0 < nbuf) (Hmf : 0 < MF).
Context (Hsh : ∀ k, any_order (sh k)) (Hdr : ∀ k l, dr k l ≡ₚ l).
Notation readya := (readya zero nbuf MC MF sr).
Notation pinv := (pinv zero nbuf MC MF sr).
Notation pops := (fmap to_pop : list (nop V A P) → list (pop A (dspstate V P))).

(** ** Commands *)
Lemma command_total o c s on os k dg a : to_pop o = PSend (CGraph c) → careful good nbuf MC s on (o :: os) →
  fits s (a_graph a) → readya dg a → (∀ e, e ∈ gcmd_edge_ids c → e ∉ c_id <$> s_conns (a_graph a)) →
  ∃ dg', gcmd_step (sh k) k dg c = Ok dg'.
Proof.
  intros Eo Hc F Hra Hf.
  assert (Hop : ∀ op, (∀ e, e ∈ op_edge_ids op → e ∉ c_id <$> s_conns (a_graph a)) → (∀ p, ¬ sstep (a_graph a) op (Panic p)) →
    ∃ g, gstep (sh k) k (dg_graph dg) op = Ok g).
  { intros op Hfr Hno. pose proof (graph_op_ok zero nbuf MC MF sr (sh k) k dg a op (Hsh k) Hra Hfr) as H.
    destruct (gstep _ _ _ _) as [g|p]; [eauto|]. destruct H as [q Hq]. by apply Hno in Hq. }
  destruct o; try discriminate Eo; injection Eo as <-; cbn [careful] in Hc; cbn [gcmd_step].
  - destruct Hc as (C1 & _). destruct (Hop (AddNode n (Dsp inputs outputs st))) as [g ->]; [set_solver| |cbn; eauto].
    intros p Hp. inversion Hp; subst. apply (fits_none _ _ _ F) in C1. rewrite C1 in *. match goal with H : is_Some None |- _ => by destruct H end.
  - destruct Hc as (C1 & _). destruct (Hop (RemoveNode n)) as [g ->]; [set_solver| |cbn; eauto].
    intros p Hp. inversion Hp; subst. rewrite (ft_conns _ _ F) in *. by eapply C1.
  - destruct Hc as (C1 & C2 & _). destruct (Hop (AddEdge eid a0 b c0)) as [g ->]; [done| |cbn; eauto].
    intros p Hp. apply (fits_some _ _ _ F) in C1, C2. inversion Hp as [| | | | | |? ? ? ? ? [H|H]| |]; subst; rewrite H in *; [by destruct C1|by destruct C2].
  - destruct (Hop (RemoveEdge a0 b)) as [g Eg]; [set_solver|intros p Hp; inversion Hp|]. rewrite Eg. cbn. eauto.
  - eauto.
  - eauto.
  - destruct Hc as (C1 & _). destruct Hra as [[H1 _ _ _ _ _ _] _]. rewrite (obs_node _ _ (rep_observes _ _ H1)).
    destruct (s_nodes (a_graph a) !! n) as [d|] eqn:En; [|eauto].
    pose proof (C1 _ _ _ (fits_lookup _ _ _ _ F En)) as Hin. apply elem_of_dom in Hin as [p Hp].
    unfold request_parameter_change. rewrite Hp. cbn. eauto.
  - destruct Hc as (C1 & _). destruct Hra as [[H1 _ _ _ _ _ _] _]. rewrite (obs_node _ _ (rep_observes _ _ H1)).
    destruct (s_nodes (a_graph a) !! n) as [d|] eqn:En; [|eauto].
    pose proof (C1 _ _ _ (fits_lookup _ _ _ _ F En)) as Hin. apply elem_of_dom in Hin as [p Hp].
    unfold cancel_parameter_changes. rewrite Hp. cbn. eauto.
Qed.

Lemma command_hop_ok o c : to_pop (A := A) (V := V) (P := P) o = PSend (CGraph c) → hop_ok (T := timestamp) (HCmd (A := A) c).
Proof. intros E. destruct o; try discriminate E; injection E as <-; done. Qed.

Lemma command_careful o c s on os k dg a ids : to_pop o = PSend (CGraph c) → careful good nbuf MC s on (o :: os) →
  fits s (a_graph a) → readya dg a → fresh_ids (gcmd_edge_ids c ++ ids) a →
  ∃ dg' a' s', gcmd_step (sh k) k dg c = Ok dg' ∧ readya dg' a' ∧ fits s' (a_graph a') ∧ careful good nbuf MC s' on os ∧ fresh_ids ids a'.
Proof.
  intros Eo Hc F Hra Hf. assert (Hf1 : ∀ e, e ∈ gcmd_edge_ids c → e ∉ c_id <$> s_conns (a_graph a)).
  { intros e He. apply Hf. set_solver. }
  destruct (command_total o c s on os k dg a Eo Hc F Hra Hf1) as [dg' E].
  pose proof (hstep_ok zero add proc nbuf MC MF sr node_ok Hshape fit_ok Hnbuf sh dr k dg a (HCmd c) Hsh Hdr Hra (command_hop_ok o c Eo) Hf1) as H.
  cbn [hstep] in H. rewrite E in H. destruct H as (a' & Hst & Hra').
  destruct (command_fits o c s on os a a' [] Eo Hc F Hst) as (s' & F' & C').
  exists dg', a', s'. do 4 (split; [done|]).
  eapply (fresh_mono zero add proc nbuf MF sr node_ok Hshape fit_ok Hnbuf sh dr Hsh Hdr); [exact Hf|].
  intros e He. exact (astep_ids zero add proc MC MF sr _ _ _ _ Hst e He).
Qed.

(** ** Callbacks *)
Lemma chunks_fits s inp iv ov n pos : ∀ k a o a' o', chunks zero add proc MC MF sr inp iv ov n pos k a o a' o' →
  fits s (a_graph a) → fits s (a_graph a').
Proof. intros k a o a' o' H. induction H as [|? ? ? ? ? ? ? _ Hst _ IH]; [done|]. intros F. apply IH. by eapply block_fits. Qed.

Lemma flushed_callback st st1 inp iv out ov : process_commands sh st = Ok st1 → p_queue st1 = [] →
  callback zero add proc sh dr st inp iv out ov = callback zero add proc sh dr st1 inp iv out ov.
Proof.
  intros E Eq. unfold callback. rewrite E.
  assert (E1 : process_commands sh st1 = Ok st1). { unfold process_commands. rewrite Eq. cbn [rfold]. unfold with_queue. rewrite <-Eq. by destruct st1. }
  by rewrite E1.
Qed.

Lemma stopped_callback st inp iv out ov : p_queue st = [] → p_started st = false → pop_ok (St := dspstate V P) (PCallback inp iv out ov) →
  ∃ st' out', callback zero add proc sh dr st inp iv out ov = Ok (st', out').
Proof.
  intros Eq Es (O1 & O2 & O3 & O4 & O5). unfold callback. destruct (v_frames inp iv =? v_frames out ov)%nat eqn:Efr; [|lia]. cbn [rassert].
  destruct (fill_with_value_ok out ov zero O3 O4) as (out0 & Ec & _). unfold clear. rewrite Ec. cbn [rbind].
  unfold process_commands. rewrite Eq. cbn [rfold rbind with_queue p_started]. rewrite Es. eauto.
Qed.

Lemma careful_runs os : ∀ s on st st1 e, process_commands sh st = Ok st1 → pinv st1 e → e_sent e = [] → e_started e = on →
  fits s (a_graph (e_graph e)) → fresh_ids (phist_edge_ids (pops os)) (e_graph e) → careful good nbuf MC s on os →
  ∃ st' l, prun zero add proc sh dr st (pops os) = Ok (st', l).
Proof.
  induction os as [|o os IH]; intros s on st st1 e Ep HI Hs Hon F Hf Hc; [by eexists _, _|].
  change (pops (o :: os)) with (to_pop o :: pops os). cbn [prun].
  change (phist_edge_ids (pops (o :: os))) with (pop_edge_ids (to_pop o) ++ phist_edge_ids (pops os)) in Hf.
  destruct (to_pop o) as [c|inp iv out ov] eqn:Eo.
  - cbn [pstep rbind].
    assert (Es : process_commands sh (send st c) = let? st1 := process_commands sh st in apply_command sh st1 c).
    { unfold process_commands, send. cbn [p_queue with_queue]. rewrite rfold_app.
      change (with_queue (with_queue st (p_queue st ++ [c])) []) with (with_queue st []).
      destruct (rfold _ _ _); [|done]. cbn. by destruct (apply_command _ _ _). }
    rewrite Ep in Es. cbn [rbind] in Es.
    assert (∃ st2 e2 s2 on2, apply_command sh st1 c = Ok st2 ∧ pinv st2 e2 ∧ e_sent e2 = [] ∧ e_started e2 = on2 ∧ fits s2 (a_graph (e_graph e2)) ∧
      fresh_ids (phist_edge_ids (pops os)) (e_graph e2) ∧ careful good nbuf MC s2 on2 os) as (st2 & e2 & s2 & on2 & H1 & H2 & H3 & H4 & H5 & H6 & H7).
    { destruct HI as [I1 I2 I3 I4 I5 I6 I7]. destruct c as [| |c].
      - destruct o; try discriminate Eo. cbn [apply_command]. eexists _, (EState true (e_sent e) (e_graph e) (e_frames e)), s, true.
        split; [done|]. split; [by split|]. done.
      - destruct o; try discriminate Eo. cbn [apply_command]. eexists _, (EState false (e_sent e) (e_graph e) (e_frames e)), s, false.
        split; [done|]. split; [by split|]. done.
      - destruct (command_careful o c s on os (p_clock st1) (p_graph st1) (e_graph e) _ Eo Hc F I3 Hf) as (dg' & a' & s' & E1 & E2 & E3 & E4 & E5).
        cbn [apply_command]. rewrite E1. cbn [rbind]. eexists _, (EState (e_started e) (e_sent e) a' (e_frames e)), s', on.
        split; [done|]. split; [by split|]. done. }
    rewrite H1 in Es. destruct (IH s2 on2 (send st c) st2 e2 Es H2 H3 H4 H5 H6 H7) as (st' & l & E).
    rewrite E. cbn. eauto.
  - destruct o; try discriminate Eo. injection Eo as -> -> -> ->. cbn [careful] in Hc. destruct Hc as (C1 & C2 & C3 & C4 & C5 & C6 & C7).
    assert (Hpo : pop_ok (St := dspstate V P) (PCallback inp iv out ov)) by done.
    pose proof (pi_queue _ _ _ _ _ _ _ HI) as Hq. rewrite Hs in Hq.
    assert (∃ st' out', callback zero add proc sh dr st1 inp iv out ov = Ok (st', out')) as (st' & out' & Ec).
    { destruct on.
      - destruct (C6 eq_refl) as [Ha Hn]. apply (callback_total zero add proc nbuf MC MF sr node_ok Hshape fit_ok Hnbuf sh dr Hsh Hdr st1 e); [done..|].
        by eapply fits_render.
      - apply stopped_callback; [done| |done]. rewrite (pi_started _ _ _ _ _ _ _ HI). done. }
    destruct (callback_ok zero add proc nbuf MC MF sr node_ok Hshape fit_ok Hnbuf sh dr Hsh Hdr st1 e inp iv out ov st' out' (phist_edge_ids (pops os)))
      as (e' & Hst & HI' & Hs' & Hf'); [done|done|done|by rewrite Hs; constructor|by rewrite Hs|done|].
    cbn [pstep]. rewrite (flushed_callback st st1 inp iv out ov Ep Hq), Ec. cbn [rbind].
    assert (Ep' : process_commands sh st' = Ok st').
    { unfold process_commands. pose proof (pi_queue _ _ _ _ _ _ _ HI') as Hq'. rewrite Hs' in Hq'. rewrite Hq'. cbn [rfold]. unfold with_queue. rewrite <-Hq'. by destruct st'. }
    assert (Hx : e_started e' = on ∧ fits s (a_graph (e_graph e'))).
    { inversion Hst as [|? ? ? ? ? a' ? Ha Hr|? ? ? ? ? a' a'' ? ? Ha Hr ? Hch]; subst; cbn [e_started e_graph]; rewrite Hs in *; cbn in Hr; inversion Ha; subst.
      - done.
      - split; [done|]. by eapply chunks_fits. }
    destruct Hx as [X1 X2]. destruct (IH s on st' st' e' Ep' HI' Hs' X1 X2 Hf' C7) as (st2 & l & ->). cbn [rbind]. eauto.
Qed.

Lemma careful_never_aborts os : (0 < Z.of_nat sr <= 2 ^ 53)%Z → NoDup (phist_edge_ids (pops os)) → careful good nbuf MC sempty false os →
  ∃ st l, prun zero add proc sh dr (new_processor zero nbuf sr MC MF) (pops os) = Ok (st, l).
Proof.
  intros Hsr Hnd Hc. eapply (careful_runs os sempty false _ _ einit); [done| |done|done| | |done].
  - exact (new_pinv zero proc nbuf MC MF sr node_ok Hshape fit_ok Hnbuf Hsr).
  - split; cbn; [apply fmap_empty|done| | |constructor]; intros; [done|set_solver].
  - split; [done|]. intros e _. cbn. apply not_elem_of_nil.
Qed.
End limits.

(** ** Gain nodes *)
Lemma gain_run_good max_fr sr : run_ok gain_good (gain_run gain_process_R) max_fr sr.
Proof.
  intros ni no names [] t values i o fc _ Hg Hi Ho _ _ Hv. destruct (Hv "gain" Hg) as (g & Eg & _).
  destruct (gain_run_ok values t i o ni no fc g Hi Ho Eg) as (o' & E & W & (S1 & S2 & S3) & _). exists (), o'. split; [done|].
  destruct Ho as (O1 & O2 & O3). split; [|done]. split; [done|]. split; congruence.
Qed.
