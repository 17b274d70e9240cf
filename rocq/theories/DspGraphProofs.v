From stdpp Require Import functions gmap list sets.
From Verif Require Import Base Graph GraphSpec GraphProofs TopoSort TopoSortSpec TopoSortProofs
  Buffer BufferSpec BufferProofs DspGraph DspGraphSpec.

(** ** Updating node data *)
Section set_data.
Context {ND ED : Type}.
Implicit Types (g : graph ND ED) (s : sgraph ND ED).

Lemma set_node_data_rep g s n x : Rep g s → is_Some (s_nodes s !! n) →
  Rep (set_node_data g n x) (SGraph (<[n := x]> (s_nodes s)) (s_conns s)).
Proof.
  intros HR [y Hy]. destruct HR as [R1 R2 R3 R4]. split; cbn; [done| | |exact R4].
  - intros c Hc. destruct (R2 c Hc) as [H1 H2]. rewrite !lookup_insert_is_Some.
    split; [destruct (decide (n = c_from c))|destruct (decide (n = c_to c))]; auto.
  - intros m. destruct (decide (m = n)) as [->|Hne].
    + rewrite lookup_alter, lookup_insert, R3, Hy. done.
    + rewrite lookup_alter_ne, lookup_insert_ne by done. apply R3.
Qed.

Lemma processing_order_ext s s' order : s_conns s = s_conns s' → dom (s_nodes s) = dom (s_nodes s') →
  is_processing_order s order → is_processing_order s' order.
Proof.
  intros Hc Hd [H1 H2]. split; [|by rewrite <-Hc].
  rewrite H1. apply NoDup_Permutation; [apply NoDup_fst_map_to_list..|].
  intros n. rewrite !elem_of_list_fmap.
  assert (Hdom : ∀ m : gmap id ND, (∃ y, n = y.1 ∧ y ∈ map_to_list m) ↔ n ∈ dom m).
  { intros m. rewrite elem_of_dom. split.
    - intros ([k v] & -> & Hk). apply elem_of_map_to_list in Hk. by eexists.
    - intros [v Hv]. exists (n, v). split; [done|]. by apply elem_of_map_to_list. }
  by rewrite !Hdom, Hd.
Qed.

Lemma order_nodup s order : is_processing_order s order → NoDup order.
Proof. intros [H _]. rewrite H. apply NoDup_fst_map_to_list. Qed.

Lemma order_elem s order n : is_processing_order s order → n ∈ order ↔ is_Some (s_nodes s !! n).
Proof.
  intros [H _]. rewrite H, elem_of_list_fmap. split.
  - intros ([k v] & -> & Hk). apply elem_of_map_to_list in Hk. by eexists.
  - intros [v Hv]. exists (n, v). split; [done|]. by apply elem_of_map_to_list.
Qed.

Lemma order_length s order : is_processing_order s order → length order = size (s_nodes s).
Proof. intros [H _]. rewrite H, fmap_length. done. Qed.

Lemma prefix_closed s l1 l2 c : is_processing_order s (l1 ++ l2) → c ∈ s_conns s →
  c_to c ∈ l1 → c_from c ∈ l1.
Proof.
  intros Ho Hc Hto. pose proof (order_nodup _ _ Ho) as Hnd.
  destruct Ho as [_ Ho]. destruct (Ho c Hc) as (a1 & a2 & a3 & E).
  apply elem_of_list_split in Hto as (b1 & b2 & ->).
  rewrite <-app_assoc in E. cbn in E.
  assert (b1 = a1 ++ c_from c :: a2) as ->; [|set_solver].
  rewrite <-app_assoc in Hnd. cbn in Hnd.
  replace (a1 ++ c_from c :: a2 ++ c_to c :: a3) with ((a1 ++ c_from c :: a2) ++ c_to c :: a3) in E
    by (by rewrite <-app_assoc).
  revert Hnd E. generalize (a1 ++ c_from c :: a2) as l. generalize (b2 ++ l2) as m.
  generalize (c_to c) as x. clear. intros x m l. revert b1. induction l as [|y l IH]; intros [|z b1] Hnd E.
  - done.
  - cbn in E. injection E as -> E. apply NoDup_cons in Hnd as [H _]. exfalso. apply H. set_solver.
  - cbn in E. injection E as -> E. cbn in Hnd. apply NoDup_cons in Hnd as [H _]. exfalso. apply H.
    rewrite E. set_solver.
  - cbn in *. injection E as -> E. f_equal. apply IH; [|done]. by apply NoDup_cons in Hnd as [_ ?].
Qed.

Lemma prefix_next_closed s l1 n l2 c : is_processing_order s (l1 ++ n :: l2) → c ∈ s_conns s →
  c_to c = n → c_from c ∈ l1 ∧ c_from c ≠ n.
Proof.
  intros Ho Hc Hto. pose proof (order_nodup _ _ Ho) as Hnd.
  assert (Hin : c_from c ∈ l1 ++ [n]).
  { apply (prefix_closed s (l1 ++ [n]) l2 c); [by rewrite <-app_assoc|done|set_solver]. }
  assert (Hne : c_from c ≠ n).
  { intros Heq. destruct Ho as [_ Ho]. destruct (Ho c Hc) as (a1 & a2 & a3 & E).
    rewrite E, Heq, Hto in Hnd. apply NoDup_app in Hnd as (_ & _ & Hnd).
    apply NoDup_cons in Hnd as [Hnd _]. set_solver. }
  set_solver.
Qed.

End set_data.

(** ** Buffers of the pool *)
Section proofs.
Context {A St T : Type}.
Context (zero : A) (add : A → A → A).
Context (proc : T → St → owned A → owned A → res (St * owned A)).
Context (nbuf MC MF r : nat).
Implicit Types (b : owned A) (s : sgraph (dsp St) connection).

Notation zbuf := (new_buffer zero MF MC r).
Notation heard_at := (heard_at zero).
Notation heard := (heard zero add).
Notation mixed := (mixed zero add).
Notation delivers := (delivers zero).

Definition pool_dims b : Prop := wf b ∧ channels b = MC ∧ frames b = MF ∧ rate b = r.

(** a pool buffer that holds the samples [f] in its first [fc] frames *)
Definition carries (fc : nat) b (f : nat → nat → A) : Prop :=
  pool_dims b ∧ ∀ ch fr, ch < MC → fr < fc → sample b ch fr = Some (f ch fr).

Lemma zbuf_dims : pool_dims zbuf.
Proof. split; [apply new_buffer_wf|done]. Qed.

Lemma zbuf_carries fc : fc ≤ MF → carries fc zbuf (λ _ _, zero).
Proof.
  intros H. split; [apply zbuf_dims|]. intros ch fr H1 H2.
  rewrite new_buffer_sample. rewrite decide_True by lia. done.
Qed.

Lemma clear_zbuf b : pool_dims b → clear zero b Whole = Ok zbuf.
Proof.
  intros (Hwf & Hc & Hf & Hr).
  destruct (fill_with_value_ok b Whole zero Hwf I) as (b' & E & Hw & Hd & Hs).
  unfold clear. rewrite E. f_equal. apply buffer_ext; [done|apply new_buffer_wf| |].
  - destruct Hd as (H1 & H2 & H3). cbn. repeat split; cbn; congruence.
  - intros ch fr. rewrite Hs, new_buffer_sample. cbn [off_ch off_fr v_channels v_frames].
    destruct (decide (ch < MC ∧ fr < MF)) as [Hin|Hin].
    + rewrite decide_True by (unfold in_rect; lia).
      destruct (proj2 (sample_is_Some b ch fr Hwf)) as [x ->]; [lia|]. done.
    + rewrite sample_None by lia. by destruct (decide _).
Qed.

Lemma free_add_zbuf p b : pool_dims b →
  free_add zero p b = Ok (Pools (zbuf :: free p) (assigned p)).
Proof. intros H. unfold free_add. by rewrite clear_zbuf. Qed.

Lemma carries_ext fc b f f' : (∀ ch fr, ch < MC → fr < fc → f ch fr = f' ch fr) →
  carries fc b f → carries fc b f'.
Proof. intros H [H1 H2]. split; [done|]. intros ch fr Hc Hf. rewrite <-H by done. by apply H2. Qed.

(** a computation that returns something good, or panics when [bad] holds *)
Definition outcome {B} (x : res B) (P : B → Prop) (bad : Prop) : Prop :=
  match x with Ok b => P b | Panic _ => bad end.

Lemma outcome_bind {B C} (x : res B) (k : B → res C) P Q bad :
  outcome x P bad → (∀ y : B, P y → outcome (k y) Q bad) → outcome (rbind x k) Q bad.
Proof. destruct x; cbn; auto. Qed.

Lemma outcome_mono {B} (x : res B) (P P' : B → Prop) (bad bad' : Prop) :
  (∀ y : B, P y → P' y) → (bad → bad') → outcome x P bad → outcome x P' bad'.
Proof. destruct x; cbn; auto. Qed.

Lemma copy_carries fc b f src fs sc dc cc : fc ≤ MF →
  carries fc b f → carries fc src fs →
  outcome (copy_from b Whole src Whole sc 0 dc 0 cc fc)
    (λ b', carries fc b' (λ ch fr, if decide (dc ≤ ch < dc + cc) then fs (sc + (ch - dc)) fr else f ch fr))
    (¬ (sc + cc ≤ MC ∧ dc + cc ≤ MC)).
Proof.
  intros Hfc [(Hwf & Hc & Hf & Hr) Hs] [(Hwf' & Hc' & Hf' & Hr') Hs'].
  destruct (copy_exactly_region b Whole src Whole sc 0 dc 0 cc fc Hwf I Hwf' I) as [H Hp].
  destruct (decide (fits src Whole sc 0 cc fc ∧ fits b Whole dc 0 cc fc)) as [Hfit|Hno].
  2:{ destruct (Hp Hno) as [p ->]. cbn. intros [H1 H2]. apply Hno. unfold fits. cbn. lia. }
  destruct (H Hfit) as (b' & E & Hw & Hd & Hsm). destruct Hfit as [H1 H2].
  unfold fits in H1, H2. cbn in H1, H2.
  rewrite E. cbn [outcome]. destruct Hd as (Hd1 & Hd2 & Hd3).
  split; [repeat split; congruence|]. intros ch fr Hch Hfr. rewrite Hsm. cbn [off_ch off_fr].
  rewrite !Nat.add_0_r. destruct (decide (dc ≤ ch < dc + cc)) as [Hin|Hin].
  - rewrite decide_True by (unfold in_rect; lia).
    replace (0 + (fr - 0)) with fr by lia. apply Hs'; lia.
  - rewrite decide_False by (unfold in_rect; lia). by apply Hs.
Qed.

Lemma add_carries fc b f src fs sc dc cc : fc ≤ MF →
  carries fc b f → carries fc src fs →
  outcome (add_from add b Whole src Whole sc 0 dc 0 cc fc)
    (λ b', carries fc b' (λ ch fr, if decide (dc ≤ ch < dc + cc)
                            then add (f ch fr) (fs (sc + (ch - dc)) fr) else f ch fr))
    (¬ (sc + cc ≤ MC ∧ dc + cc ≤ MC)).
Proof.
  intros Hfc Hb Hsrc. pose proof Hb as [(Hwf & Hc & Hf & Hr) Hs].
  pose proof Hsrc as [(Hwf' & Hc' & Hf' & Hr') Hs'].
  destruct (mix_exactly_region (λ x y : A, add y x)
           (λ dst, add_from add dst Whole src Whole sc 0 dc 0 cc fc)
           b Whole src Whole sc 0 dc 0 cc fc (λ _, eq_refl) Hwf I Hwf' I) as [Hz [H Hp]].
  destruct (decide (cc = 0 ∨ fc = 0)) as [Hz'|Hz'].
  - rewrite Hz by done. cbn [outcome]. eapply carries_ext; [|exact Hb].
    intros ch fr Hch Hfr. rewrite decide_False by lia. done.
  - destruct (decide (fits src Whole sc 0 cc fc ∧ fits b Whole dc 0 cc fc)) as [Hfit|Hno].
    2:{ destruct Hp as [p ->]. { split; [lia|]. split; [lia|done]. }
        cbn. intros [H1 H2]. apply Hno. unfold fits. cbn. lia. }
    destruct H as (b' & E & Hw & Hd & Hsm). { split; [lia|]. split; [lia|done]. }
    destruct Hfit as [H1 H2]. unfold fits in H1, H2. cbn in H1, H2.
    rewrite E. cbn [outcome]. destruct Hd as (Hd1 & Hd2 & Hd3).
    split; [repeat split; congruence|]. intros ch fr Hch Hfr. rewrite Hsm. cbn [off_ch off_fr].
    rewrite !Nat.add_0_r. destruct (decide (dc ≤ ch < dc + cc)) as [Hin|Hin].
    + rewrite decide_True by (unfold in_rect; lia).
      replace (0 + (fr - 0)) with fr by lia. rewrite Hs', Hs by lia. done.
    + rewrite decide_False by (unfold in_rect; lia). by apply Hs.
Qed.

(** ** Mixing the connections of a node *)
Definition conn_fits (c : conn connection) : Prop :=
  src_ch (c_data c) + ch_count (c_data c) ≤ MC ∧ dst_ch (c_data c) + ch_count (c_data c) ≤ MC.

(** the samples after the first connections *)
Definition mix_all (outs : id → owned A) (ow : bool) (cs : list (conn connection))
    (f : nat → nat → A) (ch fr : nat) : A :=
  match cs with
  | [] => f ch fr
  | c :: cs' =>
      mixed outs cs' (if ow then overwrite (f ch fr) (delivers outs c ch fr)
                      else mix_in add (f ch fr) (delivers outs c ch fr)) ch fr
  end.

Lemma mix_loop fc g s p (outs : id → owned A) cs dest f ow : fc ≤ MF → observes g s →
  (∀ c, c ∈ cs → c ∈ s_conns s ∧
     ∃ b, assigned p !! (EOutput, c_from c) = Some b ∧ carries fc b (heard_at (outs (c_from c)))) →
  carries fc dest f →
  outcome (rfold (λ '(dest, ow) e,
      let? ed := runwrap (get_edge g e) UnwrapNone in
      let? dest' := mix_endpoint add p (EOutput, from_node_id ed) dest Whole
                      (src_ch (edge_data ed)) (dst_ch (edge_data ed))
                      (ch_count (edge_data ed)) fc ow in
      Ok (dest', false)) (c_id <$> cs) (dest, ow))
    (λ '(dest', _), carries fc dest' (mix_all outs ow cs f))
    (∃ c, c ∈ cs ∧ ¬ conn_fits c).
Proof.
  intros Hfc Hobs. revert dest f ow. induction cs as [|c cs IH]; intros dest f ow Hcs Hd.
  - done.
  - destruct (Hcs c) as (Hc & b & Hb & Hbc); [set_solver|].
    destruct (proj2 (obs_edge _ _ Hobs (c_id c) (c_from c) (c_to c) (c_data c))) as (ed & Eed & H1 & H2 & H3).
    { by destruct c. }
    cbn [fmap list_fmap rfold]. rewrite Eed. cbn [runwrap rbind]. rewrite H1, H3.
    assert (Hm : outcome (mix_endpoint add p (EOutput, c_from c) dest Whole (src_ch (c_data c))
         (dst_ch (c_data c)) (ch_count (c_data c)) fc ow)
         (λ d1, carries fc d1 (λ ch fr, if ow then overwrite (f ch fr) (delivers outs c ch fr)
                      else mix_in add (f ch fr) (delivers outs c ch fr))) (¬ conn_fits c)).
    { unfold mix_endpoint. rewrite Hb. destruct ow.
      - eapply outcome_mono; [| |exact (copy_carries fc dest f b (heard_at (outs (c_from c)))
          (src_ch (c_data c)) (dst_ch (c_data c)) (ch_count (c_data c)) Hfc Hd Hbc)]; [|done].
        intros d1 Hd1. eapply carries_ext; [|exact Hd1]. intros ch fr _ _. cbn.
        unfold overwrite, mix_in, DspGraphSpec.delivers. by destruct (decide _).
      - eapply outcome_mono; [| |exact (add_carries fc dest f b (heard_at (outs (c_from c)))
          (src_ch (c_data c)) (dst_ch (c_data c)) (ch_count (c_data c)) Hfc Hd Hbc)]; [|done].
        intros d1 Hd1. eapply carries_ext; [|exact Hd1]. intros ch fr _ _. cbn.
        unfold overwrite, mix_in, DspGraphSpec.delivers. by destruct (decide _). }
    destruct (mix_endpoint add p (EOutput, c_from c) dest Whole (src_ch (c_data c))
         (dst_ch (c_data c)) (ch_count (c_data c)) fc ow) as [d1|e]; cbn [rbind outcome] in *.
    2:{ exists c. split; [set_solver|done]. }
    specialize (IH d1 _ false (λ c0 H, Hcs c0 (elem_of_list_further _ _ _ H)) Hm).
    eapply outcome_mono; [| |exact IH].
    + intros [d2 ow2] Hd2. eapply carries_ext; [|exact Hd2].
      intros ch fr _ _. destruct cs as [|c2 cs]; done.
    + intros (c' & ? & ?). exists c'. set_solver.
Qed.

Lemma copy_deps_ok fc g s p (outs : id → owned A) n dest f : fc ≤ MF → observes g s →
  (∀ c, c ∈ conns_of s n Incoming →
     ∃ b, assigned p !! (EOutput, c_from c) = Some b ∧ carries fc b (heard_at (outs (c_from c)))) →
  carries fc dest f →
  outcome (copy_output_from_dependencies add p g n dest fc)
    (λ dest', carries fc dest' (mix_all outs true (conns_of s n Incoming) f))
    (∃ c, c ∈ s_conns s ∧ ¬ conn_fits c).
Proof.
  intros Hfc Hobs Hcs Hd. unfold copy_output_from_dependencies.
  rewrite (obs_edge_iter _ _ Hobs). cbn [rbind].
  eapply outcome_bind.
  - eapply outcome_mono; [| |apply (mix_loop fc g s p outs (conns_of s n Incoming) dest f true Hfc Hobs)].
    + intros x H. exact H.
    + intros (c & Hc & Hn). exists c. split; [|done]. by apply in_conns_of in Hc as [? _].
    + intros c Hc. split; [by apply in_conns_of in Hc as [? _]|]. by apply Hcs.
    + done.
  - intros [d' ow] H. done.
Qed.

(** ** Running a node *)
Lemma slice_cf b c f :
  slice_channels_and_frames b Whole f c =
  if decide (c ≤ channels b ∧ f ≤ frames b) then Ok (Sub Whole (Range 0 0 c f)) else Panic AssertFailed.
Proof.
  unfold slice_channels_and_frames, slice, rassert, range_is_valid.
  cbn [r_channel r_channels r_frame r_frames v_channels v_frames Nat.add].
  destruct (Nat.leb_spec c (channels b)); destruct (Nat.leb_spec f (frames b)); cbn;
    destruct (decide _); try done; lia.
Qed.

Lemma block_of fc b f c : fc ≤ MF → c ≤ MC → carries fc b f →
  ∃ i, from_buffer zero b (Sub Whole (Range 0 0 c fc)) = Ok i ∧ is_block i c fc ∧ rate i = r ∧
    ∀ ch fr, ch < c → fr < fc → sample i ch fr = Some (f ch fr).
Proof.
  intros H1 H2 [(Hwf & Hc & Hf & Hr) Hs].
  destruct (from_buffer_ok zero b (Sub Whole (Range 0 0 c fc)) Hwf) as (i & E & Hw & H3 & H4 & H5 & H6).
  { cbn. lia. }
  exists i. split; [done|]. split; [done|]. split; [congruence|]. cbn in H6.
  intros ch fr Hch Hfr. rewrite H6, !Nat.add_0_r by done. apply Hs; lia.
Qed.

Lemma block_ext b1 b2 c fc : is_block b1 c fc → is_block b2 c fc → rate b1 = rate b2 →
  (∀ ch fr, ch < c → fr < fc → sample b1 ch fr = sample b2 ch fr) → b1 = b2.
Proof.
  intros (Hw1 & Hc1 & Hf1) (Hw2 & Hc2 & Hf2) Hr Hs. apply buffer_ext; [done|done| |].
  - repeat split; congruence.
  - intros ch fr. destruct (decide (ch < c ∧ fr < fc)) as [[? ?]|Hn]; [by apply Hs|].
    rewrite !sample_None by lia. done.
Qed.

Lemma heard_at_block o c fc ch fr : is_block o c fc → ch < c → fr < fc →
  sample o ch fr = Some (heard_at o ch fr).
Proof.
  intros (Hw & Hc & Hf) H1 H2. unfold DspGraphSpec.heard_at.
  destruct (proj2 (sample_is_Some o ch fr Hw)) as [x ->]; [lia|done].
Qed.

Lemma heard_at_outside o c fc ch fr : is_block o c fc → ¬ (ch < c ∧ fr < fc) →
  heard_at o ch fr = zero.
Proof.
  intros (Hw & Hc & Hf) H1. unfold DspGraphSpec.heard_at. by rewrite sample_None by lia.
Qed.

Context (node_ok : nat → nat → St → Prop).
Context (Hshape : proc_shape proc) (Hprogress : proc_ok proc MF r node_ok) (Hnbuf : 0 < nbuf).

(** the equation of one node *)
Definition node_eq s (sys : id → nat → nat → A) fc t (n : id) (d d' : dsp St) (outs : id → owned A) : Prop :=
  ∃ i st', is_block i (d_in d) fc ∧ rate i = r ∧
      (∀ ch fr, ch < d_in d → fr < fc →
         sample i ch fr = Some (heard outs (sys n) (conns_of s n Incoming) ch fr)) ∧
      proc t (d_state d) i (new_buffer zero fc (d_out d) r) = Ok (st', outs n) ∧
      is_block (outs n) (d_out d) fc ∧
      d' = Dsp (d_in d) (d_out d) st'.

Lemma run_dsp_ok fc t d inb f : fc ≤ MF →
  carries fc inb f →
  outcome (run_dsp zero proc t d inb zbuf fc)
    (λ '(st', outb'), ∃ i o', is_block i (d_in d) fc ∧ rate i = r ∧
      (∀ ch fr, ch < d_in d → fr < fc → sample i ch fr = Some (f ch fr)) ∧
      proc t (d_state d) i (new_buffer zero fc (d_out d) r) = Ok (st', o') ∧
      is_block o' (d_out d) fc ∧ carries fc outb' (heard_at o'))
    (¬ (d_in d ≤ MC ∧ d_out d ≤ MC ∧ node_ok (d_in d) (d_out d) (d_state d))).
Proof.
  intros Hfc Hin. unfold run_dsp.
  pose proof Hin as [(Hw & Hc & Hf & Hr) _].
  rewrite slice_cf. cbn [channels frames new_buffer].
  destruct (decide (d_out d ≤ MC ∧ fc ≤ MF)) as [[Ho _]|Hn]; cbn [rbind]; [|cbn; lia].
  rewrite slice_cf. rewrite Hc, Hf.
  destruct (decide (d_in d ≤ MC ∧ fc ≤ MF)) as [[Hi _]|Hn]; cbn [rbind]; [|cbn; lia].
  destruct (block_of fc inb f (d_in d) Hfc Hi Hin) as (i & E & Hb2 & Hr2 & Hs2).
  rewrite E. cbn [rbind].
  destruct (block_of fc zbuf (λ _ _, zero) (d_out d) Hfc Ho (zbuf_carries fc Hfc))
    as (o2 & E2 & Hb3 & Hr3 & Hs3).
  rewrite E2. cbn [rbind].
  assert (o2 = new_buffer zero fc (d_out d) r) as ->.
  { apply (block_ext _ _ (d_out d) fc); [done|split; [apply new_buffer_wf|done]|done|].
    intros ch fr H1 H2. rewrite Hs3, new_buffer_sample by done. by rewrite decide_True by lia. }
  destruct (proc t (d_state d) i (new_buffer zero fc (d_out d) r)) as [[st' o']|e] eqn:Hp; cbn [rbind].
  2:{ cbn. intros (_ & _ & Hok).
      destruct (Hprogress t (d_in d) (d_out d) (d_state d) i (new_buffer zero fc (d_out d) r) fc Hfc Hok Hb2 Hb3 Hr2 eq_refl)
        as (st' & o' & E3 & _). rewrite Hp in E3. done. }
  pose proof (Hshape _ _ _ _ _ _ _ _ _ Hp Hb2 Hb3) as Hob. destruct Hob as (Hwo & Hco & Hfo).
  destruct (copy_exactly_region zbuf (Sub Whole (Range 0 0 (d_out d) fc)) o' Whole 0 0 0 0 (d_out d) fc)
    as [H _]; [apply new_buffer_wf|cbn; lia|done|done|].
  destruct H as (outb' & E3 & Hw3 & Hd3 & Hs4).
  { unfold fits. cbn. lia. }
  rewrite E3. cbn [rbind outcome]. exists i, o'. do 5 (split; [done|]).
  destruct Hd3 as (Hd1 & Hd2 & Hd3). split; [done|].
  intros ch fr Hch Hfr. rewrite Hs4. cbn [off_ch off_fr r_channel r_frame Nat.add].
  destruct (decide (ch < d_out d)) as [Hlt|Hlt].
  - rewrite decide_True by (unfold in_rect; lia). rewrite !Nat.sub_0_r.
    apply (heard_at_block o' (d_out d) fc); done.
  - rewrite decide_False by (unfold in_rect; lia). rewrite new_buffer_sample, decide_True by lia.
    f_equal. symmetry. apply (heard_at_outside o' (d_out d) fc); [done|lia].
Qed.

(** ** Preparing the input of a node *)

(** the pool while a block is rendered: [done] nodes have their output
    assigned, [sys n] is the system input given to [n] *)
Record pool_inv fc (in_ep : option endpoint) (sys : id → nat → nat → A)
    (outs : id → owned A) (done : list id) (p : pools A) : Prop := {
  pi_free : free p = replicate (length (free p)) zbuf;
  pi_count : length (free p) + size (assigned p) = nbuf;
  pi_size : size (assigned p) ≤ length done + 1;
  pi_done m : m ∈ done →
    ∃ b, assigned p !! (EOutput, m) = Some b ∧ carries fc b (heard_at (outs m));
  pi_not_done m : m ∉ done → assigned p !! (EOutput, m) = None;
  pi_sys m : m ∉ done → in_ep = Some (EInput, m) →
    ∃ b, assigned p !! (EInput, m) = Some b ∧ carries fc b (sys m);
  pi_no_sys m : in_ep ≠ Some (EInput, m) → assigned p !! (EInput, m) = None;
  pi_sys_dims m b : assigned p !! (EInput, m) = Some b → pool_dims b;
}.

Lemma mix_all_heard outs sys cs ch fr :
  (∀ c, cs = [c] → ¬ (src_ch (c_data c) = 0 ∧ dst_ch (c_data c) = 0)) →
  mix_all outs true cs sys ch fr = heard outs sys cs ch fr.
Proof.
  intros H. destruct cs as [|c cs]; [done|]. cbn. rewrite decide_False; [done|].
  intros (-> & H1 & H2). by apply (H c).
Qed.

(** the reasons for which preparing or running a node may panic *)
Definition bad s (k : nat) (d : dsp St) : Prop :=
  nbuf < k + 2 ∨ (∃ c, c ∈ s_conns s ∧ ¬ conn_fits c) ∨
  ¬ (d_in d ≤ MC ∧ d_out d ≤ MC ∧ node_ok (d_in d) (d_out d) (d_state d)).

Lemma prepare_input_ok fc in_ep sys outs done p g s n d : fc ≤ MF → observes g s →
  pool_inv fc in_ep sys outs done p → n ∉ done →
  (∀ m, in_ep ≠ Some (EInput, m) → ∀ ch fr, sys m ch fr = zero) →
  (∀ c, c ∈ conns_of s n Incoming → c_from c ∈ done) →
  outcome (let? (outb, p1) := get_buffer p (EOutput, n) in
           let? (inb, iep, p2) := prepare_input add p1 g n fc in
           Ok (outb, inb, iep, p2))
    (λ '(outb, inb, iep, p2),
      outb = zbuf ∧
      carries fc inb (heard outs (sys n) (conns_of s n Incoming)) ∧
      ∃ k, free p2 = replicate k zbuf ∧
      ((* the source's buffer is borrowed *)
       (∃ m, m ∈ done ∧ iep = (EOutput, m) ∧ assigned p !! (EOutput, m) = Some inb ∧
          S k = length (free p) ∧ assigned p2 = delete (EOutput, m) (assigned p)) ∨
       (* the buffer with the system input, or a free one *)
       (iep = (EInput, n) ∧ is_Some (assigned p !! (EInput, n)) ∧
          S k = length (free p) ∧ assigned p2 = delete (EInput, n) (assigned p)) ∨
       (iep = (EInput, n) ∧ assigned p !! (EInput, n) = None ∧
          S (S k) = length (free p) ∧ assigned p2 = assigned p)))
    (bad s (S (length done)) d).
Proof.
  intros Hfc Hobs HI Hn Hsys Hcs. destruct HI as [I1 I2 I3 I4 I5 I6 I7 I8].
  destruct p as [fl a]. cbn [free assigned] in *.
  unfold get_buffer at 1. rewrite I5 by done. unfold free_remove. cbn [free assigned].
  destruct fl as [|z1 fl]; [cbn; left; cbn in I2; lia|].
  cbn in I1. injection I1 as -> I1. cbn [rbind length] in *.
  (* the buffer of the Input endpoint *)
  assert (HI : outcome (get_buffer (Pools fl a) (EInput, n))
     (λ '(b0, p2), carries fc b0 (sys n) ∧
     (∀ m, assigned p2 !! (EOutput, m) = a !! (EOutput, m)) ∧
     ∃ k, free p2 = replicate k zbuf ∧
     ((is_Some (a !! (EInput, n)) ∧ S k = S (length fl) ∧ assigned p2 = delete (EInput, n) a) ∨
      (a !! (EInput, n) = None ∧ S (S k) = S (length fl) ∧ assigned p2 = a))) (bad s (S (length done)) d)).
  { unfold get_buffer. cbn [assigned free].
    destruct (decide (in_ep = Some (EInput, n))) as [Hin|Hin].
    - destruct (I6 n Hn Hin) as (b & Hb & Hcb). rewrite Hb. cbn [outcome assigned free].
      split; [done|]. split.
      + intros m. by rewrite lookup_delete_ne by done.
      + exists (length fl). eauto.
    - rewrite (I7 n Hin). unfold free_remove. cbn [free assigned].
      destruct fl as [|z2 fl]; [cbn; left; cbn in I2; lia|].
      cbn in I1. injection I1 as -> I1. cbn [outcome free assigned]. split.
      + eapply carries_ext; [|apply zbuf_carries; done]. intros. symmetry. by apply Hsys.
      + split; [done|]. exists (length fl). eauto. }
  (* the general path *)
  assert (HN : (∀ c, conns_of s n Incoming = [c] → ¬ (src_ch (c_data c) = 0 ∧ dst_ch (c_data c) = 0)) →
     outcome (prepare_n_input_node add (Pools fl a) g n fc)
       (λ '(inb, iep, p2), iep = (EInput, n) ∧
       carries fc inb (heard outs (sys n) (conns_of s n Incoming)) ∧
     ∃ k, free p2 = replicate k zbuf ∧
     ((is_Some (a !! (EInput, n)) ∧ S k = S (length fl) ∧ assigned p2 = delete (EInput, n) a) ∨
      (a !! (EInput, n) = None ∧ S (S k) = S (length fl) ∧ assigned p2 = a))) (bad s (S (length done)) d)).
  { intros Hns. unfold prepare_n_input_node. eapply outcome_bind; [exact HI|].
    intros [b0 p2] (Hb0 & Hp2 & Hk). eapply outcome_bind.
    - eapply outcome_mono; [| |apply (copy_deps_ok fc g s p2 outs n b0 (sys n) Hfc Hobs)].
      + intros x H. exact H.
      + intros H. by right; left.
      + intros c Hc. rewrite Hp2. by apply I4, Hcs.
      + done.
    - intros d' Hd'. cbn [outcome]. split; [done|]. split; [|done].
      eapply carries_ext; [|exact Hd']. intros ch fr _ _. by apply mix_all_heard. }
  unfold prepare_input. rewrite (obs_count _ _ Hobs). cbn [rbind].
  assert (Hwrap : (∀ c, conns_of s n Incoming = [c] → ¬ (src_ch (c_data c) = 0 ∧ dst_ch (c_data c) = 0)) →
     outcome (let? (inb, iep, p2) := prepare_n_input_node add (Pools fl a) g n fc in
           Ok (zbuf, inb, iep, p2))
    (λ '(outb, inb, iep, p2),
      outb = zbuf ∧
      carries fc inb (heard outs (sys n) (conns_of s n Incoming)) ∧
      ∃ k, free p2 = replicate k zbuf ∧
      ((∃ m, m ∈ done ∧ iep = (EOutput, m) ∧ a !! (EOutput, m) = Some inb ∧
          S k = S (length fl) ∧ assigned p2 = delete (EOutput, m) a) ∨
       (iep = (EInput, n) ∧ is_Some (a !! (EInput, n)) ∧
          S k = S (length fl) ∧ assigned p2 = delete (EInput, n) a) ∨
       (iep = (EInput, n) ∧ a !! (EInput, n) = None ∧
          S (S k) = S (length fl) ∧ assigned p2 = a)))
    (bad s (S (length done)) d)).
  { intros Hns. eapply outcome_bind; [by apply HN|]. intros [[inb iep] p2] (-> & Hc & k & Hk & Hd).
    cbn [outcome]. split; [done|]. split; [done|]. exists k. split; [done|]. right. tauto. }
  destruct (conns_of s n Incoming) as [|c [|c2 cs]] eqn:Ecs; cbn [length].
  - unfold prepare_zero_input_node.
    destruct (get_buffer (Pools fl a) (EInput, n)) as [[b0 p2]|e]; cbn [rbind outcome] in *; [|done].
    destruct HI as (Hb0 & _ & k & Hk & Hd). split; [done|]. split; [done|]. exists k.
    split; [done|]. right. tauto.
  - unfold prepare_single_input_node.
    assert (En : edge_next g n None Incoming = Some (c_id c)).
    { pose proof (obs_edge_iter _ _ Hobs n Incoming) as E. rewrite Ecs in E.
      unfold edge_iterator, walk_fuel in E. cbn [edge_walk] in E.
      destruct (edge_next g n None Incoming) as [e|]; cbn in E; [|done].
      destruct (edge_next g n (Some e) Incoming) as [e2|]; cbn in E.
      - destruct (edge_walk _ _ _ _ _); cbn in E; [|done]. by injection E as -> _.
      - by injection E as ->. }
    rewrite En. cbn [runwrap rbind].
    assert (Hc : c ∈ conns_of s n Incoming) by (rewrite Ecs; set_solver).
    destruct (proj2 (obs_edge _ _ Hobs (c_id c) (c_from c) (c_to c) (c_data c)))
      as (ed & Eed & H1 & H2 & H3).
    { destruct c. by apply in_conns_of in Hc as [? _]. }
    rewrite Eed. cbn [runwrap rbind]. rewrite H1, H3.
    destruct (Nat.eqb_spec (dst_ch (c_data c)) 0) as [Hdc|Hdc];
    [destruct (Nat.eqb_spec (src_ch (c_data c)) 0) as [Hsc|Hsc]|]; cbn [andb].
    + pose proof (Hcs c ltac:(set_solver)) as Hd. destruct (I4 _ Hd) as (b & Hb & Hcb).
      unfold get_buffer. cbn [assigned free]. rewrite Hb. cbn [rbind outcome].
      split; [done|]. split.
      * eapply carries_ext; [|exact Hcb]. intros ch fr _ _. cbn. by rewrite decide_True.
      * cbn [free assigned]. exists (length fl). split; [done|]. left. exists (c_from c). done.
    + apply Hwrap. intros c' [= <-]. tauto.
    + apply Hwrap. intros c' [= <-]. tauto.
  - apply Hwrap. intros c' [=].
Qed.

(** ** One node of the block *)
Lemma heard_ext outs outs' sys cs ch fr : (∀ c, c ∈ cs → outs (c_from c) = outs' (c_from c)) →
  heard outs sys cs ch fr = heard outs' sys cs ch fr.
Proof.
  intros H. destruct cs as [|c cs]; [done|]. cbn.
  assert (Hd : ∀ c', c' ∈ c :: cs → delivers outs c' ch fr = delivers outs' c' ch fr).
  { intros c' Hc'. unfold DspGraphSpec.delivers. by rewrite H. }
  rewrite (H c), (Hd c) by set_solver. destruct (decide _) as [|Hx]; [done|].
  unfold DspGraphSpec.mixed. clear H Hx.
  assert (Hd' : ∀ c', c' ∈ cs → delivers outs c' ch fr = delivers outs' c' ch fr) by set_solver.
  clear Hd. revert Hd'. generalize (overwrite (sys ch fr) (delivers outs' c ch fr)) as acc.
  induction cs as [|c2 cs IH]; intros acc Hd'; [done|]. cbn. rewrite (Hd' c2) by set_solver.
  apply IH. intros c' Hc'. apply Hd'. set_solver.
Qed.

Lemma process_dsp_ok fc t in_ep sys outs done p g s n d : fc ≤ MF → observes g s →
  pool_inv fc in_ep sys outs done p → n ∉ done →
  (∀ m, in_ep ≠ Some (EInput, m) → ∀ ch fr, sys m ch fr = zero) →
  (∀ c, c ∈ conns_of s n Incoming → c_from c ∈ done) →
  s_nodes s !! n = Some d →
  outcome (process_dsp zero add proc t fc (p, g) n)
    (λ '(p', g'), ∃ (o' : owned A) (d' : dsp St), g' = set_node_data g n d' ∧
      node_eq s sys fc t n d d' (<[n := o']> outs) ∧
      pool_inv fc in_ep sys (<[n := o']> outs) (done ++ [n]) p')
    (bad s (S (length done)) d).
Proof.
  intros Hfc Hobs HI Hn Hsys Hcs Hd.
  pose proof (prepare_input_ok fc in_ep sys outs done p g s n d Hfc Hobs HI Hn Hsys Hcs) as Hprep.
  unfold process_dsp.
  destruct (get_buffer p (EOutput, n)) as [[outb p1]|e]; cbn [rbind] in *; [|exact Hprep].
  destruct (prepare_input add p1 g n fc) as [[[inb iep] p2]|e]; cbn [rbind] in *; [|exact Hprep].
  cbn [outcome] in Hprep. destruct Hprep as (-> & Hinb & k & Hk & Hcase).
  rewrite (obs_node _ _ Hobs), Hd.
  pose proof (run_dsp_ok fc t d inb _ Hfc Hinb) as Hrun.
  destruct (run_dsp zero proc t d inb zbuf fc) as [[st' outb']|e]; cbn [rbind outcome] in *.
  2:{ by right; right. }
  destruct Hrun as (i & o' & Hib & Hir & His & Hp & Hob & Hcarr).
  assert (Hne : ∀ c, c ∈ conns_of s n Incoming → outs (c_from c) = (<[n:=o']> outs) (c_from c)).
  { intros c Hc. rewrite fn_lookup_insert_ne; [done|]. intros ->. by apply Hn, Hcs. }
  assert (Heq : node_eq s sys fc t n d (Dsp (d_in d) (d_out d) st') (<[n:=o']> outs)).
  { exists i, st'. split; [done|]. split; [done|]. split.
    - intros ch fr H1 H2. rewrite His by done. f_equal. by apply heard_ext.
    - by rewrite fn_lookup_insert. }
  destruct HI as [I1 I2 I3 I4 I5 I6 I7 I8].
  assert (Hdims : pool_dims inb) by apply Hinb.
  (* the final pool *)
  assert (Hfin : ∃ a' k', (match iep.1 with
       | EInput => free_add zero (assigned_add p2 (EOutput, n) outb') inb
       | EOutput => Ok (assigned_add (assigned_add p2 (EOutput, n) outb') iep inb)
       end) = Ok (Pools (replicate k' zbuf) (<[(EOutput, n) := outb']> a')) ∧
       k' + S (size a') = nbuf ∧ size a' ≤ length done + 1 ∧
       (∀ m, a' !! (EOutput, m) = assigned p !! (EOutput, m)) ∧
       (∀ m, m ≠ n → a' !! (EInput, m) = assigned p !! (EInput, m)) ∧
       (∀ m b, a' !! (EInput, m) = Some b → assigned p !! (EInput, m) = Some b)).
  { destruct Hcase as [(m & Hm & -> & Hb & Hlk & Ha)|[(-> & Hs & Hlk & Ha)|(-> & Hs & Hlk & Ha)]]; cbn [fst].
    - exists (assigned p), k. unfold assigned_add. cbn [free assigned]. split.
      + rewrite Hk, Ha. do 2 f_equal.
        rewrite insert_commute by (intros [= ->]; done). f_equal.
        by rewrite insert_delete_insert, insert_id.
      + split; [lia|]; split; [lia|done].
    - exists (delete (EInput, n) (assigned p)), (S k). rewrite free_add_zbuf by done.
      unfold assigned_add. cbn [free assigned]. rewrite Hk, Ha. split; [done|].
      destruct Hs as [b0 Hb0]. pose proof (map_size_delete (EInput, n) (assigned p)) as Hsz.
      rewrite Hb0 in Hsz.
      assert (size (assigned p) ≠ 0).
      { intros H. apply map_size_empty_inv in H. rewrite H in Hb0. done. }
      split; [lia|]. split; [lia|]. split; [intros m; by rewrite lookup_delete_ne|]. split.
      + intros m Hm. rewrite lookup_delete_ne; [done|congruence].
      + intros m b. rewrite lookup_delete_Some. tauto.
    - exists (assigned p), (S k). rewrite free_add_zbuf by done.
      unfold assigned_add. cbn [free assigned]. rewrite Hk, Ha. split; [done|].
      split; [lia|]; split; [lia|done]. }
  destruct Hfin as (a' & k' & Hfin & Hcnt & Hsz & HO & HIn & HId). rewrite Hfin. cbn [rbind].
  cbn [outcome]. exists o', (Dsp (d_in d) (d_out d) st'). split; [done|]. split; [done|].
  split; cbn [free assigned].
  - by rewrite replicate_length.
  - rewrite replicate_length, map_size_insert_None; [lia|]. rewrite HO. by apply I5.
  - rewrite map_size_insert_None, app_length; [cbn; lia|]. rewrite HO. by apply I5.
  - intros m Hm. destruct (decide (m = n)) as [->|Hmn].
    + exists outb'. by rewrite lookup_insert, fn_lookup_insert.
    + rewrite lookup_insert_ne, fn_lookup_insert_ne, HO by congruence. apply I4. set_solver.
  - intros m Hm. rewrite lookup_insert_ne, HO by set_solver. apply I5. set_solver.
  - intros m Hm Hin. rewrite lookup_insert_ne by done. rewrite HIn by set_solver. apply I6; [set_solver|done].
  - intros m Hm. rewrite lookup_insert_ne by done. destruct (a' !! (EInput, m)) eqn:E; [|done].
    apply HId in E. rewrite I7 in E by done. done.
  - intros m b. rewrite lookup_insert_ne by done. intros H. eapply I8, HId, H.
Qed.

(** ** The nodes in order *)
Lemma render_loop fc t in_ep sys s : fc ≤ MF →
  (∀ m, in_ep ≠ Some (EInput, m) → ∀ ch fr, sys m ch fr = zero) → ∀ rest done p g nodesk outs,
  is_processing_order s (done ++ rest) →
  Rep g (SGraph nodesk (s_conns s)) → dom nodesk = dom (s_nodes s) →
  (∀ n, n ∉ done → nodesk !! n = s_nodes s !! n) →
  (∀ n d, n ∈ done → s_nodes s !! n = Some d →
     ∃ d', nodesk !! n = Some d' ∧ node_eq s sys fc t n d d' outs) →
  pool_inv fc in_ep sys outs done p →
  outcome (rfold (process_dsp zero add proc t fc) rest (p, g))
    (λ '(p', g'), ∃ nodes' outs', Rep g' (SGraph nodes' (s_conns s)) ∧
       dom nodes' = dom (s_nodes s) ∧
       (∀ n d, n ∈ done ++ rest → s_nodes s !! n = Some d →
         ∃ d', nodes' !! n = Some d' ∧ node_eq s sys fc t n d d' outs') ∧
       pool_inv fc in_ep sys outs' (done ++ rest) p')
    (¬ renderable node_ok nbuf MC s).
Proof.
  intros Hfc Hsys. induction rest as [|n rest IH]; intros done p g nodesk outs Hord HR Hdom Hnd Hd Hpi.
  - rewrite app_nil_r in *. cbn. exists nodesk, outs. done.
  - pose proof (order_nodup _ _ Hord) as Hnodup.
    assert (Hn : n ∉ done).
    { apply NoDup_app in Hnodup as (_ & H & _). intros Hin. apply (H n Hin). set_solver. }
    destruct (proj1 (order_elem s _ n Hord)) as [d Hnode]; [set_solver|].
    set (sk := SGraph nodesk (s_conns s)) in *.
    assert (Hcs : ∀ c, c ∈ conns_of sk n Incoming → c_from c ∈ done).
    { intros c Hc. apply in_conns_of in Hc as [Hc Hto].
      apply (prefix_next_closed s done n rest c Hord Hc Hto). }
    assert (Hnk : s_nodes sk !! n = Some d). { cbn. by rewrite Hnd. }
    cbn [rfold]. eapply outcome_bind.
    + eapply outcome_mono; [intros x Hx; exact Hx| |
        exact (process_dsp_ok fc t in_ep sys outs done p g sk n d Hfc (rep_observes _ _ HR) Hpi Hn Hsys Hcs Hnk)].
      intros Hbad [R1 R2 R3 R4 R5].
      destruct Hbad as [Hb|[(c & Hc & Hb)|Hb]].
      * assert (length (done ++ n :: rest) = size (s_nodes s)) as Hl by by apply order_length.
        rewrite app_length in Hl. cbn in Hl. lia.
      * apply Hb. split; apply (R5 c Hc).
      * apply Hb. apply (R4 n d Hnode).
    + intros [p' g'] (o' & d' & -> & Heq & Hpi').
      replace (done ++ n :: rest) with ((done ++ [n]) ++ rest) in * by (by rewrite <-app_assoc).
      eapply (IH _ _ _ (<[n := d']> nodesk)); [done| | | | |exact Hpi'].
      * apply (set_node_data_rep g sk n d' HR). eauto.
      * rewrite dom_insert_L, Hdom. assert (n ∈ dom (s_nodes s)) by (apply elem_of_dom; eauto). set_solver.
      * intros m Hm. rewrite lookup_insert_ne by set_solver. apply Hnd. set_solver.
      * intros m dm Hm Hdm. destruct (decide (m = n)) as [->|Hmn].
        -- exists d'. rewrite lookup_insert. split; [done|]. simplify_eq.
           exact Heq.
        -- rewrite lookup_insert_ne by done.
           destruct (Hd m dm) as (d2 & E2 & i & st' & Q1 & Q2 & Q3 & Q4 & Q5 & Q6); [set_solver|done|].
           exists d2. split; [done|]. exists i, st'. split; [done|]. split; [done|]. split.
           ++ intros ch fr H1 H2. rewrite Q3 by done. f_equal. apply heard_ext.
              intros c Hc. apply in_conns_of in Hc as [Hc Hto]. cbn in Hto.
              rewrite fn_lookup_insert_ne; [done|]. intros Heqn.
              assert (c_from c ∈ done); [|congruence].
              apply (prefix_closed s done ([n] ++ rest)); [by rewrite app_assoc|done|].
              rewrite Hto. set_solver.
           ++ rewrite fn_lookup_insert_ne by done. done.
Qed.

(** ** Returning the buffers *)
Lemma drain_ok l : ∀ p, NoDup l → (∀ e, e ∈ l ↔ is_Some (assigned p !! e)) →
  free p = replicate (length (free p)) zbuf →
  (∀ e b, assigned p !! e = Some b → pool_dims b) →
  drain zero l p = Ok (Pools (replicate (length (free p) + size (assigned p)) zbuf) ∅).
Proof.
  induction l as [|e l IH]; intros p Hnd Hdom Hfree Hdims.
  - assert (assigned p = ∅) as Ha.
    { apply map_empty. intros e. apply eq_None_not_Some. intros H. apply Hdom in H. set_solver. }
    unfold drain. cbn [rfold]. destruct p as [fl a]. cbn in *. subst a. by rewrite map_size_empty, Nat.add_0_r, <-Hfree.
  - apply NoDup_cons in Hnd as [Hne Hnd].
    destruct (proj1 (Hdom e)) as [b Hb]; [set_solver|].
    change (drain zero (e :: l) p) with
      (let? p' := match assigned p !! e with
                  | Some b => free_add zero (Pools (free p) (delete e (assigned p))) b
                  | None => Ok p
                  end in drain zero l p').
    rewrite Hb. rewrite free_add_zbuf by (by eapply Hdims). cbn [rbind free assigned]. rewrite IH; cbn [free assigned].
    + do 3 f_equal. rewrite map_size_delete, Hb. cbn [length].
      assert (size (assigned p) ≠ 0).
      { intros H. apply map_size_empty_inv in H. rewrite H in Hb. done. }
      lia.
    + done.
    + intros e'. rewrite lookup_delete_is_Some, <-Hdom. set_solver.
    + cbn. by rewrite <-Hfree.
    + intros e' b' H. apply lookup_delete_Some in H as [_ H]. by eapply Hdims.
Qed.

(** ** A block *)
Record ready (dg : dspgraph A St) s : Prop := {
  rdy_rep : Rep (dg_graph dg) s;
  rdy_order : dg_sort dg = false → is_processing_order s (dg_order dg) ∧ acyclic s ∧ no_parallel s;
  rdy_channels : dg_channels dg = MC;
  rdy_frames : dg_frames dg = MF;
  rdy_pool : pool_clean zero dg nbuf r;
  rdy_in : in_ep_ok (dg_in dg);
  rdy_out : out_ep_ok (dg_out dg);
}.

Lemma sort_graph_ok shuffle dg s : any_order shuffle → ready dg s →
  outcome (sort_graph shuffle dg) (λ order, is_processing_order s order ∧ acyclic s ∧ no_parallel s)
    (¬ renderable node_ok nbuf MC s).
Proof.
  intros Hsh [H1 H2 _ _ _ _ _]. unfold sort_graph. destruct (dg_sort dg); [|by apply H2].
  destruct (sort_spec (dg_graph dg) s shuffle Hsh (rep_observes _ _ H1) (rep_closed _ _ H1))
    as [(order & -> & Ho & Ha & Hp)|[-> Hn]]; cbn.
  - done.
  - intros [R1 R2 _ _ _]. tauto.
Qed.

Lemma acyclic_conns {ND ED} (s s' : sgraph ND ED) : s_conns s = s_conns s' → acyclic s → acyclic s'.
Proof. intros E H. unfold acyclic, feeds in *. by rewrite <-E. Qed.

Lemma process_ok shuffle drain_order dg s inp iv out ov t :
  any_order shuffle → (∀ l, drain_order l ≡ₚ l) → ready dg s →
  wf inp → valid_view inp iv → wf out → valid_view out ov → v_frames out ov ≤ v_frames inp iv →
  outcome (process zero add proc shuffle drain_order dg inp iv out ov t)
    (λ '(dg', out'), ∃ nodes' outs,
      acyclic s ∧ no_parallel s ∧
      block_equations zero add proc s (system_input zero (dg_in dg) MC inp iv)
        (v_frames out ov `min` MF) r t nodes' outs ∧
      output_is zero out out' ov (v_channels out ov `min` MC) (v_frames out ov `min` MF)
        (outs <$> output_node s (dg_out dg)) ∧
      ready dg' (SGraph nodes' (s_conns s)) ∧ dg_in dg' = dg_in dg ∧ dg_out dg' = dg_out dg)
    (¬ renderable node_ok nbuf MC s).
Proof.
  intros Hsh Hdr Hready Hwi Hvi Hwo Hvo Hlen.
  pose proof (sort_graph_ok shuffle dg s Hsh Hready) as Hsort.
  destruct Hready as [HR _ HMC HMF [Hpa Hpf] Hin Hout]. unfold process.
  rewrite HMC, HMF in *. set (fc := v_frames out ov `min` MF). set (icc := v_channels inp iv `min` MC).
  set (occ := v_channels out ov `min` MC).
  assert (Hfc : fc ≤ MF) by lia.
  destruct (sort_graph shuffle dg) as [order|e]; cbn [rbind]; [|exact Hsort].
  cbn in Hsort. destruct Hsort as (Hord & Hac & Hnp).
  set (sys := system_input zero (dg_in dg) MC inp iv).
  assert (Hsys : ∀ m, dg_in dg ≠ Some (EInput, m) → ∀ ch fr, sys m ch fr = zero).
  { intros m Hm ch fr. unfold sys, system_input. rewrite decide_False; [done|tauto]. }
  (* the system input *)
  assert (Hp1 : outcome (match dg_in dg with
             | Some e =>
                 match free (dg_pools dg) with
                 | b :: l =>
                     let? b' := copy_from b Whole inp iv 0 0 0 0 icc fc in
                     Ok (assigned_add (Pools l (assigned (dg_pools dg))) e b')
                 | [] => Ok (dg_pools dg)
                 end
             | None => Ok (dg_pools dg)
             end) (λ p1, pool_inv fc (dg_in dg) sys (λ _, zbuf) [] p1) False).
  { destruct (dg_in dg) as [[ty m0]|] eqn:Ein.
    - assert (ty = EInput) as -> by by eapply Hin.
      rewrite Hpf. destruct nbuf as [|nb] eqn:Enb; cbn [replicate]; [lia|].
      destruct (copy_exactly_region zbuf Whole inp iv 0 0 0 0 icc fc) as [Hcp _];
        [apply new_buffer_wf|done|done|done|].
      destruct Hcp as (b' & E & Hw & Hd & Hs).
      { pose proof (valid_off inp iv Hvi). unfold fits. cbn. unfold icc, fc. split; right; lia. }
      rewrite E. cbn [rbind outcome]. destruct Hd as (D1 & D2 & D3). cbn in D1, D2, D3.
      assert (Hb' : carries fc b' (sys m0)).
      { split; [done|]. intros ch fr Hch Hfr. rewrite Hs. cbn [off_ch off_fr Nat.add].
        rewrite !Nat.sub_0_r. unfold sys, system_input.
        destruct (decide (ch < icc)) as [Hlt|Hge].
        - rewrite decide_True by (unfold in_rect; lia). rewrite decide_True by done.
          unfold DspGraphSpec.heard_at.
          replace (off_ch iv + ch) with (ch + off_ch iv) by lia.
          replace (off_fr iv + fr) with (fr + off_fr iv) by lia.
          destruct (proj2 (sample_is_Some inp (ch + off_ch iv) (fr + off_fr iv) Hwi)) as [x ->]; [|done].
          pose proof (valid_off inp iv Hvi). unfold icc, fc in *. lia.
        - rewrite decide_False by (unfold in_rect; lia). rewrite decide_False by (unfold icc in *; tauto).
          rewrite new_buffer_sample, decide_True by lia. done. }
      rewrite Hpa. unfold assigned_add. split; cbn [free assigned].
      + by rewrite replicate_length.
      + rewrite replicate_length, map_size_insert_None, map_size_empty by done. lia.
      + rewrite map_size_insert_None, map_size_empty by done. cbn. lia.
      + intros m Hm. set_solver.
      + intros m _. by rewrite lookup_insert_ne.
      + intros m _ [= ->]. exists b'. by rewrite lookup_insert.
      + intros m Hm. rewrite lookup_insert_ne; [done|congruence].
      + intros m b. destruct (decide (m = m0)) as [->|Hne].
        * rewrite lookup_insert. intros [= <-]. apply Hb'.
        * rewrite lookup_insert_ne by congruence. done.
    - cbn [outcome]. split.
      + by rewrite Hpf, replicate_length.
      + rewrite Hpf, Hpa, replicate_length, map_size_empty. lia.
      + rewrite Hpa, map_size_empty. cbn. lia.
      + set_solver.
      + intros. by rewrite Hpa.
      + done.
      + intros. by rewrite Hpa.
      + intros m b. by rewrite Hpa. }
  eapply outcome_bind; [eapply outcome_mono; [| |exact Hp1]; [|done]|].
  { intros p1 H. exact H. }
  intros p1 Hpi. eapply outcome_bind.
  { eapply (render_loop fc t (dg_in dg) sys s Hfc Hsys order []); [done| |done|done| |exact Hpi].
    - destruct s. exact HR.
    - set_solver. }
  intros [p2 g'] (nodes' & outs & HR' & Hdom' & Heqs & Hpi'). cbn [app] in *.
  destruct Hpi' as [I1 I2 I3 I4 I5 I6 I7 I8].
  assert (Hbe : block_equations zero add proc s sys fc r t nodes' outs).
  { split; [done|]. intros n d Hnd. destruct (Heqs n d) as (d' & E & i & st' & Q1 & Q2 & Q3 & Q4 & Q5 & Q6).
    - by apply (order_elem s order n Hord).
    - done.
    - exists i, st'. subst d'. done. }
  assert (Hdrain : drain zero (drain_order (elements (dom (assigned p2)))) p2
                   = Ok (Pools (replicate nbuf zbuf) ∅)).
  { rewrite <-I2. apply drain_ok.
    - rewrite Hdr. apply NoDup_elements.
    - intros e. by rewrite Hdr, elem_of_elements, elem_of_dom.
    - done.
    - intros [ty m] b Hb. destruct ty; [by eapply I8|].
      destruct (decide (m ∈ order)) as [Hm|Hm].
      + destruct (I4 m Hm) as (b2 & Hb2 & Hc2). rewrite Hb in Hb2. simplify_eq. apply Hc2.
      + rewrite I5 in Hb by done. done. }
  (* the output *)
  assert (Ho : ∃ out', (match dg_out dg with
               | Some e => mix_endpoint add p2 e out ov 0 0 occ fc true
               | None => Ok out
               end) = Ok out' ∧ output_is zero out out' ov occ fc (outs <$> output_node s (dg_out dg))).
  { assert (Hsame : output_is zero out out ov occ fc None).
    { split; [done|]. split; [apply same_dims_refl|done]. }
    destruct (dg_out dg) as [[ty m]|] eqn:Eo; [|by exists out].
    assert (ty = EOutput) as -> by by eapply Hout.
    unfold mix_endpoint, output_node. destruct (decide (is_Some (s_nodes s !! m))) as [Hm|Hm].
    - destruct (I4 m) as (b & Hb & [(Hbw & Hbc & Hbf & Hbr) Hbs]); [by apply (order_elem s order m Hord)|].
      rewrite Hb. destruct (copy_exactly_region out ov b Whole 0 0 0 0 occ fc Hwo Hvo Hbw I) as [Hcp _].
      pose proof (valid_off out ov Hvo) as Hvoff.
      destruct Hcp as (out' & E & Hw & Hd & Hs).
      { unfold fits. cbn. unfold occ, fc. split; right; lia. }
      exists out'. split; [done|]. cbn [fmap option_fmap option_map]. split; [done|]. split; [done|].
      intros ch fr. rewrite Hs. cbn [off_ch off_fr Nat.add]. destruct (decide _) as [Hir|Hir]; [|done].
      apply Hbs; unfold in_rect, occ, fc in *; lia.
    - rewrite I5; [by exists out|]. intros Hin'. by apply Hm, (order_elem s order m Hord). }
  destruct Ho as (out' & -> & Hois). cbn [rbind]. rewrite Hdrain. cbn [rbind outcome].
  exists nodes', outs. do 4 (split; [done|]). split; [|done].
  split; cbn; [done| |done|done|done|done|done].
  intros _. split; [|split; [by eapply acyclic_conns; [|exact Hac]|exact Hnp]].
  eapply processing_order_ext; [| |exact Hord]; done.
Qed.

(** ** Histories *)
Definition readya (dg : dspgraph A St) (a : astate) : Prop :=
  ready dg (a_graph a) ∧ dg_in dg = a_in a ∧ dg_out dg = a_out a.

Notation astep := (astep zero add proc MC MF r).
Notation arun := (arun zero add proc MC MF r).

Lemma graph_op_ok shuffle k dg a o :
  any_order shuffle → readya dg a →
  (∀ e, e ∈ op_edge_ids o → e ∉ c_id <$> s_conns (a_graph a)) →
  outcome (gstep shuffle k (dg_graph dg) o)
    (λ g, ∃ s', sstep (a_graph a) o (Ok s') ∧ readya (with_graph dg g) (AState s' (a_in a) (a_out a)))
    (∃ p, sstep (a_graph a) o (Panic p)).
Proof.
  intros Hsh [[H1 H2 H3 H4 H5 H6 H7] [H8 H9]] Hf.
  destruct (gstep_rep shuffle k (dg_graph dg) (a_graph a) o Hsh H1 Hf) as (x & Hs & Ha).
  destruct (gstep shuffle k (dg_graph dg) o) as [g|p], x as [s'|q]; cbn in Ha; try done.
  - cbn. exists s'. split; [done|]. split; [|done]. by split.
  - cbn. eauto.
Qed.

Lemma hstep_ok sh dr k dg a o :
  (∀ k, any_order (sh k)) → (∀ k l, dr k l ≡ₚ l) → readya dg a → hop_ok o →
  (∀ e, e ∈ hop_edge_ids o → e ∉ c_id <$> s_conns (a_graph a)) →
  outcome (hstep zero add proc sh dr k dg o)
    (λ '(dg', l), ∃ a', astep a o a' l ∧ readya dg' a')
    (match o with HBlock _ _ _ _ _ => ¬ renderable node_ok nbuf MC (a_graph a) | HCmd _ => True end).
Proof.
  intros Hsh Hdr Hra Hok Hf. destruct o as [c|inp iv out ov t]; cbn [hstep].
  - destruct c as [n d|n|eid x y c|x y|e|e|n f]; cbn [gcmd_step].
    + pose proof (graph_op_ok (sh k) k dg a (AddNode n d) (Hsh k) Hra Hf) as H.
      destruct (gstep _ _ _ _) as [g|p]; cbn in *; [|done].
      destruct H as (s' & Hs & Hr). eexists. split; [|exact Hr]. by constructor.
    + pose proof (graph_op_ok (sh k) k dg a (RemoveNode n) (Hsh k) Hra Hf) as H.
      destruct (gstep _ _ _ _) as [g|p]; cbn in *; [|done].
      destruct H as (s' & Hs & Hr). eexists. split; [|exact Hr]. by constructor.
    + pose proof (graph_op_ok (sh k) k dg a (AddEdge eid x y c) (Hsh k) Hra Hf) as H.
      destruct (gstep _ _ _ _) as [g|p]; cbn in *; [|done].
      destruct H as (s' & Hs & Hr). eexists. split; [|exact Hr]. by constructor.
    + pose proof (graph_op_ok (sh k) k dg a (RemoveEdge x y) (Hsh k) Hra Hf) as H.
      destruct (gstep _ _ _ _) as [g|p]; cbn [rbind outcome] in *; [|done].
      destruct H as (s' & Hs & Hr). eexists. split; [|exact Hr]. by constructor.
    + cbn. eexists. split; [constructor|]. destruct Hra as [[H1 H2 H3 H4 H5 H6 H7] [H8 H9]].
      split; [|done]. split; try done. destruct e as [ty n]. cbn in *. intros ? ? [= <- <-]. done.
    + cbn. eexists. split; [constructor|]. destruct Hra as [[H1 H2 H3 H4 H5 H6 H7] [H8 H9]].
      split; [|done]. split; try done. destruct e as [ty n]. cbn in *. intros ? ? [= <- <-]. done.
    + destruct Hra as [[H1 H2 H3 H4 H5 H6 H7] [H8 H9]].
      rewrite (obs_node _ _ (rep_observes _ _ H1)).
      destruct (s_nodes (a_graph a) !! n) as [d|] eqn:En.
      * destruct (f (d_state d)) as [st|p] eqn:Ef; cbn [rbind outcome]; [|done].
        eexists. split; [by eapply a_param|]. split; [|done]. split; try done.
        -- cbn [dg_graph a_graph]. apply set_node_data_rep; [done|eauto].
        -- cbn [dg_sort dg_order a_graph]. intros E. destruct (H2 E) as (Ho & Ha & Hp).
           split; [|split; [by eapply acyclic_conns; [|exact Ha]|exact Hp]].
           eapply processing_order_ext; [| |exact Ho]; [done|]. cbn.
           assert (n ∈ dom (s_nodes (a_graph a))) by (apply elem_of_dom; eauto).
           rewrite dom_insert_L. set_solver.
      * cbn. eexists. split; [by apply a_param_absent|]. by split.
  - destruct Hok as (O1 & O2 & O3 & O4 & O5).
    destruct Hra as [Hr [H8 H9]].
    pose proof (process_ok (sh k) (dr k) dg (a_graph a) inp iv out ov t (Hsh k) (Hdr k) Hr O1 O2 O3 O4 O5) as H.
    destruct (process _ _ _ _ _ _ _ _ _ _ _) as [[dg' out']|p]; cbn [rbind outcome] in *; [|done].
    destruct H as (nodes' & outs & Q1 & Q2 & Q3 & Q4 & Q5 & Q6 & Q7). rewrite H8, H9 in *.
    eexists. split; [by eapply a_block|]. done.
Qed.

Lemma astep_ids a o a' l : astep a o a' l →
  ∀ e, e ∈ c_id <$> s_conns (a_graph a') → e ∈ c_id <$> s_conns (a_graph a) ∨ e ∈ hop_edge_ids o.
Proof.
  intros Hst e. destruct Hst; cbn [a_graph s_conns]; try (by left).
  all: match goal with H : sstep _ _ _ |- _ => intros He; destruct (sstep_ids _ _ _ H e He); [by left|by right] end.
Qed.

Lemma hrun_ok sh dr : (∀ k, any_order (sh k)) → (∀ k l, dr k l ≡ₚ l) → ∀ os k dg a dg' l,
  readya dg a → Forall hop_ok os → NoDup (hist_edge_ids os) →
  (∀ e, e ∈ hist_edge_ids os → e ∉ c_id <$> s_conns (a_graph a)) →
  hrun zero add proc sh dr k dg os = Ok (dg', l) →
  ∃ a', arun a os a' l ∧ readya dg' a'.
Proof.
  intros Hsh Hdr. induction os as [|o os IH]; intros k dg a dg' l Hra Hok Hnd Hf E.
  - injection E as <- <-. exists a. split; [constructor|done].
  - apply Forall_cons in Hok as [Ho Hok].
    unfold hist_edge_ids in Hnd, Hf. cbn in Hnd, Hf. fold (hist_edge_ids os) in Hnd, Hf.
    apply NoDup_app in Hnd as (Hnd1 & Hnd2 & Hnd3). cbn [hrun] in E.
    pose proof (hstep_ok sh dr k dg a o Hsh Hdr Hra Ho) as Hst.
    destruct (hstep _ _ _ _ _ _ _ _) as [[dg1 l1]|p]; cbn [rbind] in E; [|done].
    destruct (hrun zero add proc sh dr (S k) dg1 os) as [[dg2 l2]|p] eqn:E2; cbn [rbind] in E; [|done].
    injection E as <- <-. destruct Hst as (a1 & Hst & Hra1). { intros e He. apply Hf. set_solver. }
    destruct (IH (S k) dg1 a1 dg2 l2) as (a2 & Hrun & Hra2); [done|done|done| |done|].
    + intros e He Hin. destruct (astep_ids _ _ _ _ Hst e Hin) as [H|H].
      * eapply Hf; [|exact H]. set_solver.
      * eapply Hnd2; done.
    + exists a2. split; [by econstructor|done].
Qed.

Notation new_engine := (new_dspgraph zero nbuf MF MC r).

Lemma new_ready : readya new_engine ainit.
Proof.
  split; [|done]. split; cbn; try done.
  - apply rep_empty.
  - intros _. split; [|split].
    + split; [|set_solver]. cbn. by rewrite map_to_list_empty.
    + intros n Hn. assert (∀ x y : id, tc (feeds (@sempty (dsp St) connection)) x y → False) as H; [|by eapply H].
      induction 1 as [x y (c & Hc & _)|x y z (c & Hc & _) _ _]; set_solver.
    + by constructor.
Qed.

(** every history that does not abort is a history of the abstract engine *)
Lemma history_ok sh dr os dg l :
  (∀ k, any_order (sh k)) → (∀ k l, dr k l ≡ₚ l) →
  Forall hop_ok os → NoDup (hist_edge_ids os) →
  hrun zero add proc sh dr 0 new_engine os = Ok (dg, l) →
  ∃ a, arun ainit os a l ∧ readya dg a.
Proof.
  intros Hsh Hdr Hok Hnd E. eapply (hrun_ok sh dr Hsh Hdr os 0 new_engine ainit); [apply new_ready|done|done| |done].
  intros e _. cbn. apply not_elem_of_nil.
Qed.

(** ** Uniqueness *)
Lemma block_equations_unique s order sys fc t n1 o1 n2 o2 :
  is_processing_order s order →
  block_equations zero add proc s sys fc r t n1 o1 →
  block_equations zero add proc s sys fc r t n2 o2 →
  n1 = n2 ∧ ∀ n, is_Some (s_nodes s !! n) → o1 n = o2 n.
Proof.
  intros Hord [D1 E1] [D2 E2].
  assert (H : ∀ l1 l2, order = l1 ++ l2 → ∀ n, n ∈ l1 → o1 n = o2 n ∧ n1 !! n = n2 !! n).
  { intros l1. induction l1 as [|m l1 IH] using rev_ind; intros l2 Ho n Hn; [set_solver|].
    rewrite <-app_assoc in Ho. cbn in Ho.
    apply elem_of_app in Hn as [Hn|Hn]; [by eapply IH|].
    apply elem_of_list_singleton in Hn as ->.
    destruct (proj1 (order_elem s order m Hord)) as [d Hd]; [rewrite Ho; set_solver|].
    destruct (E1 m d Hd) as (i1 & st1 & P1 & P2 & P3 & P4 & P5 & P6).
    destruct (E2 m d Hd) as (i2 & st2 & Q1 & Q2 & Q3 & Q4 & Q5 & Q6).
    assert (i1 = i2) as ->.
    { apply (block_ext i1 i2 (d_in d) fc); [done|done|congruence|].
      intros ch fr Hc Hfr. rewrite P3, Q3 by done. f_equal. apply heard_ext.
      intros c Hcc. apply in_conns_of in Hcc as [Hcc Hto]. cbn in Hto. eapply IH; [done|].
      rewrite Ho in Hord. apply (prefix_next_closed s l1 m l2 c Hord Hcc Hto). }
    rewrite P4 in Q4. injection Q4 as -> ->. rewrite P6, Q6. done. }
  assert (H' : ∀ n, is_Some (s_nodes s !! n) → o1 n = o2 n ∧ n1 !! n = n2 !! n).
  { intros n Hn. apply (H order []); [by rewrite app_nil_r|]. by apply (order_elem s order n Hord). }
  split; [|intros n Hn; by apply H'].
  apply map_eq. intros n. destruct (decide (is_Some (s_nodes s !! n))) as [Hn|Hn]; [by apply H'|].
  assert (Hnd : n ∉ dom (s_nodes s)) by (by rewrite elem_of_dom).
  assert (n1 !! n = None) as -> by (apply not_elem_of_dom; by rewrite D1).
  symmetry. apply not_elem_of_dom. by rewrite D2.
Qed.

Lemma output_is_unique out o1 o2 ov occ fc src :
  output_is zero out o1 ov occ fc src → output_is zero out o2 ov occ fc src → o1 = o2.
Proof.
  intros (W1 & D1 & S1) (W2 & D2 & S2). apply buffer_ext; [done|done| |].
  - destruct D1 as (?&?&?), D2 as (?&?&?). repeat split; congruence.
  - intros ch fr. by rewrite S1, S2.
Qed.

Lemma unique_split {X Y} (f : X → Y) (l1 l2 m1 m2 : list X) x y :
  NoDup (f <$> (l1 ++ x :: l2)) → l1 ++ x :: l2 = m1 ++ y :: m2 → f x = f y → l1 ++ l2 = m1 ++ m2.
Proof.
  revert m1. induction l1 as [|z l1 IH]; intros [|w m1] Hnd E Hf; cbn in *.
  - congruence.
  - injection E as -> ->. apply NoDup_cons in Hnd as [Hn _]. exfalso. apply Hn.
    rewrite Hf. apply elem_of_list_fmap_1. set_solver.
  - injection E as -> <-. apply NoDup_cons in Hnd as [Hn _]. exfalso. apply Hn.
    rewrite <-Hf. apply elem_of_list_fmap_1. set_solver.
  - injection E as -> E. f_equal. apply NoDup_cons in Hnd as [_ Hnd]. by apply IH.
Qed.

Lemma sstep_det s o s1 s2 : no_parallel s → sstep s o (Ok s1) → sstep s o (Ok s2) → s1 = s2.
Proof.
  intros Hnp H1 H2.
  inversion H1; subst; inversion H2; subst; try done.
  all: try match goal with
    | E : ?x = None, S : is_Some ?x |- _ => rewrite E in S; by destruct S
    | F : ∀ c, c ∈ s_conns _ → ¬ (_ ∧ _), E : s_conns _ = _ ++ ?c :: _ |- _ =>
        exfalso; apply (F c); [rewrite E; set_solver|done]
    | E1 : s_conns _ = _ ++ _ :: _, E2 : s_conns _ = _ ++ _ :: _ |- _ =>
        f_equal; unfold no_parallel in Hnp; rewrite E1 in Hnp, E2;
        eapply unique_split; [exact Hnp|exact E2|congruence]
    end.
Qed.

Lemma astep_det dg a o a1 l1 a2 l2 : readya dg a → no_parallel (a_graph a) →
  astep a o a1 l1 → astep a o a2 l2 → a1 = a2 ∧ l1 = l2.
Proof.
  intros [Hrdy _] Hnp H1 H2. inversion H1; subst; inversion H2; subst.
  all: try (match goal with
       | S1 : sstep _ _ (Ok ?x), S2 : sstep _ _ (Ok ?y) |- _ =>
           assert (x = y) as -> by (eapply sstep_det; done); done end).
  all: try done.
  all: try congruence.
  1: { replace d0 with d in * by congruence. by replace st0 with st by congruence. }
  destruct (sort_spec (dg_graph dg) (a_graph a) id_order id_order_any (rep_observes _ _ (rdy_rep _ _ Hrdy))
              (rep_closed _ _ (rdy_rep _ _ Hrdy))) as [(order & _ & Ho & _)|[_ Hn]]; [|tauto].
  destruct (block_equations_unique _ _ _ _ _ _ _ _ _ Ho H3 H15) as [-> Hou].
  split; [done|]. f_equal. eapply output_is_unique; [done|].
  replace (outs <$> output_node (a_graph a) (a_out a)) with (outs0 <$> output_node (a_graph a) (a_out a)); [done|].
  unfold output_node. destruct (a_out a) as [[[] m]|]; [done| |done].
  destruct (decide _); [|done]. cbn. f_equal. symmetry. by apply Hou.
Qed.

Lemma single_dests_no_parallel g s : Rep g s → single_destinations g → no_parallel s.
Proof.
  intros HR Hs. pose proof (rep_observes _ _ HR) as Hobs.
  assert (H : ∀ x, NoDup (c_to <$> conns_of s x Outgoing)).
  { intros x. destruct (decide (x ∈ all_node_ids g)) as [Hx|Hx].
    - unfold single_destinations in Hs. rewrite Forall_forall in Hs. specialize (Hs x Hx).
      rewrite (obs_node_iter _ _ Hobs) in Hs. exact Hs.
    - replace (conns_of s x Outgoing) with (@nil (conn connection)); [constructor|].
      symmetry. apply elem_of_nil_inv. intros c Hc. apply in_conns_of in Hc as [Hc Hf]. cbn in Hf.
      apply Hx. rewrite (obs_node_ids _ _ Hobs). destruct (rep_wf _ _ HR c Hc) as [[d Hd] _].
      apply elem_of_list_fmap. exists (x, d). split; [done|]. apply elem_of_map_to_list. by rewrite <-Hf. }
  unfold no_parallel, conns_of in *. clear HR Hs Hobs. revert H. cbn [near].
  induction (s_conns s) as [|c cs IH]; intros H; [constructor|].
  cbn. apply NoDup_cons. split.
  - intros Hin. apply elem_of_list_fmap in Hin as (c' & E & Hc'). injection E as E1 E2.
    specialize (H (c_from c)). rewrite filter_cons_True in H by done. cbn in H.
    apply NoDup_cons in H as [H _]. apply H. rewrite E2. apply elem_of_list_fmap_1.
    apply elem_of_list_filter. done.
  - apply IH. intros x. specialize (H x). rewrite filter_cons in H.
    destruct (decide (c_from c = x)); [|done]. cbn in H. by apply NoDup_cons in H as [_ H].
Qed.

Lemma hrun_det sh1 dr1 sh2 dr2 :
  (∀ k, any_order (sh1 k)) → (∀ k l, dr1 k l ≡ₚ l) →
  (∀ k, any_order (sh2 k)) → (∀ k l, dr2 k l ≡ₚ l) → ∀ os k dg1 dg2 a dg1' l1 dg2' l2,
  readya dg1 a → readya dg2 a → Forall hop_ok os → NoDup (hist_edge_ids os) →
  (∀ e, e ∈ hist_edge_ids os → e ∉ c_id <$> s_conns (a_graph a)) →
  (∀ pre dg l, pre `prefix_of` os → hrun zero add proc sh1 dr1 k dg1 pre = Ok (dg, l) →
     single_destinations (dg_graph dg)) →
  hrun zero add proc sh1 dr1 k dg1 os = Ok (dg1', l1) →
  hrun zero add proc sh2 dr2 k dg2 os = Ok (dg2', l2) → l1 = l2 ∧ dg_graph dg1' = dg_graph dg2'.
Proof.
  intros Hsh1 Hdr1 Hsh2 Hdr2. induction os as [|o os IH]; intros k dg1 dg2 a dg1' l1 dg2' l2 Hr1 Hr2 Hok Hnd Hf Hnp E1 E2.
  - injection E1 as <- <-. injection E2 as <- <-. split; [done|].
    eapply rep_det; [apply (rdy_rep _ _ (proj1 Hr1))|apply (rdy_rep _ _ (proj1 Hr2))].
  - apply Forall_cons in Hok as [Ho Hok].
    unfold hist_edge_ids in Hnd, Hf. cbn in Hnd, Hf. fold (hist_edge_ids os) in Hnd, Hf.
    apply NoDup_app in Hnd as (Hnd1 & Hnd2 & Hnd3). cbn [hrun] in E1, E2.
    assert (Hf' : ∀ e, e ∈ hop_edge_ids o → e ∉ c_id <$> s_conns (a_graph a)).
    { intros e He. apply Hf. set_solver. }
    pose proof (hstep_ok sh1 dr1 k dg1 a o Hsh1 Hdr1 Hr1 Ho Hf') as S1.
    pose proof (hstep_ok sh2 dr2 k dg2 a o Hsh2 Hdr2 Hr2 Ho Hf') as S2.
    destruct (hstep zero add proc sh1 dr1 k dg1 o) as [[d1 m1]|p] eqn:G1; cbn [rbind] in E1; [|done].
    destruct (hstep zero add proc sh2 dr2 k dg2 o) as [[d2 m2]|p]; cbn [rbind] in E2; [|done].
    destruct (hrun zero add proc sh1 dr1 (S k) d1 os) as [[d1' l1']|p] eqn:F1; cbn [rbind] in E1; [|done].
    destruct (hrun zero add proc sh2 dr2 (S k) d2 os) as [[d2' l2']|p] eqn:F2; cbn [rbind] in E2; [|done].
    injection E1 as <- <-. injection E2 as <- <-. cbn [outcome] in S1, S2.
    destruct S1 as (a1 & S1 & R1), S2 as (a2 & S2 & R2).
    assert (Hnpa : no_parallel (a_graph a)).
    { eapply single_dests_no_parallel; [apply (rdy_rep _ _ (proj1 Hr1))|].
      apply (Hnp [] dg1 []); [apply prefix_nil|done]. }
    destruct (astep_det dg1 a o a1 m1 a2 m2 Hr1 Hnpa S1 S2) as [-> ->].
    destruct (IH (S k) d1 d2 a2 d1' l1' d2' l2') as [-> ->]; try done.
    + intros e He Hin. destruct (astep_ids _ _ _ _ S1 e Hin) as [H|H].
      * eapply Hf; [|exact H]. set_solver.
      * eapply Hnd2; done.
    + intros pre dg l Hpre Hrun. eapply (Hnp (o :: pre) dg (m2 ++ l)); [by apply prefix_cons|].
      cbn [hrun]. rewrite G1. cbn [rbind]. by rewrite Hrun.
Qed.

Lemma history_det sh1 dr1 sh2 dr2 os dg1 l1 dg2 l2 :
  (∀ k, any_order (sh1 k)) → (∀ k l, dr1 k l ≡ₚ l) →
  (∀ k, any_order (sh2 k)) → (∀ k l, dr2 k l ≡ₚ l) →
  Forall hop_ok os → NoDup (hist_edge_ids os) →
  (∀ pre dg l, pre `prefix_of` os → hrun zero add proc sh1 dr1 0 new_engine pre = Ok (dg, l) →
     single_destinations (dg_graph dg)) →
  hrun zero add proc sh1 dr1 0 new_engine os = Ok (dg1, l1) →
  hrun zero add proc sh2 dr2 0 new_engine os = Ok (dg2, l2) → l1 = l2 ∧ dg_graph dg1 = dg_graph dg2.
Proof.
  intros H1 H2 H3 H4 H5 H6 H7 E1 E2.
  eapply (hrun_det sh1 dr1 sh2 dr2 H1 H2 H3 H4 os 0 new_engine new_engine ainit); try done; try apply new_ready.
  intros e _. cbn. apply not_elem_of_nil.
Qed.

(** ** The next block *)
Lemma next_block_ok sh dr os dg l inp iv out ov t :
  (∀ k, any_order (sh k)) → (∀ k l, dr k l ≡ₚ l) →
  Forall hop_ok (os ++ [HBlock inp iv out ov t]) → NoDup (hist_edge_ids os) →
  hrun zero add proc sh dr 0 new_engine os = Ok (dg, l) →
  ∃ a, arun ainit os a l ∧ observes (dg_graph dg) (a_graph a) ∧
    (renderable node_ok nbuf MC (a_graph a) →
     ∃ dg' out', hrun zero add proc sh dr 0 new_engine (os ++ [HBlock inp iv out ov t]) = Ok (dg', l ++ [out'])).
Proof.
  intros Hsh Hdr Hok Hnd E. apply Forall_app in Hok as [Hok Hb]. apply Forall_cons in Hb as [Hb _].
  destruct (history_ok sh dr os dg l Hsh Hdr Hok Hnd E) as (a & Hrun & Hra).
  exists a. split; [done|]. split; [apply rep_observes, Hra|]. intros Hrd.
  assert (Happ : ∀ os k d d' l', hrun zero add proc sh dr k d os = Ok (d', l') →
     hrun zero add proc sh dr k d (os ++ [HBlock inp iv out ov t]) =
     let? (d'', l'') := hrun zero add proc sh dr (k + length os) d' [HBlock inp iv out ov t] in Ok (d'', l' ++ l'')).
  { clear. intros os. induction os as [|o os IH]; intros k d d' l' E.
    - injection E as <- <-. cbn [app length]. rewrite Nat.add_0_r.
      destruct (hrun _ _ _ _ _ _ _ _) as [[? ?]|]; done.
    - cbn [hrun app length] in *.
      destruct (hstep _ _ _ _ _ _ _ o) as [[d1 l1]|]; cbn [rbind] in *; [|done].
      destruct (hrun zero add proc sh dr (S k) d1 os) as [[d2 l2]|] eqn:E2; cbn [rbind] in E; [|done].
      injection E as <- <-. rewrite (IH _ _ _ _ E2). cbn [hrun]. rewrite <-plus_n_Sm. cbn [plus].
      destruct (hstep _ _ _ _ _ _ _ (HBlock inp iv out ov t)) as [[d3 l3]|]; cbn [rbind]; [|done].
      by rewrite app_assoc. }
  rewrite (Happ _ _ _ _ _ E). cbn [hrun].
  pose proof (hstep_ok sh dr (0 + length os) dg a (HBlock inp iv out ov t) Hsh Hdr Hra Hb) as H.
  cbn [hstep] in *.
  destruct (process _ _ _ _ _ _ _ _ _ _ _) as [[dg' out']|p]; cbn [rbind outcome] in *.
  - eauto.
  - exfalso. apply H; [|done]. cbn. set_solver.
Qed.

End proofs.

(** ** Statements without a notion of valid node *)
Section final.
Context {A St T : Type} (zero : A) (add : A → A → A).
Context (proc : T → St → owned A → owned A → res (St * owned A)).

Lemma proc_ok_none max_fr r : proc_ok proc max_fr r (λ _ _ _, False).
Proof. intros t ni no st i o fc _ []. Qed.

Lemma history_refines (nbuf max_ch max_fr r : nat)
    (sh : nat → oracle) (dr : nat → list endpoint → list endpoint)
    (os : list (hop A St T)) (dg : dspgraph A St) (outputs : list (owned A)) :
  proc_shape proc → 0 < nbuf →
  (∀ k, any_order (sh k)) → (∀ k l, dr k l ≡ₚ l) →
  Forall hop_ok os → NoDup (hist_edge_ids os) →
  hrun zero add proc sh dr 0 (new_dspgraph zero nbuf max_fr max_ch r) os = Ok (dg, outputs) →
  ∃ a, arun zero add proc max_ch max_fr r ainit os a outputs ∧
    observes (dg_graph dg) (a_graph a) ∧ dg_in dg = a_in a ∧ dg_out dg = a_out a ∧
    assigned (dg_pools dg) = ∅ ∧
    free (dg_pools dg) = replicate nbuf (new_buffer zero max_fr max_ch r).
Proof.
  intros Hs Hn H1 H2 H3 H4 E.
  destruct (history_ok zero add proc nbuf max_ch max_fr r _ Hs (proc_ok_none max_fr r) Hn sh dr os dg outputs H1 H2 H3 H4 E)
    as (a & Hr & [[R1 R2 R3 R4 [R5 R6] R7 R8] [R9 R10]]).
  exists a. split; [done|]. split; [by apply rep_observes|]. rewrite R3, R4 in R6. done.
Qed.

Lemma deterministic (nbuf max_ch max_fr r : nat)
    (sh1 sh2 : nat → oracle) (dr1 dr2 : nat → list endpoint → list endpoint)
    (os : list (hop A St T)) (dg1 dg2 : dspgraph A St) (l1 l2 : list (owned A)) :
  proc_shape proc → 0 < nbuf →
  (∀ k, any_order (sh1 k)) → (∀ k l, dr1 k l ≡ₚ l) →
  (∀ k, any_order (sh2 k)) → (∀ k l, dr2 k l ≡ₚ l) →
  Forall hop_ok os → NoDup (hist_edge_ids os) →
  (∀ pre dg l, pre `prefix_of` os →
     hrun zero add proc sh1 dr1 0 (new_dspgraph zero nbuf max_fr max_ch r) pre = Ok (dg, l) →
     single_destinations (dg_graph dg)) →
  hrun zero add proc sh1 dr1 0 (new_dspgraph zero nbuf max_fr max_ch r) os = Ok (dg1, l1) →
  hrun zero add proc sh2 dr2 0 (new_dspgraph zero nbuf max_fr max_ch r) os = Ok (dg2, l2) →
  l1 = l2 ∧ dg_graph dg1 = dg_graph dg2.
Proof.
  intros Hs Hn. apply (history_det zero add proc nbuf max_ch max_fr r _ Hs (proc_ok_none max_fr r) Hn sh1 dr1 sh2 dr2).
Qed.

Lemma heard_two (outs : id → owned A) sys c1 c2 cs ch fr :
  heard zero add outs sys (c1 :: c2 :: cs) ch fr =
  foldl (λ acc c, if decide (dst_ch (c_data c) ≤ ch < dst_ch (c_data c) + ch_count (c_data c))
                  then add acc (heard_at zero (outs (c_from c))
                                  (src_ch (c_data c) + (ch - dst_ch (c_data c))) fr)
                  else acc)
    (if decide (dst_ch (c_data c1) ≤ ch < dst_ch (c_data c1) + ch_count (c_data c1))
     then heard_at zero (outs (c_from c1)) (src_ch (c_data c1) + (ch - dst_ch (c_data c1))) fr
     else sys ch fr)
    (c2 :: cs).
Proof.
  unfold heard. rewrite decide_False by (intros [[=] _]). unfold mixed.
  assert (E : overwrite (sys ch fr) (delivers zero outs c1 ch fr) =
    if decide (dst_ch (c_data c1) ≤ ch < dst_ch (c_data c1) + ch_count (c_data c1))
     then heard_at zero (outs (c_from c1)) (src_ch (c_data c1) + (ch - dst_ch (c_data c1))) fr
     else sys ch fr) by (unfold delivers; by destruct (decide _)).
  rewrite E. clear E. generalize (c2 :: cs) as l. intros l.
  match goal with |- foldl _ ?x _ = _ => generalize x end. induction l as [|c l IH]; intros acc; [done|].
  cbn [foldl]. rewrite IH. f_equal. unfold mix_in, delivers. by destruct (decide _).
Qed.

Lemma heard_outside (outs : id → owned A) sys cs ch fr :
  (∀ c, cs = [c] → ¬ (src_ch (c_data c) = 0 ∧ dst_ch (c_data c) = 0)) →
  (∀ c, c ∈ cs → ¬ (dst_ch (c_data c) ≤ ch < dst_ch (c_data c) + ch_count (c_data c))) →
  heard zero add outs sys cs ch fr = sys ch fr.
Proof.
  clear proc. intros H1 H2. destruct cs as [|c cs]; [done|]. cbn.
  rewrite decide_False; [|intros (-> & H); by apply (H1 c)].
  assert (Hd : ∀ c', c' ∈ c :: cs → delivers zero outs c' ch fr = None).
  { intros c' Hc'. unfold delivers. by rewrite decide_False by (by apply H2). }
  rewrite Hd by set_solver. cbn. clear H1 H2. unfold mixed.
  assert (Hd' : ∀ c', c' ∈ cs → delivers zero outs c' ch fr = None) by set_solver. clear Hd.
  induction cs as [|c2 cs IH]; [done|]. cbn. rewrite Hd' by set_solver. cbn. apply IH. set_solver.
Qed.

Lemma system_input_heard (outs : id → owned A) max_ch inp iv n ch fr : ch < v_channels inp iv `min` max_ch →
  heard zero add outs (system_input zero (Some (EInput, n)) max_ch inp iv n) [] ch fr
  = heard_at zero inp (ch + off_ch iv) (fr + off_fr iv).
Proof. intros H. cbn. unfold system_input. by rewrite decide_True. Qed.

End final.
