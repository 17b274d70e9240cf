From stdpp Require Import list.
From Verif Require Import Base Buffer BufferSpec BufferProofs EffectSpec Effect.

Section proofs.
  Context {A : Type}.
  Implicit Types (b out : owned A) (v : view).

  Lemma seen_some b v ch fr : wf b → valid_view b v → ch < v_channels b v → fr < v_frames b v →
    is_Some (sample b (off_ch v + ch) (off_fr v + fr)).
  Proof. intros Hw Hv H1 H2. apply sample_is_Some; [done|]. destruct (valid_off b v Hv). lia. Qed.
  Lemma seen_eq b v ch fr : ch < v_channels b v → fr < v_frames b v → seen b v ch fr = sample b (off_ch v + ch) (off_fr v + fr).
  Proof. intros H1 H2. unfold seen. by rewrite decide_True. Qed.
  Lemma seen_dims b b' v ch fr : same_dims b b' → ch < v_channels b v → fr < v_frames b v →
    seen b' v ch fr = sample b' (off_ch v + ch) (off_fr v + fr).
  Proof. intros Hd H1 H2. destruct (same_dims_view b b' v Hd) as (E1 & E2 & _). apply seen_eq; lia. Qed.

  Lemma written_refl out v (P : nat → nat → A → A → Prop) : wf out → valid_view out v →
    (∀ ch fr x, seen out v ch fr = Some x → P ch fr x x) → written out v out P.
  Proof.
    intros Hw Hv HP. split; [done|]. split; [done|]. split; [done|]. intros ch fr H1 H2.
    destruct (seen_some out v ch fr Hw Hv H1 H2) as [x Hx]. rewrite <-seen_eq in Hx by done. exists x, x. eauto.
  Qed.
  Lemma written_mono out v out' (P Q : nat → nat → A → A → Prop) : written out v out' P →
    (∀ ch fr x y, ch < v_channels out v → fr < v_frames out v → P ch fr x y → Q ch fr x y) → written out v out' Q.
  Proof.
    intros (H1 & H2 & H3 & H4) HPQ. split; [done|]. split; [done|]. split; [done|]. intros ch fr Hc Hf.
    destruct (H4 ch fr Hc Hf) as (x & y & ? & ? & ?). exists x, y. eauto.
  Qed.
  Lemma written_trans out v o1 o2 (P Q : nat → nat → A → A → Prop) : written out v o1 P → written o1 v o2 Q →
    written out v o2 (λ ch fr x z, ∃ y, P ch fr x y ∧ Q ch fr y z).
  Proof.
    intros (P1 & P2 & P3 & P4) (Q1 & Q2 & Q3 & Q4). destruct (same_dims_view out o1 v P2) as (E1 & E2 & _).
    split; [done|]. split; [by eapply same_dims_trans|]. split.
    - intros ch fr H. rewrite Q3, P3; [done|done|]. by rewrite E1, E2.
    - intros ch fr Hc Hf. destruct (P4 ch fr Hc Hf) as (x & y & S1 & S2 & HP). destruct (Q4 ch fr) as (y' & z & S3 & S4 & HQ); [lia|lia|].
      rewrite S2 in S3. injection S3 as <-. exists x, z. eauto.
  Qed.

  (** a rectangle inside the slice *)
  Lemma written_rect {B} (f : B → A → A) (src : nat → nat → option B) out v out' c0 f0 cc fc (P : nat → nat → A → A → Prop) :
    wf out → valid_view out v →
    rect_update f src (c0 + off_ch v) (f0 + off_fr v) cc fc out out' → c0 + cc ≤ v_channels out v → f0 + fc ≤ v_frames out v →
    (∀ ch fr x, seen out v ch fr = Some x → in_rect c0 f0 cc fc ch fr →
       ∃ s, src (ch - c0) (fr - f0) = Some s ∧ P ch fr x (f s x)) →
    (∀ ch fr x, seen out v ch fr = Some x → ¬ in_rect c0 f0 cc fc ch fr → P ch fr x x) →
    written out v out' P.
  Proof.
    intros Hw Hv (R1 & R2 & R3) Hc Hf H1 H2. split; [done|]. split; [done|]. split.
    - intros ch fr H. rewrite R3, decide_False; [done|]. unfold in_rect in *. lia.
    - intros ch fr Hch Hfr. destruct (seen_some out v ch fr Hw Hv Hch Hfr) as [x Hx].
      assert (Sx : seen out v ch fr = Some x) by (by rewrite seen_eq). exists x.
      specialize (R3 (off_ch v + ch) (off_fr v + fr)). rewrite Hx in R3. rewrite <-(seen_dims out out') in R3 by done.
      destruct (decide (in_rect c0 f0 cc fc ch fr)) as [Hi|Hi].
      + destruct (H1 ch fr x Sx Hi) as (s & Hs & HP). exists (f s x). split; [done|]. split; [|done].
        rewrite R3, decide_True by (unfold in_rect in *; lia).
        replace (off_ch v + ch - (c0 + off_ch v)) with (ch - c0) by lia. replace (off_fr v + fr - (f0 + off_fr v)) with (fr - f0) by lia.
        rewrite Hs. done.
      + exists x. split; [done|]. split; [|by apply H2]. rewrite R3, decide_False by (unfold in_rect in *; lia). done.
  Qed.
  Lemma written_fill out v out' c0 f0 cc fc (z : A) (P : nat → nat → A → A → Prop) :
    wf out → valid_view out v →
    rect_fill z (c0 + off_ch v) (f0 + off_fr v) cc fc out out' → c0 + cc ≤ v_channels out v → f0 + fc ≤ v_frames out v →
    (∀ ch fr x, seen out v ch fr = Some x → in_rect c0 f0 cc fc ch fr → P ch fr x z) →
    (∀ ch fr x, seen out v ch fr = Some x → ¬ in_rect c0 f0 cc fc ch fr → P ch fr x x) →
    written out v out' P.
  Proof.
    intros Hw Hv (R1 & R2 & R3) Hc Hf H1 H2.
    apply (written_rect (λ (_ : unit) _, z) (λ _ _, Some tt) out v out' c0 f0 cc fc P Hw Hv); [|done|done| |done].
    - split; [done|]. split; [done|]. intros ch fr. rewrite R3. by destruct (decide _).
    - intros ch fr x Hx Hi. exists tt. eauto.
  Qed.
End proofs.

Section rows.
  Context {A B : Type} (f : B → A → A) (row : nat → res (list B)) (ov : view).

  Lemma zip_row (out : owned A) ch l : wf out → valid_view out ov → ch < v_channels out ov →
    ∃ out', (let? (st, en) := locate out ov ch 0 in Ok (with_data out (seg_zip f (data out) st (take (en - st) l)))) = Ok out' ∧
      written out ov out' (λ c fr x y, y = if decide (c = ch) then default x ((λ s, f s x) <$> l !! fr) else x).
  Proof.
    intros Hw Hv Hch. destruct (valid_off out ov Hv) as [Ho1 Ho2].
    destruct (rect_loop f (λ _, take (v_frames out ov) l) out ov ch 0 1 (v_frames out ov `min` length l) Hw Hv) as (out' & E & H).
    { right. split; [lia|]. right. lia. }
    { intros i Hi. by rewrite take_length. }
    exists out'. split.
    - rewrite <-E. cbn [seq rfold]. rewrite Nat.add_0_r. unfold seg_start.
      destruct (locate out ov ch 0) as [[st en]|] eqn:El; cbn [rbind]; [|done].
      apply locate_len in El as ->. replace (st + v_frames out ov - st) with (v_frames out ov) by lia.
      destruct (Nat.leb_spec (v_frames out ov `min` length l) (v_frames out ov)); [|lia]. done.
    - eapply (written_rect f _ out ov out' ch 0 1 (v_frames out ov `min` length l)); [done|done|exact H|lia|lia| |].
      + intros c fr x Hx (H1 & H2). assert (c = ch) as -> by lia. destruct (lookup_lt_is_Some_2 l fr) as [s Hs]; [lia|].
        exists s. rewrite Nat.sub_0_r, lookup_take by lia. split; [done|]. rewrite decide_True by done. by rewrite Hs.
      + intros c fr x Hx Hn. unfold seen in Hx. case_decide as Hin; [|done]. unfold in_rect in Hn. case_decide; [|done]. subst c.
        rewrite lookup_ge_None_2 by lia. done.
  Qed.

  Lemma zip_channels_from n : ∀ k (out : owned A), wf out → valid_view out ov → k + n ≤ v_channels out ov →
    (∀ ch, k ≤ ch < k + n → is_Some (match row ch with Ok l => Some l | _ => None end)) →
    ∃ out', rfold (λ out ch,
        let? (st, en) := locate out ov ch 0 in
        let? l := row ch in
        Ok (with_data out (seg_zip f (data out) st (take (en - st) l)))) (seq k n) out = Ok out' ∧
      written out ov out' (λ ch fr x y, if decide (k ≤ ch < k + n) then ∃ l, row ch = Ok l ∧ y = default x ((λ s, f s x) <$> l !! fr) else y = x).
  Proof.
    induction n as [|n IH]; intros k out Hw Hv Hk Hrow; cbn [seq rfold].
    { exists out. split; [done|]. apply written_refl; [done..|]. intros. rewrite decide_False by lia. done. }
    destruct (Hrow k) as [l Hl]; [lia|]. destruct (row k) as [l'|] eqn:Er; [|done]. injection Hl as ->.
    destruct (zip_row out k l) as (o1 & E1 & W1); [done|done|lia|].
    destruct (locate out ov k 0) as [[st en]|]; cbn [rbind] in *; [|done].
    pose proof W1 as (A1 & A2 & _). destruct (same_dims_view out o1 ov A2) as (D1 & D2 & D3 & _).
    destruct (IH (S k) o1) as (o2 & E2 & W2); [done|by apply D3|lia|intros; apply Hrow; lia|].
    injection E1 as ->. exists o2. split; [exact E2|]. eapply written_mono; [eapply written_trans; [exact W1|exact W2]|]. cbv beta.
    intros ch fr x y Hc Hfr (z & -> & H2). destruct (decide (ch = k)) as [->|Hne].
    - rewrite decide_True by lia. rewrite decide_False in H2 by lia. subst y. eauto.
    - destruct (decide (k ≤ ch < k + S n)), (decide (S k ≤ ch < S k + n)); try done; exfalso; lia.
  Qed.
End rows.

Lemma zip_channels_ok {A B} (f : B → A → A) (row : nat → res (list B)) ov cc (out : owned A) : wf out → valid_view out ov → cc ≤ v_channels out ov →
  (∀ ch, ch < cc → ∃ l, row ch = Ok l) →
  ∃ out', zip_channels f row ov cc out = Ok out' ∧
    written out ov out' (λ ch fr x y, if decide (ch < cc) then ∃ l, row ch = Ok l ∧ y = default x ((λ s, f s x) <$> l !! fr) else y = x).
Proof.
  intros Hw Hv Hc Hr. destruct (zip_channels_from f row ov cc 0 out Hw Hv) as (out' & E & W); [lia| |].
  { intros ch Hch. destruct (Hr ch) as [l ->]; [lia|]. by eexists. }
  exists out'. split; [exact E|]. eapply written_mono; [exact W|]. cbv beta. intros ch fr x y _ _.
  destruct (decide (0 ≤ ch < 0 + cc)), (decide (ch < cc)); try done; exfalso; lia.
Qed.
