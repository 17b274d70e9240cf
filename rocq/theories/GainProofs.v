From stdpp Require Import list list_numbers.
From Coq Require Import Reals Lra Lia.
From Verif Require Import Base Buffer BufferSpec BufferProofs EffectSpec EffectProofs Mixer AudioParamR MixerR MixerSpec.

Section gain.
  Context {A : Type} (zero : A) (is_zero is_one : A → bool) (mul : A → A → A).

  Lemma gain_copy (inp : owned A) iv (out : owned A) ov : wf inp → valid_view inp iv → wf out → valid_view out ov → v_frames out ov ≤ v_frames inp iv →
    ∃ out', copy_from out ov inp iv 0 0 0 0 (v_channels out ov `min` v_channels inp iv) (v_frames out ov) = Ok out' ∧
      written out ov out' (λ ch fr x y, y = default x (seen inp iv ch fr)).
  Proof.
    intros Hwi Hvi Hw Hv Hf. unfold copy_from.
    destruct (combine_from_ok (λ s _, s) out ov inp iv 0 0 0 0 (v_channels out ov `min` v_channels inp iv) (v_frames out ov)) as (out' & E & H);
      [done|done|done|done| | |].
    { destruct (decide (v_channels out ov `min` v_channels inp iv = 0)); [by left|].
      right. split; [lia|]. right. destruct (valid_off inp iv Hvi). lia. }
    { destruct (decide (v_channels out ov `min` v_channels inp iv = 0)); [by left|].
      right. split; [lia|]. right. destruct (valid_off out ov Hv). lia. }
    exists out'. split; [done|].
    eapply (written_rect (λ s _, s) _ out ov out' 0 0 (v_channels out ov `min` v_channels inp iv) (v_frames out ov)); [done|done|exact H|lia|lia| |].
    - intros ch fr x Hx (H1 & H2). destruct (seen_some inp iv ch fr Hwi Hvi) as [s Hs]; [lia|lia|].
      exists s. rewrite !Nat.sub_0_r. cbn [Nat.add]. split; [done|]. rewrite seen_eq by lia. by rewrite Hs.
    - intros ch fr x Hx Hn. unfold seen in Hx. case_decide; [|done]. unfold in_rect in Hn.
      unfold seen. rewrite decide_False by lia. done.
  Qed.

  (** what the gains do to the copied input *)
  Definition gained (gain : list A) (fr : nat) (x : A) : A :=
    if forallb is_zero gain then zero else if forallb is_one gain then x else default x (mul x <$> gain !! fr).

  Lemma gain_apply (gain : list A) (out : owned A) ov : wf out → valid_view out ov →
    ∃ out', apply_gain zero is_zero is_one mul out ov gain = Ok out' ∧ written out ov out' (λ ch fr x y, y = gained gain fr x).
  Proof.
    intros Hw Hv. unfold gained. destruct (forallb is_zero gain) eqn:Ez; [|destruct (forallb is_one gain) eqn:Eo].
    - unfold apply_gain, clear. rewrite Ez. destruct (fill_with_value_ok out ov zero Hw Hv) as (b' & E & H).
      exists b'. split; [done|]. eapply (written_fill out ov b' 0 0 (v_channels out ov) (v_frames out ov)); [done|done|exact H|lia|lia|done|].
      intros ch fr x Hx Hn. unfold seen in Hx. case_decide; [|done]. unfold in_rect in Hn. lia.
    - unfold apply_gain. rewrite Ez, Eo. exists out. split; [done|]. by apply written_refl.
    - destruct (apply_gain_ok zero is_zero is_one mul out ov gain Hw Hv Ez Eo) as (b' & E & H). exists b'. split; [done|].
      eapply (written_rect (λ g x, mul x g) _ out ov b' 0 0 (v_channels out ov) (v_frames out ov `min` length gain)); [done|done|exact H|lia|lia| |].
      + intros ch fr x Hx (H1 & H2). destruct (lookup_lt_is_Some_2 gain fr) as [g Hg]; [lia|]. exists g. rewrite Nat.sub_0_r, Hg. done.
      + intros ch fr x Hx Hn. unfold seen in Hx. case_decide; [|done]. unfold in_rect in Hn.
        rewrite lookup_ge_None_2 by lia. done.
  Qed.

  Lemma gain_process_ok (gain : list A) (inp : owned A) iv (out : owned A) ov :
    wf inp → valid_view inp iv → wf out → valid_view out ov → v_frames out ov ≤ v_frames inp iv →
    ∃ out', gain_process zero is_zero is_one mul gain inp iv out ov = Ok out' ∧
      written out ov out' (λ ch fr x y, y = gained gain fr (default x (seen inp iv ch fr))).
  Proof.
    intros Hwi Hvi Hw Hv Hf. unfold gain_process.
    destruct (gain_copy inp iv out ov) as (o1 & -> & W1); [done..|]. cbn [rbind]. pose proof W1 as (A1 & A2 & _).
    destruct (same_dims_view out o1 ov A2) as (E1 & E2 & E3 & _).
    destruct (gain_apply gain o1 ov) as (o2 & -> & W2); [done|by apply E3|]. exists o2. split; [done|].
    eapply written_mono; [eapply written_trans; [exact W1|exact W2]|]. cbv beta. intros ch fr x y Hc Hfr (z & -> & ->). done.
  Qed.
End gain.

(** ** Pan *)
Section pan.
  Context {A : Type} (mul : A → A → A) (gains : A → A * A).
  Definition panned (pan : list A) (inp : owned A) (iv : view) (ch fr : nat) (y : A) : Prop :=
    ∃ p s, pan !! fr = Some p ∧ seen inp iv ch fr = Some s ∧ y = mul s (if decide (ch = 0) then (gains p).1 else (gains p).2).

  Lemma pan_set (b : owned A) v ch fr y : wf b → valid_view b v → ch < v_channels b v → fr < v_frames b v →
    ∃ b', set_sample b v ch fr y = Ok b' ∧ written b v b' (λ c f x z, z = if decide (c = ch ∧ f = fr) then y else x).
  Proof.
    intros Hw Hv Hc Hf. destruct (set_sample_ok b v ch fr y) as (b' & E & H); [done|done|destruct (valid_off b v Hv); lia|done|].
    exists b'. split; [done|]. eapply (written_fill b v b' ch fr 1 1 y); [done|done|exact H|lia|lia| |].
    - intros c f x Hx Hi. unfold in_rect in Hi. rewrite decide_True by lia. done.
    - intros c f x Hx Hi. unfold in_rect in Hi. rewrite decide_False by lia. done.
  Qed.
  Lemma get_seen (b : owned A) v ch fr : wf b → valid_view b v → ch < v_channels b v → fr < v_frames b v →
    ∃ s, get_sample b v ch fr = Ok s ∧ seen b v ch fr = Some s.
  Proof.
    intros Hw Hv Hc Hf. destruct (seen_some b v ch fr Hw Hv Hc Hf) as [s Hs]. exists s. rewrite seen_eq by done. split; [|done].
    apply get_sample_ok; [done|done|destruct (valid_off b v Hv); lia|done|]. by rewrite (Nat.add_comm ch), (Nat.add_comm fr).
  Qed.

  Context (pan : list A) (inp : owned A) (iv ov : view).
  Context (Hwi : wf inp) (Hvi : valid_view inp iv) (Hi2 : 2 ≤ v_channels inp iv).
  Local Notation step := (pan_frame mul gains pan inp iv ov).

  Lemma pan_frame_ok (out : owned A) fr : wf out → valid_view out ov → 2 ≤ v_channels out ov → fr < v_frames out ov →
    v_frames out ov ≤ v_frames inp iv → v_frames out ov ≤ length pan →
    ∃ out', step out fr = Ok out' ∧
      written out ov out' (λ ch f x y, if decide (ch < 2 ∧ f = fr) then panned pan inp iv ch f y else y = x).
  Proof.
    intros Hw Hv Ho Hfr Hf Hp. unfold pan_frame. destruct (lookup_lt_is_Some_2 pan fr) as [p Hpp]; [lia|]. rewrite Hpp. cbn [runwrap rbind].
    destruct (get_seen inp iv 0 fr) as (l & -> & Hl); [done|done|lia|lia|]. cbn [rbind].
    destruct (get_seen inp iv 1 fr) as (r & -> & Hr); [done|done|lia|lia|]. cbn [rbind].
    destruct (pan_set out ov 0 fr (mul l (gains p).1)) as (o1 & -> & W1); [done|done|lia|done|]. cbn [rbind].
    pose proof W1 as (A1 & A2 & _). destruct (same_dims_view out o1 ov A2) as (E1 & E2 & E3 & _).
    destruct (pan_set o1 ov 1 fr (mul r (gains p).2)) as (o2 & -> & W2); [done|by apply E3|lia|lia|].
    exists o2. split; [done|]. eapply written_mono; [eapply written_trans; [exact W1|exact W2]|]. cbv beta.
    intros ch f x y Hc Hff (z & -> & ->). destruct (decide (ch < 2 ∧ f = fr)) as [[H1 ->]|Hn].
    - assert (ch = 0 ∨ ch = 1) as [-> | ->] by lia; exists p; eexists; (split; [done|]; split; [eassumption|]); repeat case_decide; try done; exfalso; lia.
    - repeat case_decide; try done; exfalso; lia.
  Qed.
  Lemma pan_loop n : ∀ k (out : owned A), wf out → valid_view out ov → 2 ≤ v_channels out ov → k + n ≤ v_frames out ov →
    v_frames out ov ≤ v_frames inp iv → v_frames out ov ≤ length pan →
    ∃ out', rfold step (seq k n) out = Ok out' ∧
      written out ov out' (λ ch f x y, if decide (ch < 2 ∧ k ≤ f < k + n) then panned pan inp iv ch f y else y = x).
  Proof.
    induction n as [|n IH]; intros k out Hw Hv Ho Hk Hf Hp; cbn [seq rfold].
    { exists out. split; [done|]. apply written_refl; [done..|]. intros. rewrite decide_False by lia. done. }
    destruct (pan_frame_ok out k) as (o1 & -> & W1); [done|done|lia|lia|lia|lia|]. cbn [rbind].
    pose proof W1 as (A1 & A2 & _). destruct (same_dims_view out o1 ov A2) as (E1 & E2 & E3 & _).
    destruct (IH (S k) o1) as (o2 & -> & W2); [done|by apply E3|lia|lia|lia|lia|].
    exists o2. split; [done|]. eapply written_mono; [eapply written_trans; [exact W1|exact W2]|]. cbv beta.
    intros ch f x y Hc Hff (z & H1 & H2). repeat case_decide; subst; try done; exfalso; lia.
  Qed.
End pan.

Lemma pan_process_ok {A} (mul : A → A → A) gains pan (inp : owned A) iv (out : owned A) ov :
  wf inp → valid_view inp iv → wf out → valid_view out ov → v_channels inp iv = 2 → v_channels out ov = 2 →
  v_frames out ov ≤ v_frames inp iv → v_frames out ov ≤ length pan →
  ∃ out', pan_process mul gains pan inp iv out ov = Ok out' ∧
    written out ov out' (λ ch fr _ y, panned mul gains pan inp iv ch fr y).
Proof.
  intros Hwi Hvi Hw Hv H1 H2 Hf Hp. unfold pan_process.
  destruct (pan_loop mul gains pan inp iv ov Hwi Hvi ltac:(lia) (v_frames out ov) 0 out) as (out' & -> & W); [done|done|lia|lia|lia|lia|].
  exists out'. split; [done|]. eapply written_mono; [exact W|]. cbv beta. intros ch fr x y Hc Hfr. rewrite decide_True by lia. done.
Qed.

(** ** Over the reals *)
Local Open Scope R_scope.
Lemma close32_bound g b : (b = 0 ∨ b = 1) → close32R g b = true → Rabs (g - b) <= / 2 ^ 22.
Proof.
  intros Hb. unfold close32R, eps32R. destruct (Rle_dec _ _) as [H|H].
  { intros _. assert (/ 2 ^ 23 <= / 2 ^ 22). { apply Rinv_le_contravar; lra. } lra. }
  destruct (Rle_dec _ _) as [H'|]; [|done]. intros _.
  assert (Hmax : Rmax (Rabs g) (Rabs b) <= 1 + Rabs (g - b)).
  { apply Rmax_lub.
    - replace g with (b + (g - b)) at 1 by ring. eapply Rle_trans; [apply Rabs_triang|]. destruct Hb as [-> | ->]; rewrite ?Rabs_R0, ?Rabs_R1; lra.
    - pose proof (Rabs_pos (g - b)). destruct Hb as [-> | ->]; rewrite ?Rabs_R0, ?Rabs_R1; lra. }
  set (d := Rabs (g - b)) in *. set (M := Rmax _ _) in *.
  assert (M * / 2 ^ 23 <= (1 + d) * / 2 ^ 23) by (apply Rmult_le_compat_r; lra). lra.
Qed.

Local Notation gainedR := (gained 0 (fun g => close32R g 0) (fun g => close32R g 1) Rmult).
Lemma forallb_lookup {X} (p : X → bool) l i x : forallb p l = true → l !! i = Some x → p x = true.
Proof. intros H Hx. rewrite forallb_forall in H. apply H. apply elem_of_list_In. by eapply elem_of_list_lookup_2. Qed.
Lemma gained_error gain fr g x : gain !! fr = Some g → Rabs (gainedR gain fr x - x * g) <= / 2 ^ 22 * Rabs x.
Proof.
  intros Hg. unfold gained. assert (0 < / 2 ^ 22) by lra. pose proof (Rabs_pos x).
  destruct (forallb (λ g, close32R g 0) gain) eqn:Ez; [|destruct (forallb (λ g, close32R g 1) gain) eqn:Eo].
  - pose proof (forallb_lookup _ _ _ _ Ez Hg) as Hc. apply close32_bound in Hc; [|by left]. rewrite Rminus_0_r in Hc.
    replace (0 - x * g) with (- (g * x)) by ring. rewrite Rabs_Ropp, Rabs_mult. apply Rmult_le_compat_r; lra.
  - pose proof (forallb_lookup _ _ _ _ Eo Hg) as Hc. apply close32_bound in Hc; [|by right].
    replace (x - x * g) with (- ((g - 1) * x)) by ring. rewrite Rabs_Ropp, Rabs_mult. apply Rmult_le_compat_r; lra.
  - rewrite Hg. cbn. replace (x * g - x * g) with 0 by ring. rewrite Rabs_R0. apply Rmult_le_pos; lra.
Qed.
(** one gain away from 0 and one away from 1 are enough *)
Lemma gained_exact gain fr g x : gain !! fr = Some g →
  (∀ h, h ∈ gain → h = 0) ∨ (∀ h, h ∈ gain → h = 1) ∨
  ((∃ h, h ∈ gain ∧ / 2 ^ 22 < Rabs h) ∧ ∃ h, h ∈ gain ∧ / 2 ^ 22 < Rabs (h - 1)) → gainedR gain fr x = x * g.
Proof.
  intros Hg Hcases. unfold gained. pose proof (elem_of_list_lookup_2 _ _ _ Hg) as Hin.
  destruct (forallb (λ g, close32R g 0) gain) eqn:Ez; [|destruct (forallb (λ g, close32R g 1) gain) eqn:Eo].
  - destruct Hcases as [H|[H|[(h & Hh & H) _]]].
    + rewrite (H g Hin). ring.
    + pose proof (forallb_lookup _ _ _ _ Ez Hg) as Hc. rewrite (H g Hin) in Hc. apply close32_bound in Hc; [|by left].
      rewrite Rminus_0_r, Rabs_R1 in Hc. lra.
    + apply elem_of_list_lookup_1 in Hh as [j Hj]. pose proof (forallb_lookup _ _ _ _ Ez Hj) as Hc. apply close32_bound in Hc; [|by left].
      rewrite Rminus_0_r in Hc. lra.
  - destruct Hcases as [H|[H|[_ (h & Hh & H)]]].
    + pose proof (forallb_lookup _ _ _ _ Eo Hg) as Hc. rewrite (H g Hin) in Hc. apply close32_bound in Hc; [|by right].
      rewrite Rminus_0_l, Rabs_Ropp, Rabs_R1 in Hc. lra.
    + rewrite (H g Hin). ring.
    + apply elem_of_list_lookup_1 in Hh as [j Hj]. pose proof (forallb_lookup _ _ _ _ Eo Hj) as Hc. apply close32_bound in Hc; [|by right].
      lra.
  - by rewrite Hg.
Qed.

Lemma pan_gains_range p : -1 <= p <= 1 →
  0 <= (pan_gains p).1 <= 1 ∧ 0 <= (pan_gains p).2 <= 1 ∧ ((pan_gains p).1 = 1 ∨ (pan_gains p).2 = 1) ∧
  ((pan_gains p).1 = 1 ∧ (pan_gains p).2 = 1 ↔ p = 0) ∧ ((pan_gains p).1 = 0 ↔ p = 1) ∧ ((pan_gains p).2 = 0 ↔ p = -1).
Proof.
  intros Hp. unfold pan_gains. cbn [fst snd]. unfold Rmin. repeat destruct (Rle_dec _ _); repeat split; intros; try lra; (left; lra) || (right; lra).
Qed.
