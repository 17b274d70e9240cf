(** Adding to a sample, and the test for silence. *)
From stdpp Require Import list.
From Coq Require Import Lia.
From Verif Require Import Base Buffer BufferSpec BufferProofs.

Section access.
Context {A : Type}.
Implicit Types (b : owned A) (v : view).

Lemma add_sample_ok (add : A → A → A) b v ch fr x : wf b → valid_view b v → ch + off_ch v < channels b → fr < v_frames b v →
  ∃ y b', sample b (ch + off_ch v) (fr + off_fr v) = Some y ∧ add_sample add b v ch fr x = Ok b' ∧ wf b' ∧ same_dims b b' ∧
    ∀ c f, sample b' c f = if decide (c = ch + off_ch v ∧ f = fr + off_fr v) then Some (add x y) else sample b c f.
Proof.
  intros Hw Hv Hc Hf. destruct (get_channel_data_ok b v ch fr Hw Hv) as (l & El & Hl & Hi); [lia|by right|].
  assert (Hs : ∃ y, get_sample b v ch fr = Ok y). { unfold get_sample. rewrite El. cbn. destruct l as [|y l]; [cbn in Hl; lia|by exists y]. }
  destruct Hs as [y Hy]. pose proof (proj1 (get_sample_ok b v ch fr y Hw Hv Hc Hf) Hy) as Hsy.
  destruct (set_sample_ok b v ch fr (add x y) Hw Hv Hc Hf) as (b' & Hb & W & D & S). exists y, b'. split; [done|]. split; [|split; [done|split; [done|]]].
  - unfold add_sample. rewrite Hy. exact Hb.
  - intros c f. rewrite S. unfold in_rect. destruct (decide (c = ch + off_ch v ∧ f = fr + off_fr v)) as [[-> ->]|Hn].
    + rewrite decide_True by lia. by rewrite Hsy.
    + rewrite decide_False by lia. done.
Qed.
Lemma add_sample_panics (add : A → A → A) b v ch fr x : wf b → valid_view b v → ¬ (ch + off_ch v < channels b ∧ fr < v_frames b v) →
  ∃ p, add_sample add b v ch fr x = Panic p.
Proof. intros Hw Hv Hn. destruct (get_sample_panics b v ch fr Hw Hv Hn) as [p E]. exists p. unfold add_sample. by rewrite E. Qed.
Lemma silent_ok (is_zero : A → bool) b v ch : wf b → valid_view b v → ch + off_ch v < channels b →
  ∃ r, channel_is_silent is_zero b v ch = Ok r ∧
    (r = true ↔ ∀ fr x, fr < v_frames b v → sample b (ch + off_ch v) (fr + off_fr v) = Some x → is_zero x = true).
Proof.
  intros Hw Hv Hc. unfold channel_is_silent. destruct (get_channel_data_ok b v ch 0 Hw Hv) as (l & -> & Hl & Hi); [lia|by right|]. eexists. split; [reflexivity|].
  rewrite forallb_forall. split.
  - intros H fr x Hf Hx. apply H. apply elem_of_list_In, elem_of_list_lookup. exists fr. rewrite Hi by lia. replace (0 + off_fr v + fr) with (fr + off_fr v) by lia. exact Hx.
  - intros H x Hx. apply elem_of_list_In, elem_of_list_lookup in Hx as [i Hx]. pose proof (lookup_lt_Some _ _ _ Hx). apply (H i); [lia|]. rewrite <-Hx, Hi by lia. f_equal. lia.
Qed.
End access.
