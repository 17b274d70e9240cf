From stdpp Require Import list list_numbers.
From Coq Require Import Reals Lra Lia.
From Verif Require Import Base Buffer BufferSpec BufferProofs EffectSpec EffectProofs Mixer MixerR GainProofs ResampleSpec ResampleCases WaveshaperProofs Biquad BiquadSpec.
Local Open Scope R_scope.

Local Notation D := (/ 10 ^ 8).
Lemma D_pos : 0 < D.
Proof. apply Rinv_0_lt_compat. apply pow_lt. lra. Qed.
Lemma denormal_flushed x : denormal x = flushed D x.
Proof.
  pose proof D_pos. unfold denormal, flushed. destruct (Rle_dec (Rabs x) D) as [H1|H1].
  - unfold Rabs in H1. destruct (Rcase_abs x); repeat destruct (Rle_dec _ _); lra.
  - unfold Rabs in H1. destruct (Rcase_abs x); repeat destruct (Rle_dec _ _); lra.
Qed.
Lemma flushed_zero delta : flushed delta 0 = 0.
Proof. unfold flushed. by destruct (Rle_dec _ _). Qed.
Lemma flushed_twice delta x : flushed delta (flushed delta x) = flushed delta x.
Proof. unfold flushed. destruct (Rle_dec (Rabs x) delta) as [H|H]; [by destruct (Rle_dec _ _)|]. by destruct (Rle_dec (Rabs x) delta). Qed.

(** the memory of a filter after [n] samples *)
Section filter.
  Context (c : nat → coefficients) (x : nat → R) (d0 : delay).
  Fixpoint memory (n : nat) : delay :=
    match n with O => d0 | S n => filter_delay (memory n) (x n) (filter_value (c n) (memory n) (x n)) end.
  Definition output (n : nat) : R := filter_value (c n) (memory n) (x n).
  Lemma memory_S n : memory (S n) = filter_delay (memory n) (x n) (output n).
  Proof. done. Qed.
End filter.

(** what the memory holds *)
Section holds.
  Context (c : nat → coefficients) (x : nat → R).
  Local Notation mem := (memory c x (Delay 0 0 0 0)).
  Local Notation out := (output c x (Delay 0 0 0 0)).
  Definition before (f : nat → R) (n k : nat) : R := if decide (k ≤ n)%nat then f (n - k)%nat else 0.
  Lemma before_1 f n : before f (S n) 1 = f n.
  Proof. unfold before. rewrite decide_True by lia. f_equal. lia. Qed.
  Lemma before_2 f n : before f (S n) 2 = before f n 1.
  Proof. unfold before. destruct (decide (1 ≤ n)%nat); [rewrite decide_True by lia; f_equal; lia|by rewrite decide_False by lia]. Qed.
  Lemma memory_holds n : mem n = Delay (flushed D (before x n 1)) (flushed D (before x n 2)) (flushed D (before out n 1)) (flushed D (before out n 2)).
  Proof.
    induction n as [|n IH].
    - cbn [memory]. unfold before. rewrite !decide_False by lia. by rewrite flushed_zero.
    - rewrite memory_S. unfold filter_delay. rewrite !denormal_flushed, !before_1, !before_2. rewrite IH at 1 2. cbn [d_x1 d_y1]. by rewrite !flushed_twice.
  Qed.
End holds.

Lemma at_fmap (f : nat → R) N n : (n < N)%nat → at_ (f <$> seq 0 N) n = f n.
Proof. intros H. unfold at_. rewrite list_lookup_fmap, lookup_seq_lt by done. done. Qed.
Lemma earlier_fmap (f : nat → R) N n k : (n < N)%nat → earlier (f <$> seq 0 N) n k = before f n k.
Proof. intros H. unfold earlier, before. destruct (decide _); [|done]. apply at_fmap. lia. Qed.
Lemma output_follows cs xs (c : nat → coefficients) : (∀ n k, cs !! n = Some k → c n = k) → length xs = length cs →
  follows D cs xs (output c (at_ xs) (Delay 0 0 0 0) <$> seq 0 (length cs)).
Proof.
  intros Hc Hl. split; [done|]. split; [by rewrite fmap_length, seq_length|]. intros n k Hk. pose proof (lookup_lt_Some _ _ _ Hk).
  rewrite at_fmap by done. rewrite !earlier_fmap by done. unfold output at 1. rewrite memory_holds, (Hc n k Hk). unfold filter_value. cbn [d_x1 d_x2 d_y1 d_y2].
  unfold earlier, before. done.
Qed.

(** ** A frame *)
Lemma same_parameters_eq p p' : same_parameters p p' = true → p = p'.
Proof. destruct p, p'. unfold same_parameters. cbn. repeat destruct (Req_EM_T _ _); intros; subst; done. Qed.
Definition bq_inv (t : filter_type) (sr n : nat) (b : biquad) : Prop :=
  bq_type b = t ∧ bq_sample_rate b = sr ∧ bq_coefficients b = calculate_coefficients t (bq_last b) sr ∧ length (bq_delays b) = n.

Section block.
  Context (inp : owned R) (iv ov : view) (Hwi : wf inp) (Hvi : valid_view inp iv).
  Lemma channels_ok c fr m : ∀ delays out, wf out → valid_view out ov → (m ≤ v_channels out ov)%nat → (m ≤ v_channels inp iv)%nat → (m ≤ length delays)%nat →
    (fr < v_frames out ov)%nat → (fr < v_frames inp iv)%nat →
    ∃ delays' out', rfold (bq_channel c inp iv ov fr) (seq 0 m) (delays, out) = Ok (delays', out') ∧ length delays' = length delays ∧
      (∀ ch d, delays !! ch = Some d → ∃ x, (ch < m → seen inp iv ch fr = Some x)%nat ∧ delays' !! ch = Some (if decide (ch < m)%nat then filter_delay d x (filter_value c d x) else d)) ∧
      written out ov out' (λ ch f x z, if decide (ch < m ∧ f = fr)%nat then ∃ d v, delays !! ch = Some d ∧ seen inp iv ch fr = Some v ∧ z = filter_value c d v else z = x).
  Proof.
    induction m as [|m IH]; intros delays out Hw Hv H1 H2 H3 H4 H5.
    { exists delays, out. split; [done|]. split; [done|]. split.
      - intros ch d Hd. exists 0. rewrite decide_False by lia. split; [lia|done].
      - apply written_refl; [done..|]. intros. rewrite decide_False by lia. done. }
    destruct (IH delays out) as (ds & o1 & E & L & Hds & W1); [done|done|lia..|].
    rewrite (seq_S m 0), rfold_app, E. cbn [rbind rfold]. unfold bq_channel. change (0 + m)%nat with m.
    destruct (get_seen inp iv m fr) as (v & Ev & Sv); [done|done|lia|lia|]. rewrite Ev. cbn [rbind].
    destruct (lookup_lt_is_Some_2 delays m) as [d Ed]; [lia|]. destruct (Hds m d Ed) as (xx & _ & Em). rewrite (decide_False (P := (m < m)%nat)) in Em by lia.
    rewrite Em. cbn [runwrap rbind]. pose proof W1 as (A1 & A2 & _). destruct (same_dims_view out o1 ov A2) as (E1 & E2 & E3 & _).
    destruct (pan_set o1 ov m fr (filter_value c d v)) as (o2 & -> & W2); [done|by apply E3|lia|lia|]. cbn [rbind].
    eexists _, o2. split; [done|]. split; [by rewrite insert_length|]. split.
    - intros ch d' Hd'. destruct (decide (ch = m)) as [->|Hne].
      + rewrite Ed in Hd'. injection Hd' as <-. exists v. split; [done|]. rewrite list_lookup_insert by (apply lookup_lt_is_Some_1; by eexists). by rewrite decide_True by lia.
      + destruct (Hds ch d' Hd') as (x & Hx & Ex). exists x. rewrite list_lookup_insert_ne by done. split; [intros; apply Hx; lia|]. rewrite Ex.
        destruct (decide (ch < m)%nat); [rewrite decide_True by lia|rewrite decide_False by lia]; done.
    - eapply written_mono; [eapply written_trans; [exact W1|exact W2]|]. cbv beta. intros ch f x z Hc Hf (y & Hy & ->).
      destruct (decide (ch = m ∧ f = fr)) as [[-> ->]|Hn].
      + rewrite decide_True by lia. exists d, v. done.
      + destruct (decide (ch < m ∧ f = fr)%nat); [rewrite decide_True by lia; done|]. rewrite decide_False by lia. done.
  Qed.

  Context (t : filter_type) (sr n : nat) (frequency q shelf gain : list R).
  Context (cf : nat → coefficients) (x : nat → nat → R) (d0 : delay) (p F : nat).
  Context (Hic : v_channels inp iv = n) (Hif : v_frames inp iv = F).
  Context (Hlf : length frequency = F) (Hlq : length q = F) (Hls : length shelf = F) (Hlg : length gain = F).
  Context (Hcf : ∀ i, (i < F)%nat → cf (p + i)%nat = calculate_coefficients t (FilterParameters (at_ frequency i) (at_ q i) (at_ shelf i)) sr).
  Context (Hx : ∀ ch i, (ch < n)%nat → (i < F)%nat → seen inp iv ch i = Some (x ch (p + i)%nat)).
  Local Notation mem ch := (memory cf (x ch) d0).
  Local Notation outv ch := (output cf (x ch) d0).
  Definition remembers (k : nat) (b : biquad) : Prop := ∀ ch, (ch < n)%nat → bq_delays b !! ch = Some (mem ch k).

  Lemma frame_ok b out fr : bq_inv t sr n b → remembers (p + fr) b → wf out → valid_view out ov → v_channels out ov = n → v_frames out ov = F → (fr < F)%nat →
    ∃ b' out', bq_frame frequency q shelf inp iv ov (b, out) fr = Ok (b', out') ∧ bq_inv t sr n b' ∧ remembers (p + S fr) b' ∧
      written out ov out' (λ ch f x z, if decide (f = fr) then z = outv ch (p + f)%nat else z = x).
  Proof.
    intros (Ht & Hs & Hc & Hl) Hrem Hw Hv Hoc Hof Hfr. unfold bq_frame.
    destruct (lookup_lt_is_Some_2 frequency fr) as [vf Ef]; [lia|]. destruct (lookup_lt_is_Some_2 q fr) as [vq Eq]; [lia|]. destruct (lookup_lt_is_Some_2 shelf fr) as [vs Es]; [lia|].
    rewrite Ef, Eq, Es. cbn [runwrap rbind].
    assert (Hcl : ∃ last, (if same_parameters (FilterParameters vf vq vs) (bq_last b) then (bq_coefficients b, bq_last b)
      else (calculate_coefficients (bq_type b) (FilterParameters vf vq vs) (bq_sample_rate b), FilterParameters vf vq vs)) = (cf (p + fr)%nat, last) ∧ cf (p + fr)%nat = calculate_coefficients t last sr).
    { assert (Ecf : cf (p + fr)%nat = calculate_coefficients t (FilterParameters vf vq vs) sr). { rewrite Hcf by done. unfold at_. by rewrite Ef, Eq, Es. }
      destruct (same_parameters _ _) eqn:E.
      - apply same_parameters_eq in E. exists (bq_last b). rewrite Hc, <-E. by rewrite Ecf.
      - eexists. split; [|exact Ecf]. by rewrite Ecf, Ht, Hs. }
    destruct Hcl as (last & -> & Hlast).
    destruct (channels_ok (cf (p + fr)%nat) fr n (bq_delays b) out) as (ds & o1 & E & L & Hds & W); [done|done|lia..|].
    rewrite Hoc, E. cbn [rbind]. eexists _, o1. split; [done|]. split; [|split].
    - do 3 (split; [done|]). cbn [bq_delays]. lia.
    - intros ch Hch. cbn [bq_delays]. destruct (Hds ch _ (Hrem ch Hch)) as (v & Hvv & ->). rewrite decide_True by done. specialize (Hvv Hch). rewrite Hx in Hvv by done. injection Hvv as <-.
      replace (p + S fr)%nat with (S (p + fr)) by lia. done.
    - eapply written_mono; [exact W|]. cbv beta. intros ch f y z Hch Hf. destruct (decide (f = fr)) as [->|Hne].
      + rewrite decide_True by lia. intros (d & v & Hd & Hvv & ->). rewrite Hrem in Hd by lia. injection Hd as <-. rewrite Hx in Hvv by lia. by injection Hvv as <-.
      + rewrite decide_False by lia. done.
  Qed.
  Lemma frames_ok m : ∀ b out, bq_inv t sr n b → remembers p b → wf out → valid_view out ov → v_channels out ov = n → v_frames out ov = F → (m ≤ F)%nat →
    ∃ b' out', rfold (bq_frame frequency q shelf inp iv ov) (seq 0 m) (b, out) = Ok (b', out') ∧ bq_inv t sr n b' ∧ remembers (p + m) b' ∧
      written out ov out' (λ ch f x z, if decide (f < m)%nat then z = outv ch (p + f)%nat else z = x).
  Proof.
    induction m as [|m IH]; intros b out Hi Hr Hw Hv Hc Hf Hm.
    { exists b, out. split; [done|]. split; [done|]. rewrite (Nat.add_0_r p). split; [done|]. apply written_refl; [done..|]. intros. rewrite decide_False by lia. done. }
    destruct (IH b out) as (b1 & o1 & E & Hi1 & Hr1 & W1); [done..|lia|]. rewrite (seq_S m 0), rfold_app, E. cbn [rbind rfold]. change (0 + m)%nat with m.
    pose proof W1 as (A1 & A2 & _). destruct (same_dims_view out o1 ov A2) as (E1 & E2 & E3 & _).
    destruct (frame_ok b1 o1 m) as (b2 & o2 & Ef & Hi2 & Hr2 & W2); [done|done|done|by apply E3|lia|lia|lia|]. rewrite Ef. cbn [rbind].
    exists b2, o2. split; [done|]. split; [done|]. split; [done|]. eapply written_mono; [eapply written_trans; [exact W1|exact W2]|]. cbv beta.
    intros ch f y z Hch Hff (w & Hy & Hz). destruct (decide (f = m)) as [->|Hne]; [by rewrite decide_True by lia|].
    subst z. destruct (decide (f < m)%nat); [rewrite decide_True by lia|rewrite decide_False by lia]; done.
  Qed.
  Lemma process_ok b out : bq_inv t sr n b → remembers p b → wf out → valid_view out ov → v_channels out ov = n → v_frames out ov = F →
    ∃ b' out', bq_process frequency q shelf gain inp iv out ov b = Ok (b', out') ∧ bq_inv t sr n b' ∧ remembers (p + F) b' ∧
      written out ov out' (λ ch f _ z, ∃ g, gain !! f = Some g ∧ Rabs (z - outv ch (p + f)%nat * g) <= / 2 ^ 22 * Rabs (outv ch (p + f)%nat)).
  Proof.
    intros Hi Hr Hw Hv Hc Hf. unfold bq_process. destruct (frames_ok F b out) as (b1 & o1 & E & Hi1 & Hr1 & W1); [done..|]. rewrite Hf, E. cbn [rbind].
    pose proof W1 as (A1 & A2 & _). destruct (same_dims_view out o1 ov A2) as (E1 & E2 & E3 & _).
    destruct (gain_apply 0 (λ g, close32R g 0) (λ g, close32R g 1) Rmult gain o1 ov) as (o2 & -> & W2); [done|by apply E3|]. cbn [rbind].
    exists b1, o2. split; [done|]. split; [done|]. split; [done|]. eapply written_mono; [eapply written_trans; [exact W1|exact W2]|]. cbv beta.
    intros ch f y z Hch Hff (w & Hy & ->). rewrite decide_True in Hy by lia. subst w. destruct (lookup_lt_is_Some_2 gain f) as [g Eg]; [lia|].
    exists g. split; [done|]. by apply gained_error.
  Qed.
End block.

(** ** Sessions *)
Lemma block_settings_length t sr b : length (block_settings t sr b) = qframes b.
Proof. unfold block_settings. by rewrite fmap_length, seq_length. Qed.
Lemma settings_length t sr l : length (settings t sr l) = played l.
Proof. induction l as [|b l IH]; [done|]. unfold settings in *. cbn [fmap list_fmap concat]. rewrite app_length, IH, block_settings_length. done. Qed.
Lemma received_length n l ch : Forall (qblock_ok n) l → length (received l ch) = played l.
Proof.
  induction 1 as [|b l Hb Hl IH]; [done|]. unfold received in *. cbn [fmap list_fmap concat]. rewrite app_length, IH, row_from_length.
  destruct Hb as (_ & _ & _ & _ & _ & _ & Hf & _). cbn. unfold played. cbn. lia.
Qed.

Lemma session_from t sr n l : ∀ b p (cf : nat → coefficients) (x : nat → nat → R) d0, Forall (qblock_ok n) l → bq_inv t sr n b →
  (∀ i c, settings t sr l !! i = Some c → cf (p + i)%nat = c) →
  (∀ ch i v, (ch < n)%nat → received l ch !! i = Some v → x ch (p + i)%nat = v) →
  remembers n cf x d0 p b →
  ∃ outs, qsession b l = Ok outs ∧ length outs = length l ∧
    ∀ k b out', l !! k = Some b → outs !! k = Some out' →
      written (qb_out b) (qb_ov b) out' (λ ch fr _ z, ∃ g, qb_gain b !! fr = Some g ∧
        Rabs (z - output cf (x ch) d0 (p + (played (take k l) + fr))%nat * g) <= / 2 ^ 22 * Rabs (output cf (x ch) d0 (p + (played (take k l) + fr))%nat)).
Proof.
  induction l as [|q l IH]; intros b p cf x d0 Hl Hi Hcf Hx Hr.
  { exists []. split; [done|]. split; [done|]. intros k bb o Hk. done. }
  apply Forall_cons in Hl as [Hq Hl]. pose proof Hq as (Hwi & Hvi & Hwo & Hvo & Hic & Hoc & Hf & L1 & L2 & L3 & L4).
  destruct (process_ok (qb_in q) (qb_iv q) (qb_ov q) Hwi Hvi t sr n (qb_frequency q) (qb_q q) (qb_shelf q) (qb_gain q) cf x d0 p (qframes q)) with (b := b) (out := qb_out q)
    as (b' & out' & E & Hi' & Hr' & W); [done..| | |done|done|done|done|done|done|].
  { intros i Hlt. apply Hcf. unfold settings. cbn [fmap list_fmap concat]. rewrite lookup_app_l by (rewrite block_settings_length; lia).
    unfold block_settings. rewrite list_lookup_fmap, lookup_seq_lt by done. done. }
  { intros ch i Hch Hlt. destruct (seen_some (qb_in q) (qb_iv q) ch i Hwi Hvi) as [s Hs]; [lia|lia|]. rewrite seen_eq, Hs by lia. f_equal. symmetry. apply Hx; [done|].
    unfold received. cbn [fmap list_fmap concat]. rewrite lookup_app_l by (rewrite row_from_length; lia). rewrite row_from_lookup by (done || lia). change (0 + i)%nat with i.
    by rewrite seen_eq by lia. }
  cbn [qsession]. rewrite E. cbn [rbind]. destruct (IH b' (p + qframes q)%nat cf x d0) as (outs & Eo & Lo & H); [done|done| | |done|].
  { intros i c Hc. rewrite <-Nat.add_assoc. apply Hcf. unfold settings. cbn [fmap list_fmap concat]. rewrite lookup_app_r; rewrite block_settings_length; [|lia].
    by replace (qframes q + i - qframes q)%nat with i by lia. }
  { intros ch i v Hch Hv. rewrite <-Nat.add_assoc. apply Hx; [done|]. unfold received. cbn [fmap list_fmap concat]. rewrite lookup_app_r; rewrite row_from_length; [|lia].
    by replace (qframes q + i - (v_frames (qb_in q) (qb_iv q) - 0))%nat with i by lia. }
  rewrite Eo. cbn [rbind]. exists (out' :: outs). split; [done|]. split; [cbn; lia|]. intros [|k] bb o Hk Ho; cbn in Hk, Ho.
  - injection Hk as <-. injection Ho as <-. cbn [take]. unfold played at 1 2. cbn [fmap list_fmap foldr Nat.add]. exact W.
  - specialize (H k bb o Hk Ho). eapply written_mono; [exact H|]. cbv beta. intros ch fr _ z Hc Hfr. cbn [take]. unfold played. cbn [fmap list_fmap foldr].
    rewrite <-!Nat.add_assoc. done.
Qed.

Lemma new_inv t sr n : bq_inv t sr n (new_biquad sr n t).
Proof. do 3 (split; [done|]). cbn [new_biquad bq_delays]. by rewrite replicate_length. Qed.
Lemma session_ok t sr n l : Forall (qblock_ok n) l → ∃ outs y, qsession (new_biquad sr n t) l = Ok outs ∧
  (∀ ch, (ch < n)%nat → follows (/ 10 ^ 8) (settings t sr l) (received l ch) (y ch)) ∧ sounds y l outs.
Proof.
  intros Hl. set (cf := λ i, default (Coefficients 0 0 0 0 0) (settings t sr l !! i)). set (x := λ ch, at_ (received l ch)).
  destruct (session_from t sr n l (new_biquad sr n t) 0 cf x (Delay 0 0 0 0)) as (outs & E & Lo & H); [done|apply new_inv| | | |].
  { intros i c Hc. change (0 + i)%nat with i. unfold cf. by rewrite Hc. }
  { intros ch i v Hch Hv. change (0 + i)%nat with i. unfold x, at_. by rewrite Hv. }
  { intros ch Hch. cbn [new_biquad bq_delays memory]. by apply lookup_replicate_2. }
  exists outs, (λ ch, output cf (x ch) (Delay 0 0 0 0) <$> seq 0 (length (settings t sr l))). split; [done|]. split.
  - intros ch Hch. apply output_follows; [|by rewrite settings_length, (received_length n)]. intros i k Hk. unfold cf. by rewrite Hk.
  - split; [done|]. intros k b out' Hk Ho. eapply written_mono; [exact (H k b out' Hk Ho)|]. cbv beta. intros ch fr _ z Hc Hfr (g & Hg & Hz).
    exists g, (output cf (x ch) (Delay 0 0 0 0) (played (take k l) + fr)%nat). split; [done|]. split; [|done].
    rewrite list_lookup_fmap, lookup_seq_lt; [done|]. rewrite settings_length. rewrite <-(take_drop_middle l k b Hk) at 2.
    unfold played. rewrite fmap_app, foldr_app. cbn [fmap list_fmap foldr]. fold (played (drop (S k) l)). 
    assert (Hsum : ∀ (m : list nat) a, foldr Nat.add a m = (foldr Nat.add 0 m + a)%nat). { induction m as [|? m IHm]; intros; [done|]. cbn. rewrite IHm. lia. }
    rewrite (Hsum _ (qframes b + _)%nat). unfold qframes in *. lia.
Qed.
