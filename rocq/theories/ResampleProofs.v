From stdpp Require Import list list_numbers.
From Coq Require Import Reals Lra Lia ZArith.
From Verif Require Import Base Buffer BufferSpec BufferProofs EffectSpec EffectProofs Float FloatProofs Envelope Arith Resample ResampleSpec.
From Verif Require Import OscillatorPhase OscillatorProofs.

Section generic.
  Context {N : Type} (a : arith N).
  Lemma resampled_ok source ratio index : source ≠ [] → ∃ y, resampled a source ratio index = Ok y.
  Proof.
    intros Hs. unfold resampled. destruct (Nat.ltb_spec 0 (length source)) as [Hl|Hl]; [|destruct source; [done|cbn in Hl; lia]]. cbn [rassert].
    destruct (lookup_lt_is_Some_2 source (Z.to_nat (a_floor a (a_mul a (a_of a (Z.of_nat index)) ratio)) `min` (length source - 1))) as [x ->]; [lia|].
    destruct (lookup_lt_is_Some_2 source (Z.to_nat (a_ceil a (a_mul a (a_of a (Z.of_nat index)) ratio)) `min` (length source - 1))) as [z ->]; [lia|].
    cbn [runwrap rbind]. by eexists.
  Qed.
  Lemma resampled_row_ok source ratio n : source ≠ [] ∨ n = 0 →
    ∃ row, resampled_row a source ratio n = Ok row ∧ length row = n ∧ ∀ i y, row !! i = Some y → resampled a source ratio i = Ok y.
  Proof.
    intros Hs. unfold resampled_row. induction n as [|n IH].
    { exists []. done. }
    destruct IH as (row & E & L & H); [left; by destruct Hs|]. rewrite seq_S, rfold_app, E. cbn [rbind rfold Nat.add].
    destruct (resampled_ok source ratio n) as [y Ey]; [by destruct Hs|]. rewrite Ey. cbn [rbind]. exists (row ++ [y]). split; [done|].
    split; [rewrite app_length; cbn; lia|]. intros i z Hi. destruct (decide (i < n)).
    - rewrite lookup_app_l in Hi by lia. by apply H.
    - rewrite lookup_app_r in Hi by lia. destruct (i - length row) as [|k] eqn:Ei; cbn in Hi; [|done]. injection Hi as <-.
      assert (i = n) as -> by lia. done.
  Qed.
  Lemma row_from_data (zero : N) (b : owned N) v ch fr : wf b → valid_view b v → ch < v_channels b v → fr ≤ v_frames b v →
    get_channel_data b v ch fr = Ok (row_from zero b v ch fr).
  Proof.
    intros Hw Hv Hc Hf. pose proof (valid_off _ _ Hv) as Ho. destruct (get_channel_data_ok b v ch fr Hw Hv Hf) as (l & -> & Hl & Hi); [lia|]. f_equal.
    apply list_eq_same_length with (v_frames b v - fr); [by unfold row_from; rewrite fmap_length, seq_length|lia|].
    intros i x y Hlt Hx Hy. rewrite Hi in Hx by lia. unfold row_from in Hy. rewrite list_lookup_fmap, lookup_seq_lt in Hy by lia. cbn in Hy. injection Hy as <-.
    rewrite seen_eq by lia. replace (off_ch v + ch) with (ch + off_ch v) by lia. replace (off_fr v + (fr + i)) with (fr + off_fr v + i) by lia. by rewrite Hx.
  Qed.

  Context (zero : N).
  Definition conv_ratio (dst src : owned N) : N := a_div a (a_of a (Z.of_nat (rate src))) (a_of a (Z.of_nat (rate dst))).
  Lemma convert_ok (dst : owned N) dv (src : owned N) sv sc sf dc df cc :
    wf dst → valid_view dst dv → wf src → valid_view src sv →
    sc + cc ≤ v_channels src sv → dc + cc ≤ v_channels dst dv → sf < v_frames src sv → df ≤ v_frames dst dv →
    ∃ dst', sample_rate_convert_from a dst dv src sv sc sf dc df cc = Ok dst' ∧
      written dst dv dst' (λ ch fr x y, if decide (dc ≤ ch < dc + cc ∧ df ≤ fr)
        then resampled a (row_from zero src sv (sc + (ch - dc)) sf) (conv_ratio dst src) (fr - df) = Ok y else y = x).
  Proof.
    intros Hwd Hvd Hws Hvs Hsc Hdc Hsf Hdf. unfold sample_rate_convert_from. fold (conv_ratio dst src). set (ratio := conv_ratio dst src). clearbody ratio.
    induction cc as [|cc IH].
    { exists dst. split; [done|]. apply written_refl; [done|done|]. intros. rewrite decide_False by lia. done. }
    destruct IH as (d1 & E & W); [lia|lia|]. rewrite seq_S, rfold_app, E. cbn [rbind rfold Nat.add].
    pose proof W as (W1 & D1 & _). destruct (same_dims_view _ _ dv D1) as (F1 & C1 & V1 & _). specialize (V1 Hvd).
    rewrite (row_from_data zero) by (done || lia). cbn [rbind].
    set (source := row_from zero src sv (sc + cc) sf). pose proof (valid_off _ _ V1) as Ho.
    assert (Hs : source ≠ []). { unfold source, row_from. destruct (v_frames src sv - sf) eqn:Ev; [lia|]. done. }
    rewrite locate_ok by (done || lia). cbn [rbind].
    destruct (resampled_row_ok source ratio (v_frames dst dv - df)) as (row & Er & Lr & Hr); [by left|].
    set (st := (dc + cc + off_ch dv) * frames d1 + (df + off_fr dv)).
    replace (st + (v_frames d1 dv - df) - st) with (v_frames dst dv - df) by lia. rewrite Er. cbn [rbind].
    eexists. split; [done|].
    destruct (rect_loop (λ (y : N) (_ : N), y) (λ _, row) d1 dv (dc + cc) df 1 (v_frames dst dv - df) W1 V1) as (d2 & E2 & H2).
    { right. split; [lia|]. right. lia. }
    { intros i Hi. done. }
    cbn [seq rfold] in E2. unfold seg_start in E2. rewrite Nat.add_0_r, locate_ok in E2 by (done || lia). cbn [rbind] in E2.
    destruct (Nat.leb_spec (v_frames dst dv - df) ((dc + cc + off_ch dv) * frames d1 + (df + off_fr dv) + (v_frames d1 dv - df) - ((dc + cc + off_ch dv) * frames d1 + (df + off_fr dv)))); [|lia].
    cbn [rbind] in E2. fold st in E2. injection E2 as E2. rewrite E2.
    assert (W2 : written d1 dv d2 (λ ch fr x y, if decide (ch = dc + cc ∧ df ≤ fr) then row !! (fr - df) = Some y else y = x)).
    { eapply (written_rect (λ y _, y) _ d1 dv d2 (dc + cc) df 1 (v_frames dst dv - df)); [done|done|exact H2|lia|lia| |].
      - intros ch fr x Hx (Hc & Hf). destruct (lookup_lt_is_Some_2 row (fr - df)) as [y Hy]; [lia|]. exists y. split; [done|].
        rewrite decide_True by lia. done.
      - intros ch fr x Hx Hn. unfold seen in Hx. case_decide as Hin; [|done]. rewrite decide_False; [done|]. unfold in_rect in Hn. lia. }
    eapply written_mono; [exact (written_trans _ _ _ _ _ _ W W2)|]. cbn beta. intros ch fr x z Hc Hf (y & H1 & H3).
    destruct (decide (ch = dc + cc ∧ df ≤ fr)) as [[-> Hd]|Hn].
    - rewrite decide_True by lia. apply Hr in H3. by replace (dc + cc - dc) with cc by lia.
    - subst z. case_decide as Hd; case_decide as Hd'; [done|lia|lia|done].
  Qed.
End generic.

(** ** Over the real numbers *)
Section real.
  Local Open Scope R_scope.
  Lemma to_nat_floor t n : INR n <= t < INR n + 1 → Z.to_nat (Int_part t) = n ∧ IZR (Int_part t) = INR n.
  Proof. intros H. rewrite INR_IZR_INZ in H. rewrite (int_part_unique t (Z.of_nat n)) by lra. rewrite Nat2Z.id. by rewrite <-INR_IZR_INZ. Qed.
  Lemma floor_exists t : 0 <= t → ∃ n, INR n <= t < INR n + 1.
  Proof.
    intros Ht. exists (Z.to_nat (Int_part t)). destruct (base_Int_part t). assert (-1 < IZR (Int_part t)) as Hz by lra. apply lt_IZR in Hz.
    rewrite INR_IZR_INZ, Z2Nat.id by lia. lra.
  Qed.
  Lemma to_nat_ceil t n : INR n <= t < INR n + 1 → Z.to_nat (ceiling t) = n ∧ t = INR n ∨ Z.to_nat (ceiling t) = S n.
  Proof.
    intros H. pose proof (to_nat_floor t n H) as [E _]. rewrite INR_IZR_INZ in H. unfold ceiling. destruct (Req_EM_T t (IZR (Z.of_nat n))) as [->|Hne].
    - left. rewrite <-opp_IZR, (int_part_unique _ (- Z.of_nat n)) by lra. split; [lia|]. by rewrite <-INR_IZR_INZ.
    - right. rewrite (int_part_unique (- t) (- Z.of_nat n - 1)) by (rewrite minus_IZR, opp_IZR; lra). lia.
  Qed.
  Lemma resampled_linear source ratio i : source ≠ [] → 0 <= ratio → ∃ y, resampled exact source ratio i = Ok y ∧ linear source (INR i * ratio) y.
  Proof.
    intros Hs Hr. destruct (resampled_ok exact source ratio i Hs) as [y E]. exists y. split; [done|]. unfold resampled in E. cbn [exact a_mul a_of a_sub a_add a_one a_floor a_ceil] in E.
    rewrite <-INR_IZR_INZ in E. set (t := INR i * ratio) in *. assert (Ht : 0 <= t) by (apply Rmult_le_pos; [apply pos_INR|done]).
    destruct (Nat.ltb_spec 0 (length source)) as [Hl|Hl]; [|destruct source; [done|cbn in Hl; lia]]. cbn [rassert] in E. destruct (floor_exists t Ht) as [n Hn].
    exists n. split; [done|]. destruct (to_nat_floor t n Hn) as [E1 E2]. rewrite E1, E2 in E. unfold signal.
    destruct (lookup_lt_is_Some_2 source (n `min` (length source - 1))) as [x0 H0]; [lia|].
    destruct (lookup_lt_is_Some_2 source (S n `min` (length source - 1))) as [x1 H1]; [lia|]. rewrite H0, H1. rewrite H0 in E. cbn [runwrap rbind default] in *.
    destruct (to_nat_ceil t n Hn) as [[Ec Et]|Ec]; rewrite Ec in E.
    - rewrite H0 in E. cbn [runwrap rbind] in E. injection E as <-. rewrite Et. cbv [Datatypes.id]. ring.
    - rewrite H1 in E. cbn [runwrap rbind] in E. injection E as <-. cbv [Datatypes.id]. ring.
  Qed.
  (** between its neighbours *)
  Lemma linear_between source t y : linear source t y → ∃ n, Rmin (signal source n) (signal source (S n)) <= y <= Rmax (signal source n) (signal source (S n)).
  Proof.
    intros (n & Ht & ->). exists n. set (p := signal source n). set (q := signal source (S n)). set (f := t - INR n). assert (0 <= f < 1) by (unfold f; lra).
    unfold Rmin, Rmax. destruct (Rle_dec p q).
    - assert (0 <= f * (q - p)) by (apply Rmult_le_pos; lra). assert (f * (q - p) <= 1 * (q - p)) by (apply Rmult_le_compat_r; lra). lra.
    - assert (0 <= f * (p - q)) by (apply Rmult_le_pos; lra). assert (f * (p - q) <= 1 * (p - q)) by (apply Rmult_le_compat_r; lra). lra.
  Qed.
  Lemma linear_range source t y lo hi : source ≠ [] → Forall (λ x, lo <= x <= hi) source → linear source t y → lo <= y <= hi.
  Proof.
    intros Hs Hf H. apply linear_between in H as [n H].
    assert (S : ∀ n, lo <= signal source n <= hi).
    { intros m. unfold signal. destruct (lookup_lt_is_Some_2 source (m `min` (length source - 1))) as [x Hx]; [destruct source; [done|cbn; lia]|].
      rewrite Hx. cbn. rewrite Forall_forall in Hf. apply Hf. by eapply elem_of_list_lookup_2. }
    pose proof (S n). pose proof (S (Datatypes.S n)). unfold Rmin, Rmax in H. destruct (Rle_dec _ _); lra.
  Qed.
  Lemma linear_at source i y : (i < length source)%nat → linear source (INR i) y → source !! i = Some y.
  Proof.
    intros Hi (n & Hn & ->). assert (E : n = i). { destruct (to_nat_floor (INR i) n Hn) as [E1 _]. destruct (to_nat_floor (INR i) i) as [E2 _]; [lra|]. lia. }
    subst n. replace (INR i - INR i) with 0 by ring. rewrite Rmult_0_l, Rplus_0_r. unfold signal. rewrite Nat.min_l by lia.
    destruct (lookup_lt_is_Some_2 source i Hi) as [x Hx]. by rewrite Hx.
  Qed.
End real.
