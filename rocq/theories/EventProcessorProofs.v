From stdpp Require Import list sorting.
From Coq Require Import ZArith Lia ZifyBool ZifyNat.
From Verif Require Import Base Float FloatProofs Timestamp TimestampProofs EventProcessor EventProcessorSpec.

(** ** Positions in a block *)
Section numbers.
  Local Open Scope Z_scope.

  Lemma as_samples_mono_all t u sr : t <= u -> 0 < sr <= 2 ^ 53 -> as_samples t sr <= as_samples u sr.
  Proof.
    intros Ht Hs. unfold as_samples, f64_mul, fixed_to_f64.
    pose proof one64_pos. pose proof tick64_big.
    apply rnd_mono; [lia|lia|lia|].
    rewrite f64_of_Z_exact by lia.
    assert (rnd 53 (t * tick64) 1 <= rnd 53 (u * tick64) 1) by (apply rnd_mono; [lia|lia|lia|]; nia).
    apply Z.mul_le_mono_nonneg_r; [lia|]. apply Z.mul_le_mono_nonneg_r; [|done].
    apply Z.mul_nonneg_nonneg; lia.
  Qed.

  Lemma as_samples_0 sr : as_samples 0 sr = 0.
  Proof.
    unfold as_samples, f64_mul, fixed_to_f64. pose proof one64_pos.
    replace (rnd 53 (0 * tick64) 1) with 0 by (rewrite Z.mul_0_l; symmetry; apply rnd_0; lia).
    rewrite Z.mul_0_l. by apply rnd_0.
  Qed.

  Lemma position_mono start t u sr : t <= u -> 0 < sr <= 2 ^ 53 ->
    position_in_frame start t sr <= position_in_frame start u sr.
  Proof.
    intros Ht Hs. unfold position_in_frame, f64_floor.
    assert (as_samples (t - start) sr / one64 <= as_samples (u - start) sr / one64); [|lia].
    apply Z.div_le_mono; [apply one64_pos|]. apply as_samples_mono_all; lia.
  Qed.

  Lemma position_late start t sr : t <= start -> 0 < sr <= 2 ^ 53 -> position_in_frame start t sr = 0.
  Proof.
    intros Ht Hs. assert (position_in_frame start t sr <= position_in_frame start start sr)
      by (apply position_mono; lia).
    unfold position_in_frame in *. rewrite Z.sub_diag, as_samples_0 in H. unfold f64_floor in *.
    rewrite Z.div_0_l in H by (pose proof one64_pos; lia). lia.
  Qed.

  Lemma floor_below d k sr : 0 <= d <= 2 ^ 63 -> 0 < sr <= 2 ^ 53 ->
    sr * d * (2 ^ 51 + 1) < k * 2 ^ 32 * 2 ^ 51 -> f64_floor (as_samples d sr) < k.
  Proof.
    intros Hd Hs H. pose proof (as_samples_error d sr Hd Hs) as E.
    unfold f64_floor. pose proof one64_tick as Et. pose proof tick64_big as Hb.
    apply Z.div_lt_upper_bound; [apply one64_pos|]. rewrite Et. revert E Hb.
    generalize (as_samples d sr) tick64. intros S T E Hb. nia.
  Qed.

  Lemma position_before_end start t fc sr : 0 < fc <= 2 ^ 16 -> 0 < sr <= 2 ^ 29 ->
    t < incremented_by_samples start fc sr -> position_in_frame start t sr < fc.
  Proof.
    intros Hf Hs Ht. unfold incremented_by_samples in Ht. change (from_samples _ _) with (frame_time fc sr) in Ht.
    pose proof (frame_time_error fc sr ltac:(lia) ltac:(lia)) as E.
    destruct (Z.le_gt_cases t start) as [Hle|Hgt]; [rewrite position_late; lia|].
    unfold position_in_frame. apply Z.max_lub_lt; [lia|].
    revert E Ht. generalize (frame_time fc sr). intros F E Ht.
    apply floor_below; [|lia|]; nia.
  Qed.

  (** the running time after [pos] frames in at most [pos] steps is not a frame ahead *)
  Lemma position_current start current pos sr : 0 <= pos <= 2 ^ 16 -> 0 < sr <= 2 ^ 29 -> pos * sr <= 2 ^ 32 ->
    start <= current ->
    2 ^ 22 * (sr * (current - start) - pos * 2 ^ 32) <= pos * (2 ^ 21 * sr + 2) ->
    position_in_frame start current sr <= pos.
  Proof.
    intros Hp Hs Hps Hc E. unfold position_in_frame. apply Z.max_lub; [lia|].
    enough (f64_floor (as_samples (current - start) sr) < pos + 1) by lia.
    assert (0 <= current - start) as Hd by lia. revert Hd E. generalize (current - start). intros d Hd E.
    assert (d <= sr * d) by nia. assert (0 <= pos * sr) by nia.
    apply floor_below; [|lia|]; lia.
  Qed.

  Lemma step_current start current pos n sr : 0 <= pos -> 0 <= n -> pos + n <= 2 ^ 16 -> 0 < sr <= 2 ^ 29 ->
    start <= current ->
    2 ^ 22 * (sr * (current - start) - pos * 2 ^ 32) <= pos * (2 ^ 21 * sr + 2) ->
    start <= incremented_by_samples current n sr /\
    2 ^ 22 * (sr * (incremented_by_samples current n sr - start) - (pos + n) * 2 ^ 32)
      <= (pos + n) * (2 ^ 21 * sr + 2).
  Proof.
    intros Hp Hn Hpn Hs Hc E. unfold incremented_by_samples. change (from_samples _ _) with (frame_time n sr).
    pose proof (frame_time_nonneg n sr ltac:(lia) ltac:(lia)). split; [lia|].
    destruct (Z.eq_dec n 0) as [->|Hn0]; [rewrite frame_time_0 by lia; nia|].
    pose proof (frame_time_error n sr ltac:(lia) ltac:(lia)) as E2.
    revert H E2. generalize (frame_time n sr). intros F H E2. nia.
  Qed.
End numbers.

Section order.
  Context {P : Type}.
  Local Notation ev := (event P).
  Implicit Types l r : list ev.

  Lemma ev_less_spec (a b : ev) :
    ev_less a b = true ↔ (ev_time a < ev_time b)%Z ∨ ev_time a = ev_time b ∧ ev_seq a < ev_seq b.
  Proof.
    unfold ev_less. destruct (Z.compare_spec (ev_time a) (ev_time b)) as [E|E|E].
    - rewrite Nat.ltb_lt. split; [auto|]. intros [?|[_ ?]]; lia.
    - split; auto.
    - split; [done|]. intros [?|[? _]]; lia.
  Qed.

  Lemma ev_before_trans : Transitive (@ev_before P).
  Proof. intros a b c. unfold ev_before. lia. Qed.

  Lemma insert_perm (e : ev) l : insert_event e l ≡ₚ e :: l.
  Proof.
    induction l as [|x l IH]; cbn [insert_event]; [done|].
    destruct (ev_less e x); [done|]. rewrite IH. apply Permutation_swap.
  Qed.

  Lemma insert_sorted (e : ev) l : StronglySorted ev_before l → StronglySorted ev_before (insert_event e l).
  Proof.
    induction 1 as [|x l Hl IH Hx]; cbn [insert_event]; [by repeat constructor|].
    destruct (ev_less e x) eqn:E.
    - apply ev_less_spec in E.
      assert (Hex : ev_before e x) by (unfold ev_before; lia).
      constructor; [by constructor|]. constructor; [done|].
      eapply Forall_impl; [exact Hx|]. intros y Hy. by eapply ev_before_trans.
    - constructor; [done|]. rewrite (insert_perm e l). constructor; [|done].
      assert (¬ ev_less e x = true) as Hn by (by rewrite E). rewrite ev_less_spec in Hn.
      unfold ev_before. lia.
  Qed.

  Lemma sort_fold l acc : StronglySorted ev_before acc →
    StronglySorted ev_before (fold_left (λ acc e, insert_event e acc) l acc) ∧
    fold_left (λ acc e, insert_event e acc) l acc ≡ₚ acc ++ l.
  Proof.
    revert acc. induction l as [|e l IH]; intros acc Ha; cbn [fold_left]; [by rewrite app_nil_r|].
    destruct (IH (insert_event e acc) (insert_sorted e acc Ha)) as [H1 H2]. split; [done|].
    rewrite H2, insert_perm. by rewrite <- Permutation_middle.
  Qed.

  Lemma sort_ok l : StronglySorted ev_before (sort_events l) ∧ sort_events l ≡ₚ l.
  Proof. apply (sort_fold l []). constructor. Qed.

  Lemma receive_surviving (w sent : list ev) : surviving w sent (fold_left receive_one sent w).
  Proof.
    induction sent as [|e sent IH] using rev_ind; [left; by rewrite app_nil_r|].
    rewrite fold_left_app. cbn [fold_left]. unfold receive_one at 1. destruct (ev_clear e) eqn:E.
    { right. exists sent, e, []. done. }
    destruct IH as [[Hf Hp]|(old & c & new & -> & Hc & Hf & Hp)].
    - left. split; [apply Forall_app; by repeat constructor|]. by rewrite Hp, <- app_assoc.
    - right. exists old, c, (new ++ [e]). rewrite <- app_assoc. split; [done|]. split; [done|].
      split; [apply Forall_app; by repeat constructor|]. by rewrite Hp.
  Qed.

  Lemma surviving_nil (w : list ev) : surviving w [] w.
  Proof. left. split; [constructor|]. by rewrite app_nil_r. Qed.

  Lemma surviving_perm (w sent live live' : list ev) : live ≡ₚ live' → surviving w sent live → surviving w sent live'.
  Proof.
    intros E [[Hf Hp]|(old & c & new & -> & Hc & Hf & Hp)]; [left|right]; [by rewrite <- E|].
    exists old, c, new. by rewrite <- E.
  Qed.

  Lemma receive_ok (q : evproc P) : StronglySorted ev_before (ep_pending q) →
    ep_channel (receive_events q) = [] ∧ ep_rate (receive_events q) = ep_rate q ∧
    StronglySorted ev_before (ep_pending (receive_events q)) ∧
    surviving (ep_pending q) (ep_channel q) (ep_pending (receive_events q)).
  Proof.
    intros Hs. unfold receive_events. destruct (ep_channel q) as [|e l] eqn:E.
    { rewrite E. do 3 (split; [done|]). apply surviving_nil. }
    cbn [ep_channel ep_rate ep_pending]. do 2 (split; [done|]).
    destruct (sort_ok (fold_left receive_one (e :: l) (ep_pending q))) as [H1 H2].
    split; [done|]. eapply surviving_perm; [symmetry; exact H2|]. apply receive_surviving.
  Qed.
End order.

Section frames.
  Context {P : Type} (sr : nat) (Hsr : (0 < Z.of_nat sr <= 2 ^ 29)%Z).
  Local Notation ev := (event P).

  Lemma frame_of_mono start (a b : ev) : (ev_time a <= ev_time b)%Z → frame_of sr start a ≤ frame_of sr start b.
  Proof.
    intros H. unfold frame_of. pose proof (position_mono start (ev_time a) (ev_time b) (Z.of_nat sr) H ltac:(lia)).
    lia.
  Qed.

  Lemma frame_of_inside start fc (e : ev) : block_ok sr fc → (ev_time e < block_end sr start fc)%Z →
    frame_of sr start e < fc.
  Proof.
    intros (H1 & H2 & H3) Ht. unfold frame_of.
    pose proof (position_before_end start (ev_time e) (Z.of_nat fc) (Z.of_nat sr) ltac:(lia) Hsr Ht).
    assert (0 <= position_in_frame start (ev_time e) (Z.of_nat sr))%Z by (unfold position_in_frame; lia).
    lia.
  Qed.
End frames.

Section loop.
  Context {P S : Type} (render : S → nat → nat → res S) (handle : S → event P → timestamp → res S).
  Context (sr : nat) (Hsr : (0 < Z.of_nat sr <= 2 ^ 29)%Z).
  Local Notation ev := (event P).

  Lemma event_loop_ok fc start : block_ok sr fc → ∀ pending fuel pos current s,
    length pending < fuel → pos < fc →
    StronglySorted ev_before pending → Forall (λ e, pos ≤ frame_of sr start e) pending →
    (start <= current)%Z →
    (2 ^ 22 * (Z.of_nat sr * (current - start) - Z.of_nat pos * 2 ^ 32)
       <= Z.of_nat pos * (2 ^ 21 * Z.of_nat sr + 2))%Z →
    ∃ delivered rest, pending = delivered ++ rest ∧
      Forall (λ e, (ev_time e < block_end sr start fc)%Z) delivered ∧
      Forall (λ e, (block_end sr start fc <= ev_time e)%Z) rest ∧
      cut fc pos (pieces sr start fc pos delivered) ∧
      event_loop render handle fuel sr fc start pending pos current s =
        let? (s', _) := rfold (do_piece render handle sr) (pieces sr start fc pos delivered) (s, current) in
        Ok (rest, s').
  Proof.
    intros Hfc. induction pending as [|e pending IH]; intros fuel pos current s Hfuel Hpos Hsort Hall Hcur Hinv;
      (destruct fuel as [|fuel]; [cbn in Hfuel; lia|]); cbn [event_loop];
      rewrite (proj2 (Nat.ltb_lt pos fc) Hpos); unfold next_event, next_event_before.
    - exists [], []. do 3 (split; [done|]). split; [cbn; split; [done|split; [lia|done]]|].
      rewrite (proj2 (Nat.ltb_ge fc pos)) by lia. cbn [pieces rfold].
      unfold do_piece. destruct (render s pos (fc - pos)) as [s1|]; [|done]. cbn [rbind].
      replace (pos + (fc - pos)) with fc by lia. destruct fuel; cbn [event_loop]; by rewrite Nat.ltb_irrefl.
    - fold (block_end sr start fc). destruct (ev_time e <? block_end sr start fc)%Z eqn:Ee.
      + apply Z.ltb_lt in Ee.
        pose proof (frame_of_inside sr Hsr start fc e Hfc Ee) as Hin.
        apply Forall_cons in Hall as [He Hall]. inversion_clear Hsort as [|? ? Hs Hfe].
        assert (Hf : Z.to_nat (position_in_frame start (Z.max (ev_time e) current) (Z.of_nat sr)) = frame_of sr start e).
        { destruct Hfc as (Hfc1 & Hfc2 & Hfc3). unfold frame_of in *.
          pose proof (position_current start current (Z.of_nat pos) (Z.of_nat sr)) as Hp.
          specialize (Hp ltac:(lia) Hsr ltac:(nia) Hcur Hinv).
          destruct (Z.max_spec (ev_time e) current) as [[Hm ->]|[Hm ->]]; [|done].
          pose proof (position_mono start (ev_time e) current (Z.of_nat sr) ltac:(lia) ltac:(lia)).
          assert (0 <= position_in_frame start (ev_time e) (Z.of_nat sr))%Z by (unfold position_in_frame; lia).
          lia. }
        rewrite Hf. rewrite (proj2 (Nat.ltb_ge _ pos)) by lia.
        set (f := frame_of sr start e) in *.
        set (current' := incremented_by_samples current (Z.of_nat (f - pos)) (Z.of_nat sr)).
        destruct (step_current start current (Z.of_nat pos) (Z.of_nat (f - pos)) (Z.of_nat sr)) as [Hc' Hi'];
          [lia|lia|destruct Hfc; lia|done|done|done|].
        fold current' in Hc', Hi'.
        assert (∀ s2, ∃ delivered rest, pending = delivered ++ rest ∧
          Forall (λ e, (ev_time e < block_end sr start fc)%Z) delivered ∧
          Forall (λ e, (block_end sr start fc <= ev_time e)%Z) rest ∧
          cut fc f (pieces sr start fc f delivered) ∧
          event_loop render handle fuel sr fc start pending f current' s2 =
            let? (s', _) := rfold (do_piece render handle sr) (pieces sr start fc f delivered) (s2, current') in
            Ok (rest, s')) as Hnext.
        { intros s2. apply IH; [cbn in Hfuel; lia|done|done| |done|].
          - eapply Forall_impl; [exact Hfe|]. intros x Hx. apply frame_of_mono; [done|]. destruct Hx; lia.
          - replace (Z.of_nat f) with (Z.of_nat pos + Z.of_nat (f - pos))%Z by lia. exact Hi'. }
        destruct (Hnext s) as (d0 & r0 & E0 & Hd0 & Hr0 & Hcut0 & _).
        exists (e :: d0), r0. split; [by rewrite E0|]. split; [by constructor|]. split; [done|].
        split. { cbn [pieces cut]. fold f. replace (pos + (f - pos)) with f by lia. done. }
        cbn [pieces rfold]. fold f. unfold do_piece at 1. fold current'.
        destruct (render s pos (f - pos)) as [s1|]; [|done]. cbn [rbind].
        destruct (handle s1 e current') as [s2|]; [|done]. cbn [rbind].
        replace (pos + (f - pos)) with f by lia.
        destruct (Hnext s2) as (d1 & r1 & E1 & Hd1 & Hr1 & Hcut1 & ->).
        assert (d1 = d0 ∧ r1 = r0) as [-> ->]; [|done].
        rewrite E0 in E1. clear -E1 Hd0 Hr0 Hd1 Hr1.
        revert d1 E1 Hd1. induction d0 as [|x d0 IH]; intros [|y d1] E1 Hd1; cbn in E1.
        * done.
        * subst r0. apply Forall_cons in Hr0 as [? _]. apply Forall_cons in Hd1 as [? _]. lia.
        * subst r1. apply Forall_cons in Hr1 as [? _]. apply Forall_cons in Hd0 as [? _]. lia.
        * injection E1 as -> E1. apply Forall_cons in Hd0 as [_ Hd0]. apply Forall_cons in Hd1 as [_ Hd1].
          destruct (IH Hd0 d1 E1 Hd1) as [-> ->]. done.
      + apply Z.ltb_ge in Ee. exists [], (e :: pending). split; [done|]. split; [constructor|].
        split. { constructor; [done|]. inversion_clear Hsort as [|? ? Hs Hfe].
          eapply Forall_impl; [exact Hfe|]. intros x [?|[? ?]]; lia. }
        split; [cbn; split; [done|split; [lia|done]]|].
        rewrite (proj2 (Nat.ltb_ge fc pos)) by lia. cbn [pieces rfold].
        unfold do_piece. destruct (render s pos (fc - pos)) as [s1|]; [|done]. cbn [rbind].
        replace (pos + (fc - pos)) with fc by lia. destruct fuel; cbn [event_loop]; by rewrite Nat.ltb_irrefl.
  Qed.

  (** one block *)
  Lemma event_block_ok start fc (q : evproc P) (s : S) :
    block_ok sr fc → ep_rate q = sr → StronglySorted ev_before (ep_pending q) →
    ∃ live delivered rest,
      surviving (ep_pending q) (ep_channel q) live ∧
      delivers sr start fc live delivered rest ∧
      cut fc 0 (pieces sr start fc 0 delivered) ∧
      StronglySorted ev_before rest ∧
      event_block render handle start fc q s =
        let? (s', _) := rfold (do_piece render handle sr) (pieces sr start fc 0 delivered) (s, start) in
        Ok (EvProc rest [] sr, s').
  Proof.
    intros Hfc Hr Hsort. destruct (receive_ok q Hsort) as (Hc & Hrate & Hs & Hsurv).
    exists (ep_pending (receive_events q)).
    destruct (event_loop_ok fc start Hfc (ep_pending (receive_events q))
                (Datatypes.S (length (ep_pending (receive_events q)))) 0 start s) as
      (d & r & E & Hd & Hnd & Hcut & El).
    - lia.
    - destruct Hfc; lia.
    - done.
    - apply Forall_forall. intros; lia.
    - lia.
    - lia.
    - exists d, r. split; [done|]. rewrite E in Hs.
      assert (StronglySorted ev_before d ∧ StronglySorted ev_before r) as [Hsd Hsr'].
      { clear -Hs. induction d as [|x d IH]; cbn in Hs; [by split; [constructor|]|].
        inversion_clear Hs as [|? ? H1 H2]. destruct (IH H1). split; [|done].
        constructor; [done|]. by apply Forall_app in H2 as [? _]. }
      split; [split; [by rewrite E|done]|]. split; [done|]. split; [done|].
      unfold event_block. rewrite Hr, El, Hc.
      destruct (rfold _ _ _) as [[s' c']|]; done.
  Qed.
End loop.

(** the delivered events do not depend on what the processor does with them *)
Lemma split_unique {P} (t : timestamp) (d0 r0 d1 r1 : list (event P)) : d0 ++ r0 = d1 ++ r1 →
  Forall (λ e, (ev_time e < t)%Z) d0 → Forall (λ e, (t <= ev_time e)%Z) r0 →
  Forall (λ e, (ev_time e < t)%Z) d1 → Forall (λ e, (t <= ev_time e)%Z) r1 → d1 = d0 ∧ r1 = r0.
Proof.
  intros E1 Hd0 Hr0 Hd1 Hr1. revert d1 E1 Hd1. induction d0 as [|x d0 IH]; intros [|y d1] E1 Hd1; cbn in E1.
  - done.
  - subst r0. apply Forall_cons in Hr0 as [? _]. apply Forall_cons in Hd1 as [? _]. lia.
  - subst r1. apply Forall_cons in Hr1 as [? _]. apply Forall_cons in Hd0 as [? _]. lia.
  - injection E1 as -> E1. apply Forall_cons in Hd0 as [_ Hd0]. apply Forall_cons in Hd1 as [_ Hd1].
    destruct (IH Hd0 d1 E1 Hd1) as [-> ->]. done.
Qed.

Lemma event_block_all {P} sr (Hsr : (0 < Z.of_nat sr <= 2 ^ 29)%Z) start fc (q : evproc P) :
  block_ok sr fc → ep_rate q = sr → StronglySorted ev_before (ep_pending q) →
  ∃ live delivered rest,
    surviving (ep_pending q) (ep_channel q) live ∧
    delivers sr start fc live delivered rest ∧
    cut fc 0 (pieces sr start fc 0 delivered) ∧
    StronglySorted ev_before rest ∧
    ∀ S (render : S → nat → nat → res S) handle (s : S),
      event_block render handle start fc q s =
        let? (s', _) := rfold (do_piece render handle sr) (pieces sr start fc 0 delivered) (s, start) in
        Ok (EvProc rest [] sr, s').
Proof.
  intros Hfc Hr Hsort. destruct (receive_ok q Hsort) as (Hc & Hrate & Hs & Hsurv).
  exists (ep_pending (receive_events q)).
  assert (Hloop : ∀ S (render : S → nat → nat → res S) handle (s : S), _) by
    (intros S render handle s;
     exact (event_loop_ok render handle sr Hsr fc start Hfc (ep_pending (receive_events q))
       (Datatypes.S (length (ep_pending (receive_events q)))) 0 start s ltac:(lia) ltac:(destruct Hfc; lia) Hs
       ltac:(apply Forall_forall; intros; lia) ltac:(lia) ltac:(lia))).
  destruct (Hloop nat (λ s _ _, Ok s) (λ s _ _, Ok s) 0) as (d & r & E & Hd & Hnd & Hcut & _).
  exists d, r. split; [done|]. pose proof Hs as Hs'. rewrite E in Hs'.
  assert (StronglySorted ev_before d ∧ StronglySorted ev_before r) as [Hsd Hsr'].
  { clear -Hs'. induction d as [|x d IH]; cbn in Hs'; [by split; [constructor|]|].
    inversion_clear Hs' as [|? ? H1 H2]. destruct (IH H1). split; [|done].
    constructor; [done|]. by apply Forall_app in H2 as [? _]. }
  split; [split; [by rewrite E|done]|]. split; [done|]. split; [done|].
  intros S render handle s. destruct (Hloop S render handle s) as (d1 & r1 & E1 & Hd1 & Hnd1 & Hcut1 & El).
  rewrite E in E1. destruct (split_unique _ _ _ _ _ E1 Hd Hnd Hd1 Hnd1) as [-> ->].
  unfold event_block. rewrite Hr, El, Hc.
  destruct (rfold _ _ _) as [[s' c']|]; done.
Qed.

Section histories.
  Context {P : Type} (sr : nat) (Hsr : (0 < Z.of_nat sr <= 2 ^ 29)%Z).
  Local Notation ev := (event P).
  Local Notation run := (@run_queue P).
  Implicit Types w s : list ev.

  Lemma log_pieces start fc pos (d : list ev) log cur : ∃ cur',
    rfold (do_piece log_render (log_handle start fc) sr) (pieces sr start fc pos d) (log, cur)
    = Ok (log ++ ((λ e, (start, fc, e)) <$> d), cur').
  Proof.
    revert pos log cur. induction d as [|e d IH]; intros pos log cur.
    - eexists. cbn. by rewrite app_nil_r.
    - cbn [pieces rfold do_piece log_render log_handle rbind].
      destruct (IH (frame_of sr start e) (log ++ [(start, fc, e)])
        (incremented_by_samples cur (Z.of_nat (frame_of sr start e - pos)) (Z.of_nat sr))) as [cur' E].
      exists cur'. rewrite E. by rewrite <- app_assoc.
  Qed.

  Lemma run_queue_ok os : ∀ q log, Forall (hop_ok (P := P) sr) os → ep_rate q = sr →
    StronglySorted ev_before (ep_pending q) →
    ∃ w s log', run q os log = Ok (EvProc w s sr, log ++ log') ∧
      hrun sr (ep_pending q) (ep_channel q) os w s log' ∧ StronglySorted ev_before w.
  Proof.
    induction os as [|[e|start fc] os IH]; intros q log Hok Hr Hs; cbn [run_queue].
    - exists (ep_pending q), (ep_channel q), []. destruct q; cbn in *; subst. rewrite app_nil_r.
      split; [done|]. split; [constructor|done].
    - apply Forall_cons in Hok as [_ Hok].
      destruct (IH (send_event e q) log Hok Hr Hs) as (w & s & log' & E & H & Hw).
      exists w, s, log'. split; [done|]. split; [by constructor|done].
    - apply Forall_cons in Hok as [Hb Hok].
      destruct (event_block_ok log_render (log_handle start fc) sr Hsr start fc q log Hb Hr Hs)
        as (live & d & rest & Hsurv & Hdel & _ & Hrest & ->).
      destruct (log_pieces start fc 0 d log start) as [cur' ->]. cbn [rbind].
      destruct (IH (EvProc rest [] sr) (log ++ ((λ e, (start, fc, e)) <$> d)) Hok eq_refl Hrest)
        as (w & s & log' & -> & H & Hw).
      exists w, s, (((λ e, (start, fc, e)) <$> d) ++ log'). split; [by rewrite app_assoc|].
      split; [|done]. by econstructor.
  Qed.

  (** *** Consequences for every abstract history *)
  Lemma hsent_app (a b : list (hop P)) : hsent (a ++ b) = hsent a ++ hsent b.
  Proof. unfold hsent. apply omap_app. Qed.

  Lemma hrun_app w s a b w2 s2 log :
    hrun sr w s (a ++ b) w2 s2 log →
    ∃ w1 s1 la lb, hrun sr w s a w1 s1 la ∧ hrun sr w1 s1 b w2 s2 lb ∧ log = la ++ lb.
  Proof.
    revert w s log. induction a as [|o a IH]; intros w s log H.
    - exists w, s, [], log. split; [constructor|]. done.
    - cbn [app] in H. inversion H; subst.
      + match goal with Hr : hrun _ _ _ (a ++ b) _ _ _ |- _ => apply IH in Hr as (w1 & s1 & la & lb & Ha & Hb & ->) end.
        exists w1, s1, la, lb. split; [by constructor|]. done.
      + match goal with Hr : hrun _ _ _ (a ++ b) _ _ _ |- _ => apply IH in Hr as (w1 & s1 & la & lb & Ha & Hb & ->) end.
        exists w1, s1, (((λ e, (start, fc, e)) <$> delivered) ++ la), lb. split; [by econstructor|].
        split; [done|]. by rewrite app_assoc.
  Qed.

  (** without cancelling events: exactly once *)
  Lemma hrun_once w s os w' s' log : hrun sr w s os w' s' log →
    Forall (λ e, ev_clear e = false) (s ++ hsent os) →
    w ++ s ++ hsent os ≡ₚ (snd <$> log) ++ w' ++ s'.
  Proof.
    induction 1 as [w s|w s e os w' s' log H IH|w s start fc live d rest os w' s' log Hsurv Hdel H IH]; intros Hc.
    - cbn. by rewrite app_nil_r.
    - cbn [hsent omap list_omap] in *. rewrite <- app_assoc in IH. rewrite (IH Hc). done.
    - destruct Hdel as (Hp & _).
      cbn [hsent omap list_omap] in *. destruct Hsurv as [[Hf Hl]|(old & c & new & -> & Hcl & _)].
      + rewrite fmap_app, <- list_fmap_compose.
        assert (Eid : (snd ∘ λ e : ev, (start, fc, e)) <$> d = d) by apply list_fmap_id.
        rewrite Eid, <- app_assoc, <- IH; [|by apply Forall_app in Hc as [_ Hc]].
        rewrite app_nil_l, !app_assoc, <- Hp, Hl. done.
      + apply Forall_app in Hc as [Hc _]. apply Forall_app in Hc as [_ Hc]. apply Forall_cons in Hc as [Hc _].
        congruence.
  Qed.

  Lemma hrun_once_clear c t os w' s' log : hrun sr [] (c :: t) os w' s' log →
    Forall (λ e, ev_clear e = false) (t ++ hsent os) →
    c :: t ++ hsent os ≡ₚ (snd <$> log) ++ w' ++ s'.
  Proof.
    remember (@nil ev) as w0 eqn:Ew. remember (c :: t) as s0 eqn:Es. intros H. revert t Es Ew.
    induction H as [w s|w s e os w' s' log H IH|w s start fc live d rest os w' s' log Hsurv Hdel H IH];
      intros t -> -> Hf.
    - cbn. by rewrite app_nil_r.
    - change (hsent (HSend e :: os)) with ([e] ++ hsent os) in *. rewrite (app_assoc t) in *. by apply IH.
    - change (hsent (HBlock start fc :: os)) with (hsent os) in *. apply Forall_app in Hf as [Ht Hf].
      assert (live ≡ₚ c :: t) as Hl.
      { destruct Hsurv as [[_ Hl]|(old & c' & new & E & Hc' & _ & Hl)]; [done|].
        destruct old as [|x old]; cbn in E; [by injection E as <- <-|].
        injection E as _ ->. apply Forall_app in Ht as [_ Ht]. apply Forall_cons in Ht as [? _]. congruence. }
      destruct Hdel as (Hp & _). rewrite fmap_app, <- list_fmap_compose.
      assert (Eid : (snd ∘ λ e : ev, (start, fc, e)) <$> d = d) by apply list_fmap_id.
      rewrite Eid, <- app_assoc. rewrite <- (hrun_once _ _ _ _ _ _ H); [|done].
      rewrite app_nil_l, app_assoc, <- Hp, Hl. done.
  Qed.

  (** nothing is delivered that was not sent *)
  Lemma hrun_sent w s os w' s' log : hrun sr w s os w' s' log →
    ∀ e, e ∈ (snd <$> log) ++ w' ++ s' → e ∈ w ++ s ++ hsent os.
  Proof.
    induction 1 as [w s|w s e0 os w' s' log H IH|w s start fc live d rest os w' s' log Hsurv Hdel H IH]; intros e.
    - cbn. by rewrite app_nil_r.
    - intros He. specialize (IH e He). by rewrite <- app_assoc in IH.
    - destruct Hdel as (Hp & _). rewrite fmap_app, <- app_assoc, elem_of_app.
      intros [He|He].
      + assert (e ∈ live) as Hl.
        { rewrite Hp. apply elem_of_app. left. apply elem_of_list_fmap in He as ([[? ?] x] & -> & He).
          apply elem_of_list_fmap in He as (y & [= -> -> ->] & He). done. }
        change (hsent (HBlock start fc :: os)) with (hsent os). rewrite !elem_of_app.
        destruct Hsurv as [[_ E]|(old & c & new & -> & _ & _ & E)]; rewrite E in Hl.
        * rewrite elem_of_app in Hl. tauto.
        * rewrite elem_of_app. tauto.
      + specialize (IH e He). change (hsent (HBlock start fc :: os)) with (hsent os).
        rewrite app_nil_l, elem_of_app in IH. destruct IH as [Hr|?]; [|rewrite !elem_of_app; tauto].
        assert (e ∈ live) as Hl by (rewrite Hp; apply elem_of_app; by right).
        rewrite !elem_of_app. destruct Hsurv as [[_ E]|(old & c & new & -> & _ & _ & E)]; rewrite E in Hl.
        * rewrite elem_of_app in Hl. tauto.
        * rewrite elem_of_app. tauto.
  Qed.

  (** not too late, not too early *)
  Lemma hrun_due w s os w' s' log : Forall (hop_ok (P := P) sr) os → hrun sr w s os w' s' log →
    Forall (λ '(start, fc, e), (ev_time e < block_end sr start fc)%Z ∧ frame_of sr start e < fc) log.
  Proof.
    intros Hok H. induction H as [w s|w s e0 os w' s' log H IH|w s start fc live d rest os w' s' log Hsurv Hdel H IH].
    - constructor.
    - apply Forall_cons in Hok as [_ Hok]. auto.
    - apply Forall_cons in Hok as [Hb Hok]. apply Forall_app. split; [|auto].
      destruct Hdel as (_ & _ & Hd & _). apply Forall_fmap. eapply Forall_impl; [exact Hd|].
      cbn. intros e He. split; [done|]. by apply frame_of_inside.
  Qed.

  Lemma hrun_waits w s os start fc w' s' log : hrun sr w s (os ++ [HBlock start fc]) w' s' log →
    s' = [] ∧ Forall (λ e, (block_end sr start fc <= ev_time e)%Z) w'.
  Proof.
    intros H. apply hrun_app in H as (w1 & s1 & la & lb & _ & H & _).
    inversion H; subst. match goal with H : hrun _ _ _ [] _ _ _ |- _ => inversion H; subst end.
    match goal with H : delivers _ _ _ _ _ _ |- _ => destruct H as (_ & _ & _ & ?) end. done.
  Qed.

  (** after a cancelling event only it and later ones *)
  Lemma hrun_pending_clear w c s os w' s' log : ev_clear c = true →
    hrun sr w (s ++ [c]) os w' s' log →
    hrun sr [] [c] os w' s' log ∨ ((∀ start fc, HBlock start fc ∉ os) ∧ log = []).
  Proof.
    intros Hc. remember (s ++ [c]) as s0 eqn:Es. intros H.
    enough (∀ t, s0 = s ++ c :: t →
      hrun sr [] (c :: t) os w' s' log ∨ ((∀ start fc, HBlock start fc ∉ os) ∧ log = [])) as Hg
      by (apply (Hg []); done).
    clear Es. induction H as [w s1|w s1 e0 os w' s' log H IH|w s1 start fc live d rest os w' s' log Hsurv Hdel H IH];
      intros t ->.
    - right. split; [|done]. intros ? ? Hin. by apply elem_of_nil in Hin.
    - destruct (IH (t ++ [e0])) as [H'|[H' ->]]; [by rewrite <- app_assoc| |].
      + left. constructor. done.
      + right. split; [|done]. intros ? ? [?|Hin]%elem_of_cons; [done|]. by eapply H'.
    - left. econstructor; [|eassumption|eassumption].
      destruct Hsurv as [[Hf _]|(old & c' & new & E & Hc' & Hf & Hl)].
      { apply Forall_app in Hf as [_ Hf]. apply Forall_cons in Hf as [? _]. congruence. }
      right.
      (* the last cancelling event is at or behind c *)
      assert (∃ old', c :: t = old' ++ c' :: new) as [old' E'].
      { clear -E Hf Hc. revert old E. induction s as [|x s IH]; intros [|y old] E; cbn in E.
        - by exists [].
        - injection E as -> E. exists (y :: old). by rewrite E.
        - injection E as -> E. exfalso. subst new. apply Forall_app in Hf as [_ Hf].
          apply Forall_cons in Hf as [? _]. congruence.
        - injection E as -> E. eauto. }
      exists old', c', new. done.
  Qed.

  (** *** The same about the model *)
  Lemma run_app a b : ∀ q log, run q (a ++ b) log = let? (q1, log1) := run q a log in run q1 b log1.
  Proof.
    induction a as [|[e|start fc] a IH]; intros q log; cbn [app run_queue rbind]; [done|by rewrite IH|].
    destruct (event_block _ _ _ _ _ _) as [[q1 log1]|]; cbn [rbind]; [by rewrite IH|done].
  Qed.

  Lemma queue_refines os : Forall (hop_ok (P := P) sr) os →
    ∃ w s log, run (new_evproc sr) os [] = Ok (EvProc w s sr, log) ∧ hrun sr [] [] os w s log.
  Proof.
    intros Hok. destruct (run_queue_ok os (new_evproc sr) [] Hok eq_refl) as (w & s & log & E & H & _);
      [constructor|]. exists w, s, log. done.
  Qed.

  Lemma queue_once os w s r log : Forall (hop_ok (P := P) sr) os →
    Forall (λ e, ev_clear e = false) (hsent os) →
    run (new_evproc sr) os [] = Ok (EvProc w s r, log) →
    hsent os ≡ₚ (snd <$> log) ++ w ++ s.
  Proof.
    intros Hok Hc E. destruct (queue_refines os Hok) as (w' & s' & log' & E' & H).
    rewrite E in E'. injection E' as -> -> -> ->. by apply hrun_once in H.
  Qed.

  Lemma queue_due os w s r log : Forall (hop_ok (P := P) sr) os →
    run (new_evproc sr) os [] = Ok (EvProc w s r, log) →
    Forall (λ '(start, fc, e), e ∈ hsent os ∧ (ev_time e < block_end sr start fc)%Z ∧ frame_of sr start e < fc) log.
  Proof.
    intros Hok E. destruct (queue_refines os Hok) as (w' & s' & log' & E' & H).
    rewrite E in E'. injection E' as -> -> -> ->. pose proof (hrun_due _ _ _ _ _ _ Hok H) as Hd.
    pose proof (hrun_sent _ _ _ _ _ _ H) as Hs. rewrite Forall_forall in *.
    intros [[start fc] e] Hin. specialize (Hd _ Hin). split; [|done]. apply (Hs e). apply elem_of_app. left.
    apply elem_of_list_fmap. exists (start, fc, e). done.
  Qed.

  Lemma queue_waits os start fc w s r log : Forall (hop_ok (P := P) sr) (os ++ [HBlock start fc]) →
    run (new_evproc sr) (os ++ [HBlock start fc]) [] = Ok (EvProc w s r, log) →
    s = [] ∧ Forall (λ e, (block_end sr start fc <= ev_time e)%Z) w.
  Proof.
    intros Hok E. destruct (queue_refines _ Hok) as (w' & s' & log' & E' & H).
    rewrite E in E'. injection E' as -> -> -> ->. by apply hrun_waits in H.
  Qed.

  Lemma queue_cancel os1 c os2 q1 log1 w s r log : Forall (hop_ok (P := P) sr) (os1 ++ HSend c :: os2) →
    ev_clear c = true →
    run (new_evproc sr) os1 [] = Ok (q1, log1) →
    run (new_evproc sr) (os1 ++ HSend c :: os2) [] = Ok (EvProc w s r, log) →
    ∃ log2, log = log1 ++ log2 ∧ (snd <$> log2) ⊆ c :: hsent os2 ∧
      (Forall (λ e, ev_clear e = false) (hsent os2) → (∃ start fc, HBlock start fc ∈ os2) →
       c :: hsent os2 ≡ₚ (snd <$> log2) ++ w ++ s).
  Proof.
    intros Hok Hc E1 E. rewrite run_app, E1 in E. cbn [rbind run_queue] in E.
    apply Forall_app in Hok as [Hok1 Hok2]. apply Forall_cons in Hok2 as [_ Hok2].
    destruct (run_queue_ok os1 (new_evproc sr) [] Hok1 eq_refl) as (wa & sa & la & Ea & Ha & Hsa); [constructor|].
    rewrite E1 in Ea. injection Ea as -> ->.
    destruct (run_queue_ok os2 (send_event c (EvProc wa sa sr)) la Hok2 eq_refl Hsa) as (wb & sb & lb & Eb & Hb & _).
    cbn [app] in E. rewrite E in Eb. injection Eb as -> -> -> ->. exists lb. split; [done|].
    cbn [ep_pending ep_channel send_event] in Hb. apply hrun_pending_clear in Hb as [Hb|[Hno ->]]; [| |done].
    - split.
      + intros e He. pose proof (hrun_sent _ _ _ _ _ _ Hb e) as H. apply H. apply elem_of_app. by left.
      + intros Hf _. by apply hrun_once_clear in Hb.
    - split; [by intros ? ?%elem_of_nil|]. intros _ (start & fc & Hin). by apply Hno in Hin.
  Qed.
End histories.
