From stdpp Require Import list list_numbers sorting.
From Coq Require Import ZArith Lia ZifyBool ZifyNat.
From Verif Require Import Base Float FloatProofs Timestamp TimestampProofs EventProcessor EventProcessorSpec
  EventProcessorProofs Buffer BufferSpec BufferProofs Recorder RecorderSpec.

(** ** Lists *)
Lemma fmap_seq_ext {X} (f g : nat → X) a n : (∀ k, a ≤ k < a + n → f k = g k) → f <$> seq a n = g <$> seq a n.
Proof.
  revert a. induction n as [|n IH]; intros a H; [done|]. cbn [seq]. rewrite !fmap_cons.
  rewrite (H a) by lia. f_equal. apply IH. intros k ?. apply H. lia.
Qed.
Lemma omap_seq_ext {X} (f g : nat → option X) a n :
  (∀ k, a ≤ k < a + n → f k = g k) → omap f (seq a n) = omap g (seq a n).
Proof.
  revert a. induction n as [|n IH]; intros a H; [done|]. cbn [seq omap list_omap].
  rewrite (H a) by lia. rewrite (IH (S a)); [done|]. intros k ?. apply H. lia.
Qed.
Lemma fmap_seq_shift {X} (f : nat → X) a b n : f <$> seq (a + b) n = (λ k, f (a + k)) <$> seq b n.
Proof.
  revert b. induction n as [|n IH]; intros b; [done|]. cbn [seq]. rewrite !fmap_cons. f_equal.
  rewrite <-(IH (S b)). by replace (a + S b) with (S (a + b)) by lia.
Qed.
Lemma count_if_app {X} (f : X → bool) l1 l2 : count_if f (l1 ++ l2) = count_if f l1 + count_if f l2.
Proof. unfold count_if. by rewrite filter_app, app_length. Qed.
Lemma count_if_perm {X} (f : X → bool) l1 l2 : l1 ≡ₚ l2 → count_if f l1 = count_if f l2.
Proof. intros H. unfold count_if. by rewrite H. Qed.
Lemma count_if_nil {X} (f : X → bool) : count_if f [] = 0.
Proof. done. Qed.
Lemma count_if_cons {X} (f : X → bool) x l : count_if f (x :: l) = (if f x then 1 else 0) + count_if f l.
Proof. unfold count_if. rewrite filter_cons. destruct (f x) eqn:E; repeat case_decide; try done; congruence. Qed.

Section frames.
  Context {A : Type}.
  Implicit Types b : owned A.

  Lemma frame_at_ext b v b' v' k k' : v_channels b v = v_channels b' v' →
    (∀ ch, ch < v_channels b v →
       sample b (ch + off_ch v) (k + off_fr v) = sample b' (ch + off_ch v') (k' + off_fr v')) →
    frame_at b v k = frame_at b' v' k'.
  Proof. intros E H. unfold frame_at. rewrite <-E. apply omap_seq_ext. intros ch Hc. apply H. lia. Qed.

  Lemma frames_of_seg b v : frames_of b v = frame_at b v <$> seq 0 (v_frames b v).
  Proof. done. Qed.

  Lemma copy_frames (cur : owned A) inp iv position pos n :
    wf cur → wf inp → valid_view inp iv → v_channels inp iv = channels cur →
    position + n ≤ v_frames inp iv → pos + n ≤ frames cur →
    ∃ cur', copy_from cur Whole inp iv 0 position 0 pos (channels cur) n = Ok cur' ∧
      wf cur' ∧ same_dims cur cur' ∧
      ∀ k, frame_at cur' Whole k =
        if decide (pos ≤ k < pos + n) then frame_at inp iv (position + (k - pos)) else frame_at cur Whole k.
  Proof.
    intros Hw Hwi Hv Hc Hn1 Hn2.
    destruct (copy_exactly_region cur Whole inp iv 0 position 0 pos (channels cur) n Hw I Hwi Hv) as [H _].
    destruct H as (cur' & E & Hw' & Hd & Hs).
    { pose proof (valid_off inp iv Hv) as Ho. split; right.
      - split; [lia|]. right. lia.
      - cbn. split; [lia|]. right. lia. }
    exists cur'. do 3 (split; [done|]). intros k. case_decide as Hk.
    - apply frame_at_ext; [cbn; destruct Hd; lia|]. cbn [v_channels off_ch off_fr]. intros ch Hch.
      rewrite Hs. rewrite decide_True by (unfold in_rect; cbn; destruct Hd; lia).
      cbn. f_equal; lia.
    - apply frame_at_ext; [cbn; destruct Hd; lia|]. cbn [v_channels off_ch off_fr]. intros ch Hch.
      rewrite Hs. rewrite decide_False; [done|]. unfold in_rect. cbn. lia.
  Qed.

  Lemma slice_frames_ok b n : wf b → n ≤ frames b →
    ∃ v, slice_frames b Whole 0 n = Ok v ∧ valid_view b v ∧ v_channels b v = channels b ∧ v_frames b v = n ∧
      frames_of b v = frame_at b Whole <$> seq 0 n.
  Proof.
    intros Hw Hn. unfold slice_frames, slice, range_is_valid. cbn.
    rewrite (proj2 (Nat.leb_le _ _)) by lia. rewrite (proj2 (Nat.leb_le _ _)) by lia. cbn.
    eexists. split; [done|]. cbn. do 3 (split; [first [done|lia]|]).
    unfold frames_of. cbn. apply fmap_seq_ext. intros k Hk. apply frame_at_ext; [done|].
    cbn. done.
  Qed.
End frames.

Section proofs.
  Context {A : Type} (zero : A) (cap size cc sr : nat) (Hsize : 0 < size).
  Local Notation proc := (recproc A).

  Definition buf_ok (b : owned A) : Prop := wf b ∧ channels b = cc ∧ frames b = size ∧ rate b = sr.
  Definition note_ok (n : rec_note A) : Prop := match n with NData b u => buf_ok b ∧ u ≤ size | _ => True end.
  Definition note_frames (n : rec_note A) : list (list A) :=
    match n with NData b u => frame_at b Whole <$> seq 0 u | _ => [] end.
  Definition flag (b : bool) (notes : list (rec_note A)) : bool :=
    fold_left (λ b n, match n with NStart => true | NStop => false | _ => b end) notes b.

  Definition sound (p : proc) : list (list A) :=
    concat (note_frames <$> rp_notes p) ++ (frame_at (rp_cur p) Whole <$> seq 0 (rp_pos p)).
  Definition bufs (p : proc) : nat := length (rp_pool p) + count_if filled (rp_notes p).
  Definition enough (p : proc) (k m : nat) : Prop := k ≤ length (rp_pool p) ∧ length (rp_notes p) + m ≤ cap.

  Definition pinv (p : proc) : Prop :=
    Forall buf_ok (rp_pool p) ∧ Forall note_ok (rp_notes p) ∧ buf_ok (rp_cur p) ∧
    rp_pos p < size ∧ (rp_on p = false → rp_pos p = 0).

  Definition good (p p' : proc) (snd : list (list A)) (ret k m : nat) (on : bool) : Prop :=
    pinv p' ∧ sound p' = sound p ++ snd ∧ bufs p' = bufs p + ret ∧
    (∀ k0 m0, enough p (k + k0) (m + m0) → enough p' k0 m0) ∧
    (∀ b, flag b (rp_notes p) = rp_on p → flag b (rp_notes p') = rp_on p') ∧
    rp_on p' = on.
  Definition outcome (r : res proc) (p : proc) (snd : list (list A)) (ret k m : nat) (on : bool) : Prop :=
    match r with
    | Ok p' => good p p' snd ret k m on
    | Panic e => (e = NoBuffers ∨ e = Blocked) ∧ ¬ enough p k m
    end.

  Lemma outcome_refl p k m : pinv p → outcome (Ok p) p [] 0 k m (rp_on p).
  Proof.
    intros H. split; [done|]. rewrite app_nil_r. split; [done|]. split; [lia|]. split; [|done].
    unfold enough. intros; lia.
  Qed.

  Lemma good_trans p p1 p2 s1 s2 r1 r2 k1 k2 m1 m2 b1 b2 :
    good p p1 s1 r1 k1 m1 b1 → good p1 p2 s2 r2 k2 m2 b2 →
    good p p2 (s1 ++ s2) (r1 + r2) (k1 + k2) (m1 + m2) b2.
  Proof.
    intros (I1 & S1 & B1 & E1 & F1 & O1) (I2 & S2 & B2 & E2 & F2 & O2).
    split; [done|]. split; [by rewrite S2, S1, app_assoc|]. split; [lia|]. split; [|split; [|done]].
    - intros k0 m0 H. apply E2, E1. by rewrite !Nat.add_assoc.
    - intros b Hb. apply F2, F1, Hb.
  Qed.

  Lemma outcome_bind r f p s1 s2 r1 r2 k1 k2 m1 m2 b1 b2 :
    outcome r p s1 r1 k1 m1 b1 →
    (∀ p1, good p p1 s1 r1 k1 m1 b1 → outcome (f p1) p1 s2 r2 k2 m2 b2) →
    outcome (rbind r f) p (s1 ++ s2) (r1 + r2) (k1 + k2) (m1 + m2) b2.
  Proof.
    intros H Hf. destruct r as [p1|e]; cbn [rbind].
    - cbn in H. specialize (Hf p1 H). destruct (f p1) as [p2|e]; cbn in Hf |- *.
      + by eapply good_trans.
      + destruct Hf as [He Hn]. split; [done|]. intros Hk. apply Hn.
        destruct H as (_ & _ & _ & E1 & _). by apply E1.
    - cbn in H |- *. destruct H as [He Hn]. split; [done|]. unfold enough in *. lia.
  Qed.

  Lemma outcome_weaken r p s ret k m k' m' on :
    k ≤ k' → m ≤ m' → outcome r p s ret k m on → outcome r p s ret k' m' on.
  Proof.
    intros Hk Hm. destruct r as [p'|e]; cbn.
    - intros (I1 & S1 & B1 & E1 & F1). split; [done|]. split; [done|]. split; [done|]. split; [|done].
      intros k0 m0 H. apply E1. unfold enough in *. lia.
    - intros [He Hn]. split; [done|]. unfold enough in *. lia.
  Qed.

  Lemma flag_app b l n : flag b (l ++ [n]) = match n with NStart => true | NStop => false | _ => flag b l end.
  Proof. unfold flag. rewrite fold_left_app. by destruct n. Qed.

  Lemma concat_snoc {X} (l : list (list X)) x : concat (l ++ [x]) = concat l ++ x.
  Proof. rewrite concat_app. cbn. by rewrite app_nil_r. Qed.

  (** a full or stopped buffer is sent *)
  Lemma next_buffer_ok p :
    Forall buf_ok (rp_pool p) → Forall note_ok (rp_notes p) → buf_ok (rp_cur p) → rp_pos p ≤ size →
    match next_buffer cap p with
    | Ok p' => good p p' [] 0 1 1 (rp_on p) ∧ rp_pos p' = 0
    | Panic e => (e = NoBuffers ∨ e = Blocked) ∧ ¬ enough p 1 1
    end.
  Proof.
    intros Hp Hn Hc Hpos. unfold next_buffer. destruct (rp_pool p) as [|b l] eqn:El.
    { split; [by left|]. unfold enough. rewrite El. cbn. lia. }
    inversion_clear Hp as [|? ? Hb Hl].
    unfold send_note. cbn [rp_notes rp_pool rp_cur rp_pos rp_on].
    destruct (Nat.ltb_spec (length (rp_notes p)) cap) as [Hlt|Hge].
    - split; [|done]. split; [|split; [|split; [|split; [|split; [|done]]]]].
      + unfold pinv. cbn. do 2 (split; [first [done|apply Forall_app; split; [done|by constructor]]|]).
        split; [done|]. split; [lia|done].
      + unfold sound. cbn [rp_notes rp_pos rp_cur]. rewrite fmap_app, !concat_app. cbn. by rewrite !app_nil_r.
      + unfold bufs. cbn [rp_notes rp_pool]. rewrite count_if_app, count_if_cons, El. cbn. lia.
      + unfold enough. cbn [rp_notes rp_pool]. rewrite app_length, El. cbn. lia.
      + cbn [rp_notes rp_on]. intros f Hf. by rewrite flag_app.
    - split; [by right|]. unfold enough. lia.
  Qed.

  Lemma record_loop_ok inp iv fc : wf inp → valid_view inp iv → v_channels inp iv = cc → fc ≤ v_frames inp iv →
    ∀ fuel position p, pinv p → rp_on p = true → position ≤ fc → fc - position < fuel →
    outcome (record_loop cap fuel inp iv cc 0 fc position p) p (frame_at inp iv <$> seq position (fc - position))
      0 ((rp_pos p + (fc - position)) / size) ((rp_pos p + (fc - position)) / size) true.
  Proof.
    intros Hwi Hv Hcc Hfc. induction fuel as [|fuel IH]; intros position p Hinv Hon Hpos Hfuel; [lia|].
    cbn [record_loop]. rewrite Nat.add_0_l.
    destruct (Nat.ltb_spec position fc) as [Hlt|Hge].
    2: { replace (fc - position) with 0 by lia. rewrite <-Hon. by apply outcome_refl. }
    destruct (Nat.ltb_spec fc position); [lia|].
    destruct Hinv as (Hpool & Hnotes & (Hw & Hc & Hf & Hr) & Hps & Hoff).
    destruct (Nat.ltb_spec (frames (rp_cur p)) (rp_pos p)); [lia|].
    set (n := (fc - position) `min` (frames (rp_cur p) - rp_pos p)).
    assert (0 < n ∧ n ≤ fc - position ∧ rp_pos p + n ≤ size) as (Hn0 & Hn1 & Hn2) by lia.
    assert (n = fc - position ∨ rp_pos p + n = size) as Hn3 by lia.
    destruct (copy_frames (rp_cur p) inp iv position (rp_pos p) n) as (cur' & E & Hw' & Hd & Hfr);
      [done|done|done|lia|lia|lia|].
    rewrite <-Hc, E. cbn [rbind]. rewrite Hc. clear E.
    set (p1 := RecProc _ _ cur' _ _). assert (frames cur' = size) as Ef by (destruct Hd; lia). rewrite Ef.
    assert (buf_ok cur') as Hcur' by (unfold buf_ok; destruct Hd as (? & ? & ?); split; [done|lia]).
    assert (sound p1 = sound p ++ (frame_at inp iv <$> seq position n)) as Hs1.
    { unfold sound, p1. cbn [rp_notes rp_cur rp_pos]. rewrite <-app_assoc. f_equal.
      rewrite seq_app, fmap_app. f_equal.
      - apply fmap_seq_ext. intros k Hk. rewrite Hfr, decide_False by lia. done.
      - rewrite Nat.add_0_l. transitivity ((λ k, frame_at inp iv (position + k)) <$> seq 0 n).
        + replace (seq (rp_pos p) n) with (seq (rp_pos p + 0) n) by (f_equal; lia).
          rewrite fmap_seq_shift. apply fmap_seq_ext. intros k Hk.
          rewrite Hfr, decide_True by lia. f_equal. lia.
        + rewrite <-fmap_seq_shift. f_equal. f_equal. lia. }
    assert (Hseq : seq position (fc - position) = seq position n ++ seq (position + n) (fc - (position + n))).
    { rewrite <-seq_app. f_equal. lia. }
    rewrite Hseq, fmap_app.
    destruct (Nat.leb_spec size (rp_pos p1)) as [Hfull|Hpart].
    - assert (rp_pos p + n = size) as Hsz by (unfold p1 in Hfull; cbn in Hfull; lia).
      assert ((rp_pos p + (fc - position)) / size = 1 + (fc - (position + n)) / size) as Hk.
      { replace (rp_pos p + (fc - position)) with (1 * size + (fc - (position + n))) by lia.
        rewrite Nat.div_add_l by lia. lia. }
      rewrite Hk.
      assert (match (let? p2 := next_buffer cap p1 in Ok p2) with
              | Ok p2 => good p p2 (frame_at inp iv <$> seq position n) 0 1 1 true ∧ rp_pos p2 = 0
              | Panic e => (e = NoBuffers ∨ e = Blocked) ∧ ¬ enough p 1 1 end) as Hnb.
      { pose proof (next_buffer_ok p1 Hpool Hnotes Hcur' ltac:(unfold p1; cbn; lia)) as Hnb.
        destruct (next_buffer cap p1) as [p'|e]; cbn; [|done].
        destruct Hnb as [(I1 & S1 & B1 & E1 & F1 & O1) Hz]. split; [|done]. split; [done|].
        split; [by rewrite S1, Hs1, app_nil_r|]. split; [done|]. split; [done|]. split; [done|].
        rewrite O1. done. }
      destruct (next_buffer cap p1) as [p2|e]; cbn [rbind] in Hnb |- *.
      + destruct Hnb as [Hg Hz].
        specialize (IH (position + n) p2). rewrite Hz, Nat.add_0_l in IH.
        assert (rp_on p2 = true) as Ho2 by apply Hg. specialize (IH ltac:(apply Hg) Ho2 ltac:(lia) ltac:(lia)).
        destruct (record_loop cap fuel inp iv cc 0 fc (position + n) p2) as [p3|e]; cbn in IH |- *.
        * by eapply (good_trans p p2 p3 _ _ 0 0 1 _ 1).
        * destruct IH as [He Hne]. split; [done|]. intros Hk'. apply Hne.
          destruct Hg as (_ & _ & _ & E1 & _). by apply E1.
      + destruct Hnb as [He Hne]. split; [done|]. generalize ((fc - (position + n)) / size). unfold enough in *. lia.
    - cbn [rbind]. assert (n = fc - position) as Hnn by (unfold p1 in Hpart; cbn in Hpart; lia).
      replace (fc - (position + n)) with 0 by lia. cbn [seq]. rewrite app_nil_r.
      assert (good p p1 (frame_at inp iv <$> seq position n) 0 0 0 true) as Hg.
      { split.
        - unfold pinv, p1. cbn [rp_pool rp_notes rp_cur rp_pos rp_on]. do 3 (split; [done|]).
          split; [exact Hpart|]. congruence.
        - split; [done|]. split; [by rewrite Nat.add_0_r|]. split; [done|]. split; [done|done]. }
      destruct fuel; cbn [record_loop]; rewrite (proj2 (Nat.ltb_ge _ _)) by lia;
        apply (outcome_weaken (Ok p1) p _ 0 0 0); [apply Nat.le_0_l|apply Nat.le_0_l|done|apply Nat.le_0_l|apply Nat.le_0_l|done].
  Qed.

  Lemma fills_bound pos fc : pos < size → (pos + fc) / size ≤ fills size fc.
  Proof. intros H. unfold fills. apply Nat.div_le_mono; lia. Qed.

  (** one piece of the block is recorded *)
  Lemma process_on inp iv fc p : wf inp → valid_view inp iv → v_channels inp iv = cc → fc ≤ v_frames inp iv →
    pinv p → rp_on p = true →
    outcome (record_process cap inp iv p 0 fc) p (frame_at inp iv <$> seq 0 fc) 0 (fills size fc) (fills size fc) true.
  Proof.
    intros Hwi Hv Hcc Hfc Hinv Hon. unfold record_process. rewrite Hon.
    destruct Hinv as (Hpool & Hnotes & Hcur & Hps & Hoff).
    replace (v_channels inp iv `min` channels (rp_cur p)) with cc by (destruct Hcur as (_ & ? & _); lia).
    pose proof (record_loop_ok inp iv fc Hwi Hv Hcc Hfc (S fc) 0 p ltac:(done) Hon ltac:(lia) ltac:(lia)) as H.
    rewrite Nat.sub_0_r in H. pose proof (fills_bound (rp_pos p) fc Hps).
    eapply outcome_weaken; [| |exact H]; lia.
  Qed.

  Lemma start_ok p : pinv p → outcome (record_start cap p) p [] 0 0 1 true.
  Proof.
    intros Hinv. unfold record_start. destruct (rp_on p) eqn:Hon.
    { rewrite <-Hon. by apply outcome_refl. }
    destruct Hinv as (Hpool & Hnotes & Hcur & Hps & Hoff).
    unfold send_note. cbn [rp_notes rp_pool rp_cur rp_pos rp_on].
    destruct (Nat.ltb_spec (length (rp_notes p)) cap) as [Hlt|Hge].
    - cbn [outcome]. split; [|split; [|split; [|split; [|split]]]].
      + unfold pinv. cbn. do 3 (split; [first [done|apply Forall_app; split; [done|by constructor]]|]). done.
      + unfold sound. cbn [rp_notes rp_pos rp_cur]. rewrite fmap_app, !concat_app. cbn. by rewrite !app_nil_r.
      + unfold bufs. cbn [rp_notes rp_pool]. rewrite count_if_app, count_if_cons. cbn. lia.
      + unfold enough. cbn [rp_notes rp_pool]. rewrite app_length. cbn. lia.
      + intros b _. cbn [rp_notes rp_on]. by rewrite flag_app.
      + done.
    - cbn. split; [by right|]. unfold enough. lia.
  Qed.

  Lemma stop_ok p : pinv p → outcome (record_stop cap p) p [] 0 1 2 false.
  Proof.
    intros Hinv. unfold record_stop. destruct (rp_on p) eqn:Hon.
    2: { rewrite <-Hon. by apply outcome_refl. }
    destruct Hinv as (Hpool & Hnotes & Hcur & Hps & Hoff).
    pose proof (next_buffer_ok p Hpool Hnotes Hcur ltac:(lia)) as Hnb.
    destruct (next_buffer cap p) as [p1|e]; cbn [rbind].
    2: { cbn. destruct Hnb as [He Hne]. split; [done|]. unfold enough in *. lia. }
    destruct Hnb as [((Hpool1 & Hnotes1 & Hcur1 & Hps1 & Hoff1) & S1 & B1 & E1 & F1 & O1) Hz].
    unfold send_note. cbn [rp_notes rp_pool rp_cur rp_pos rp_on].
    destruct (Nat.ltb_spec (length (rp_notes p1)) cap) as [Hlt|Hge].
    - cbn [outcome]. split; [|split; [|split; [|split; [|split]]]].
      + unfold pinv. cbn. do 4 (split; [first [done|apply Forall_app; split; [done|by constructor]]|]). done.
      + rewrite app_nil_r in S1 |- *. rewrite <-S1. unfold sound. cbn [rp_notes rp_pos rp_cur].
        rewrite fmap_app, !concat_app. cbn. by rewrite !app_nil_r.
      + unfold bufs in *. cbn [rp_notes rp_pool]. rewrite count_if_app, count_if_cons. cbn. lia.
      + intros k0 m0 H. specialize (E1 k0 (1 + m0)). unfold enough in *. cbn [rp_notes rp_pool].
        rewrite app_length. cbn. lia.
      + intros b _. cbn [rp_notes rp_on]. by rewrite flag_app.
      + done.
    - cbn. split; [by right|]. intros H. specialize (E1 0 1). unfold enough in *. lia.
  Qed.

  Lemma return_ok p b : pinv p → buf_ok b → outcome (record_return zero b p) p [] 1 0 0 (rp_on p).
  Proof.
    intros (Hpool & Hnotes & Hcur & Hps & Hoff) (Hw & Hc & Hf & Hr). unfold record_return, clear.
    destruct (fill_with_value_ok b Whole zero Hw I) as (b' & -> & Hw' & (D1 & D2 & D3) & _). cbn [rbind outcome].
    split; [|split; [|split; [|split; [|split]]]].
    - unfold pinv. cbn. split; [constructor; [|done]; split; [done|lia]|]. done.
    - unfold sound. cbn. by rewrite app_nil_r.
    - unfold bufs. cbn [rp_notes rp_pool length]. lia.
    - unfold enough. cbn [rp_notes rp_pool length]. lia.
    - done.
    - done.
  Qed.

  (** ** One block *)
  Context (Hsr : (0 < Z.of_nat sr <= 2 ^ 29)%Z).
  Local Notation ev := (event (rec_action A)).

  (** only a request to stop can have a time of its own *)
  Definition action_ok (e : ev) : Prop :=
    match ev_data e with RStart => ev_time e = 0%Z | RReturn b => ev_time e = 0%Z ∧ buf_ok b | RStop => True end ∧
    ev_clear e = false.
  Definition on_step (on : bool) (e : ev) : bool :=
    match ev_data e with RStart => true | RStop => false | RReturn _ => on end.
  Definition on_at' start (on : bool) (d : list ev) (k : nat) : bool :=
    fold_left (λ on e, if decide (frame_of sr start e ≤ k) then on_step on e else on) d on.

  Definition stops (d : list ev) := count_if stopping d.
  Definition starts (d : list ev) := count_if starting d.

  Lemma event_ok p e cur : pinv p → action_ok e →
    outcome (record_event zero cap p e cur) p [] (if returning e then 1 else 0) (if stopping e then 1 else 0)
      ((if starting e then 1 else 0) + 2 * (if stopping e then 1 else 0)) (on_step (rp_on p) e).
  Proof.
    intros Hinv [He _]. unfold record_event, returning, stopping, starting, on_step.
    destruct (ev_data e) as [b| |]; cbn [Nat.mul Nat.add].
    - apply return_ok; [done|apply He].
    - by apply stop_ok.
    - by apply start_ok.
  Qed.

  Lemma on_at_late start d : ∀ on k, Forall (λ e, k < frame_of sr start e) d → on_at' start on d k = on.
  Proof.
    induction d as [|e d IH]; intros on k H; [done|]. inversion_clear H. cbn. rewrite decide_False by lia. by apply IH.
  Qed.

  Lemma frames_sorted start (d : list ev) e : StronglySorted ev_before (e :: d) →
    Forall (λ e', frame_of sr start e ≤ frame_of sr start e') d.
  Proof.
    intros H. inversion_clear H as [|? ? _ Hf]. eapply Forall_impl; [exact Hf|]. cbn. intros e' [Hlt|[Heq _]];
      apply frame_of_mono; lia.
  Qed.

  Definition budget (fc pos : nat) : nat := if decide (pos = 0) then fills size fc else 0.

  Lemma piece_ok inp iv pos f p : wf inp → valid_view inp iv → v_channels inp iv = cc → f ≤ v_frames inp iv →
    pos ≤ f → pinv p → (rp_on p = true → pos = 0) →
    outcome (record_process cap inp iv p pos (f - pos)) p
      (if rp_on p then frame_at inp iv <$> seq pos (f - pos) else [])
      0 (budget (v_frames inp iv) pos - budget (v_frames inp iv) f)
        (budget (v_frames inp iv) pos - budget (v_frames inp iv) f) (rp_on p).
  Proof.
    intros Hwi Hv Hcc Hf Hpos Hinv Hon. destruct (rp_on p) eqn:E.
    - rewrite (Hon eq_refl). rewrite Nat.sub_0_r.
      eapply outcome_weaken; [| |by apply process_on]; unfold budget; rewrite (decide_True _ _ eq_refl).
      all: case_decide as Hf0; [subst f; unfold fills at 1; rewrite Nat.add_0_r, Nat.div_small; lia|].
      all: rewrite Nat.sub_0_r; unfold fills; apply Nat.div_le_mono; lia.
    - unfold record_process. rewrite E. rewrite <-E. apply outcome_refl. done.
  Qed.

  Lemma filter_all {X} (Q : X → Prop) `{!∀ x, Decision (Q x)} l : Forall Q l → filter Q l = l.
  Proof. induction 1; [done|]. rewrite filter_cons_True by done. by f_equal. Qed.
  Lemma filter_none {X} (Q : X → Prop) `{!∀ x, Decision (Q x)} l : Forall (λ x, ¬ Q x) l → filter Q l = [].
  Proof. induction 1; [done|]. by rewrite filter_cons_False. Qed.
  Lemma filter_same {X} (Q R : X → Prop) `{!∀ x, Decision (Q x)} `{!∀ x, Decision (R x)} l :
    Forall (λ x, Q x ↔ R x) l → filter Q l = filter R l.
  Proof.
    induction 1 as [|x l Hxx _ IH]; [done|]. rewrite !filter_cons. destruct (decide (Q x)), (decide (R x)); [by f_equal| | |done]; tauto.
  Qed.

  Lemma select_const (inp : owned A) iv start on d a n :
    (∀ k, a ≤ k < a + n → on_at' start on d k = on) →
    frame_at inp iv <$> filter (λ k, on_at' start on d k = true) (seq a n) =
    (if on then frame_at inp iv <$> seq a n else []).
  Proof.
    intros H. destruct on.
    - rewrite filter_all; [done|]. apply Forall_forall. intros k Hk. apply elem_of_seq in Hk. by apply H.
    - rewrite filter_none; [done|]. apply Forall_forall. intros k Hk. apply elem_of_seq in Hk. rewrite H by done. done.
  Qed.

  Lemma pieces_ok inp iv start : wf inp → valid_view inp iv → v_channels inp iv = cc → (0 <= start)%Z →
    ∀ d pos p cur, StronglySorted ev_before d → Forall action_ok d →
    Forall (λ e, pos ≤ frame_of sr start e) d → Forall (λ e, frame_of sr start e < v_frames inp iv) d →
    pos ≤ v_frames inp iv → pinv p → (rp_on p = true → pos = 0) →
    outcome (let? (p', _) := rfold (do_piece (record_process cap inp iv) (record_event zero cap) sr)
                 (pieces sr start (v_frames inp iv) pos d) (p, cur) in Ok p') p
        (frame_at inp iv <$> filter (λ k, on_at' start (rp_on p) d k = true) (seq pos (v_frames inp iv - pos)))
        (count_if returning d) (stops d + budget (v_frames inp iv) pos)
        (starts d + 2 * stops d + budget (v_frames inp iv) pos)
        (fold_left on_step d (rp_on p)).
  Proof.
    intros Hwi Hv Hcc Hstart. induction d as [|e d IH]; intros pos p cur Hsort Hact Hge Hlt Hpos Hinv Hon.
    - cbn [pieces rfold do_piece fold_left].
      pose proof (piece_ok inp iv pos (v_frames inp iv) p Hwi Hv Hcc ltac:(lia) Hpos Hinv Hon) as H.
      rewrite select_const by done.
      destruct (record_process cap inp iv p pos (v_frames inp iv - pos)) as [p'|x]; cbn [rbind] in *.
      all: eapply outcome_weaken; [| |exact H]; unfold stops, starts, count_if; cbn; lia.
    - cbn [pieces]. set (f := frame_of sr start e). cbn [rfold do_piece fold_left].
      inversion_clear Hact as [|? ? Ha Hact']. inversion_clear Hge as [|? ? Hge0 Hge'].
      inversion_clear Hlt as [|? ? Hlt0 Hlt']. fold f in Hge0, Hlt0.
      pose proof (frames_sorted start d e Hsort) as Hfs. fold f in Hfs.
      inversion_clear Hsort as [|? ? Hsort' Hfst].
      pose proof (piece_ok inp iv pos f p Hwi Hv Hcc ltac:(lia) Hge0 Hinv Hon) as H1.
      replace (v_frames inp iv - pos) with ((f - pos) + (v_frames inp iv - f)) by lia.
      rewrite seq_app, filter_app, fmap_app. replace (pos + (f - pos)) with f by lia.
      rewrite select_const.
      2: { intros k Hk. apply on_at_late. constructor; [fold f; lia|]. eapply Forall_impl; [exact Hfs|]. cbn. lia. }
      assert (filter (λ k, on_at' start (rp_on p) (e :: d) k = true) (seq f (v_frames inp iv - f)) =
              filter (λ k, on_at' start (on_step (rp_on p) e) d k = true) (seq f (v_frames inp iv - f))) as ->.
      { apply filter_same. apply Forall_forall. intros k Hk. apply elem_of_seq in Hk. cbn [on_at' fold_left].
        unfold on_at'. cbn [fold_left]. rewrite (decide_True _ _ (P := frame_of sr start e ≤ k)) by (fold f; lia). done. }
      assert (budget (v_frames inp iv) f ≤ budget (v_frames inp iv) pos) as Hb.
      { unfold budget. repeat case_decide; lia. }
      unfold stops, starts in *. rewrite !count_if_cons.
      destruct (record_process cap inp iv p pos (f - pos)) as [p1|x]; cbn [rbind].
      2: { cbn in H1 |- *. destruct H1 as [Hx Hn]. split; [done|]. unfold enough in *. lia. }
      cbn [outcome] in H1.
      pose proof (event_ok p1 e (incremented_by_samples cur (Z.of_nat (f - pos)) (Z.of_nat sr)) ltac:(apply H1) Ha) as H2.
      assert (rp_on p1 = rp_on p) as Eon by apply H1. rewrite Eon in H2.
      destruct (record_event zero cap p1 e _) as [p2|x]; cbn [rbind].
      2: { cbn in H2 |- *. destruct H2 as [Hx Hn]. split; [done|]. intros Hen. apply Hn.
           destruct H1 as (_ & _ & _ & E1 & _). apply E1. unfold enough in *. lia. }
      cbn [outcome] in H2. assert (rp_on p2 = on_step (rp_on p) e) as Eon2 by apply H2.
      assert (Hon2 : rp_on p2 = true → f = 0).
      { rewrite Eon2. unfold on_step, f. destruct Ha as [Ha _]. intros Ho.
        destruct (ev_data e) as [b| |] eqn:Ed; [|done|].
        all: unfold frame_of; rewrite position_late; [done| |lia]; unfold timestamp in *; lia. }
      specialize (IH f p2 (incremented_by_samples cur (Z.of_nat (f - pos)) (Z.of_nat sr)) Hsort' Hact' Hfs Hlt'
                    ltac:(lia) ltac:(apply H2) Hon2).
      rewrite Eon2 in IH.
      destruct (rfold _ _ _) as [[p3 c3]|x]; cbn [rbind outcome] in *.
      + pose proof (good_trans _ _ _ _ _ _ _ _ _ _ _ _ _ (good_trans _ _ _ _ _ _ _ _ _ _ _ _ _ H1 H2) IH) as (I3 & S3 & B3 & E3 & F3).
        split; [done|]. split; [by rewrite S3, app_nil_r|]. split; [lia|]. split; [|done].
        intros k0 m0 Hen. apply E3. unfold enough in *. lia.
      + destruct IH as [Hx Hn]. split; [done|]. intros Hen. apply Hn.
        pose proof (good_trans _ _ _ _ _ _ _ _ _ _ _ _ _ H1 H2) as (_ & _ & _ & E3 & _).
        apply E3. unfold enough in *. lia.
  Qed.

  (** ** Histories *)
  Definition proj (e : ev) : option request :=
    match ev_data e with
    | RStart => Some (Event (ev_time e) (ev_seq e) (ev_clear e) true)
    | RStop => Some (Event (ev_time e) (ev_seq e) (ev_clear e) false)
    | RReturn _ => None
    end.

  Lemma omap_perm {X Y} (f : X → option Y) l1 l2 : l1 ≡ₚ l2 → omap f l1 ≡ₚ omap f l2.
  Proof.
    induction 1 as [|x l1 l2 _ IH|x y l|l1 l2 l3 _ IH1 _ IH2]; cbn; [done| | |by rewrite IH1].
    - destruct (f x); by rewrite IH.
    - destruct (f x), (f y); try done. apply Permutation_swap.
  Qed.

  Lemma Forall_omap_proj (Q : timestamp → Prop) (d : list ev) :
    Forall (λ e, Q (ev_time e)) d → Forall (λ e, Q (ev_time e)) (omap proj d).
  Proof.
    induction 1 as [|e d He _ IH]; [constructor|]. cbn. unfold proj at 1.
    destruct (ev_data e); [done| |]; constructor; done.
  Qed.

  Lemma sorted_proj (d : list ev) : StronglySorted ev_before d → StronglySorted ev_before (omap proj d).
  Proof.
    induction 1 as [|e d _ IH Hf]; [constructor|]. cbn.
    assert (∀ r, proj e = Some r → Forall (ev_before r) (omap proj d)) as H.
    { intros r Hr. clear IH. induction Hf as [|e' d' He' _ IH']; [constructor|]. cbn.
      assert (ev_time r = ev_time e ∧ ev_seq r = ev_seq e) as [E1 E2].
      { unfold proj in Hr. destruct (ev_data e); simplify_eq; done. }
      unfold proj at 1. destruct (ev_data e'); [done| |].
      all: constructor; [|done]; unfold ev_before in *; cbn; rewrite E1, E2; done. }
    destruct (proj e) as [r|] eqn:E; [|done]. constructor; [done|]. by apply H.
  Qed.

  Lemma delivers_proj start fc live d rest : delivers sr start fc live d rest →
    delivers sr start fc (omap proj live) (omap proj d) (omap proj rest).
  Proof.
    intros (H1 & H2 & H3 & H4). split; [|split; [|split]].
    - rewrite (omap_perm proj _ _ H1). by rewrite omap_app.
    - by apply sorted_proj.
    - by apply (Forall_omap_proj (λ t, (t < block_end sr start fc)%Z)).
    - by apply (Forall_omap_proj (λ t, (block_end sr start fc <= t)%Z)).
  Qed.

  Lemma on_at_proj start (d : list ev) : ∀ on k, on_at sr start on (omap proj d) k = on_at' start on d k.
  Proof.
    induction d as [|e d IH]; intros on k; [done|]. unfold on_at' in *. cbn [fold_left omap list_omap].
    unfold proj at 1, on_step at 2. destruct (ev_data e) eqn:E; unfold on_at in *; cbn [fold_left].
    - rewrite IH. by destruct (decide _).
    - rewrite IH. done.
    - rewrite IH. done.
  Qed.
  Lemma on_after_proj (d : list ev) : ∀ on, on_after on (omap proj d) = fold_left on_step d on.
  Proof.
    induction d as [|e d IH]; intros on; [done|]. cbn [fold_left omap list_omap].
    unfold proj at 1, on_step at 2. unfold on_after in *. destruct (ev_data e) eqn:E; cbn [fold_left]; apply IH.
  Qed.

  Definition rec_ok (o : option (owned A)) : Prop :=
    match o with Some b => wf b ∧ channels b = cc ∧ rate b = sr | None => True end.

  Definition rinv (count : nat) (r : recorder A) (taken : list (owned A)) (w s : list request) (on : bool)
      (snd : list (list A)) : Prop :=
    ep_rate (rc_queue r) = sr ∧ StronglySorted ev_before (ep_pending (rc_queue r)) ∧
    Forall action_ok (queued r) ∧ Forall (λ e, ev_seq e < rc_seq r) (queued r) ∧
    w = omap proj (ep_pending (rc_queue r)) ∧ s = omap proj (ep_channel (rc_queue r)) ∧
    pinv (rc_proc r) ∧ rp_on (rc_proc r) = on ∧ rec_ok (rc_recording r) ∧
    received taken r ++ sound (rc_proc r) = snd ∧
    flag (rc_is_recording r) (rp_notes (rc_proc r)) = rp_on (rc_proc r) ∧
    bufs (rc_proc r) + count_if returning (queued r) = count.

  Context (ecap count : nat).

  Lemma newer_proj n (l : list ev) (e : request) : Forall (λ e, ev_seq e < n) l → n ≤ ev_seq e → newer e (omap proj l).
  Proof.
    intros H Hn. unfold newer. induction H as [|x l Hx _ IH]; [constructor|]. cbn. unfold proj at 1.
    destruct (ev_data x); [done| |]; constructor; cbn; [lia|done|lia|done].
  Qed.

  Lemma send_action_inv r taken w s on snd t a :
    rinv count r taken w s on snd → action_ok (Event t 0 false a) →
    (∀ b, a ≠ RReturn b) →
    match send_action ecap t a r with
    | Ok r' => ∃ e, ev_time e = t ∧ newer e (w ++ s) ∧ proj (Event t (rc_seq r) false a) = Some e ∧
        rinv count r' taken w (s ++ [e]) on snd
    | Panic x => x = Blocked ∧ ¬ length (ep_channel (rc_queue r)) < ecap
    end.
  Proof.
    intros (H1 & H2 & H3 & H4 & H5 & H6 & H7 & H8 & H9 & H10 & H11 & H12) Ha Hnr. unfold send_action.
    destruct (Nat.ltb_spec (length (ep_channel (rc_queue r))) ecap) as [Hlt|Hge]; [|split; [done|lia]].
    assert (∃ e, proj (Event t (rc_seq r) false a) = Some e ∧ ev_time e = t ∧ ev_seq e = rc_seq r) as (e & Ep & Et & Es).
    { destruct a as [b| |]; [by destruct (Hnr b)| |]; cbn; eauto. }
    exists e. split; [done|].
    split. { subst w s. rewrite <-omap_app. apply newer_proj with (rc_seq r); [done|lia]. }
    split; [done|].
    assert (Eq : queued (Recorder (send_event (Event t (rc_seq r) false a) (rc_queue r)) (rc_proc r) (rc_recording r)
                           (rc_is_recording r) (S (rc_seq r))) = queued r ++ [Event t (rc_seq r) false a]).
    { unfold queued. cbn. by rewrite app_assoc. }
    unfold rinv. rewrite Eq. cbn [rc_queue rc_proc rc_recording rc_is_recording rc_seq send_event ep_rate ep_pending ep_channel].
    do 2 (split; [done|]). split.
    { apply Forall_app. split; [done|]. constructor; [|constructor]. exact Ha. }
    split.
    { apply Forall_app. split; [|constructor; [cbn; lia|constructor]]. eapply Forall_impl; [exact H4|]. cbn. lia. }
    split; [done|]. split; [rewrite omap_app; cbn; by rewrite Ep, H6|].
    do 5 (split; [done|]). rewrite count_if_app, count_if_cons, count_if_nil.
    destruct a as [b| |]; [by destruct (Hnr b)| |]; cbn [returning ev_data]; lia.
  Qed.

  Lemma append_ok rec b used : rec_ok rec → buf_ok b → used ≤ size →
    ∃ rec', append_buffer zero rec b used = Ok rec' ∧ rec_ok (Some rec') ∧
      frames_of rec' Whole = recording_frames rec ++ (frame_at b Whole <$> seq 0 used).
  Proof.
    intros Hrec (Hw & Hc & Hf & Hr) Hu. unfold append_buffer.
    destruct (slice_frames_ok b used Hw ltac:(lia)) as (v & -> & Hv & Hvc & Hvf & Hfr). cbn [rbind].
    destruct rec as [rec|].
    - destruct Hrec as (Rw & Rc & Rr).
      destruct (extended_ok zero rec b v Rw Hw Hv ltac:(lia) ltac:(lia)) as (r' & -> & W & C & F & R & S).
      exists r'. split; [done|]. split; [split; [done|lia]|]. cbn [recording_frames]. rewrite <-Hfr.
      unfold frames_of. cbn [v_frames]. rewrite F, seq_app, fmap_app, Nat.add_0_l. f_equal.
      + apply fmap_seq_ext. intros k Hk. apply frame_at_ext; [cbn; lia|]. intros ch Hch. cbn in *.
        rewrite S by lia. rewrite decide_True by lia. done.
      + replace (seq (frames rec) (v_frames b v)) with (seq (frames rec + 0) (v_frames b v)) by (f_equal; lia).
        rewrite fmap_seq_shift. apply fmap_seq_ext. intros k Hk. apply frame_at_ext; [cbn; lia|]. intros ch Hch. cbn in Hch |- *.
        rewrite S by lia. rewrite decide_False by lia. rewrite decide_True by lia. f_equal; lia.
    - destruct (from_buffer_ok zero b v Hw Hv) as (r' & -> & W & C & F & R & S).
      exists r'. split; [done|]. split; [split; [done|lia]|]. cbn [recording_frames app]. rewrite <-Hfr.
      unfold frames_of. cbn [v_frames]. rewrite F. apply fmap_seq_ext. intros k Hk. apply frame_at_ext; [cbn; lia|].
      intros ch Hch. cbn in Hch |- *. rewrite S by lia. f_equal; lia.
  Qed.

  Lemma handle_note_inv r taken w s on snd : rinv count r taken w s on snd →
    match handle_note zero ecap r with
    | Ok r' => rinv count r' taken w s on snd
    | Panic x => x = Blocked ∧ ¬ length (ep_channel (rc_queue r)) < ecap
    end.
  Proof.
    intros Hinv. pose proof Hinv as (H1 & H2 & H3 & H4 & H5 & H6 & H7 & H8 & H9 & H10 & H11 & H12). unfold handle_note.
    destruct (rp_notes (rc_proc r)) as [|n l] eqn:En; [done|].
    destruct H7 as (Hpool & Hnotes & Hcur & Hps & Hoff). rewrite En in Hnotes.
    inversion_clear Hnotes as [|? ? Hn Hl]. destruct n as [|b used|].
    - unfold rinv. cbn [rc_queue rc_proc rc_recording rc_is_recording rc_seq].
      do 6 (split; [done|]). split; [done|]. do 2 (split; [done|]). split; [|split; [done|]].
      + rewrite <-H10. unfold sound. by rewrite En.
      + rewrite <-H12. unfold bufs. rewrite En, count_if_cons. done.
    - destruct (append_ok (rc_recording r) b used H9) as (rec & -> & Hrec & Hfr); [apply Hn|apply Hn|]. cbn [rbind].
      unfold send_action. cbn [rc_queue rc_proc rc_recording rc_is_recording rc_seq].
      destruct (Nat.ltb_spec (length (ep_channel (rc_queue r))) ecap) as [Hlt|Hge]; [|split; [done|lia]].
      set (e := Event 0%Z (rc_seq r) false (RReturn b)).
      set (p' := RecProc l _ _ _ _).
      assert (Eq : queued (Recorder (send_event e (rc_queue r)) p' (Some rec)
                             (rc_is_recording r) (S (rc_seq r))) = queued r ++ [e]).
      { unfold queued. cbn. by rewrite app_assoc. }
      unfold rinv. rewrite Eq. cbn [rc_queue rc_proc rc_recording rc_is_recording rc_seq send_event ep_rate ep_pending ep_channel].
      do 2 (split; [done|]). split.
      { apply Forall_app. split; [done|]. constructor; [|constructor]. split; [|done]. cbn. split; [done|]. apply Hn. }
      split.
      { apply Forall_app. split; [|constructor; [cbn; lia|constructor]]. eapply Forall_impl; [exact H4|]. cbn. lia. }
      split; [done|]. split; [rewrite omap_app; cbn; by rewrite app_nil_r|].
      split; [done|]. split; [done|]. split; [done|]. split; [|split].
      + rewrite <-H10. unfold received, sound. rewrite En. cbn [rc_recording recording_frames rc_proc rp_notes rp_cur rp_pos p'].
        rewrite Hfr, fmap_cons. cbn [concat note_frames]. by rewrite <-!app_assoc.
      + exact H11.
      + rewrite <-H12. unfold bufs. rewrite En, count_if_app, !count_if_cons, count_if_nil. cbn [filled returning ev_data e rp_pool rp_notes p']. lia.
    - unfold rinv. cbn [rc_queue rc_proc rc_recording rc_is_recording rc_seq].
      do 6 (split; [done|]). split; [done|]. do 2 (split; [done|]). split; [|split; [done|]].
      + rewrite <-H10. unfold sound. by rewrite En.
      + rewrite <-H12. unfold bufs. rewrite En, count_if_cons. done.
  Qed.

  Lemma take_inv r taken w s on snd : rinv count r taken w s on snd →
    rinv count (Recorder (rc_queue r) (rc_proc r) None (rc_is_recording r) (rc_seq r))
      (match rc_recording r with Some b => taken ++ [b] | None => taken end) w s on snd.
  Proof.
    intros (H1 & H2 & H3 & H4 & H5 & H6 & H7 & H8 & H9 & H10 & H11 & H12).
    unfold rinv. cbn [rc_queue rc_proc rc_recording rc_is_recording rc_seq].
    do 9 (split; [done|]). split; [|done]. rewrite <-H10. unfold received. cbn [rc_recording recording_frames].
    destruct (rc_recording r) as [b|]; cbn [recording_frames]; [|done].
    rewrite fmap_app, concat_app. cbn. by rewrite !app_nil_r.
  Qed.

  Lemma block_inv r taken w s on snd start inp iv :
    rinv count r taken w s on snd → rop_ok cc sr (RecordBlock start inp iv) →
    match rstep zero cap ecap r (RecordBlock start inp iv) with
    | Ok (r', t) => t = None ∧ ∃ reqs rest, delivers sr start (v_frames inp iv) (w ++ s) reqs rest ∧
        rinv count r' taken rest [] (on_after on reqs) (snd ++ recorded sr start on reqs inp iv)
    | Panic x => (x = NoBuffers ∨ x = Blocked) ∧ ¬ keeps_up cap count size r (v_frames inp iv)
    end.
  Proof.
    intros (H1 & H2 & H3 & H4 & H5 & H6 & H7 & H8 & H9 & H10 & H11 & H12) (Hwi & Hv & Hcc & Hblk & Hst).
    cbn [rstep]. unfold record_block.
    destruct (event_block_ok (record_process cap inp iv) (record_event zero cap) sr Hsr start (v_frames inp iv)
                (rc_queue r) (rc_proc r) Hblk H1 H2) as (live & d & rest & Hsurv & Hdel & _ & Hsr' & ->).
    assert (live ≡ₚ queued r) as Hlive.
    { destruct Hsurv as [[_ H]|(old & c & new & E & Hc & _)]; [done|]. exfalso.
      unfold queued in H3. rewrite E in H3. apply Forall_app in H3 as [_ H3].
      apply Forall_app in H3 as [_ H3]. inversion_clear H3 as [|? ? [_ Hcc'] _]. congruence. }
    pose proof Hdel as (Hperm & Hsd & Hdue & Hnot). rewrite Hlive in Hperm.
    assert (Forall action_ok (d ++ rest)) as Hact by (by rewrite <-Hperm).
    assert (Forall (λ e, ev_seq e < rc_seq r) (d ++ rest)) as Hseq by (by rewrite <-Hperm).
    apply Forall_app in Hact as [Hact Hact']. apply Forall_app in Hseq as [_ Hseq'].
    pose proof (pieces_ok inp iv start Hwi Hv Hcc Hst d 0 (rc_proc r) start Hsd Hact) as Hp.
    assert (Hp' : outcome (let? (p', _) := rfold (do_piece (record_process cap inp iv) (record_event zero cap) sr)
                 (pieces sr start (v_frames inp iv) 0 d) (rc_proc r, start) in Ok p') (rc_proc r)
        (recorded sr start on (omap proj d) inp iv)
        (count_if returning d) (stops d + fills size (v_frames inp iv))
        (starts d + 2 * stops d + fills size (v_frames inp iv))
        (on_after on (omap proj d))).
    { rewrite on_after_proj, <-H8. unfold recorded.
      rewrite (filter_same _ (λ k, on_at' start (rp_on (rc_proc r)) d k = true)).
      2: { apply Forall_forall. intros k _. by rewrite on_at_proj. }
      unfold budget in Hp. rewrite (decide_True _ _ eq_refl), Nat.sub_0_r in Hp. apply Hp; [| |lia|done|done].
      - apply Forall_forall. intros; lia.
      - eapply Forall_impl; [exact Hdue|]. cbn. intros e He. by apply frame_of_inside. }
    clear Hp.
    destruct (rfold _ _ _) as [[p' c']|x]; cbn [rbind outcome] in *.
    - split; [done|]. exists (omap proj d), (omap proj rest). split.
      { pose proof (delivers_proj _ _ _ _ _ Hdel) as (Hq1 & Hq2). split; [|done].
        rewrite <-Hq1, H5, H6, <-omap_app. symmetry. by apply omap_perm. }
      destruct Hp' as (I3 & S3 & B3 & E3 & F3 & O3).
      unfold rinv, queued. cbn [rc_queue rc_proc rc_recording rc_is_recording rc_seq ep_rate ep_pending ep_channel].
      rewrite app_nil_r. do 9 (split; [done|]). split; [|split].
      + rewrite <-H10. unfold received in *. cbn [rc_recording]. rewrite S3. by rewrite <-!app_assoc.
      + by apply F3.
      + rewrite B3, <-H12. rewrite (count_if_perm returning _ _ Hperm), count_if_app. lia.
    - destruct Hp' as [Hx Hn]. split; [done|]. intros [K1 K2]. apply Hn. unfold enough.
      rewrite (count_if_perm stopping _ _ Hperm), count_if_app in K1, K2.
      rewrite (count_if_perm starting _ _ Hperm), count_if_app in K2.
      unfold bufs in H12. unfold stops, starts. lia.
  Qed.

  Lemma step_inv r taken w s on snd o : rinv count r taken w s on snd → rop_ok cc sr o →
    match rstep zero cap ecap r o with
    | Ok (r', t) => ∃ w' s' on' snd', rec_run sr w s on [o] w' s' on' snd' ∧
        rinv count r' (match t with Some b => taken ++ [b] | None => taken end) w' s' on' (snd ++ snd')
    | Panic x => (x = NoBuffers ∨ x = Blocked) ∧ ¬ has_room cap ecap count size r o
    end.
  Proof.
    intros Hinv Ho. destruct o as [| |t| | |start inp iv].
    - pose proof (send_action_inv r taken w s on snd 0%Z RStart Hinv) as H. cbn [rstep has_room].
      specialize (H ltac:(split; done) ltac:(done)).
      destruct (send_action ecap 0%Z RStart r) as [r'|x]; cbn [rbind].
      + destruct H as (e & Et & Hnew & [= <-] & Hi). eexists _, _, _, []. rewrite app_nil_r. split; [|done].
        eapply rr_request; [by left|done|done|done|constructor].
      + destruct H as [-> H]. auto.
    - pose proof (send_action_inv r taken w s on snd 0%Z RStop Hinv) as H. cbn [rstep has_room].
      specialize (H ltac:(split; done) ltac:(done)).
      destruct (send_action ecap 0%Z RStop r) as [r'|x]; cbn [rbind].
      + destruct H as (e & Et & Hnew & [= <-] & Hi). eexists _, _, _, []. rewrite app_nil_r. split; [|done].
        eapply rr_request; [by right; left|done|done|done|constructor].
      + destruct H as [-> H]. auto.
    - pose proof (send_action_inv r taken w s on snd t RStop Hinv) as H. cbn [rstep has_room].
      specialize (H ltac:(split; done) ltac:(done)).
      destruct (send_action ecap t RStop r) as [r'|x]; cbn [rbind].
      + destruct H as (e & Et & Hnew & [= <-] & Hi). eexists _, _, _, []. rewrite app_nil_r. split; [|done].
        eapply rr_request; [by right; right|done|done|done|constructor].
      + destruct H as [-> H]. auto.
    - pose proof (handle_note_inv r taken w s on snd Hinv) as H. cbn [rstep has_room].
      destruct (handle_note zero ecap r) as [r'|x]; cbn [rbind].
      + eexists _, _, _, []. rewrite app_nil_r. split; [|done]. eapply rr_other; [by left|constructor].
      + destruct H as [-> H]. auto.
    - cbn [rstep]. eexists _, _, _, []. rewrite app_nil_r. split; [eapply rr_other; [by right|constructor]|].
      by apply take_inv.
    - pose proof (block_inv r taken w s on snd start inp iv Hinv Ho) as H. cbn [has_room].
      destruct (rstep zero cap ecap r (RecordBlock start inp iv)) as [[r' t]|x]; [|done].
      destruct H as (-> & reqs & rest & Hd & Hi). eexists _, _, _, _. split; [|exact Hi].
      rewrite <-(app_nil_r (recorded _ _ _ _ _ _)). eapply rr_block; [done|constructor].
  Qed.

  Lemma rec_run_cons w s on o os w1 s1 on1 snd1 w2 s2 on2 snd2 :
    rec_run (A := A) sr w s on [o] w1 s1 on1 snd1 → rec_run sr w1 s1 on1 os w2 s2 on2 snd2 →
    rec_run sr w s on (o :: os) w2 s2 on2 (snd1 ++ snd2).
  Proof.
    intros H1 H2. inversion H1 as [|????????????? Hr| |]; subst.
    - match goal with H : rec_run _ _ _ _ [] _ _ _ _ |- _ => inversion H; subst end. by eapply rr_request.
    - match goal with H : rec_run _ _ _ _ [] _ _ _ _ |- _ => inversion H; subst end. by eapply rr_other.
    - match goal with H : rec_run _ _ _ _ [] _ _ _ _ |- _ => inversion H; subst end.
      rewrite app_nil_r. by eapply rr_block.
  Qed.

  Lemma run_inv os : Forall (rop_ok cc sr) os → ∀ r taken w s on snd, rinv count r taken w s on snd →
    match rrun zero cap ecap r taken os with
    | Ok (r', taken') => ∃ w' s' on' snd', rec_run sr w s on os w' s' on' snd' ∧
        rinv count r' taken' w' s' on' (snd ++ snd')
    | Panic x => x = NoBuffers ∨ x = Blocked
    end.
  Proof.
    induction 1 as [|o os Ho _ IH]; intros r taken w s on snd Hinv; cbn [rrun].
    - eexists _, _, _, []. rewrite app_nil_r. split; [constructor|done].
    - pose proof (step_inv r taken w s on snd o Hinv Ho) as H.
      destruct (rstep zero cap ecap r o) as [[r1 t]|x]; cbn [rbind]; [|by destruct H].
      destruct H as (w1 & s1 & on1 & snd1 & R1 & I1).
      specialize (IH r1 _ _ _ _ _ I1). destruct (rrun zero cap ecap r1 _ os) as [[r' taken']|x]; [|done].
      destruct IH as (w2 & s2 & on2 & snd2 & R2 & I2). exists w2, s2, on2, (snd1 ++ snd2).
      split; [by eapply rec_run_cons|by rewrite app_assoc].
  Qed.

  Lemma new_buf_ok : buf_ok (new_buffer zero size cc sr).
  Proof. split; [apply new_buffer_wf|done]. Qed.

  Lemma new_inv : rinv count (new_recorder zero count size cc sr) [] [] [] false [].
  Proof.
    unfold rinv, new_recorder, queued. cbn [rc_queue rc_proc rc_recording rc_is_recording rc_seq new_evproc ep_rate ep_pending ep_channel].
    do 6 (split; [first [done|constructor]|]). split.
    { unfold pinv. cbn. split; [apply Forall_replicate, new_buf_ok|]. split; [constructor|]. split; [apply new_buf_ok|]. done. }
    do 4 (split; [done|]). unfold bufs. cbn. rewrite replicate_length. unfold count_if. cbn. lia.
  Qed.
End proofs.

Section results.
  Context {A : Type} (zero : A) (ncap ecap count size cc sr : nat) (Hsize : 0 < size)
    (Hsr : (0 < Z.of_nat sr <= 2 ^ 29)%Z).
  Local Notation run := (rrun zero ncap ecap (new_recorder zero count size cc sr) []).

  Lemma recorder_run os : Forall (rop_ok (A := A) cc sr) os →
    match run os with
    | Ok (r, taken) => ∃ w s on snd, rec_run sr [] [] false os w s on snd ∧
        rinv size cc sr count r taken w s on snd
    | Panic x => x = NoBuffers ∨ x = Blocked
    end.
  Proof.
    intros H. exact (run_inv zero ncap size cc sr Hsize Hsr ecap count os H _ _ _ _ _ _ (new_inv zero size cc sr Hsize count)).
  Qed.

  Lemma recorder_refines os r taken : Forall (rop_ok cc sr) os → run os = Ok (r, taken) →
    ∃ w s on snd, rec_run sr [] [] false os w s on snd ∧
      received taken r `prefix_of` snd ∧
      (rp_notes (rc_proc r) = [] → rc_is_recording r = on ∧ (on = false → received taken r = snd)).
  Proof.
    intros Ho E. pose proof (recorder_run os Ho) as H. rewrite E in H.
    destruct H as (w & s & on & snd & Hrun & Hinv). exists w, s, on, snd. split; [done|].
    destruct Hinv as (_ & _ & _ & _ & _ & _ & Hp & Hon & _ & Hs & Hflag & _).
    split; [rewrite <-Hs; by apply prefix_app_r|]. intros Hn. rewrite Hn in Hflag. cbn in Hflag.
    split; [congruence|]. intros ->. rewrite <-Hs. unfold sound. rewrite Hn. cbn.
    destruct Hp as (_ & _ & _ & _ & Hoff). rewrite Hoff by congruence. cbn. by rewrite app_nil_r.
  Qed.

  Lemma recorder_buffers os r taken : Forall (rop_ok cc sr) os → run os = Ok (r, taken) → buffers r = count + 1.
  Proof.
    intros Ho E. pose proof (recorder_run os Ho) as H. rewrite E in H.
    destruct H as (w & s & on & snd & Hrun & Hinv).
    destruct Hinv as (_ & _ & _ & _ & _ & _ & _ & _ & _ & _ & _ & Hb). unfold buffers, bufs in *. lia.
  Qed.

  Lemma recorder_aborts os x : Forall (rop_ok cc sr) os → run os = Panic x → x = NoBuffers ∨ x = Blocked.
  Proof. intros Ho E. pose proof (recorder_run os Ho) as H. by rewrite E in H. Qed.

  Lemma rrun_app r taken (a b : list (rop A)) :
    rrun zero ncap ecap r taken (a ++ b) = let? (r', t') := rrun zero ncap ecap r taken a in rrun zero ncap ecap r' t' b.
  Proof.
    revert r taken. induction a as [|o a IH]; intros r taken; [done|]. cbn [rrun app].
    destruct (rstep zero ncap ecap r o) as [[r1 t]|]; [|done]. cbn [rbind]. apply IH.
  Qed.

  Lemma recorder_keeps_up os : Forall (rop_ok cc sr) os →
    (∀ os1 o os2 r taken, os = os1 ++ o :: os2 → run os1 = Ok (r, taken) → has_room ncap ecap count size r o) →
    ∃ r taken, run os = Ok (r, taken).
  Proof.
    induction os as [|o os IH] using rev_ind; intros Ho Hroom; [by eexists _, _|].
    apply Forall_app in Ho as [Ho1 Ho2]. inversion_clear Ho2 as [|? ? Ho' _].
    destruct IH as (r & taken & E); [done| |].
    { intros os1 o' os2 r taken -> E. eapply (Hroom os1 o' (os2 ++ [o])); [by rewrite <-app_assoc|done]. }
    rewrite rrun_app, E. cbn [rbind rrun].
    pose proof (recorder_run os Ho1) as H. rewrite E in H. destruct H as (w & s & on & snd & _ & Hinv).
    pose proof (step_inv zero ncap size cc sr Hsize Hsr ecap count r taken w s on snd o Hinv Ho') as H.
    destruct (rstep zero ncap ecap r o) as [[r' t]|x]; cbn [rbind]; [by eexists _, _|].
    destruct H as [_ H]. destruct H. by eapply Hroom.
  Qed.

  (** a block that starts at a non-negative time ends at a positive one *)
  Lemma block_end_pos start fc : (0 <= start)%Z → block_ok sr fc → (0 < block_end sr start fc)%Z.
  Proof.
    intros Hs (H1 & H2 & H3). unfold block_end, incremented_by_samples.
    change (from_samples (f64_of_Z (Z.of_nat fc)) (Z.of_nat sr)) with (frame_time (Z.of_nat fc) (Z.of_nat sr)).
    pose proof (frame_time_strict 0 (Z.of_nat fc) (Z.of_nat sr) ltac:(lia) ltac:(lia) ltac:(lia)) as H.
    rewrite frame_time_0 in H by lia. lia.
  Qed.

  Lemma frame_of_now start (e : request) : (0 <= start)%Z → ev_time e = 0%Z → frame_of sr start e = 0.
  Proof. intros Hs He. unfold frame_of. rewrite position_late; [done| |lia]. unfold timestamp in *. lia. Qed.

  Lemma deliver_now start fc (live d rest : list request) : (0 <= start)%Z → block_ok sr fc →
    Forall (λ e, ev_time e = 0%Z) live → delivers sr start fc live d rest → rest = [] ∧ d ≡ₚ live.
  Proof.
    intros Hs Hb Ht (Hp & _ & _ & Hr). assert (rest = []) as ->.
    { destruct rest as [|e rest]; [done|]. exfalso. inversion_clear Hr as [|? ? He _].
      rewrite Forall_forall in Ht. pose proof (block_end_pos start fc Hs Hb).
      rewrite (Ht e) in He; [lia|]. rewrite Hp. apply elem_of_app. right. left. }
    split; [done|]. by rewrite Hp, app_nil_r.
  Qed.

  Lemma on_at_now start (l : list request) on k : (0 <= start)%Z → Forall (λ e, ev_time e = 0%Z) l →
    on_at sr start on l k = on_after on l.
  Proof.
    intros Hs Hl. revert on. induction Hl as [|e l He _ IH]; intros on; [done|].
    unfold on_at, on_after in *. cbn [fold_left]. rewrite decide_True; [apply IH|]. rewrite frame_of_now by done. lia.
  Qed.

  Lemma recorded_now start (l : list request) on (inp : owned A) iv : (0 <= start)%Z → Forall (λ e, ev_time e = 0%Z) l →
    recorded sr start on l inp iv = if on_after on l then frames_of inp iv else [].
  Proof.
    intros Hs Hl. unfold recorded. destruct (on_after on l) eqn:E.
    - rewrite filter_all; [done|]. apply Forall_forall. intros k _. by rewrite on_at_now.
    - rewrite filter_none; [done|]. apply Forall_forall. intros k _. by rewrite on_at_now, E.
  Qed.

  (** while recording, or before the first block after the request *)
  Lemma run_body os w s on w' s' on' snd : Forall (rop_ok cc sr) os → Forall (block_or_note (A := A)) os →
    rec_run sr w s on os w' s' on' snd → w = [] →
    (s = [] ∧ on = true ∨ ∃ e, s = [e] ∧ ev_time e = 0%Z ∧ ev_data e = true ∧ on = false) →
    snd = concat (input_of <$> os) ∧ w' = [] ∧
    (s' = [] ∧ on' = true ∨ ∃ e, s' = [e] ∧ ev_time e = 0%Z ∧ ev_data e = true ∧ on' = false).
  Proof.
    intros Ho Hb Hrun. induction Hrun as [|????????????  Hreq| ???????? ? Hoth ? IH|??? start inp iv reqs rest os ???? Hdel ? IH]; intros -> Hs.
    - done.
    - exfalso. inversion_clear Hb as [|? ? Hb' _]. destruct Hreq as [?|[?|?]]; simplify_eq; done.
    - inversion_clear Ho. inversion_clear Hb as [|? ? Hb' Hb'']. destruct Hoth as [->| ->]; [|done].
      cbn [fmap list_fmap input_of concat app]. by apply IH.
    - inversion_clear Ho as [|? ? Hop Ho']. destruct Hop as (_ & _ & _ & Hblk & Hst). inversion_clear Hb as [|? ? _ Hb''].
      assert (Forall (λ e : request, ev_time e = 0%Z) s) as Hs0.
      { destruct Hs as [[-> _]|(e & -> & He & _)]; [constructor|]. by constructor. }
      destruct (deliver_now start _ _ _ _ Hst Hblk Hs0 Hdel) as [-> Hperm]. cbn [app] in Hperm.
      assert (on_after on reqs = true ∧ Forall (λ e, ev_time e = 0%Z) reqs) as [Haft Hz].
      { destruct Hs as [[-> ->]|(e & -> & He & Hd & ->)].
        - apply Permutation_nil_r in Hperm as ->. split; [done|constructor].
        - apply Permutation_singleton_r in Hperm as ->. cbn. split; [done|by constructor]. }
      destruct IH as (-> & -> & Hs'); [done|done|done|by left|].
      split; [|done]. cbn [fmap list_fmap input_of concat]. by rewrite recorded_now, Haft.
  Qed.

  Lemma rec_run_split a b : ∀ w s on w' s' on' snd, rec_run (A := A) sr w s on (a ++ b) w' s' on' snd →
    ∃ w1 s1 on1 snd1 snd2, rec_run sr w s on a w1 s1 on1 snd1 ∧ rec_run sr w1 s1 on1 b w' s' on' snd2 ∧ snd = snd1 ++ snd2.
  Proof.
    induction a as [|o a IH]; intros w s on w' s' on' snd H.
    - exists w, s, on, [], snd. split; [constructor|done].
    - cbn in H. inversion H as [|????????????? Hr| |]; subst.
      all: match goal with H : rec_run _ _ _ _ (_ ++ _) _ _ _ _ |- _ =>
             apply IH in H as (w1 & s1 & on1 & snd1 & snd2 & R1 & R2 & ->) end.
      + exists w1, s1, on1, snd1, snd2. split; [by eapply rr_request|done].
      + exists w1, s1, on1, snd1, snd2. split; [by eapply rr_other|done].
      + eexists w1, s1, on1, (_ ++ snd1), snd2. split; [by eapply rr_block|]. split; [done|]. by rewrite app_assoc.
  Qed.

  Lemma run_notes os w s on w' s' on' snd : Forall (λ o, o = HandleNote ∨ o = TakeRecording) os →
    rec_run (A := A) sr w s on os w' s' on' snd → snd = [] ∧ on' = on.
  Proof.
    intros Hn Hrun. induction Hrun as [|????????????  Hreq| ???????? ? Hoth ? IH|].
    - done.
    - exfalso. inversion_clear Hn as [|? ? [Hb'|Hb'] _]; destruct Hreq as [?|[?|?]]; simplify_eq; done.
    - inversion_clear Hn. by apply IH.
    - exfalso. inversion_clear Hn as [|? ? [Hb'|Hb'] _]; done.
  Qed.

  Lemma inv_record b os w s on w' s' on' snd :
    rec_run (A := A) sr w s on ((if b : bool then RecordNow else StopNow) :: os) w' s' on' snd →
    ∃ e, ev_time e = 0%Z ∧ ev_data e = b ∧ newer e (w ++ s) ∧ rec_run sr w (s ++ [e]) on os w' s' on' snd.
  Proof.
    intros H. remember ((if b : bool then RecordNow else StopNow) :: os) as l eqn:El. destruct H as [| ? ? ? o t b' e ? ? ? ? ? Hreq|? ? ? ? ? ? ? ? ? Hoth|]; simplify_eq.
    - exists e. destruct b, Hreq as [?|[?|?]]; simplify_eq; done.
    - destruct b, Hoth; simplify_eq.
    - destruct b; simplify_eq.
  Qed.
  Lemma inv_block start inp iv os w s on w' s' on' snd :
    rec_run (A := A) sr w s on (RecordBlock start inp iv :: os) w' s' on' snd →
    ∃ reqs rest snd', delivers sr start (v_frames inp iv) (w ++ s) reqs rest ∧
      rec_run sr rest [] (on_after on reqs) os w' s' on' snd' ∧ snd = recorded sr start on reqs inp iv ++ snd'.
  Proof.
    intros H. remember (RecordBlock start inp iv :: os) as l eqn:El. destruct H as [| ? ? ? o t b' e ? ? ? ? ? Hreq|? ? ? ? ? ? ? ? ? Hoth|]; simplify_eq.
    - destruct Hreq as [?|[?|?]]; simplify_eq.
    - destruct Hoth; simplify_eq.
    - eexists _, _, _. done.
  Qed.

  Lemma take_sound body start inp iv notes w s on snd :
    Forall (rop_ok cc sr) (body ++ [RecordBlock start inp iv]) → Forall block_or_note body →
    Forall (λ o, o = HandleNote ∨ o = TakeRecording) notes →
    rec_run (A := A) sr [] [] false (RecordNow :: body ++ StopNow :: RecordBlock start inp iv :: notes) w s on snd →
    on = false ∧ snd = concat (input_of <$> body).
  Proof.
    intros Ho Hb Hn Hrun. apply Forall_app in Ho as [Ho1 Ho2]. inversion_clear Ho2 as [|? ? Hblk _].
    destruct (inv_record true _ _ _ _ _ _ _ _ Hrun) as (e & Ht & Hd & _ & Hr).
    apply rec_run_split in Hr as (w1 & s1 & on1 & snd1 & snd2 & R1 & R2 & ->).
    cbn [app] in R1. destruct (run_body _ _ _ _ _ _ _ _ Ho1 Hb R1 eq_refl) as (-> & -> & Hs1).
    { right. exists e. done. }
    destruct (inv_record false _ _ _ _ _ _ _ _ R2) as (e2 & Ht2 & Hd2 & Hnew2 & Hr2).
    destruct (inv_block _ _ _ _ _ _ _ _ _ _ _ Hr2) as (reqs & rest & snd3 & Hdel & Hr3 & ->).
    destruct Hblk as (_ & _ & _ & Hbk & Hst).
    apply run_notes in Hr3 as [-> ->]; [|done].
    assert (Forall (λ e : request, ev_time e = 0%Z) (s1 ++ [e2])) as Hz.
    { apply Forall_app. split; [|by constructor]. destruct Hs1 as [[-> _]|(e1 & -> & He1 & _)]; [constructor|by constructor]. }
    destruct (deliver_now start _ _ _ _ Hst Hbk Hz Hdel) as [-> Hperm].
    assert (on_after on1 reqs = false ∧ Forall (λ e : request, ev_time e = 0%Z) reqs) as [Haft Hz'].
    { split; [|by rewrite Hperm]. destruct Hs1 as [[-> ->]|(e1 & -> & He1 & Hd1 & ->)].
      - cbn [app] in Hperm. apply Permutation_singleton_r in Hperm as ->. done.
      - destruct Hdel as (_ & Hsort & _). cbn [app] in Hperm.
        symmetry in Hperm; apply Permutation_length_2_inv in Hperm as [->| ->]; [done|]. exfalso.
        inversion_clear Hsort as [|? ? _ Hf]. inversion_clear Hf as [|? ? Hbf _].
        inversion_clear Hnew2 as [|? ? Hlt _]. destruct Hbf as [Hbf|[_ Hbf]]; [|lia]. unfold timestamp in *. lia. }
    split; [done|]. rewrite recorded_now, Haft by done. by rewrite !app_nil_r.
  Qed.

  (** record, stop, read: the take is the input *)
  Lemma recorder_take body start inp iv notes r taken :
    Forall (rop_ok cc sr) (body ++ [RecordBlock start inp iv]) → Forall block_or_note body →
    Forall (λ o, o = HandleNote ∨ o = TakeRecording) notes →
    run (RecordNow :: body ++ StopNow :: RecordBlock start inp iv :: notes) = Ok (r, taken) →
    rp_notes (rc_proc r) = [] →
    received taken r = concat (input_of <$> body) ∧ rc_is_recording r = false.
  Proof.
    intros Ho Hb Hn E Hdone. apply Forall_app in Ho as [Ho1 Ho2]. inversion_clear Ho2 as [|? ? Hblk _].
    assert (Forall (rop_ok cc sr) (RecordNow :: body ++ StopNow :: RecordBlock start inp iv :: notes)) as Hall.
    { constructor; [done|]. apply Forall_app. split; [exact Ho1|]. constructor; [done|]. constructor; [done|].
      eapply Forall_impl; [exact Hn|]. by intros ? [->| ->]. }
    destruct (recorder_refines _ _ _ Hall E) as (w & s & on & snd & Hrun & _ & Hfin).
    destruct (Hfin Hdone) as [Hflag Heq].
    destruct (take_sound body start inp iv notes w s on snd) as [-> ->]; [by apply Forall_app; split; [|constructor]|done..|]. split; [by apply Heq|done].
  Qed.
End results.
