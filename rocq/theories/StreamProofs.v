(** Chains of nodes as streams. *)
From stdpp Require Import gmap list list_numbers strings.
From Coq Require Import ZArith Lia ZifyBool ZifyNat Reals.
From Verif Require Import Base Graph GraphSpec TopoSort Buffer BufferSpec BufferProofs DspGraph DspGraphSpec Float Timestamp Processor ProcessorSpec
  AudioParam AudioParamSpec Node NodeSpec NodeProofs NodeGain Chain ChainSpec ChainProofs Effects EffectsSpec StreamSpec.
Local Open Scope nat_scope.

Section streams.
Context {V A P : Type} (zero : A) (MF MC : nat) (Hmf : 0 < MF).
Notation round := (@round V A).
Implicit Types (rs : list round) (os : list (nop V A P)).

Lemma bind_join {X Y} (f : X → list Y) l : l ≫= f = mjoin (f <$> l).
Proof. induction l as [|x l IH]; [done|]. change (f x ++ (l ≫= f) = f x ++ mjoin (f <$> l)). by rewrite IH. Qed.

(** a list of chunks *)
Lemma chunks_are {X} rs n (f : round → list X) (g : nat → X) :
  r_frames <$> rs = chunk_len MF n <$> seq 0 ((n + (MF - 1)) / MF) → (∀ r, length (f r) = r_frames r) →
  (∀ fr, fr < n → ∃ r, rs !! (fr / MF) = Some r ∧ f r !! (fr mod MF) = Some (g fr)) → rs ≫= f = g <$> seq 0 n.
Proof.
  intros H Hl Hg. destruct (join_chunks MF (f <$> rs) Hmf n) as [J1 J2].
  { rewrite <-list_fmap_compose, <-H. apply list_fmap_ext. intros i r _. cbn. apply Hl. }
  rewrite bind_join. apply list_eq_same_length with n; [by rewrite fmap_length, seq_length|done|].
  intros i x y Hi Hx Hy. rewrite J2 in Hx by done. rewrite list_lookup_fmap, lookup_seq_lt in Hy by done. injection Hy as <-.
  destruct (Hg i Hi) as (r & Hr & Hf). rewrite list_lookup_fmap, Hr in Hx. cbn in Hx. rewrite Hf in Hx. by injection Hx as <-.
Qed.

Lemma chunk_frames rs n fr r : r_frames <$> rs = chunk_len MF n <$> seq 0 ((n + (MF - 1)) / MF) → fr < n → rs !! (fr / MF) = Some r → fr mod MF < r_frames r.
Proof.
  intros H Hfr Hr. assert (Hk : (r_frames <$> rs) !! (fr / MF) = Some (r_frames r)) by (rewrite list_lookup_fmap, Hr; done).
  rewrite H, list_lookup_fmap in Hk. apply fmap_Some in Hk as (j & Hj & ->). apply lookup_seq in Hj as [-> Hj]. unfold chunk_len.
  pose proof (Nat.div_mod fr MF ltac:(lia)). pose proof (Nat.mod_upper_bound fr MF ltac:(lia)). lia.
Qed.

Lemma heard_fmap b ch fr n : fr < n → (heard_at zero b ch <$> seq 0 n) !! fr = Some (heard_at zero b ch fr).
Proof. intros H. rewrite list_lookup_fmap, lookup_seq_lt by done. done. Qed.

Lemma taken_app rs1 rs2 ch : taken zero (rs1 ++ rs2) ch = taken zero rs1 ch ++ taken zero rs2 ch.
Proof. unfold taken. by rewrite bind_app. Qed.
Lemma given_app rs1 rs2 ch : given zero (rs1 ++ rs2) ch = given zero rs1 ch ++ given zero rs2 ch.
Proof. unfold given. by rewrite bind_app. Qed.

Lemma heard_as_ext os : ∀ on l (y y' : stream A), (∀ ch, y ch = y' ch) → heard_as zero MC on os l y → heard_as zero MC on os l y'.
Proof.
  induction os as [|o os IH]; intros on l y y' Hy H; [done|]. destruct o; cbn [heard_as] in *; try by eapply IH.
  destruct H as (out' & l' & -> & H). exists out', l'. split; [done|]. destruct on; [|destruct H as [H1 H2]; split; [done|by eapply IH]].
  destruct H as (H1 & H2 & H3 & H4). split; [done|]. split; [|split; [done|]].
  - intros ch fr Hch Hfr. specialize (H2 ch fr Hch Hfr). by rewrite <-Hy.
  - eapply IH; [|exact H4]. intros ch. cbn. by rewrite Hy.
Qed.

Lemma between_streams fi ins os : ∀ on l rs rs', heard_between zero MF fi MC ins on os l rs rs' →
  (∀ ch, ch < ins → taken zero rs ch = input_stream zero MC fi on os ch) ∧ heard_as zero MC on os l (given zero rs').
Proof.
  induction os as [|o os IH]; intros on l rs rs' H.
  - destruct H as (-> & -> & ->). done.
  - destruct o; cbn [heard_between heard_as input_stream] in *; try (by apply IH).
    destruct H as (out' & l' & -> & H). destruct on.
    + destruct H as (rs1 & rs2 & rs1' & rs2' & -> & -> & (P1 & P2 & P3 & P4 & P5 & P6) & H). apply IH in H as [H1 H2]. split.
      * intros ch Hch. rewrite taken_app, H1 by done. f_equal. unfold taken. apply chunks_are; [done|intros r; by rewrite fmap_length, seq_length|].
        intros fr Hfr. destruct (P4 ch fr Hch Hfr) as (r & Hr & Hs). exists r. split; [done|]. rewrite heard_fmap by (by eapply chunk_frames).
        unfold heard_at at 1. by rewrite Hs.
      * exists out', l'. split; [done|]. split; [done|].
        assert (Hlen : ∀ ch, length (given zero rs1' ch) = v_frames out ov).
        { intros ch. unfold given. destruct (join_chunks MF ((λ r, heard_at zero (r_out r) ch <$> seq 0 (r_frames r)) <$> rs1') Hmf (v_frames out ov)) as [J1 _];
            [|by rewrite bind_join]. rewrite <-P2, <-P3, <-list_fmap_compose. apply list_fmap_ext. intros i r _. cbn. by rewrite fmap_length, seq_length. }
        split; [|split; [done|]].
        -- intros ch fr Hch Hfr. destruct (P5 ch fr Hch Hfr) as (r & Hr & Hs). destruct (decide (ch < MC)); [|done]. rewrite Hs, given_app, lookup_app_l by (by rewrite Hlen).
           assert (E : given zero rs1' ch = (λ fr, match rs1' !! (fr / MF) with Some r => heard_at zero (r_out r) ch (fr mod MF) | None => zero end) <$> seq 0 (v_frames out ov)).
           { unfold given. apply chunks_are; [congruence|intros r'; by rewrite fmap_length, seq_length|]. intros f Hf.
             destruct (P5 ch f Hch Hf) as (r' & Hr' & _). exists r'. split; [done|]. rewrite heard_fmap by (eapply chunk_frames; [rewrite P3; exact P2|done|done]). by rewrite Hr'. }
           rewrite E, list_lookup_fmap, lookup_seq_lt by done. cbn. rewrite Hr. split; [by eexists|done].
        -- eapply heard_as_ext; [|exact H2]. intros ch. cbn. rewrite given_app, drop_app_alt by (by rewrite Hlen). done.
    + destruct H as [H1 H2]. apply IH in H2 as [H2 H3]. split; [done|]. exists out', l'. done.
Qed.

Lemma feeds_streams ins rs rs' sr outs names : feeds zero ins rs rs' → Forall (round_ok sr ins outs names) rs' → r_frames <$> rs = r_frames <$> rs' →
  ∀ ch, ch < ins → taken zero rs' ch = given zero rs ch.
Proof.
  intros H Hok Hf ch Hch. revert Hok Hf. induction H as [|r r' rs rs' Hr H IH]; intros Hok Hf; [done|]. apply Forall_cons in Hok as [Ho Hok].
  cbn in Hf. injection Hf as E1 E2. change ((heard_at zero (r_in r') ch <$> seq 0 (r_frames r')) ++ taken zero rs' ch = (heard_at zero (r_out r) ch <$> seq 0 (r_frames r)) ++ given zero rs ch).
  rewrite IH by done. f_equal. rewrite E1. apply list_fmap_ext. intros i fr Hi. apply lookup_seq in Hi as [-> Hi]. unfold heard_at at 1. rewrite Hr by done. done.
Qed.

End streams.

Section rounds.
Context {V A : Type} (zero : A).
Notation round := (@round V A).
Implicit Types rs : list round.

Lemma given_length rs ch : length (given zero rs ch) = sum_list (r_frames <$> rs).
Proof. induction rs as [|r rs IH]; [done|]. change (length ((heard_at zero (r_out r) ch <$> seq 0 (r_frames r)) ++ given zero rs ch) = r_frames r + sum_list (r_frames <$> rs)).
  by rewrite app_length, IH, fmap_length, seq_length. Qed.
Lemma taken_length rs ch : length (taken zero rs ch) = sum_list (r_frames <$> rs).
Proof. induction rs as [|r rs IH]; [done|]. change (length ((heard_at zero (r_in r) ch <$> seq 0 (r_frames r)) ++ taken zero rs ch) = r_frames r + sum_list (r_frames <$> rs)).
  by rewrite app_length, IH, fmap_length, seq_length. Qed.
Lemma given_beyond sr ins outs names rs ch : Forall (round_ok sr ins outs names) rs → outs ≤ ch → given zero rs ch = replicate (sum_list (r_frames <$> rs)) zero.
Proof.
  intros Hok Hch. induction Hok as [|r rs (_ & _ & (Hw & Hc & _) & _) Hok IH]; [done|].
  change ((heard_at zero (r_out r) ch <$> seq 0 (r_frames r)) ++ given zero rs ch = replicate (r_frames r + sum_list (r_frames <$> rs)) zero).
  rewrite IH, replicate_add. f_equal. apply list_eq_same_length with (r_frames r); [by rewrite replicate_length|by rewrite fmap_length, seq_length|].
  intros i x y Hi Hx Hy. rewrite lookup_replicate_2 in Hy by done. rewrite heard_fmap in Hx by done. injection Hx as <-. injection Hy as <-. unfold heard_at.
  destruct (sample (r_out r) ch i) eqn:E; [|done]. destruct (proj1 (sample_is_Some (r_out r) ch i Hw)); [by eexists|lia].
Qed.

(** the round of a frame of the stream *)
Lemma stream_at rs i : i < sum_list (r_frames <$> rs) → ∃ k r fr, rs !! k = Some r ∧ fr < r_frames r ∧ i = sum_list (r_frames <$> take k rs) + fr ∧
  ∀ X (f : round → list X), (∀ r, r ∈ rs → length (f r) = r_frames r) → (rs ≫= f) !! i = f r !! fr.
Proof.
  revert i. induction rs as [|r rs IH]; intros i Hi; [cbn in Hi; lia|]. change (sum_list (r_frames <$> (r :: rs))) with (r_frames r + sum_list (r_frames <$> rs)) in Hi.
  destruct (decide (i < r_frames r)) as [Hlt|Hge].
  - exists 0, r, i. split; [done|]. split; [done|]. split; [done|]. intros X f Hf. change ((f r ++ (rs ≫= f)) !! i = f r !! i). apply lookup_app_l. rewrite Hf; [done|by left].
  - destruct (IH (i - r_frames r)) as (k & r' & fr & H1 & H2 & H3 & H4); [lia|]. exists (S k), r', fr. split; [done|]. split; [done|]. split.
    + change (sum_list (r_frames <$> take (S k) (r :: rs))) with (r_frames r + sum_list (r_frames <$> take k rs)). lia.
    + intros X f Hf. change ((f r ++ (rs ≫= f)) !! i = f r' !! fr). rewrite lookup_app_r by (rewrite Hf; [lia|by left]). rewrite Hf by (by left).
      apply H4. intros r1 Hr1. apply Hf. by right.
Qed.
End rounds.
