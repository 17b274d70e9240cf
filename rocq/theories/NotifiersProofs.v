From stdpp Require Import list list_numbers.
From Coq Require Import Lia.
From Verif Require Import Notifiers NotifiersSpec.

Section proofs.
  Context (answer : nat → nat → bool).
  Local Notation active := (active answer).
  Local Notation expected := (expected answer).

  Lemma adds_app h h' : adds (h ++ h') = adds h + adds h'.
  Proof. unfold adds. by rewrite filter_app, app_length. Qed.
  Lemma processes_app h h' : processes (h ++ h') = processes h + processes h'.
  Proof. unfold processes. by rewrite filter_app, app_length. Qed.
  Definition is_add (e : nevent) : nat := match e with Add => 1 | Process => 0 end.
  Lemma adds_cons e h : adds (e :: h) = is_add e + adds h.
  Proof. unfold adds. rewrite filter_cons. by destruct e. Qed.
  Lemma since_app h h' : ∀ id, id < adds h → since (h ++ h') id = since h id + processes h'.
  Proof.
    induction h as [|e h IH]; intros id Hid; [cbn in Hid; lia|]. rewrite adds_cons in Hid. destruct e; cbn [since app].
    - destruct id as [|id]; [apply processes_app|]. apply IH. cbn [is_add] in Hid. lia.
    - apply IH. cbn [is_add] in Hid. lia.
  Qed.
  Lemma since_new h : ∀ id, adds h ≤ id → since h id = 0.
  Proof.
    induction h as [|e h IH]; intros id Hid; [done|]. rewrite adds_cons in Hid. destruct e; cbn [since]; cbn [is_add] in Hid.
    - destruct id as [|id]; [lia|]. apply IH. lia.
    - apply IH. lia.
  Qed.
  Lemma since_last h : since (h ++ [Add]) (adds h) = 0.
  Proof. induction h as [|e h IH]; [done|]. rewrite adds_cons. destruct e; cbn [is_add since app Nat.add]; done. Qed.

  Definition state (h : list nevent) : root := Root ((λ id, Notifier id (since h id)) <$> expected h) (adds h).
  Lemma filter_ext_in {X} (P Q : X → Prop) `{∀ x, Decision (P x), ∀ x, Decision (Q x)} (l : list X) : (∀ x, x ∈ l → P x ↔ Q x) → filter P l = filter Q l.
  Proof.
    induction l as [|x l IH]; intros HPQ; [done|]. rewrite !filter_cons. pose proof (HPQ x ltac:(by left)) as Hx.
    rewrite IH by (intros; apply HPQ; by right). repeat case_decide; tauto.
  Qed.
  Lemma filter_fmap_S (P : nat → Prop) `{∀ x, Decision (P x)} (l : list nat) : filter P (S <$> l) = S <$> filter (λ x, P (S x)) l.
  Proof. induction l as [|x l IH]; [done|]. rewrite fmap_cons, !filter_cons. case_decide; [|done]. rewrite IH. done. Qed.
  Lemma add_ok h : add_notifier (state h) = state (h ++ [Add]).
  Proof.
    unfold add_notifier, state, NotifiersSpec.expected. cbn [r_notifiers r_registered]. rewrite adds_app. change (adds [Add]) with 1. f_equal; [|lia].
    rewrite seq_app, filter_app, fmap_app. cbn [seq Nat.add]. f_equal.
    - rewrite (filter_ext_in (active (h ++ [Add])) (active h)).
      + apply list_fmap_ext. intros i id Hid. apply elem_of_list_lookup_2, elem_of_list_filter in Hid as [_ Hid]. apply elem_of_seq in Hid.
        f_equal. rewrite since_app by lia. change (processes [Add]) with 0. lia.
      + intros id Hid. apply elem_of_seq in Hid. unfold NotifiersSpec.active. rewrite since_app, adds_app by lia. change (processes [Add]) with 0. rewrite Nat.add_0_r.
        split; intros [? ?]; (split; [|done]); change (adds [Add]) with 1 in *; lia.
    - rewrite filter_cons. case_decide as Hd.
      + cbn. by rewrite since_last.
      + exfalso. apply Hd. unfold NotifiersSpec.active. rewrite since_last, adds_app. change (adds [Add]) with 1. split; [lia|]. lia.
  Qed.
  Lemma retain_ok (c : nat → nat) l : retain answer ((λ id, Notifier id (c id)) <$> l) =
    ((λ id, Notifier id (S (c id))) <$> filter (λ id, answer id (c id) = true) l, l).
  Proof.
    induction l as [|id l IH]; [done|]. cbn [fmap list_fmap retain n_id n_calls]. change (list_fmap _ _ ?f ?l) with (f <$> l). rewrite IH. rewrite filter_cons.
    destruct (answer id (c id)) eqn:E; case_decide as Hd; done.
  Qed.
  Lemma process_ok h : process_notifications answer (state h) = (state (h ++ [Process]), expected h).
  Proof.
    unfold process_notifications, state. cbn [r_notifiers r_registered]. rewrite (retain_ok (since h)). f_equal. rewrite adds_app. change (adds [Process]) with 0.
    rewrite Nat.add_0_r. f_equal. unfold NotifiersSpec.expected. rewrite adds_app. change (adds [Process]) with 0. rewrite Nat.add_0_r, list_filter_filter.
    rewrite (filter_ext_in _ (active (h ++ [Process]))).
    - apply list_fmap_ext. intros i id Hid. apply elem_of_list_lookup_2, elem_of_list_filter in Hid as [_ Hid]. apply elem_of_seq in Hid.
      f_equal. rewrite since_app by lia. change (processes [Process]) with 1. lia.
    - intros id Hid. apply elem_of_seq in Hid. unfold NotifiersSpec.active. rewrite since_app, adds_app by lia. change (processes [Process]) with 1. change (adds [Process]) with 0. split.
      + intros [H1 [H2 H3]]. split; [lia|]. intros k Hk. destruct (decide (k = since h id)) as [->|]; [done|]. apply H3. lia.
      + intros [H1 H2]. split; [apply H2; lia|]. split; [lia|]. intros k Hk. apply H2. lia.
  Qed.
  Lemma calls_from h : ∀ h0, calls answer (state h0) h =
    (λ k, expected (h0 ++ take k h)) <$> filter (λ k, h !! k = Some Process) (seq 0 (length h)).
  Proof.
    induction h as [|e h IH]; intros h0; [done|]. cbn [length seq]. rewrite filter_cons.
    assert (Hs : (λ k, expected (h0 ++ take k (e :: h))) <$> filter (λ k, (e :: h) !! k = Some Process) (seq 1 (length h)) =
      (λ k, expected ((h0 ++ [e]) ++ take k h)) <$> filter (λ k, h !! k = Some Process) (seq 0 (length h))).
    { rewrite <-(fmap_S_seq 0), filter_fmap_S, <-list_fmap_compose.
      rewrite (filter_ext_in (λ k, (e :: h) !! S k = Some Process) (λ k, h !! k = Some Process)) by done.
      apply list_fmap_ext. intros i k _. cbn. by rewrite <-app_assoc. }
    destruct e; cbn [calls].
    - rewrite add_ok, IH. case_decide; [done|]. by rewrite <-Hs.
    - rewrite process_ok, IH. case_decide as Hd; [|done]. cbn [fmap list_fmap]. change (list_fmap _ _ ?f ?l) with (f <$> l).
      rewrite Hs. cbn [take]. by rewrite app_nil_r.
  Qed.
End proofs.
