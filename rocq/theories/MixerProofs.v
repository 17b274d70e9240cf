From stdpp Require Import sets list list_numbers.
From Coq Require Import Reals Lra Lia.
From Verif Require Import Base Buffer BufferSpec BufferProofs EffectSpec EffectProofs Mixer AudioParamR MixerR MixerSpec.

Section matrix.
  Context {L : Type} (zero unity : L).
  Implicit Types m : matrix L.

  Definition well m : Prop := m_inputs m ≤ 8 ∧ m_outputs m ≤ 8 ∧ length (m_cells m) = 64.
  Lemma index_small m i o : well m → i < m_inputs m → o < m_outputs m → o * m_inputs m + i < 64.
  Proof.
    intros (H1 & H2 & _) Hi Ho. assert (o * m_inputs m ≤ o * 8) by (apply Nat.mul_le_mono_l; lia). 
    assert ((o + 1) * m_inputs m ≤ 8 * m_inputs m) by (apply Nat.mul_le_mono_r; lia). lia.
  Qed.
  Lemma set_ok m i o l : well m → i < m_inputs m → o < m_outputs m →
    ∃ m', set_level m i o l = Ok m' ∧ well m' ∧ m_inputs m' = m_inputs m ∧ m_outputs m' = m_outputs m ∧
      m_cells m' = <[o * m_inputs m + i := l]> (m_cells m).
  Proof.
    intros Hw Hi Ho. unfold set_level, get_index.
    rewrite (proj2 (Nat.ltb_lt i _)), (proj2 (Nat.ltb_lt o _)) by done. cbn [rassert rbind].
    pose proof (index_small m i o Hw Hi Ho). destruct Hw as (H1 & H2 & H3). rewrite H3, (proj2 (Nat.ltb_lt _ 64)) by lia.
    eexists. split; [done|]. unfold well. cbn [m_inputs m_outputs m_cells]. rewrite insert_length. done.
  Qed.
  Lemma set_panics m i o l : ¬ (i < m_inputs m ∧ o < m_outputs m) → set_level m i o l = Panic AssertFailed.
  Proof.
    intros H. unfold set_level, get_index. destruct (Nat.ltb_spec i (m_inputs m)); [|done].
    destruct (Nat.ltb_spec o (m_outputs m)); [|done]. exfalso. tauto.
  Qed.
  Lemma made_well m : made zero m → well m.
  Proof.
    induction 1 as [i o m H|m i o l m' Hm IH H].
    - unfold matrix_new in H. destruct (Nat.leb_spec i max_io); [|done]. destruct (Nat.leb_spec o max_io); [|done].
      injection H as <-. unfold well, max_io in *. cbn [m_inputs m_outputs m_cells]. split; [done|]. split; [done|]. reflexivity.
    - destruct (decide (i < m_inputs m ∧ o < m_outputs m)) as [[Hi Ho]|Hn].
      + destruct (set_ok m i o l IH Hi Ho) as (m1 & E & Hw & _). congruence.
      + by rewrite set_panics in H.
  Qed.
  Lemma get_ok m i o : well m → ∃ l, get_level zero m i o = Ok l ∧
    (i < m_inputs m ∧ o < m_outputs m → m_cells m !! (o * m_inputs m + i) = Some l) ∧ (¬ (i < m_inputs m ∧ o < m_outputs m) → l = zero).
  Proof.
    intros Hw. unfold get_level, get_index. destruct (Nat.ltb_spec i (m_inputs m)); cbn [andb].
    2: { exists zero. split; [done|]. split; [lia|done]. }
    destruct (Nat.ltb_spec o (m_outputs m)); cbn [rassert rbind].
    2: { exists zero. split; [done|]. split; [lia|done]. }
    pose proof (index_small m i o Hw ltac:(done) ltac:(done)) as Hs. destruct Hw as (_ & _ & H3). rewrite <-H3 in Hs.
    destruct (lookup_lt_is_Some_2 _ _ Hs) as [l Hl]. rewrite Hl. exists l. split; [done|]. split; [done|]. tauto.
  Qed.
  Lemma level_ok m i o : well m → get_level zero m i o = Ok (level_at zero m i o).
  Proof. intros Hw. destruct (get_ok m i o Hw) as (l & E & _). unfold level_at. by rewrite E. Qed.

  Lemma index_unique n i o i' o' : i < n → i' < n → o * n + i = o' * n + i' → o = o' ∧ i = i'.
  Proof. intros H1 H2 E. by apply (pos_unique o i o' i' n). Qed.
  Lemma set_get m i o l i' o' m' : made zero m → set_level m i o l = Ok m' →
    level_at zero m' i' o' = if decide (i' = i ∧ o' = o) then l else level_at zero m i' o'.
  Proof.
    intros Hm E. pose proof (made_well m Hm) as Hw.
    destruct (decide (i < m_inputs m ∧ o < m_outputs m)) as [[Hi Ho]|Hn]; [|by rewrite set_panics in E].
    destruct (set_ok m i o l Hw Hi Ho) as (m1 & E1 & Hw1 & Ei & Eo & Ec). rewrite E in E1. injection E1 as <-.
    destruct (get_ok m' i' o' Hw1) as (x & Ex & X1 & X2). destruct (get_ok m i' o' Hw) as (y & Ey & Y1 & Y2).
    unfold level_at. rewrite Ex, Ey. rewrite Ei, Eo, Ec in *.
    destruct (decide (i' < m_inputs m ∧ o' < m_outputs m)) as [Hin|Hout].
    - specialize (X1 Hin). specialize (Y1 Hin). destruct (decide (i' = i ∧ o' = o)) as [[-> ->]|Hne].
      + rewrite list_lookup_insert in X1; [congruence|]. destruct Hw as (_ & _ & ->). by apply index_small; [apply made_well|..].
      + rewrite list_lookup_insert_ne in X1; [congruence|]. intros Eq.
        destruct (index_unique (m_inputs m) i o i' o') as [-> ->]; [done|tauto|done|]. by apply Hne.
    - rewrite (X2 Hout), (Y2 Hout). destruct (decide (i' = i ∧ o' = o)) as [[-> ->]|]; [|done]. tauto.
  Qed.
  Lemma new_levels i o m i' o' : matrix_new zero i o = Ok m → level_at zero m i' o' = zero.
  Proof.
    intros E. pose proof (made_well m (made_new zero i o m E)) as Hw. destruct (get_ok m i' o' Hw) as (x & Ex & X1 & X2).
    unfold level_at. rewrite Ex. destruct (decide (i' < m_inputs m ∧ o' < m_outputs m)) as [Hin|Hout]; [|by apply X2].
    specialize (X1 Hin). assert (Ec : m_cells m = replicate 64 zero).
    { unfold matrix_new in E. destruct (i <=? max_io); [|done]. destruct (o <=? max_io); [|done]. by injection E as <-. }
    rewrite Ec in X1. by apply lookup_replicate_1 in X1 as [-> _].
  Qed.
  Lemma new_ok i o : i ≤ 8 → o ≤ 8 → ∃ m, matrix_new zero i o = Ok m ∧ m_inputs m = i ∧ m_outputs m = o.
  Proof.
    intros Hi Ho. unfold matrix_new, max_io. rewrite (proj2 (Nat.leb_le i 8)), (proj2 (Nat.leb_le o 8)) by done. by eexists.
  Qed.

  (** the node and its processor know the levels [t], [k] messages are waiting *)
  Definition knows (inputs outputs : nat) (t : nat → nat → L) (k : nat) (x : mixer L) : Prop :=
    made zero (mx_matrix x) ∧ m_inputs (mx_matrix x) = inputs ∧ m_outputs (mx_matrix x) = outputs ∧
    (∀ i o, level_at zero (mx_matrix x) i o = t i o) ∧
    made zero (mx_proc (mixer_events x)) ∧ (∀ i o, level_at zero (mx_proc (mixer_events x)) i o = t i o) ∧ length (mx_channel x) = k.
  Definition upd (t : nat → nat → L) i o l : nat → nat → L := λ i' o', if decide (i' = i ∧ o' = o) then l else t i' o'.

  Lemma knows_new i o : i ≤ 8 → o ≤ 8 → ∃ x, mixer_new zero i o = Ok x ∧ knows i o (λ _ _, zero) 0 x.
  Proof.
    intros Hi Ho. unfold mixer_new. destruct (new_ok i o) as (m & Em & Ei & Eo); [lia|lia|]. rewrite Em. cbn [rbind].
    eexists. split; [done|]. unfold knows, mixer_events. cbn [mx_matrix mx_proc mx_channel fold_left].
    assert (E0 : matrix_new zero 0 0 = Ok (matrix_empty zero)) by done.
    split; [by apply (made_new zero i o)|]. split; [done|]. split; [done|]. split; [intros; by apply (new_levels i o)|].
    split; [by apply (made_new zero 0 0)|]. split; [intros; by apply (new_levels 0 0)|done].
  Qed.
  Lemma knows_set inputs outputs t k x i o l : knows inputs outputs t k x → i < inputs → o < outputs →
    if decide (k < 32) then ∃ x', mixer_set_level x i o l = Ok x' ∧ knows inputs outputs (upd t i o l) (S k) x'
    else mixer_set_level x i o l = Panic Blocked.
  Proof.
    intros (H1 & H2 & H3 & H4 & H5 & H6 & H7) Hi Ho. unfold mixer_set_level, mixer_capacity.
    destruct (set_ok (mx_matrix x) i o l (made_well _ H1)) as (m1 & E1 & Hw1 & Ei1 & Eo1 & _); [lia|lia|]. rewrite E1. cbn [rbind]. rewrite H7.
    case_decide as Hk.
    2: { rewrite (proj2 (Nat.ltb_ge _ _)) by lia. done. }
    rewrite (proj2 (Nat.ltb_lt _ _)) by lia. cbn [rassert]. eexists. split; [done|].
    unfold knows, mixer_events. cbn [mx_matrix mx_proc mx_channel]. rewrite fold_left_app. cbn [fold_left].
    pose proof (made_set zero _ i o l m1 H1 E1) as Hm1.
    assert (Ht : ∀ i' o', level_at zero m1 i' o' = upd t i o l i' o').
    { intros i' o'. rewrite (set_get _ i o l i' o' m1 H1 E1). unfold upd. case_decide; [done|apply H4]. }
    split; [done|]. split; [congruence|]. split; [congruence|]. split; [done|]. split; [done|]. split; [done|].
    rewrite app_length, H7. cbn. lia.
  Qed.
  Lemma knows_ext inputs outputs t t' k x : (∀ i o, t i o = t' i o) → knows inputs outputs t k x → knows inputs outputs t' k x.
  Proof.
    intros E (H1 & H2 & H3 & H4 & H5 & H6 & H7). unfold knows. split; [done|]. split; [done|]. split; [done|].
    split; [intros; by rewrite H4|]. split; [done|]. split; [intros; by rewrite H6|done].
  Qed.
  Lemma knows_received inputs outputs t k x : knows inputs outputs t k x → knows inputs outputs t 0 (mixer_events x).
  Proof. intros (H1 & H2 & H3 & H4 & H5 & H6 & H7). unfold knows, mixer_events in *. cbn [mx_matrix mx_proc mx_channel fold_left] in *. done. Qed.

  (** constructors of the node *)
  Lemma splitter_ok : ∃ x, mono_to_stereo_splitter zero unity = Ok x ∧ knows 1 2 (λ i o, if decide (i = 0 ∧ o < 2) then unity else zero) 2 x.
  Proof.
    unfold mono_to_stereo_splitter.
    destruct (knows_new 1 2) as (x & -> & H); [lia|lia|]. cbn [rbind].
    pose proof (knows_set 1 2 _ _ x 0 0 unity H ltac:(lia) ltac:(lia)) as (x1 & -> & H1). cbn [rbind].
    pose proof (knows_set 1 2 _ _ x1 0 1 unity H1 ltac:(lia) ltac:(lia)) as (x2 & -> & H2).
    exists x2. split; [done|]. eapply knows_ext; [|exact H2]. intros i o. unfold upd. repeat case_decide; try done; exfalso; lia.
  Qed.
  Lemma unity_loop c n : c ≤ 8 → ∀ k t x, knows c c t k x → k + n ≤ c →
    ∃ x', rfold (λ x ch, mixer_set_level x ch ch unity) (seq k n) x = Ok x' ∧
      knows c c (λ i o, if decide (i = o ∧ k ≤ o < k + n) then unity else t i o) (k + n) x'.
  Proof.
    intros Hc. induction n as [|n IH]; intros k t x H Hk; cbn [seq rfold].
    { exists x. split; [done|]. rewrite Nat.add_0_r. eapply knows_ext; [|exact H]. intros i o. cbv beta. rewrite decide_False by lia. done. }
    pose proof (knows_set c c t k x k k unity H ltac:(lia) ltac:(lia)) as Hs. rewrite decide_True in Hs by lia.
    destruct Hs as (x1 & -> & H1). cbn [rbind]. destruct (IH (S k) _ x1 H1) as (x' & E & H'); [lia|].
    exists x'. split; [done|]. replace (k + S n) with (S k + n) by lia. eapply knows_ext; [|exact H'].
    intros i o. unfold upd. repeat case_decide; try done; exfalso; lia.
  Qed.
  Lemma unity_ok n : n ≤ 8 → ∃ x, mixer_unity zero unity n = Ok x ∧ knows n n (λ i o, if decide (i = o ∧ o < n) then unity else zero) n x.
  Proof.
    intros Hn. unfold mixer_unity. destruct (knows_new n n) as (x & -> & H); [lia|lia|]. cbn [rbind].
    destruct (unity_loop n n Hn 0 _ x H) as (x' & E & H'); [lia|].
    exists x'. split; [done|]. eapply knows_ext; [|exact H']. intros i o. cbv beta. repeat case_decide; try done; exfalso; lia.
  Qed.
End matrix.

Section processor.
  Context {L A : Type} (zero : L) (is_zero is_unity : L → bool) (linear : L → A) (add mul : A → A → A).

  (** contribution of one input *)
  Definition mix_term (t : nat → nat → L) (inp : owned A) (iv : view) (o fr : nat) (acc : A) (i : nat) : A :=
    let g := t i o in
    match seen inp iv i fr with
    | Some x => if is_zero g then acc else if is_unity g then add acc x else add acc (mul x (linear g))
    | None => acc
    end.

  Context (m : matrix L) (inp : owned A) (iv ov : view).
  Context (Hm : well m) (Hwi : wf inp) (Hvi : valid_view inp iv).
  Local Notation term := (mix_term (level_at zero m) inp iv).

  Lemma add_rect (f : A → A → A) (out : owned A) o i : wf out → valid_view out ov → o < v_channels out ov → i < v_channels inp iv →
    v_frames out ov ≤ v_frames inp iv →
    ∃ out', combine_from f out ov inp iv i 0 o 0 1 (v_frames out ov) = Ok out' ∧
      written out ov out' (λ ch fr x y, if decide (ch = o) then ∃ s, seen inp iv i fr = Some s ∧ y = f s x else y = x).
  Proof.
    intros Hw Hv Ho Hi Hf.
    destruct (combine_from_ok f out ov inp iv i 0 o 0 1 (v_frames out ov)) as (out' & E & H); [done|done|done|done| | |].
    { right. split; [lia|]. right. destruct (valid_off inp iv Hvi). lia. }
    { right. split; [lia|]. right. destruct (valid_off out ov Hv). lia. }
    exists out'. split; [done|].
    eapply (written_rect f _ out ov out' o 0 1 (v_frames out ov)); [done|done|exact H|lia|lia| |].
    - intros ch fr x Hx (H1 & H2). assert (ch = o) as -> by lia.
      destruct (seen_some inp iv i fr Hwi Hvi) as [s Hs]; [lia|lia|].
      exists s. rewrite Nat.sub_diag, Nat.sub_0_r, Nat.add_0_r. cbn [Nat.add]. rewrite (Nat.add_comm i). split; [done|].
      rewrite decide_True by done. exists s. split; [|done]. by rewrite seen_eq by lia.
    - intros ch fr x Hx Hn. unfold seen in Hx. case_decide; [|done]. unfold in_rect in Hn. rewrite decide_False by lia. done.
  Qed.

  Lemma pair_ok (out : owned A) o i : wf out → valid_view out ov → o < v_channels out ov → i < v_channels inp iv →
    v_frames out ov ≤ v_frames inp iv →
    ∃ out', mix_pair zero is_zero is_unity linear add mul m inp iv ov o out i = Ok out' ∧
      written out ov out' (λ ch fr x y, y = if decide (ch = o) then term o fr x i else x).
  Proof.
    intros Hw Hv Ho Hi Hf. unfold mix_pair. rewrite (level_ok zero m i o Hm). cbn [rbind].
    assert (Hin : ∀ fr, fr < v_frames out ov → ∃ s, seen inp iv i fr = Some s).
    { intros fr Hfr. destruct (seen_some inp iv i fr Hwi Hvi) as [s Hs]; [lia|lia|]. exists s. by rewrite seen_eq by lia. }
    destruct (is_zero (level_at zero m i o)) eqn:Ez.
    { exists out. split; [done|]. apply written_refl; [done|done|]. intros ch fr x Hx. unfold mix_term. rewrite Ez.
      by destruct (decide _), (seen inp iv i fr). }
    destruct (is_unity (level_at zero m i o)) eqn:Eu.
    - unfold add_from. destruct (add_rect (λ s d, add d s) out o i) as (out' & E & W); [done..|].
      exists (if (v_frames out ov =? 0) || (1 =? 0) then out else out'). split; [by destruct (_ || _)|].
      destruct (Nat.eqb_spec (v_frames out ov) 0) as [E0|E0]; cbn [orb Nat.eqb].
      + apply written_refl; [done|done|]. intros ch fr x Hx. unfold seen in Hx. case_decide; [lia|done].
      + eapply written_mono; [exact W|]. cbv beta. intros ch fr x y Hc Hfr. case_decide; [|done]. intros (s & Hs & ->). unfold mix_term. by rewrite Ez, Eu, Hs.
    - unfold add_from_with_gain. destruct (add_rect (λ s d, add d (mul s (linear (level_at zero m i o)))) out o i) as (out' & E & W); [done..|].
      exists (if (v_frames out ov =? 0) || (1 =? 0) then out else out'). split; [by destruct (_ || _)|].
      destruct (Nat.eqb_spec (v_frames out ov) 0) as [E0|E0]; cbn [orb Nat.eqb].
      + apply written_refl; [done|done|]. intros ch fr x Hx. unfold seen in Hx. case_decide; [lia|done].
      + eapply written_mono; [exact W|]. cbv beta. intros ch fr x y Hc Hfr. case_decide; [|done]. intros (s & Hs & ->). unfold mix_term. by rewrite Ez, Eu, Hs.
  Qed.

  Lemma row_ok o : ∀ l (out : owned A), wf out → valid_view out ov → o < v_channels out ov → (∀ i, i ∈ l → i < v_channels inp iv) →
    v_frames out ov ≤ v_frames inp iv →
    ∃ out', rfold (mix_pair zero is_zero is_unity linear add mul m inp iv ov o) l out = Ok out' ∧
      written out ov out' (λ ch fr x y, y = if decide (ch = o) then fold_left (term o fr) l x else x).
  Proof.
    induction l as [|i l IH]; intros out Hw Hv Ho Hl Hf; cbn [rfold fold_left].
    { exists out. split; [done|]. apply written_refl; [done..|]. intros. by case_decide. }
    destruct (pair_ok out o i) as (o1 & -> & W1); [done..|apply Hl; by left|done|]. cbn [rbind].
    destruct W1 as (A1 & A2 & A3 & A4). destruct (same_dims_view out o1 ov A2) as (E1 & E2 & E3 & _).
    destruct (IH o1) as (o2 & -> & W2); [done|by apply E3|lia|intros j Hj; apply Hl; by right|lia|].
    exists o2. split; [done|]. eapply written_mono; [eapply written_trans; [split; [done|split; [done|split; [exact A3|exact A4]]]|exact W2]|].
    cbv beta. intros ch fr x y Hc Hfr (z & -> & ->). by case_decide.
  Qed.

  Lemma rows_ok : ∀ n k (out : owned A), wf out → valid_view out ov → k + n ≤ v_channels out ov → v_frames out ov ≤ v_frames inp iv →
    ∃ out', rfold (λ out o, rfold (mix_pair zero is_zero is_unity linear add mul m inp iv ov o) (seq 0 (v_channels inp iv)) out) (seq k n) out = Ok out' ∧
      written out ov out' (λ ch fr x y, y = if decide (k ≤ ch < k + n) then fold_left (term ch fr) (seq 0 (v_channels inp iv)) x else x).
  Proof.
    induction n as [|n IH]; intros k out Hw Hv Hk Hf; cbn [seq rfold].
    { exists out. split; [done|]. apply written_refl; [done..|]. intros. rewrite decide_False by lia. done. }
    destruct (row_ok k (seq 0 (v_channels inp iv)) out) as (o1 & -> & W1); [done|done|lia|intros i Hi; apply elem_of_seq in Hi; lia|done|].
    cbn [rbind]. pose proof W1 as (A1 & A2 & _). destruct (same_dims_view out o1 ov A2) as (E1 & E2 & E3 & _).
    destruct (IH (S k) o1) as (o2 & -> & W2); [done|by apply E3|lia|lia|].
    exists o2. split; [done|]. eapply written_mono; [eapply written_trans; [exact W1|exact W2]|].
    cbv beta. intros ch fr x y Hc Hfr (z & -> & ->). repeat case_decide; subst; try done; exfalso; lia.
  Qed.
End processor.

Lemma mixer_process_ok {L A} (zero : L) is_zero is_unity (linear : L → A) add mul inputs outputs t k x (inp : owned A) iv (out : owned A) ov :
  knows zero inputs outputs t k x → wf inp → valid_view inp iv → wf out → valid_view out ov → v_frames out ov ≤ v_frames inp iv →
  ∃ x' out', mixer_process zero is_zero is_unity linear add mul x inp iv out ov = Ok (x', out') ∧ knows zero inputs outputs t 0 x' ∧
    written out ov out' (λ o fr x y,
      y = fold_left (mix_term is_zero is_unity linear add mul t inp iv o fr) (seq 0 (v_channels inp iv)) x).
Proof.
  intros Hk Hwi Hvi Hw Hv Hf. unfold mixer_process. pose proof (knows_received zero _ _ _ _ _ Hk) as Hk'. destruct Hk as (_ & _ & _ & _ & Hm & Ht & _).
  set (x1 := mixer_events x) in *.
  destruct (rows_ok zero is_zero is_unity linear add mul (mx_proc x1) inp iv ov (made_well zero _ Hm) Hwi Hvi (v_channels out ov) 0 out) as (out' & -> & W);
    [done|done|lia|done|]. exists x1, out'. split; [done|]. split; [done|]. eapply written_mono; [exact W|]. cbv beta.
  intros ch fr z y Hc Hfr ->. rewrite decide_True by lia. clear -Ht. revert z. generalize (seq 0 (v_channels inp iv)). intros l.
  induction l as [|i l IH]; intros z; [done|]. cbn [fold_left]. rewrite IH. f_equal. unfold mix_term. by rewrite Ht.
Qed.

(** ** Sessions *)
Section session.
  Context {L A : Type} (zero : L) (process : mixer L → owned A → view → owned A → view → res (mixer L * owned A)).
  Context (P : (nat → nat → L) → owned A → view → owned A → view → owned A → Prop) (inputs outputs : nat).
  Context (Hin : inputs ≤ 8) (Hout : outputs ≤ 8).
  Context (Q : (nat → nat → L) → Prop).
  Context (Hp : ∀ t k x inp iv out ov, Q t → knows zero inputs outputs t k x → wf inp → valid_view inp iv → wf out → valid_view out ov →
    v_frames out ov ≤ v_frames inp iv → ∃ x' out', process x inp iv out ov = Ok (x', out') ∧ knows zero inputs outputs t 0 x' ∧ P t inp iv out ov out').

  Lemma table_snoc (before : list (mixer_op L A)) o : ∀ i j, table zero (before ++ [o]) i j =
    match o with MSet a b l => upd (table zero before) a b l i j | _ => table zero before i j end.
  Proof. intros i j. unfold table. rewrite fold_left_app. by destruct o. Qed.
  Lemma unsent_snoc (before : list (mixer_op L A)) o : unsent (before ++ [o]) = match o with MSet _ _ _ => S (unsent before) | _ => 0 end.
  Proof. unfold unsent. rewrite fold_left_app. by destruct o. Qed.

  Lemma session_ok ops : ∀ before x outs,
    knows zero inputs outputs (table zero before) (unsent before) x → Forall (mixer_op_ok inputs outputs) ops →
    (∀ n, Q (table zero (before ++ take n ops))) →
    (∀ n, n < length ops → (∃ i o l, ops !! n = Some (MSet i o l)) → unsent (before ++ take n ops) < 32) →
    ∃ x' outs', rfold (mixer_step process) ops (x, outs) = Ok (x', outs ++ outs') ∧ mixer_blocks zero P before ops outs'.
  Proof.
    induction ops as [|o ops IH]; intros before x outs Hk Hok HQ Hcap; cbn [rfold mixer_blocks].
    { exists x, []. rewrite app_nil_r. done. }
    inversion Hok as [|?? Ho Hrest]; subst.
    assert (HQ' : ∀ n, Q (table zero ((before ++ [o]) ++ take n ops))).
    { intros n. specialize (HQ (S n)). cbn [take] in HQ. by rewrite <-(app_assoc before [o]). }
    assert (Hcap' : ∀ n, n < length ops → (∃ i o l, ops !! n = Some (MSet i o l)) → unsent ((before ++ [o]) ++ take n ops) < 32).
    { intros n Hn Hs. specialize (Hcap (S n)). cbn [take length lookup] in Hcap. rewrite <-(app_assoc before [o]). apply Hcap; [lia|done]. }
    destruct o as [i o l|inp iv out ov]; cbn [mixer_step mixer_op_ok] in *.
    - destruct Ho as [Hi Ho]. pose proof (knows_set zero inputs outputs _ _ x i o l Hk Hi Ho) as Hs.
      rewrite decide_True in Hs.
      2: { specialize (Hcap 0). cbn [take length lookup] in Hcap. rewrite app_nil_r in Hcap. apply Hcap; [lia|]. by exists i, o, l. }
      destruct Hs as (x1 & -> & Hk1). cbn [rbind]. apply IH; [|done|done|done].
      rewrite unsent_snoc. eapply knows_ext; [|exact Hk1]. intros. by rewrite table_snoc.
    - destruct Ho as (H1 & H2 & H3 & H4 & H5). assert (Q (table zero before)) as HQ0.
      { specialize (HQ 0). cbn [take] in HQ. by rewrite app_nil_r in HQ. }
      destruct (Hp (table zero before) (unsent before) x inp iv out ov HQ0 Hk H1 H2 H3 H4 H5) as (x1 & out' & -> & Hk1 & HP). cbn [rbind].
      destruct (IH (before ++ [MProcess inp iv out ov]) x1 (outs ++ [out'])) as (x2 & outs' & E & Hb); [|done|done|done|].
      { rewrite unsent_snoc. eapply knows_ext; [|exact Hk1]. intros. by rewrite table_snoc. }
      exists x2, (out' :: outs'). rewrite E, <-app_assoc. done.
  Qed.

  (** setting a level too many *)
  Lemma session_blocks ops x : knows zero inputs outputs (table zero (A := A) []) 0 x → Forall (mixer_op_ok inputs outputs) ops →
    (∀ o, o ∈ ops → ∃ i j l, o = MSet (A := A) i j l) → 32 < length ops →
    rfold (mixer_step process) ops (x, []) = Panic Blocked.
  Proof.
    intros Hk Hok Hall Hn.
    assert (Hgen : ∀ ops (before : list (mixer_op L A)) k x, knows zero inputs outputs (table zero before) k x → Forall (mixer_op_ok inputs outputs) ops →
      (∀ o, o ∈ ops → ∃ i j l, o = MSet (A := A) i j l) → k ≤ 32 → 32 < k + length ops → rfold (mixer_step process) ops (x, []) = Panic Blocked).
    { clear -Hin. induction ops as [|o ops IH]; intros before k x Hk Hok Hall Hk32 Hlen; cbn [length] in Hlen; [lia|].
      inversion Hok as [|?? Ho Hrest]; subst. destruct (Hall o) as (i & j & l & ->); [by left|]. cbn [rfold mixer_step mixer_op_ok] in *.
      destruct Ho as [Hi Hj]. pose proof (knows_set zero inputs outputs _ _ x i j l Hk Hi Hj) as Hs. case_decide.
      - destruct Hs as (x1 & -> & Hk1). cbn [rbind]. apply (IH (before ++ [MSet i j l]) (S k)); [|done| |lia|lia].
        + eapply knows_ext; [|exact Hk1]. intros. by rewrite table_snoc.
        + intros o' Ho'. apply Hall. by right.
      - by rewrite Hs. }
    apply (Hgen ops [] 0); [done|done|done|lia|done].
  Qed.
End session.

(** ** Over the reals *)
Local Open Scope R_scope.
Lemma close_bound g b : (b = 0 ∨ b = 1) → closeR g b = true → Rabs (g - b) <= / 2 ^ 51.
Proof.
  intros Hb. unfold closeR, epsR. destruct (Rle_dec _ _) as [H|H].
  { intros _. assert (/ 2 ^ 52 <= / 2 ^ 51). { apply Rinv_le_contravar; lra. } lra. }
  destruct (Rle_dec _ _) as [H'|]; [|done]. intros _.
  assert (Hmax : Rmax (Rabs g) (Rabs b) <= 1 + Rabs (g - b)).
  { apply Rmax_lub.
    - replace g with (b + (g - b)) at 1 by ring. eapply Rle_trans; [apply Rabs_triang|]. destruct Hb as [-> | ->]; rewrite ?Rabs_R0, ?Rabs_R1; lra.
    - pose proof (Rabs_pos (g - b)). destruct Hb as [-> | ->]; rewrite ?Rabs_R0, ?Rabs_R1; lra. }
  set (d := Rabs (g - b)) in *. set (M := Rmax _ _) in *.
  assert (M * / 2 ^ 52 <= (1 + d) * / 2 ^ 52) by (apply Rmult_le_compat_r; lra). lra.
Qed.
Lemma sharp_zero g : sharp g → level_is_zero g = true → g = 0.
Proof.
  intros [H|[->|[H1 H2]]] Hz; [done| |]; apply close_bound in Hz; try (by left); rewrite ?Rminus_0_r in Hz.
  - rewrite Rabs_R1 in Hz. assert (/ 2 ^ 51 < 1) by lra. lra.
  - lra.
Qed.
Lemma sharp_unity g : sharp g → level_is_unity g = true → g = 1.
Proof.
  intros [->|[H|[H1 H2]]] Hz; [|done|]; apply close_bound in Hz; try (by right).
  - rewrite Rminus_0_l, Rabs_Ropp, Rabs_R1 in Hz. lra.
  - lra.
Qed.

Lemma sum_over_S n f : sum_over (S n) f = sum_over n f + f n.
Proof.
  unfold sum_over. rewrite seq_S, fmap_app, foldr_app. cbn.
  generalize (f <$> seq 0 n). intros l. induction l as [|x l IH]; cbn; [lra|]. rewrite IH. lra.
Qed.

Section mixR.
  Context (t : nat → nat → R) (inp : owned R) (iv : view) (o fr : nat).
  Local Notation term := (mix_term level_is_zero level_is_unity (λ g, g) Rplus Rmult t inp iv o fr).
  Local Notation x i := (default 0 (seen inp iv i fr)).
  Local Notation g i := (t i o).

  Lemma term_error acc i : Rabs (term acc i - (acc + g i * x i)) <= / 2 ^ 51 * Rabs (x i).
  Proof.
    unfold mix_term. assert (0 < / 2 ^ 51) by lra. destruct (seen inp iv i fr) as [s|]; cbn [default from_option Datatypes.id].
    2: { replace (acc - (acc + g i * 0)) with 0 by ring. rewrite Rabs_R0. lra. }
    pose proof (Rabs_pos s) as Hs. destruct (level_is_zero (g i)) eqn:Ez; [|destruct (level_is_unity (g i)) eqn:Eu].
    - apply close_bound in Ez; [|by left]. rewrite Rminus_0_r in Ez. replace (acc - (acc + g i * s)) with (- (g i * s)) by ring.
      rewrite Rabs_Ropp, Rabs_mult. apply Rmult_le_compat_r; lra.
    - apply close_bound in Eu; [|by right]. replace (acc + s - (acc + g i * s)) with (- ((g i - 1) * s)) by ring.
      rewrite Rabs_Ropp, Rabs_mult. apply Rmult_le_compat_r; lra.
    - replace (acc + s * g i - (acc + g i * s)) with 0 by ring. rewrite Rabs_R0. apply Rmult_le_pos; lra.
  Qed.
  Lemma term_sharp acc i : sharp (g i) → term acc i = acc + g i * x i.
  Proof.
    intros Hs. unfold mix_term. destruct (seen inp iv i fr) as [s|]; cbn [default from_option Datatypes.id]; [|ring].
    destruct (level_is_zero (g i)) eqn:Ez; [|destruct (level_is_unity (g i)) eqn:Eu].
    - rewrite (sharp_zero _ Hs Ez). ring.
    - rewrite (sharp_unity _ Hs Eu). ring.
    - ring.
  Qed.
  Lemma fold_error n x0 : Rabs (fold_left term (seq 0 n) x0 - (x0 + sum_over n (λ i, g i * x i))) <=
    / 2 ^ 51 * sum_over n (λ i, Rabs (x i)).
  Proof.
    induction n as [|n IH]; [cbn; replace (x0 - (x0 + 0)) with 0 by ring; rewrite Rabs_R0; lra|].
    rewrite seq_S, fold_left_app, !sum_over_S. cbn [fold_left Nat.add].
    set (a := fold_left term (seq 0 n) x0) in *. pose proof (term_error a n) as He.
    replace (term a n - (x0 + (sum_over n (λ i, g i * x i) + g n * x n)))
      with ((term a n - (a + g n * x n)) + (a - (x0 + sum_over n (λ i, g i * x i)))) by ring.
    eapply Rle_trans; [apply Rabs_triang|]. lra.
  Qed.
  Lemma fold_sharp n x0 : (∀ i, (i < n)%nat → sharp (g i)) →
    fold_left term (seq 0 n) x0 = x0 + sum_over n (λ i, g i * x i).
  Proof.
    induction n as [|n IH]; intros Hs; [cbn; ring|].
    rewrite seq_S, fold_left_app, sum_over_S. cbn [fold_left Nat.add]. rewrite IH by (intros; apply Hs; lia).
    rewrite term_sharp by (apply Hs; lia). ring.
  Qed.
End mixR.

Lemma mixer_R_near inputs outputs t k x (inp : owned R) iv (out : owned R) ov : True →
  knows 0 inputs outputs t k x → wf inp → valid_view inp iv → wf out → valid_view out ov → (v_frames out ov <= v_frames inp iv)%nat →
  ∃ x' out', mixer_process_R x inp iv out ov = Ok (x', out') ∧ knows 0 inputs outputs t 0 x' ∧ is_nearly_mix t inp iv out ov out'.
Proof.
  intros _ Hk H1 H2 H3 H4 H5.
  destruct (mixer_process_ok 0 level_is_zero level_is_unity (λ g, g) Rplus Rmult inputs outputs t k x inp iv out ov) as (x' & out' & E & Hk' & W); [done..|].
  exists x', out'. split; [done|]. split; [done|]. eapply written_mono; [exact W|]. cbv beta. intros ch fr a b Hc Hfr ->.
  apply fold_error.
Qed.
Lemma mixer_R_exact inputs outputs t k x (inp : owned R) iv (out : owned R) ov : (∀ i o, sharp (t i o)) →
  knows 0 inputs outputs t k x → wf inp → valid_view inp iv → wf out → valid_view out ov → (v_frames out ov <= v_frames inp iv)%nat →
  ∃ x' out', mixer_process_R x inp iv out ov = Ok (x', out') ∧ knows 0 inputs outputs t 0 x' ∧ is_mix t inp iv out ov out'.
Proof.
  intros Hs Hk H1 H2 H3 H4 H5.
  destruct (mixer_process_ok 0 level_is_zero level_is_unity (λ g, g) Rplus Rmult inputs outputs t k x inp iv out ov) as (x' & out' & E & Hk' & W); [done..|].
  exists x', out'. split; [done|]. split; [done|]. eapply written_mono; [exact W|]. cbv beta. intros ch fr a b Hc Hfr ->.
  apply fold_sharp. intros. apply Hs.
Qed.

Lemma table_sharp {A} (ops : list (mixer_op R A)) : (∀ i o l, MSet i o l ∈ ops → sharp l) → ∀ i o, sharp (table 0 ops i o).
Proof.
  induction ops as [|op ops IH] using rev_ind; intros Hs i o.
  { left. done. }
  rewrite table_snoc. destruct op as [a b l|].
  - unfold upd. case_decide; [apply (Hs a b); set_solver|]. apply IH. set_solver.
  - apply IH. set_solver.
Qed.

Lemma mixer_session_near inputs outputs ops : (inputs <= 8)%nat → (outputs <= 8)%nat → Forall (mixer_op_ok inputs outputs) ops →
  (∀ n, (n < length ops)%nat → (∃ i o l, ops !! n = Some (MSet i o l)) → (unsent (take n ops) < 32)%nat) →
  ∃ x x' outs, mixer_new 0 inputs outputs = Ok x ∧ rfold (mixer_step mixer_process_R) ops (x, []) = Ok (x', outs) ∧
    mixer_blocks 0 is_nearly_mix [] ops outs.
Proof.
  intros Hi Ho Hok Hcap. destruct (knows_new 0 inputs outputs Hi Ho) as (x & Ex & Hk).
  destruct (session_ok 0 mixer_process_R is_nearly_mix inputs outputs Hi Ho (λ _, True)) with (ops := ops) (before := @nil (mixer_op R R)) (x := x) (outs := @nil (owned R))
    as (x' & outs & E & Hb); [|done|done|done|done|].
  { intros. by eapply mixer_R_near. }
  exists x, x', outs. done.
Qed.
Lemma mixer_session_exact inputs outputs ops : (inputs <= 8)%nat → (outputs <= 8)%nat → Forall (mixer_op_ok inputs outputs) ops →
  (∀ n, (n < length ops)%nat → (∃ i o l, ops !! n = Some (MSet i o l)) → (unsent (take n ops) < 32)%nat) →
  (∀ i o l, MSet i o l ∈ ops → sharp l) →
  ∃ x x' outs, mixer_new 0 inputs outputs = Ok x ∧ rfold (mixer_step mixer_process_R) ops (x, []) = Ok (x', outs) ∧
    mixer_blocks 0 is_mix [] ops outs.
Proof.
  intros Hi Ho Hok Hcap Hs. destruct (knows_new 0 inputs outputs Hi Ho) as (x & Ex & Hk).
  destruct (session_ok 0 mixer_process_R is_mix inputs outputs Hi Ho (λ t, ∀ i o, sharp (t i o))) with (ops := ops) (before := @nil (mixer_op R R)) (x := x) (outs := @nil (owned R))
    as (x' & outs & E & Hb); [|done|done| |done|].
  { intros. by eapply mixer_R_exact. }
  { intros n i o. apply table_sharp. intros a b l Hl. apply (Hs a b). cbn [app] in Hl. by eapply elem_of_list_lookup_1 in Hl as [j Hj]; apply lookup_take_Some in Hj as [Hj _]; eapply elem_of_list_lookup_2. }
  exists x, x', outs. done.
Qed.
