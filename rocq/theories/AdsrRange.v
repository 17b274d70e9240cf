From stdpp Require Import sets list list_numbers.
From Coq Require Import Reals Lra Lia.
From Verif Require Import Base Buffer BufferSpec EffectSpec Float Timestamp EventProcessor EventProcessorSpec BufferProofs EffectProofs Adsr AdsrSpec AdsrProofs AdsrCurve AdsrNote.
Local Open Scope R_scope.

Lemma history_ok sr start fc d : Forall (λ e, action_ok (ev_data e)) d → Forall op_ok (block_history sr start fc d).
Proof.
  intros Hd. unfold block_history. apply Forall_forall. intros o Ho. apply elem_of_list_bind in Ho as (k & Ho & _).
  apply elem_of_app in Ho as [Ho|Ho%elem_of_list_singleton]; [|by subst]. apply elem_of_list_fmap in Ho as (e & -> & He).
  apply elem_of_list_filter in He as [_ He]. cbn. by apply (proj1 (Forall_forall _ _) Hd).
Qed.
Lemma result_range sr (Hsr : (0 < sr)%nat) bs : ∀ w e ds outs, env_inv sr e →
  Forall (λ ev, action_ok (ev_data ev)) w → Forall (λ b, Forall (λ ev, action_ok (ev_data ev)) (ab_sent b)) bs →
  adsr_handled sr w bs ds → adsr_result sr e bs ds outs → Forall2 scaled bs outs.
Proof.
  induction bs as [|b bs IH]; intros w e [|d ds] [|out outs] He Hw Hb Hh Hr; cbn in Hh, Hr; try done.
  apply Forall_cons in Hb as [Hb Hbs]. destruct Hh as (rest & (Hperm & _ & _ & _) & Hh).
  assert (Hall : Forall (λ ev, action_ok (ev_data ev)) (d ++ rest)).
  { rewrite <-Hperm. by apply Forall_app. }
  apply Forall_app in Hall as [Hd Hrest].
  pose proof (inv_run sr Hsr _ e He (history_ok sr (ab_start b) (ab_frames b) d Hd)) as [Hv He'].
  destruct (env_run sr e _) as [vs e']. cbn [fst snd] in *. destruct Hr as [(Hlen & W) Hr]. constructor; [|by apply (IH rest e' ds)].
  intros ch fr x y Hx Hy. destruct W as (_ & Hd2 & _ & W).
  assert (Hdx : (ch < v_channels (ab_in b) (ab_iv b) ∧ fr < v_frames (ab_in b) (ab_iv b))%nat) by (unfold seen in Hx; by case_decide).
  assert (Hdy : (ch < v_channels out (ab_ov b) ∧ fr < v_frames out (ab_ov b))%nat) by (unfold seen in Hy; by case_decide).
  destruct (same_dims_view _ _ (ab_ov b) Hd2) as [Ec Ef]. rewrite <-?Ec, <-?Ef in Hdy.
  destruct (W ch fr) as (x0 & y0 & _ & E2 & ->); [lia|lia|]. rewrite E2 in Hy. injection Hy as <-. rewrite Hx.
  destruct (lookup_lt_is_Some_2 vs fr) as [v Hv']; [unfold ab_frames in Hlen; lia|]. rewrite Hv'. exists v. split; [|done].
  by apply (Forall_lookup_1 _ _ _ _ Hv Hv').
Qed.
Lemma node_range sr maximum bs : (0 < Z.of_nat sr <= 2 ^ 29)%Z → Forall (ablock_ok sr maximum) bs → Forall actions_ok bs →
  ∃ ds outs, adsr_handled sr [] bs ds ∧ adsr_run (new_adsr sr maximum) bs = Ok outs ∧ adsr_result sr (new_env sr) bs ds outs ∧
    Forall2 scaled bs outs.
Proof.
  intros Hsr Hok Ha. destruct (adsr_run_ok sr Hsr maximum bs [] (new_env sr) (replicate maximum 0) Hok) as (ds & outs & H1 & H2 & H3);
    [constructor|by rewrite replicate_length|].
  exists ds, outs. do 3 (split; [done|]). eapply (result_range sr ltac:(lia) bs [] (new_env sr)); [apply inv_new; lia|constructor|done|done|done].
Qed.
