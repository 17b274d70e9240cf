(** Proofs about the engine's threads. *)
From stdpp Require Import functions gmap list list_numbers.
From Coq Require Import ZArith Lia ZifyBool ZifyNat Sorted.
From Verif Require Import Base Graph GraphSpec TopoSort TopoSortSpec Buffer BufferSpec BufferProofs DspGraph DspGraphSpec
  Float Timestamp TimestampProofs Processor ProcessorSpec ProcessorProofs Threads ThreadsSpec.

(** ** Counting *)
Section counting.
Context {X : Type} (mark count : X → bool).
Implicit Types l : list X.
Lemma number_app l l' : number count (l ++ l') = number count l + number count l'.
Proof. unfold number. by rewrite List.filter_app, app_length. Qed.
Lemma count_before_app l : ∀ k l', k < number mark l → count_before mark count k (l ++ l') = count_before mark count k l.
Proof.
  induction l as [|x l IH]; intros k l' H; [cbn in H; lia|]. cbn. unfold number in H. cbn in H.
  destruct (mark x); [destruct k; [done|]|]; rewrite IH; try done; unfold number; cbn in H; lia.
Qed.
Lemma count_before_past l : ∀ k l', number mark l ≤ k →
  count_before mark count k (l ++ l') = number count l + count_before mark count (k - number mark l) l'.
Proof.
  induction l as [|x l IH]; intros k l' H; [cbn; by rewrite Nat.sub_0_r|]. unfold number in *. cbn in *.
  destruct (mark x); [destruct k; [cbn in H; lia|]|]; rewrite IH by (cbn in H; lia); destruct (count x); cbn; lia.
Qed.
Lemma count_before_le l : ∀ k, count_before mark count k l ≤ number count l.
Proof.
  induction l as [|x l IH]; intros k; [cbn; lia|]. unfold number in *. cbn.
  pose proof (IH k). pose proof (IH (k - 1)). destruct (mark x), (count x), k as [|k]; cbn in *; rewrite ?Nat.sub_0_r in *; lia.
Qed.
End counting.

Section proofs.
Context {A St : Type}.
Context (zero : A) (add : A → A → A).
Context (proc : timestamp → St → owned A → owned A → res (St * owned A)).
Context (sh : nat → oracle) (dr : nat → list endpoint → list endpoint).
Context (capacity nbuf MC MF sr : nat).
Notation new_engine := (new_processor zero nbuf sr MC MF : processor A St).
Notation start := (new_world zero nbuf sr MC MF : world A St).
Notation tstep := (tstep zero add proc sh dr capacity).
Notation trun := (trun zero add proc sh dr capacity).
Notation prun := (prun zero add proc sh dr).
Notation callback := (callback zero add proc sh dr).
Notation process_graph := (process_graph zero add proc sh dr).
Implicit Types (os : list (pop A St)) (r : list (command St)) (s : list (act A St)) (w : world A St) (e st : processor A St) (c : command St).

Lemma trun_snoc w s a w' l : trun w (s ++ [a]) = Ok (w', l) →
  ∃ w1 l1 l2, trun w s = Ok (w1, l1) ∧ tstep w1 a = Ok (w', l2) ∧ l = l1 ++ l2.
Proof.
  unfold Threads.trun. rewrite rfold_app. destruct (rfold _ s _) as [[w1 l1]|p] eqn:E; [|done]. cbn [rbind rfold].
  unfold tstep_log at 1. cbn [fst snd]. destruct (tstep w1 a) as [[w2 l2]|p] eqn:E2; [|done]. cbn [rbind]. intros [= <- <-].
  by exists w1, l1, l2.
Qed.
Lemma trun_ext w s a w1 l1 w' l2 : trun w s = Ok (w1, l1) → tstep w1 a = Ok (w', l2) → trun w (s ++ [a]) = Ok (w', l1 ++ l2).
Proof. unfold Threads.trun. rewrite rfold_app. intros -> E. cbn [rbind rfold]. unfold tstep_log. cbn [fst snd]. by rewrite E. Qed.

(** ** The queue does not matter to what the audio thread does *)
Lemma with_queue_twice e q q' : with_queue (with_queue e q) q' = with_queue e q'.
Proof. done. Qed.
Lemma with_queue_id e : with_queue e (p_queue e) = e.
Proof. by destruct e. Qed.
Lemma apply_queue e q c e' : apply_command sh (with_queue e q) c = Ok e' →
  p_queue e' = q ∧ p_time e' = p_time e ∧ apply_command sh (with_queue e []) c = Ok (with_queue e' []).
Proof.
  destruct c as [| |g]; cbn; try (intros [= <-]; done).
  destruct (gcmd_step _ _ _ _) as [g'|]; [|done]. cbn. intros [= <-]. done.
Qed.
Lemma process_queue e q inp iv out ov e' out' : process_graph (with_queue e q) inp iv out ov = Ok (e', out') →
  p_queue e' = q ∧ p_time e' = p_time e ∧ process_graph (with_queue e []) inp iv out ov = Ok (with_queue e' [], out').
Proof.
  unfold Processor.process_graph. cbn. destruct (chunk_loop _ _ _ _ _ _ _ _ _ _ _ _ _ _ _ _) as [[[clock g] o]|]; [|done].
  cbn. intros [= <- <-]. done.
Qed.
Lemma rfold_apply_time r : ∀ e e', rfold (apply_command sh) r e = Ok e' → p_time e' = p_time e ∧ p_queue e' = p_queue e.
Proof.
  induction r as [|c r IH]; intros e e'; cbn [rfold]; [by intros [= <-]|].
  destruct (apply_command sh e c) as [e1|] eqn:E; [|done]. cbn [rbind]. intros H. destruct (IH _ _ H) as [-> ->].
  rewrite <-(with_queue_id e) in E. by destruct (apply_queue _ _ _ _ E) as (-> & -> & _).
Qed.
Lemma clear_frames out ov out0 v : clear zero out ov = Ok out0 → wf out → valid_view out ov → v_frames out0 v = v_frames out v.
Proof.
  intros E Hw Hv. destruct (clear_silences zero out ov Hw Hv) as (o & E' & _ & Hd & _).
  rewrite E in E'. injection E' as <-. by apply (same_dims_view out out0 v).
Qed.

(** ** Sequential histories *)
Lemma prun_app os : ∀ st os' st1 l1, prun st os = Ok (st1, l1) →
  prun st (os ++ os') = let? (st2, l2) := prun st1 os' in Ok (st2, l1 ++ l2).
Proof.
  induction os as [|o os IH]; intros st os' st1 l1; cbn [Processor.prun app].
  - intros [= <- <-]. by destruct (Processor.prun _ _ _ _ _ _ _) as [[]|].
  - destruct (pstep zero add proc sh dr st o) as [[st2 l2]|]; [|done]. cbn [rbind].
    destruct (Processor.prun _ _ _ _ _ st2 os) as [[st3 l3]|] eqn:E; [|done]. cbn [rbind]. intros [= <- <-].
    rewrite (IH _ _ _ _ E). destruct (Processor.prun _ _ _ _ _ st3 os') as [[st4 l4]|]; [|done]. cbn [rbind]. by rewrite app_assoc.
Qed.
Lemma prun_sends r : ∀ st, prun st (PSend <$> r) = Ok (with_queue st (p_queue st ++ r), []).
Proof.
  induction r as [|c r IH]; intros st; cbn; [by rewrite app_nil_r, with_queue_id|].
  rewrite IH. cbn. do 3 f_equal. by rewrite <-app_assoc.
Qed.
Lemma sent_app (os os' : list (pop A St)) : sent (os ++ os') = sent os ++ sent os'.
Proof. apply bind_app. Qed.
Lemma sent_sends r : sent (PSend (A := A) <$> r) = r.
Proof. induction r as [|c r IH]; [done|]. cbn. by f_equal. Qed.
Lemma calls_app (os os' : list (pop A St)) : calls (os ++ os') = calls os ++ calls os'.
Proof. apply bind_app. Qed.
Lemma calls_sends r : calls (PSend (A := A) <$> r) = [].
Proof. by induction r. Qed.
Lemma number_command (os : list (pop A St)) : number is_command os = length (sent os).
Proof. induction os as [|[] os IH]; cbn; auto. Qed.
Lemma number_call (os : list (pop A St)) : number is_call os = length (calls os).
Proof. induction os as [|[] os IH]; cbn; auto. Qed.
Lemma number_send s : number is_send s = length (sends s).
Proof. induction s as [|[] s IH]; cbn; auto. Qed.
Lemma number_begin s : number is_begin s = length (begun s).
Proof. induction s as [|[] s IH]; cbn; auto. Qed.
Lemma sends_app s s' : sends (s ++ s') = sends s ++ sends s'.
Proof. apply bind_app. Qed.
Lemma begun_app s s' : begun (s ++ s') = begun s ++ begun s'.
Proof. apply bind_app. Qed.
Lemma count_sends r l : count_before (X := pop A St) is_call is_command 0 ((PSend <$> r) ++ l) = length r + count_before is_call is_command 0 l.
Proof. induction r as [|c r IH]; cbn; auto. Qed.

(** ** The invariant *)
Definition phase_ok s os (st : processor A St) r w : Prop :=
  let e := with_queue (w_engine w) [] in
  match w_audio w with
  | Outside => r = [] ∧ e = st ∧ begun s = calls os
  | Draining inp iv out0 ov => ∃ out, begun s = calls os ++ [(inp, iv, out, ov)] ∧
      pop_ok (St := St) (PCallback inp iv out ov) ∧ clear zero out ov = Ok out0 ∧ rfold (apply_command sh) r st = Ok e
  | Drained inp iv out0 ov => ∃ out, begun s = calls os ++ [(inp, iv, out, ov)] ∧
      pop_ok (St := St) (PCallback inp iv out ov) ∧ clear zero out ov = Ok out0 ∧ rfold (apply_command sh) r st = Ok e ∧
      count_before is_begin is_send (length (calls os)) s ≤ length (sent os ++ r)
  | Rendered out' n => ∃ inp iv out ov out0 st1, begun s = calls os ++ [(inp, iv, out, ov)] ∧
      pop_ok (St := St) (PCallback inp iv out ov) ∧ clear zero out ov = Ok out0 ∧ rfold (apply_command sh) r st = Ok st1 ∧
      count_before is_begin is_send (length (calls os)) s ≤ length (sent os ++ r) ∧
      p_started st1 = true ∧ process_graph st1 inp iv out0 ov = Ok (e, out') ∧ n = v_frames out ov
  end.

Record tinv s w (log : list seen_by_client) (os : list (pop A St)) (st : processor A St) (r received : list (command St)) (n : nat) : Prop := {
  i_run : prun new_engine os = Ok (st, w_outputs w);
  i_empty : p_queue st = [];
  i_time : p_time (w_engine w) = p_time st;
  i_ok : Forall pop_ok os;
  i_ok' : Forall (λ c, pop_ok (A := A) (PSend c)) (r ++ p_queue (w_engine w));
  i_returns : number is_return s = length (calls os);
  i_sends : sends s = received ++ p_queue (w_engine w);
  i_same : Forall2 same_command received (sent os ++ r);
  i_early : ∀ k, k < length (calls os) → count_before is_begin is_send k s ≤ count_before is_call is_command k os;
  i_late : ∀ k, k < length (calls os) → count_before is_call is_command k os ≤ count_before is_return is_send k s;
  i_phase : phase_ok s os st r w;
  i_next : (w_next w = Z.of_nat n mod 2 ^ 64)%Z;
  i_drawn : n ≤ length s;
  i_ids : ids_seen log ++ phist_edge_ids os ++ (r ≫= λ c, pop_edge_ids (PSend (A := A) c)) ≡ₚ seq 0 n;
}.

Lemma same_command_edge i c : same_command c (with_edge_id i c).
Proof. by destruct c as [| |[]]. Qed.
Lemma pop_ok_edge i c : pop_ok (A := A) (PSend c) → pop_ok (A := A) (PSend (with_edge_id i c)).
Proof. by destruct c as [| |[]]. Qed.
Lemma pop_ids_edge i c : pop_edge_ids (PSend (A := A) (with_edge_id i c)) = if draws_id c then [i] else [].
Proof. by destruct c as [| |[]]. Qed.
Lemma phist_ids_app (os os' : list (pop A St)) : phist_edge_ids (os ++ os') = phist_edge_ids os ++ phist_edge_ids os'.
Proof. apply bind_app. Qed.
Lemma phist_ids_sends r : phist_edge_ids (PSend (A := A) <$> r) = r ≫= λ c, pop_edge_ids (PSend (A := A) c).
Proof. unfold phist_edge_ids. induction r as [|c r IH]; [done|]. cbn. by f_equal. Qed.
Lemma ids_seen_app l l' : ids_seen (l ++ l') = ids_seen l ++ ids_seen l'.
Proof. apply bind_app. Qed.

Lemma start_inv : tinv [] start [] [] new_engine [] [] 0.
Proof. split; try done; try (cbn; lia); try (cbn; done). Qed.

(** a step that only sends, or changes nothing the invariant speaks about *)
Lemma begin_count s a k : is_begin a = false → k < number is_begin s → count_before is_begin is_send k (s ++ [a]) = count_before is_begin is_send k s.
Proof. intros _ H. by apply count_before_app. Qed.

Lemma drawn_next n : (Z.of_nat n < 2 ^ 64)%Z → (draw_id (Z.of_nat n mod 2 ^ 64) = (n, Z.of_nat (S n) mod 2 ^ 64))%Z.
Proof.
  intros H. unfold draw_id. rewrite (Z.mod_small (Z.of_nat n)) by lia. rewrite Nat2Z.id. do 2 f_equal. lia.
Qed.

Lemma return_step s a w log os st r received n out' (Hinv : tinv s w log os st r received n) inp iv out ov e' :
  is_return a = true → is_send a = false → is_begin a = false →
  begun s = calls os ++ [(inp, iv, out, ov)] → pop_ok (St := St) (PCallback inp iv out ov) →
  count_before is_begin is_send (length (calls os)) s ≤ length (sent os ++ r) →
  callback (with_queue st r) inp iv out ov = Ok (with_queue e' [], out') →
  p_queue e' = p_queue (w_engine w) →
  tinv (s ++ [a]) (World e' Outside (w_next w) (w_garbage w) (w_disposed w) (w_outputs w ++ [out'])) log
    (os ++ (PSend <$> r) ++ [PCallback inp iv out ov]) (with_queue e' []) [] received n.
Proof.
  intros Ha1 Ha2 Ha3 Hb Hok Hc Hcb Hq. destruct Hinv as [I1 I2 I3 I4 I5 I6 I7 I8 I9 I10 I11 I12 I13 I14].
  assert (Hbl : number is_begin s = S (length (calls os))) by (rewrite number_begin, Hb, app_length; cbn; lia).
  assert (Hcalls : calls (os ++ (PSend <$> r) ++ [PCallback inp iv out ov]) = calls os ++ [(inp, iv, out, ov)]).
  { rewrite !calls_app, calls_sends. done. }
  assert (Hsent : sent (os ++ (PSend <$> r) ++ [PCallback inp iv out ov]) = sent os ++ r).
  { rewrite !sent_app, sent_sends. cbn. by rewrite app_nil_r. }
  split; cbn [w_engine w_audio w_next w_garbage w_disposed w_outputs]; try done.
  - rewrite (prun_app os _ _ _ _ I1). rewrite (prun_app (PSend <$> r) _ _ _ _ (prun_sends r st)).
    rewrite I2. cbn [app Processor.prun pstep]. rewrite Hcb. done.
  - rewrite !Forall_app. split; [done|]. apply Forall_app in I5 as [I5 I5']. split; [|by constructor].
    apply Forall_fmap. exact I5.
  - rewrite Hq. apply Forall_app in I5 as [I5 I5']. done.
  - rewrite number_app, I6, Hcalls, app_length. unfold number. cbn. rewrite Ha1. done.
  - rewrite sends_app, I7, Hq. by destruct a; cbn; rewrite ?app_nil_r.
  - by rewrite Hsent, app_nil_r.
  - intros k Hk. rewrite Hcalls, app_length in Hk. cbn in Hk.
    rewrite count_before_app by lia. destruct (decide (k < length (calls os))) as [H|H].
    + rewrite (count_before_app _ _ os) by (rewrite number_call; lia). by apply I9.
    + assert (k = length (calls os)) as -> by lia.
      rewrite (count_before_past _ _ os) by (rewrite number_call; lia).
      rewrite number_call, number_command, Nat.sub_diag, count_sends. rewrite app_length in Hc. cbn. lia.
  - intros k Hk. rewrite Hcalls, app_length in Hk. cbn in Hk. destruct (decide (k < length (calls os))) as [H|H].
    + rewrite (count_before_app _ _ os) by (rewrite number_call; lia). rewrite count_before_app by lia. by apply I10.
    + assert (k = length (calls os)) as -> by lia.
      rewrite (count_before_past _ _ os) by (rewrite number_call; lia).
      rewrite number_call, number_command, Nat.sub_diag, count_sends.
      rewrite (count_before_past _ _ s) by lia. rewrite number_send, I7, app_length.
      apply Forall2_length in I8. rewrite app_length in I8. cbn. lia.
  - split; [done|]. split; [done|]. rewrite begun_app, Hb, Hcalls. by destruct a; cbn; rewrite ?app_nil_r.
  - rewrite app_length. lia.
  - rewrite <- I14. rewrite !phist_ids_app, phist_ids_sends. cbn. by rewrite !app_nil_r.
Qed.

Lemma begun_other s a : is_begin a = false → begun (s ++ [a]) = begun s.
Proof. rewrite begun_app. destruct a; try done; intros _; cbn; by rewrite app_nil_r. Qed.
Lemma sends_other s a : is_send a = false → sends (s ++ [a]) = sends s.
Proof. rewrite sends_app. destruct a; try done; intros _; cbn; by rewrite app_nil_r. Qed.
Lemma returns_other s a : is_return a = false → number is_return (s ++ [a]) = number is_return s.
Proof. intros H. rewrite number_app. unfold number at 2. cbn. rewrite H. cbn. lia. Qed.
Lemma early_snoc s os a : length (calls os) ≤ number is_begin s →
  (∀ k, k < length (calls os) → count_before is_begin is_send k s ≤ count_before is_call is_command k os) →
  ∀ k, k < length (calls os) → count_before is_begin is_send k (s ++ [a]) ≤ count_before is_call is_command k os.
Proof. intros Hn H k Hk. rewrite count_before_app by lia. by apply H. Qed.
Lemma late_snoc s os a : number is_return s = length (calls os) →
  (∀ k, k < length (calls os) → count_before is_call is_command k os ≤ count_before is_return is_send k s) →
  ∀ k, k < length (calls os) → count_before is_call is_command k os ≤ count_before is_return is_send k (s ++ [a]).
Proof. intros Hn H k Hk. rewrite count_before_app by lia. by apply H. Qed.
Lemma phase_begun s os st r w : phase_ok s os st r w → length (calls os) ≤ number is_begin s.
Proof.
  rewrite number_begin. unfold phase_ok. destruct (w_audio w).
  - intros (_ & _ & ->). done.
  - intros (out' & -> & _). rewrite app_length. lia.
  - intros (out' & -> & _). rewrite app_length. lia.
  - intros (? & ? & ? & ? & ? & ? & -> & _). rewrite app_length. lia.
Qed.
Lemma phase_other s a os st r w w' : is_begin a = false → w_audio w' = w_audio w →
  with_queue (w_engine w') [] = with_queue (w_engine w) [] → phase_ok s os st r w → phase_ok (s ++ [a]) os st r w'.
Proof.
  intros Ha Hw Hq. unfold phase_ok. rewrite Hw, Hq, (begun_other s a Ha).
  assert (Hc : ∀ x, begun s = calls os ++ [x] →
    count_before is_begin is_send (length (calls os)) (s ++ [a]) = count_before is_begin is_send (length (calls os)) s).
  { intros x Hx. apply count_before_app. rewrite number_begin, Hx, app_length. cbn. lia. }
  destruct (w_audio w); [done|done| |].
  - intros (out' & H1 & H2 & H3 & H4 & H5). exists out'. rewrite (Hc _ H1). done.
  - intros (inp & iv & o & ov & o0 & st1 & H1 & H). exists inp, iv, o, ov, o0, st1. rewrite (Hc _ H1). done.
Qed.

(** steps that leave queue, engine and audio thread alone, apart from drawn ids *)
Lemma other_step s a w log os st r received n : tinv s w log os st r received n → is_begin a = false → is_send a = false → is_return a = false →
  ∀ garbage disposed, tinv (s ++ [a]) (World (w_engine w) (w_audio w) (w_next w) garbage disposed (w_outputs w)) log os st r received n.
Proof.
  intros [I1 I2 I3 I4 I5 I6 I7 I8 I9 I10 I11 I12 I13 I14] H1 H2 H3 garbage disposed. split; try done.
  - by rewrite returns_other.
  - by rewrite sends_other.
  - apply early_snoc; [by eapply phase_begun|done].
  - by apply late_snoc.
  - by eapply phase_other; [| | |exact I11].
  - rewrite app_length. lia.
Qed.

Lemma step_inv s a w log os st r received n w' l : tinv s w log os st r received n → act_ok a → (Z.of_nat (length s) < 2 ^ 64)%Z →
  tstep w a = Ok (w', l) → ∃ os' st' r' received' n', tinv (s ++ [a]) w' (log ++ l) os' st' r' received' n'.
Proof.
  intros I Ha Hs E. pose proof I as [I1 I2 I3 I4 I5 I6 I7 I8 I9 I10 I11 I12 I13 I14].
  destruct w as [e au next garbage disposed outputs]. cbn [w_engine w_audio w_next w_garbage w_disposed w_outputs] in *.
  destruct a as [c| | |inp iv out ov| | | | |].
  - (* send *) cbn in E. injection E as <- <-. rewrite app_nil_r. exists os, st, r, received, n. split; cbn [w_engine w_audio w_next w_garbage w_disposed w_outputs]; try done.
    + cbn. rewrite app_assoc. apply Forall_app. split; [done|]. by constructor.
    + by rewrite returns_other.
    + rewrite sends_app, I7. cbn. by rewrite app_assoc.
    + apply early_snoc; [by eapply phase_begun|done].
    + by apply late_snoc.
    + by eapply phase_other; [| | |exact I11].
    + rewrite app_length. lia.
  - (* read *) cbn in E. injection E as <- <-. exists os, st, r, received, n.
    destruct (other_step s ARead _ _ _ _ _ _ _ I eq_refl eq_refl eq_refl garbage disposed) as [J1 J2 J3 J4 J5 J6 J7 J8 J9 J10 J11 J12 J13 J14].
    split; try done. rewrite ids_seen_app. cbn [ids_seen mbind list_bind]. by rewrite app_nil_r.
  - (* draw *)
    assert (Hd : draw_id next = (n, Z.of_nat (S n) mod 2 ^ 64)%Z) by (rewrite I12; apply drawn_next; lia).
    cbn [Threads.tstep] in E. rewrite Hd in E. cbn in E. injection E as <- <-. exists os, st, r, received, (S n).
    destruct (other_step s ADraw _ _ _ _ _ _ _ I eq_refl eq_refl eq_refl garbage disposed) as [J1 J2 J3 J4 J5 J6 J7 J8 J9 J10 J11 J12 J13 J14].
    split; try done.
    + rewrite app_length. cbn. lia.
    + rewrite ids_seen_app. cbn [ids_seen mbind list_bind app]. rewrite (seq_S n 0), <-I14. cbn. by rewrite <-app_assoc, <-(Permutation_app_comm _ [n]), app_assoc.
  - (* begin *) destruct au; try discriminate E. cbn [Threads.tstep] in E.
    destruct (v_frames inp iv =? v_frames out ov) eqn:Ef; [|done]. cbn [rassert] in E.
    destruct (clear zero out ov) as [out0|] eqn:Ec; [|done]. cbn in E. injection E as <- <-. rewrite app_nil_r.
    cbn in I11. destruct I11 as (-> & He & Hb).
    exists os, st, [], received, n. split; cbn [w_engine w_audio w_next w_garbage w_disposed w_outputs]; try done.
    + by rewrite returns_other.
    + by rewrite sends_other.
    + apply early_snoc; [|done]. rewrite number_begin, Hb. lia.
    + by apply late_snoc.
    + exists out. rewrite begun_app, Hb. split; [done|]. split; [done|]. split; [done|]. by rewrite <-He.
    + rewrite app_length. lia.
  - (* receive *) destruct au as [|inp iv out ov| |]; try discriminate E. cbn [Threads.tstep] in E.
    destruct (p_queue e) as [|c q] eqn:Eq.
    + injection E as <- <-. rewrite app_nil_r. exists os, st, r, received, n.
      split; cbn [w_engine w_audio w_next w_garbage w_disposed w_outputs]; try done.
      * by rewrite Eq.
      * by rewrite returns_other.
      * by rewrite sends_other, Eq.
      * apply early_snoc; [by eapply phase_begun|done].
      * by apply late_snoc.
      * unfold phase_ok in I11 |- *. cbn [w_audio w_engine] in *. destruct I11 as (o & H1 & H2 & H3 & H4).
        exists o. rewrite (begun_other s AReceive eq_refl). do 4 (split; [done|]).
        rewrite count_before_app by (rewrite number_begin, H1, app_length; cbn; lia).
        apply Forall2_length in I8. rewrite <-I8. rewrite app_nil_r in I7. rewrite <-I7, <-number_send.
        apply count_before_le.
      * rewrite app_length. lia.
    + destruct (length _ <=? capacity); [|done]. cbn [rassert] in E.
      destruct (if draws_id c then draw_id next else (0, next)) as [i next'] eqn:Ed.
      destruct (apply_command sh (with_queue e q) (with_edge_id i c)) as [e'|] eqn:Ea; [|done]. cbn [rbind] in E.
      injection E as <- <-. rewrite app_nil_r. destruct (apply_queue _ _ _ _ Ea) as (Q1 & Q2 & Q3).
      set (n' := if draws_id c then S n else n).
      assert (Hn : next' = (Z.of_nat n' mod 2 ^ 64)%Z ∧ (if draws_id c then [i] else []) = seq n (n' - n) ∧ n ≤ n' ≤ S n).
      { unfold n'. destruct (draws_id c).
        - rewrite I12, drawn_next in Ed by lia. injection Ed as <- <-. split; [done|]. replace (S n - n) with 1 by lia. cbn [seq]. split; [done|lia].
        - injection Ed as _ <-. rewrite Nat.sub_diag. split; [done|]. cbn [seq]. split; [done|lia]. }
      destruct Hn as (N1 & N2 & N3).
      exists os, st, (r ++ [with_edge_id i c]), (received ++ [c]), n'.
      split; cbn [w_engine w_audio w_next w_garbage w_disposed w_outputs]; try done.
      * by rewrite Q2.
      * rewrite Q1, <-app_assoc. rewrite Forall_app in I5 |- *. destruct I5 as [I5 I5']. apply Forall_cons in I5' as [I5' I5''].
        split; [done|]. cbn [app]. constructor; [by apply pop_ok_edge|done].
      * by rewrite returns_other.
      * by rewrite sends_other, I7, Q1, <-app_assoc.
      * rewrite app_assoc. apply Forall2_app; [done|]. constructor; [apply same_command_edge|done].
      * apply early_snoc; [by eapply phase_begun|done].
      * by apply late_snoc.
      * unfold phase_ok in I11 |- *. cbn [w_audio w_engine] in *. destruct I11 as (o & H1 & H2 & H3 & H4).
        exists o. rewrite (begun_other s AReceive eq_refl). do 3 (split; [done|]).
        rewrite rfold_app, H4. cbn [rbind rfold]. by rewrite Q3.
      * rewrite app_length. cbn. lia.
      * rewrite bind_app. cbn [mbind list_bind]. rewrite app_nil_r, pop_ids_edge, N2.
        replace n' with (n + (n' - n)) at 2 by lia. rewrite seq_app, <-I14. cbn [Nat.add]. by rewrite !app_assoc.
  - (* render *) destruct au as [| |inp iv out ov|]; try discriminate E. cbn [Threads.tstep] in E.
    destruct (p_started e) eqn:Est; [|done]. cbn [rassert] in E.
    destruct (process_graph e inp iv out ov) as [[e' out']|] eqn:Ep; [|done]. cbn [rbind] in E. injection E as <- <-. rewrite app_nil_r.
    rewrite <-(with_queue_id e) in Ep. destruct (process_queue _ _ _ _ _ _ _ _ Ep) as (Q1 & Q2 & Q3).
    exists os, st, r, received, n. split; cbn [w_engine w_audio w_next w_garbage w_disposed w_outputs]; try done.
    + by rewrite Q2.
    + by rewrite Q1.
    + by rewrite returns_other.
    + by rewrite sends_other, Q1.
    + apply early_snoc; [by eapply phase_begun|done].
    + by apply late_snoc.
    + unfold phase_ok in I11 |- *. cbn [w_audio w_engine] in *. destruct I11 as (o & H1 & H2 & H3 & H4 & H5).
      exists inp, iv, o, ov, out, (with_queue e []). rewrite (begun_other s ARender eq_refl). do 4 (split; [done|]).
      split; [by rewrite count_before_app by (rewrite number_begin, H1, app_length; cbn; lia)|]. split; [done|]. split; [done|].
      destruct H2 as (_ & _ & H2 & H2' & _). by apply (clear_frames _ _ _ _ H3).
    + rewrite app_length. lia.
  - (* store *) destruct au as [| | |out' m]; try discriminate E. cbn [Threads.tstep] in E. injection E as <- <-. rewrite app_nil_r.
    unfold phase_ok in I11. cbn [w_audio w_engine] in *.
    destruct I11 as (inp & iv & out & ov & out0 & st1 & H1 & H2 & H3 & H4 & H5 & H6 & H7 & ->).
    exists (os ++ (PSend <$> r) ++ [PCallback inp iv out ov]), (with_queue (update_position e (v_frames out ov)) []), [], received, n.
    eapply (return_step _ _ _ _ _ _ _ _ _ _ I); try done.
    unfold Processor.callback. destruct H2 as (_ & _ & _ & _ & ->). rewrite Nat.eqb_refl. cbn [rassert]. rewrite H3. cbn [rbind].
    unfold process_commands. cbn [with_queue p_queue]. replace (with_queue (with_queue st r) []) with st by (rewrite <-I2; by destruct st).
    rewrite H4. cbn [rbind]. rewrite H6, H7. cbn [rbind]. done.
  - (* skip *) destruct au as [| |inp iv out ov|]; try discriminate E. cbn [Threads.tstep] in E.
    destruct (p_started e) eqn:Est; [done|]. cbn [rassert negb] in E. injection E as <- <-. rewrite app_nil_r.
    unfold phase_ok in I11. cbn [w_audio w_engine] in *. destruct I11 as (o & H1 & H2 & H3 & H4 & H5).
    exists (os ++ (PSend <$> r) ++ [PCallback inp iv o ov]), (with_queue e []), [], received, n.
    eapply (return_step _ _ _ _ _ _ _ _ _ _ I); try done.
    unfold Processor.callback. destruct H2 as (_ & _ & _ & _ & ->). rewrite Nat.eqb_refl. cbn [rassert]. rewrite H3. cbn [rbind].
    unfold process_commands. cbn [with_queue p_queue]. replace (with_queue (with_queue st r) []) with st by (rewrite <-I2; by destruct st).
    rewrite H4. cbn [rbind]. cbn [with_queue p_started]. rewrite Est. done.
  - (* collect *) cbn [Threads.tstep] in E. destruct garbage as [|d garbage']; [done|]. injection E as <- <-. rewrite app_nil_r.
    exists os, st, r, received, n. exact (other_step s ACollect _ _ _ _ _ _ _ I eq_refl eq_refl eq_refl garbage' (disposed ++ [d])).
Qed.

Lemma run_inv s w log : Forall act_ok s → (Z.of_nat (length s) <= 2 ^ 64)%Z → trun start s = Ok (w, log) →
  ∃ os st r received n, tinv s w log os st r received n.
Proof.
  revert w log. induction s as [|a s IH] using rev_ind; intros w log Hok Hs E.
  - injection E as <- <-. exists [], new_engine, [], [], 0. apply start_inv.
  - apply trun_snoc in E as (w1 & l1 & l2 & E1 & E2 & ->). apply Forall_app in Hok as [Hok Ha]. rewrite app_length in Hs. cbn in Hs.
    destruct (IH _ _ Hok ltac:(lia) E1) as (os & st & r & received & n & I).
    eapply step_inv; [exact I| |lia|exact E2]. by apply Forall_inv in Ha.
Qed.

(** ** Theorems *)
Lemma sequential s w log : good_threads proc nbuf MF sr sh dr s → trun start s = Ok (w, log) →
  ∃ os st pending, good_setup proc nbuf MF sr sh dr os ∧ prun new_engine os = Ok (st, w_outputs w) ∧
    amounts_to s os pending ∧ p_time (w_engine w) = p_time st ∧
    (w_audio w = Outside → w_engine w = with_queue st pending).
Proof.
  intros (G1 & G2 & G3 & G4 & G5 & G6 & G7 & G8) E.
  destruct (run_inv s w log G7 G8 E) as (os & st & r & received & n & [I1 I2 I3 I4 I5 I6 I7 I8 I9 I10 I11 I12 I13 I14]).
  assert (Hnd : NoDup (phist_edge_ids os)).
  { assert (H : NoDup (ids_seen log ++ phist_edge_ids os ++ (r ≫= λ c, pop_edge_ids (PSend (A := A) c)))) by (rewrite I14; apply NoDup_seq).
    apply NoDup_app in H as (_ & _ & H). by apply NoDup_app in H as (H & _). }
  apply Forall2_app_inv_r in I8 as (rec & rest & J1 & J2 & ->). rewrite <-app_assoc in I7.
  exists os, st, (rest ++ p_queue (w_engine w)). split; [unfold good_setup; do 7 (split; [done|]); done|]. split; [done|]. split; [|split; [done|]].
  - split.
    + rewrite I6. unfold phase_ok in I11. destruct (w_audio w).
      * destruct I11 as (_ & _ & ->). by rewrite firstn_all.
      * destruct I11 as (? & -> & _). by rewrite take_app.
      * destruct I11 as (? & -> & _). by rewrite take_app.
      * destruct I11 as (? & ? & ? & ? & ? & ? & -> & _). by rewrite take_app.
    + by exists rec.
    + intros k Hk. apply I9. lia.
    + intros k Hk. apply I10. lia.
  - intros Hw. unfold phase_ok in I11. rewrite Hw in I11. destruct I11 as (-> & <- & _). inversion J2; subst.
    cbn [app]. by rewrite with_queue_twice, with_queue_id.
Qed.

Lemma ids_distinct s w log : Forall act_ok s → (Z.of_nat (length s) <= 2 ^ 64)%Z → trun start s = Ok (w, log) → NoDup (ids_seen log).
Proof.
  intros G7 G8 E. destruct (run_inv s w log G7 G8 E) as (os & st & r & received & n & I).
  assert (H : NoDup (ids_seen log ++ phist_edge_ids os ++ (r ≫= λ c, pop_edge_ids (PSend (A := A) c)))) by (rewrite (i_ids _ _ _ _ _ _ _ _ I); apply NoDup_seq).
  by apply NoDup_app in H as (H & _).
Qed.

(** *** Time *)
Lemma apply_position e c e' : apply_command sh e c = Ok e' → p_position e' = p_position e ∧ p_time e' = p_time e ∧ p_rate e' = p_rate e.
Proof. destruct c as [| |g]; cbn; try (intros [= <-]; done). destruct (gcmd_step _ _ _ _); [|done]. cbn. by intros [= <-]. Qed.
Lemma process_position e inp iv out ov e' out' : process_graph e inp iv out ov = Ok (e', out') →
  p_position e' = p_position e ∧ p_time e' = p_time e ∧ p_rate e' = p_rate e.
Proof. unfold Processor.process_graph. destruct (chunk_loop _ _ _ _ _ _ _ _ _ _ _ _ _ _ _ _) as [[[clock g] o]|]; [|done]. cbn. by intros [= <- <-]. Qed.

Definition in_callback (w : world A St) : nat :=
  match w_audio w with Outside => 0 | Draining _ _ out ov | Drained _ _ out ov => v_frames out ov | Rendered _ n => n end.
Record timeinv s w (log : list seen_by_client) : Prop := {
  t_rate : p_rate (w_engine w) = sr;
  t_time : p_time (w_engine w) = time_of sr (p_position (w_engine w));
  t_position : p_position (w_engine w) + in_callback w ≤ frames_begun s;
  t_sorted : StronglySorted Z.le (times_seen log);
  t_upper : Forall (λ t, t <= p_time (w_engine w))%Z (times_seen log);
  t_frames : Forall (λ t, ∃ n, n ≤ frames_begun s ∧ t = time_of sr n) (times_seen log);
}.
Lemma times_seen_app l l' : times_seen (l ++ l') = times_seen l ++ times_seen l'.
Proof. apply bind_app. Qed.
Lemma frames_begun_app s s' : frames_begun (s ++ s') = frames_begun s + frames_begun s'.
Proof. unfold frames_begun. by rewrite begun_app, fmap_app, sum_list_with_app || (rewrite begun_app, fmap_app; induction (begun s); cbn; lia). Qed.
Lemma sorted_snoc l t : StronglySorted Z.le l → Forall (λ x, x <= t)%Z l → StronglySorted Z.le (l ++ [t]).
Proof.
  induction 1 as [|x l H IH Hx]; intros Hl; cbn; [by repeat constructor|].
  apply Forall_cons in Hl as [Hl1 Hl2]. constructor; [by apply IH|]. apply Forall_app. split; [done|]. by repeat constructor.
Qed.

Lemma time_step s a w log w' l : Forall act_ok (s ++ [a]) → (Z.of_nat (frames_begun (s ++ [a])) <= 2 ^ 53)%Z → (0 < Z.of_nat sr <= 2 ^ 53)%Z →
  timeinv s w log → tstep w a = Ok (w', l) → timeinv (s ++ [a]) w' (log ++ l).
Proof.
  intros Hok Hf Hsr [T1 T2 T3 T4 T5 T6] E.
  assert (T6' : Forall (λ t, ∃ n, n ≤ frames_begun (s ++ [a]) ∧ t = time_of sr n) (times_seen log)).
  { eapply Forall_impl; [exact T6|]. intros t (n & Hn & ->). exists n. rewrite frames_begun_app. split; [lia|done]. }
  clear T6. apply Forall_app in Hok as [_ Ha]. apply Forall_inv in Ha.
  rewrite frames_begun_app in Hf.
  destruct w as [e au next garbage disposed outputs]. unfold in_callback in T3. cbn [w_engine w_audio] in *.
  assert (Hsame : ∀ w', p_rate (w_engine w') = sr → p_time (w_engine w') = p_time e → p_position (w_engine w') = p_position e →
    in_callback w' ≤ in_callback (World e au next garbage disposed outputs) → timeinv (s ++ [a]) w' log).
  { intros v V1 V2 V3 V4. unfold in_callback in V4 at 2. cbn [w_audio] in V4. split; try done.
    - by rewrite V2, V3, T2.
    - rewrite V3, frames_begun_app. lia.
    - by rewrite V2. }
  destruct a as [c| | |inp iv out ov| | | | |].
  - cbn in E. injection E as <- <-. rewrite app_nil_r. by apply Hsame.
  - cbn in E. injection E as <- <-. destruct (Hsame (World e au next garbage disposed outputs)) as [S1 S2 S3 S4 S5 S6]; try done.
    split; try done; rewrite times_seen_app; cbn.
    + by apply sorted_snoc.
    + apply Forall_app. split; [done|]. by repeat constructor.
    + apply Forall_app. split; [done|]. repeat constructor. exists (p_position e). rewrite frames_begun_app. split; [lia|done].
  - cbn in E. injection E as <- <-. destruct (Hsame (World e au ((next + 1) mod 2 ^ 64) garbage disposed outputs)) as [S1 S2 S3 S4 S5 S6]; try done.
    split; try done; rewrite times_seen_app; cbn; by rewrite app_nil_r.
  - destruct au; try discriminate E. cbn [Threads.tstep] in E. destruct (_ =? _); [|done]. cbn [rassert] in E.
    destruct (clear zero out ov) as [out0|] eqn:Ec; [|done]. cbn in E. injection E as <- <-. rewrite app_nil_r.
    split; try done. rewrite frames_begun_app. unfold in_callback. cbn [w_audio w_engine].
    destruct Ha as (_ & _ & O1 & O2 & _). rewrite (clear_frames _ _ _ _ Ec O1 O2). cbn. lia.
  - destruct au as [|inp iv out ov| |]; try discriminate E. cbn [Threads.tstep] in E. destruct (p_queue e) as [|c q].
    + injection E as <- <-. rewrite app_nil_r. by apply Hsame.
    + destruct (length _ <=? capacity); [|done]. cbn [rassert] in E. destruct (if draws_id c then _ else _) as [i next'].
      destruct (apply_command _ _ _) as [e'|] eqn:Ea; [|done]. cbn in E. injection E as <- <-. rewrite app_nil_r.
      apply apply_position in Ea as (? & ? & ?). apply Hsame; cbn in *; try done; congruence.
  - destruct au as [| |inp iv out ov|]; try discriminate E. cbn [Threads.tstep] in E. destruct (p_started e); [|done]. cbn [rassert] in E.
    destruct (process_graph e inp iv out ov) as [[e' out']|] eqn:Ep; [|done]. cbn in E. injection E as <- <-. rewrite app_nil_r.
    apply process_position in Ep as (? & ? & ?). apply Hsame; cbn in *; try done; congruence.
  - destruct au as [| | |out m]; try discriminate E. cbn [Threads.tstep] in E. injection E as <- <-. rewrite app_nil_r.
    assert (Hm : (p_time e <= time_of sr (p_position e + m))%Z).
    { rewrite T2. apply (time_monotone zero add sr sh dr); [lia| |done]. lia. }
    split; cbn [w_engine update_position p_rate p_time p_position]; try done.
    + rewrite T1. done.
    + rewrite frames_begun_app. unfold in_callback. cbn. lia.
    + rewrite T1. eapply Forall_impl; [exact T5|]. cbn. intros t Ht. etransitivity; [exact Ht|]. exact Hm.
  - destruct au as [| |inp iv out ov|]; try discriminate E. cbn [Threads.tstep] in E. destruct (p_started e); [done|]. cbn in E.
    injection E as <- <-. rewrite app_nil_r. apply Hsame; cbn; try done. lia.
  - cbn [Threads.tstep] in E. destruct garbage; [done|]. injection E as <- <-. rewrite app_nil_r. by apply Hsame.
Qed.

Lemma frames_begun_mono s s' : frames_begun s ≤ frames_begun (s ++ s').
Proof. rewrite frames_begun_app. lia. Qed.

Lemma time_inv s w log : Forall act_ok s → (Z.of_nat (frames_begun s) <= 2 ^ 53)%Z → (0 < Z.of_nat sr <= 2 ^ 53)%Z →
  trun start s = Ok (w, log) → timeinv s w log.
Proof.
  revert w log. induction s as [|a s IH] using rev_ind; intros w log Hok Hf Hsr E.
  - injection E as <- <-. split; try done; try constructor. cbn.
    symmetry. apply (frame_time_0 (Z.of_nat sr)). done.
  - apply trun_snoc in E as (w1 & l1 & l2 & E1 & E2 & ->). pose proof Hok as Hok'. apply Forall_app in Hok as [Hok _].
    pose proof (frames_begun_mono s [a]). eapply time_step; [done|done|done| |exact E2]. apply IH; try done. lia.
Qed.

Lemma times_read s w log : Forall act_ok s → (Z.of_nat (frames_begun s) <= 2 ^ 53)%Z → (0 < Z.of_nat sr <= 2 ^ 53)%Z →
  trun start s = Ok (w, log) →
  StronglySorted Z.le (times_seen log) ∧ Forall (λ t, ∃ n, n ≤ frames_begun s ∧ t = time_of sr n) (times_seen log).
Proof. intros H1 H2 H3 E. destruct (time_inv s w log H1 H2 H3 E) as [_ _ _ H4 _ H5]. done. Qed.

(** *** How much a callback receives *)
Lemma trun_app w s s' : trun w (s ++ s') = let? (w1, l1) := trun w s in let? (w2, l2) := trun w1 s' in Ok (w2, l1 ++ l2).
Proof.
  induction s' as [|a s' IH] using rev_ind.
  - rewrite app_nil_r. destruct (trun w s) as [[w1 l1]|]; [|done]. cbn. by rewrite app_nil_r.
  - rewrite app_assoc. unfold Threads.trun in *. rewrite rfold_app, IH. clear IH.
    destruct (rfold _ s (w, [])) as [[w1 l1]|]; [|done]. cbn [rbind]. rewrite rfold_app.
    destruct (rfold _ s' (w1, [])) as [[w2 l2]|]; [|done]. cbn [rbind rfold]. unfold tstep_log. cbn [fst snd].
    destruct (tstep w2 a) as [[w3 l3]|]; [|done]. cbn [rbind]. by rewrite app_assoc.
Qed.

Lemma receives_draining s w0 : ∀ w l, trun w0 s = Ok (w, l) → begun s = [] → draining w0 →
  match w_audio w with
  | Draining _ _ _ _ => number is_receive s + length (p_queue (w_engine w)) = length (p_queue (w_engine w0)) + length (sends s)
  | _ => number is_receive s ≤ length (p_queue (w_engine w0)) + length (sends s) + 1
  end.
Proof.
  induction s as [|a s IH] using rev_ind; intros w l E Hb H0; unfold draining in H0.
  - injection E as <- <-. destruct (w_audio w0); done.
  - apply trun_snoc in E as (w1 & l1 & l2 & E1 & E2 & _).
    assert (Hb' : begun s = [] ∧ is_begin a = false).
    { rewrite begun_app in Hb. apply app_eq_nil in Hb as [Hb Hb']. split; [done|]. by destruct a. }
    destruct Hb' as [Hb' Ha]. specialize (IH w1 l1 E1 Hb' H0). rewrite number_app, sends_app, app_length.
    destruct w1 as [e au next garbage disposed outputs]. cbn [w_engine w_audio] in *.
    destruct a as [c| | |inp iv out ov| | | | |]; try discriminate Ha; cbn [Threads.tstep] in E2.
    + injection E2 as <- <-. cbn [w_engine w_audio]. cbn. rewrite app_length. cbn. destruct au; lia.
    + injection E2 as <- <-. cbn. destruct au; lia.
    + injection E2 as <- <-. cbn. destruct au; lia.
    + destruct au as [|inp iv out ov| |]; try discriminate E2. destruct (p_queue e) as [|c q] eqn:Eq.
      * injection E2 as <- <-. cbn in *. lia.
      * destruct (length _ <=? capacity); [|done]. cbn [rassert] in E2. destruct (if draws_id c then _ else _) as [i next'].
        destruct (apply_command _ _ _) as [e'|] eqn:Ea; [|done]. cbn in E2. injection E2 as <- <-.
        apply apply_queue in Ea as (Hq & _). cbn [w_engine w_audio]. rewrite Hq. cbn in *. lia.
    + destruct au as [| |inp iv out ov|]; try discriminate E2. destruct (p_started e); [|done]. cbn [rassert] in E2.
      destruct (process_graph e inp iv out ov) as [[e' out']|]; [|done]. injection E2 as <- <-. cbn. lia.
    + destruct au; try discriminate E2. injection E2 as <- <-. cbn. lia.
    + destruct au; try discriminate E2. destruct (p_started e); [done|]. cbn in E2. injection E2 as <- <-. cbn. lia.
    + destruct garbage; [done|]. injection E2 as <- <-. cbn. destruct au; lia.
Qed.
Lemma receives_bound inp iv out ov s w0 w1 l1 w l : trun w0 [ABegin inp iv out ov] = Ok (w1, l1) → trun w1 s = Ok (w, l) → begun s = [] →
  number is_receive s ≤ length (p_queue (w_engine w0)) + length (sends s) + 1.
Proof.
  intros E0 E Hb. apply (trun_snoc _ []) in E0 as (w0' & l0 & l0' & [= <- <-] & E0 & _).
  destruct w0 as [e au next garbage disposed outputs]. destruct au; try discriminate E0. cbn [Threads.tstep] in E0.
  destruct (_ =? _); [|done]. cbn [rassert] in E0. destruct (clear zero out ov) as [out0|]; [|done]. cbn in E0. injection E0 as <- <-.
  pose proof (receives_draining s _ w l E Hb I) as H. cbn [w_engine] in *. destruct (w_audio w); lia.
Qed.

(** a client that sends stop commands faster than the callback takes them *)
Definition flood (n : nat) : list (act A St) := concat (replicate n [ASend CStop; AReceive]).
Lemma flood_runs n : ∀ w, draining w → p_queue (w_engine w) = [] → length (w_garbage w) ≤ capacity →
  ∃ w', trun w (flood n) = Ok (w', []) ∧ draining w'.
Proof.
  induction n as [|n IH]; intros w Hd Hq Hg; [by exists w|].
  destruct w as [e au next garbage disposed outputs]. unfold draining in Hd. cbn [w_audio w_engine w_garbage] in *.
  destruct au as [|inp iv out ov| |]; try done.
  destruct (IH (World (Processor false (p_rate e) [] (p_position e) (p_time e) (p_graph e) (p_max e) (p_clock e))
    (Draining inp iv out ov) next garbage disposed outputs) I eq_refl Hg) as (w' & E & Hw).
  exists w'. split; [|done]. change (flood (S n)) with ([ASend CStop; AReceive] ++ flood n). rewrite trun_app.
  assert (E1 : trun (World e (Draining inp iv out ov) next garbage disposed outputs) [ASend CStop; AReceive]
    = Ok (World (Processor false (p_rate e) [] (p_position e) (p_time e) (p_graph e) (p_max e) (p_clock e))
        (Draining inp iv out ov) next garbage disposed outputs, [])).
  { unfold Threads.trun, tstep_log. cbn [rfold Threads.tstep rbind fst snd]. unfold send, with_queue. cbn [p_queue]. rewrite Hq. cbn [app removed].
    rewrite app_nil_r. destruct (length garbage <=? capacity) eqn:El; [|lia]. done. }
  rewrite E1. cbn [rbind]. by rewrite E.
Qed.
Lemma flood_receives n : number is_receive (flood n) = n ∧ begun (flood n) = [] ∧ number is_return (flood n) = 0 ∧ Forall act_ok (flood n).
Proof.
  induction n as [|n (H1 & H2 & H3 & H4)]; [by repeat constructor|]. change (flood (S n)) with ([ASend CStop; AReceive] ++ flood n).
  rewrite !number_app, begun_app, H1, H2, H3. do 3 (split; [done|]). apply Forall_app. split; [|done]. by repeat constructor.
Qed.
Lemma flooded inp iv out ov n : pop_ok (St := St) (PCallback inp iv out ov) →
  ∃ s w, Forall act_ok s ∧ begun s = [(inp, iv, out, ov)] ∧ number is_receive s = n ∧ trun start s = Ok (w, []) ∧ draining w.
Proof.
  intros Ha. pose proof Ha as (_ & _ & O1 & O2 & O3).
  destruct (clear_silences zero out ov O1 O2) as (out0 & Ec & _).
  set (w1 := World new_engine (Draining inp iv out0 ov) 0 [] [] []).
  destruct (flood_runs n w1 I eq_refl (Nat.le_0_l _)) as (w & E & Hd). destruct (flood_receives n) as (F1 & F2 & F3 & F4).
  exists (ABegin inp iv out ov :: flood n), w. split; [by constructor|].
  change (ABegin inp iv out ov :: flood n) with ([ABegin inp iv out ov] ++ flood n).
  rewrite begun_app, F2, number_app, F1. do 2 (split; [done|]). split; [|done].
  rewrite trun_app. assert (E1 : trun start [ABegin inp iv out ov] = Ok (w1, [])).
  { unfold Threads.trun, tstep_log. cbn [rfold Threads.tstep new_world rbind fst snd]. rewrite O3, Nat.eqb_refl. cbn [rassert]. by rewrite Ec. }
  rewrite E1. cbn [rbind]. by rewrite E.
Qed.

(** *** When a command has taken effect *)
Lemma queue_suffix s w : ∀ w' l, trun w s = Ok (w', l) → ∃ taken, p_queue (w_engine w) ++ sends s = taken ++ p_queue (w_engine w').
Proof.
  induction s as [|a s IH] using rev_ind; intros w' l E.
  - injection E as <- <-. exists []. cbn. by rewrite app_nil_r.
  - apply trun_snoc in E as (w1 & l1 & l2 & E1 & E2 & _). destruct (IH w1 l1 E1) as [taken IH'].
    rewrite sends_app, app_assoc, IH'. destruct w1 as [e au next garbage disposed outputs]. cbn [w_engine] in *.
    destruct a as [c| | |inp iv out ov| | | | |]; cbn [Threads.tstep] in E2.
    + injection E2 as <- <-. exists taken. cbn. by rewrite app_assoc.
    + injection E2 as <- <-. exists taken. cbn. by rewrite app_nil_r.
    + injection E2 as <- <-. exists taken. cbn. by rewrite app_nil_r.
    + destruct au; try discriminate E2. destruct (_ =? _); [|done]. cbn [rassert] in E2. destruct (clear zero out ov); [|done]. cbn in E2.
      injection E2 as <- <-. exists taken. cbn. by rewrite app_nil_r.
    + destruct au as [|inp iv out ov| |]; try discriminate E2. destruct (p_queue e) as [|c q] eqn:Eq.
      * injection E2 as <- <-. exists taken. cbn. by rewrite Eq, app_nil_r.
      * destruct (length _ <=? capacity); [|done]. cbn [rassert] in E2. destruct (if draws_id c then _ else _) as [i next'].
        destruct (apply_command _ _ _) as [e'|] eqn:Ea; [|done]. cbn in E2. injection E2 as <- <-.
        apply apply_queue in Ea as (Hq & _). exists (taken ++ [c]). cbn. by rewrite Hq, app_nil_r, <-app_assoc.
    + destruct au as [| |inp iv out ov|]; try discriminate E2. destruct (p_started e); [|done]. cbn [rassert] in E2.
      destruct (process_graph e inp iv out ov) as [[e' out']|] eqn:Ep; [|done]. injection E2 as <- <-.
      rewrite <-(with_queue_id e) in Ep. apply process_queue in Ep as (Hq & _). exists taken. cbn. by rewrite Hq, app_nil_r.
    + destruct au; try discriminate E2. injection E2 as <- <-. exists taken. cbn. by rewrite app_nil_r.
    + destruct au; try discriminate E2. destruct (p_started e); [done|]. cbn in E2. injection E2 as <- <-. exists taken. cbn. by rewrite app_nil_r.
    + destruct garbage; [done|]. injection E2 as <- <-. exists taken. cbn. by rewrite app_nil_r.
Qed.

(** only a store changes the time, and it ends the callback *)
Lemma time_changes s w : ∀ w' l, trun w s = Ok (w', l) → p_time (w_engine w') ≠ p_time (w_engine w) →
  ∃ s1 s2 w1 l1 w2 l2 l3, s = s1 ++ AStore :: s2 ∧ trun w s1 = Ok (w1, l1) ∧ tstep w1 AStore = Ok (w2, l2) ∧ trun w2 s2 = Ok (w', l3).
Proof.
  induction s as [|a s IH] using rev_ind; intros w' l E Ht; [by injection E as <- <-|].
  apply trun_snoc in E as (w1 & l1 & l2 & E1 & E2 & _).
  assert (Hd : a = AStore ∨ a ≠ AStore) by (destruct a; auto). destruct Hd as [->|Ha]; [by exists s, [], w1, l1, w', l2, []|].
  assert (Hsame : p_time (w_engine w') = p_time (w_engine w1)).
  { destruct w1 as [e au next garbage disposed outputs]. cbn [w_engine] in *.
    destruct a as [c| | |inp iv out ov| | | | |]; cbn [Threads.tstep] in E2; try done.
    - by injection E2 as <- <-.
    - by injection E2 as <- <-.
    - by injection E2 as <- <-.
    - destruct au; try discriminate E2. destruct (_ =? _); [|done]. cbn [rassert] in E2. destruct (clear zero out ov); [|done]. cbn in E2. by injection E2 as <- <-.
    - destruct au as [|inp iv out ov| |]; try discriminate E2. destruct (p_queue e) as [|c q]; [by injection E2 as <- <-|].
      destruct (length _ <=? capacity); [|done]. cbn [rassert] in E2. destruct (if draws_id c then _ else _) as [i next'].
      destruct (apply_command _ _ _) as [e'|] eqn:Ea; [|done]. cbn in E2. injection E2 as <- <-. by apply apply_position in Ea as (_ & ? & _).
    - destruct au as [| |inp iv out ov|]; try discriminate E2. destruct (p_started e); [|done]. cbn [rassert] in E2.
      destruct (process_graph e inp iv out ov) as [[e' out']|] eqn:Ep; [|done]. injection E2 as <- <-. by apply process_position in Ep as (_ & ? & _).
    - destruct au; try discriminate E2. destruct (p_started e); [done|]. cbn in E2. by injection E2 as <- <-.
    - destruct garbage; [done|]. by injection E2 as <- <-. }
  rewrite Hsame in Ht. destruct (IH w1 l1 E1 Ht) as (s1 & s2 & v1 & k1 & v2 & k2 & k3 & -> & H1 & H2 & H3).
  exists s1, (s2 ++ [a]), v1, k1, v2, k2, (k3 ++ l2). rewrite <-app_assoc. do 3 (split; [done|]). by eapply trun_ext.
Qed.

(** between two ends of callbacks the queue has been empty *)
Lemma drained_between s w : ∀ w' l, trun w s = Ok (w', l) → w_audio w = Outside →
  match w_audio w' with Drained _ _ _ _ | Rendered _ _ => True | _ => False end →
  ∃ s1 s2 w1 l1 l2, s = s1 ++ s2 ∧ trun w s1 = Ok (w1, l1) ∧ p_queue (w_engine w1) = [] ∧ trun w1 s2 = Ok (w', l2).
Proof.
  induction s as [|a s IH] using rev_ind; intros w' l E H0 H; [injection E as <- <-; by rewrite H0 in H|].
  apply trun_snoc in E as (w1 & l1 & l2 & E1 & E2 & _).
  assert (Hcase : match w_audio w1 with Drained _ _ _ _ | Rendered _ _ => True | _ => p_queue (w_engine w1) = [] end).
  { destruct w1 as [e au next garbage disposed outputs]. cbn [w_engine w_audio] in *.
    destruct a as [c| | |inp iv out ov| | | | |]; cbn [Threads.tstep] in E2; destruct au; try done;
      try (injection E2 as <- <-; done).
    - destruct (_ =? _); [|done]. cbn [rassert] in E2. destruct (clear zero out ov); [|done]. cbn in E2. by injection E2 as <- <-.
    - destruct (p_queue e) as [|c q]; [done|]. destruct (length _ <=? capacity); [|done]. cbn [rassert] in E2.
      destruct (if draws_id c then _ else _) as [i next']. destruct (apply_command _ _ _) as [e'|]; [|done]. cbn in E2. by injection E2 as <- <-.
    - destruct garbage; [done|]. by injection E2 as <- <-.
    - destruct garbage; [done|]. by injection E2 as <- <-. }
  destruct (w_audio w1) eqn:Ew.
  1,2: exists s, [a], w1, l1, l2; split; [done|]; split; [done|]; split; [done|]; by apply (trun_ext w1 [] a w1 [] w' l2).
  all: destruct (IH w1 l1 E1 H0) as (s1 & s2 & v & k1 & k2 & -> & F1 & F2 & F3); [by rewrite Ew|];
    exists s1, (s2 ++ [a]), v, k1, (k2 ++ l2); rewrite <-app_assoc; do 3 (split; [done|]); by eapply trun_ext.
Qed.

Lemma read_last s w w' l t : trun w (s ++ [ARead]) = Ok (w', l ++ [STime t]) → trun w s = Ok (w', l) ∧ t = p_time (w_engine w').
Proof.
  intros E. apply trun_snoc in E as (w1 & l1 & l2 & E1 & E2 & El). destruct w1. cbn in E2. injection E2 as <- <-.
  apply app_inj_tail in El as [-> [= ->]]. done.
Qed.

Lemma two_advances w s2 s3 s4 w0 l0 t0 w1 l1 t1 w2 l2 t2 :
  trun w (s2 ++ [ARead]) = Ok (w0, l0 ++ [STime t0]) → trun w0 (s3 ++ [ARead]) = Ok (w1, l1 ++ [STime t1]) →
  trun w1 (s4 ++ [ARead]) = Ok (w2, l2 ++ [STime t2]) → t0 ≠ t1 → t1 ≠ t2 →
  ∃ taken, sends (s2 ++ s3 ++ s4) = taken ++ p_queue (w_engine w2).
Proof.
  intros E0 E1 E2 H1 H2. apply read_last in E0 as [E0 ->], E1 as [E1 ->], E2 as [E2 ->].
  destruct (time_changes s3 w0 w1 l1 E1) as (u1 & u2 & v1 & k1 & v2 & k2 & k3 & -> & U1 & U2 & U3); [done|].
  destruct (time_changes s4 w1 w2 l2 E2) as (x1 & x2 & y1 & m1 & y2 & m2 & m3 & -> & X1 & X2 & X3); [done|].
  assert (Hv2 : w_audio v2 = Outside) by (destruct v1 as [? [] ? ? ? ?]; try discriminate U2; by injection U2 as <- <-).
  assert (Hy1 : match w_audio y1 with Drained _ _ _ _ | Rendered _ _ => True | _ => False end) by (destruct y1 as [? [] ? ? ? ?]; done).
  assert (Hmid : trun v2 (u2 ++ x1) = Ok (y1, k3 ++ m1)) by (rewrite trun_app, U3; cbn [rbind]; by rewrite X1).
  destruct (drained_between (u2 ++ x1) v2 y1 _ Hmid Hv2 Hy1) as (z1 & z2 & v & n1 & n2 & Hz & Z1 & Z2 & Z3).
  assert (Hend : trun v (z2 ++ AStore :: x2) = Ok (w2, n2 ++ m2 ++ m3)).
  { rewrite trun_app, Z3. cbn [rbind]. change (AStore :: x2) with ([AStore] ++ x2). rewrite trun_app.
    rewrite (trun_ext y1 [] AStore y1 [] y2 m2 eq_refl X2 : trun y1 [AStore] = _). cbn [rbind app]. by rewrite X3. }
  destruct (queue_suffix _ _ _ _ Hend) as [taken Hq]. rewrite Z2 in Hq. cbn [app] in Hq.
  exists (sends (s2 ++ u1 ++ [AStore] ++ z1) ++ taken).
  rewrite <-(app_assoc (sends _)), <-Hq, <-sends_app. f_equal. rewrite <-!app_assoc. cbn [app].
  do 2 f_equal. change (AStore :: u2 ++ x1 ++ AStore :: x2) with ([AStore] ++ u2 ++ x1 ++ AStore :: x2).
  rewrite (app_assoc u2), Hz, <-app_assoc. done.
Qed.

(** *** The collector *)
Lemma garbage_count s w l : trun start s = Ok (w, l) →
  length (w_garbage w) + number is_collect s + number (λ c, match c with CGraph (GRemoveDsp _) => true | _ => false end) (p_queue (w_engine w)) ≤ number is_removal s ∧
  length (w_garbage w) + length (w_disposed w) ≤ number is_removal s ∧ length (w_disposed w) = number is_collect s.
Proof.
  revert w l. induction s as [|a s IH] using rev_ind; intros w l E.
  - injection E as <- <-. cbn. lia.
  - apply trun_snoc in E as (w1 & l1 & l2 & E1 & E2 & _). specialize (IH w1 l1 E1). rewrite !(number_app _ s).
    destruct w1 as [e au next garbage disposed outputs]. cbn [w_engine w_garbage w_disposed] in *.
    destruct a as [c| | |inp iv out ov| | | | |]; cbn [Threads.tstep] in E2.
    + injection E2 as <- <-. cbn [w_engine w_garbage w_disposed send with_queue p_queue]. rewrite number_app.
      destruct c as [| |[]]; cbn; lia.
    + injection E2 as <- <-. unfold number, send, update_position, with_queue in *. cbn in *. lia.
    + injection E2 as <- <-. unfold number, send, update_position, with_queue in *. cbn in *. lia.
    + destruct au; try discriminate E2. destruct (_ =? _); [|done]. cbn [rassert] in E2. destruct (clear zero out ov); [|done]. cbn in E2. injection E2 as <- <-. unfold number, send, update_position, with_queue in *. cbn in *. lia.
    + destruct au as [|inp iv out ov| |]; try discriminate E2. destruct (p_queue e) as [|c q] eqn:Eq; [injection E2 as <- <-; cbn; rewrite Eq; cbn in *; lia|].
      destruct (length _ <=? capacity); [|done]. cbn [rassert] in E2. destruct (if draws_id c then _ else _) as [i next'].
      destruct (apply_command _ _ _) as [e'|] eqn:Ea; [|done]. cbn [rbind] in E2. injection E2 as <- <-. apply apply_queue in Ea as (Hq & _).
      cbn [w_engine w_garbage w_disposed]. rewrite Hq, app_length. unfold number in *. cbn [List.filter] in IH.
      destruct c as [| |[n d|n|? ? ? ?|? ?|?|?|? ?]]; cbn [removed length] in *; try (cbn; lia).
      destruct (get_node _ n); cbn; lia.
    + destruct au as [| |inp iv out ov|]; try discriminate E2. destruct (p_started e); [|done]. cbn [rassert] in E2.
      destruct (process_graph e inp iv out ov) as [[e' out']|] eqn:Ep; [|done]. injection E2 as <- <-.
      rewrite <-(with_queue_id e) in Ep. apply process_queue in Ep as (Hq & _). cbn [w_engine w_garbage w_disposed]. rewrite Hq. cbn in *. lia.
    + destruct au; try discriminate E2. injection E2 as <- <-. unfold number, send, update_position, with_queue in *. cbn in *. lia.
    + destruct au; try discriminate E2. destruct (p_started e); [done|]. cbn in E2. injection E2 as <- <-. unfold number, send, update_position, with_queue in *. cbn in *. lia.
    + destruct garbage; [done|]. injection E2 as <- <-. cbn. rewrite app_length. cbn in *. lia.
Qed.
(** nodes are neither lost nor destroyed twice *)
Notation held e := (nodes (dg_graph (p_graph e))).
Lemma size_fmap_nodes {X Y} (f : X → Y) (m : gmap id X) : size (f <$> m) = size m.
Proof. by apply map_size_fmap. Qed.
Lemma size_alter_nodes {X} (f : X → X) n (m : gmap id X) : size (alter f n m) = size m.
Proof. rewrite <-!size_dom. by rewrite dom_alter_L. Qed.
Lemma add_edge_size (g g' : graph (dsp St) connection) i a b x : add_edge g i a b x = Ok g' → size (nodes g') = size (nodes g).
Proof.
  unfold add_edge. destruct (bool_decide _); [|done]. cbn [rassert]. destruct (bool_decide _); [|done]. cbn [rassert].
  unfold link_out, link_in. destruct (get_last_connected_edge_id g a Outgoing) as [l|]; [|done]. cbn [rbind].
  match goal with |- context [get_last_connected_edge_id ?h b Incoming] => set (g1 := h) end.
  assert (H1 : size (nodes g1) = size (nodes g)) by (subst g1; destruct l; cbn; [done|apply size_alter_nodes]).
  destruct (get_last_connected_edge_id g1 b Incoming) as [l'|]; [|done]. cbn. intros [= <-]. cbn.
  destruct l'; cbn; [done|]. by rewrite size_alter_nodes.
Qed.
Lemma remove_edge_size (g : graph (dsp St) connection) order a b : size (nodes (remove_edge g order a b).1) = size (nodes g).
Proof.
  unfold remove_edge. destruct (find_edge_between_nodes _ _ _ _) as [i|]; [|done]. destruct (edges g !! i); [|done]. cbn.
  by rewrite !size_fmap_nodes.
Qed.
Lemma apply_size e c e' : apply_command sh e c = Ok e' →
  size (held e') + match removed e c with Some _ => 1 | None => 0 end = size (held e) + (if adds_node c then 1 else 0).
Proof.
  destruct c as [| |g]; cbn; try (intros [= <-]; cbn; lia).
  destruct (gcmd_step _ _ _ g) as [g'|] eqn:E; [|done]. cbn. intros [= <-]. cbn.
  destruct g as [n d|n|i a b x|a b|ep|ep|n f]; cbn in E |- *.
  - unfold add_node_with_id in E. destruct (bool_decide _) eqn:Hn; [|done]. cbn in E. injection E as <-. cbn.
    apply bool_decide_eq_true in Hn. rewrite map_size_insert_None by done. lia.
  - unfold remove_node, get_node in *. destruct (nodes _ !! n) as [nd|] eqn:En; cbn in *.
    + destruct (incoming nd); [done|]. destruct (outgoing nd); [done|]. cbn in E. injection E as <-. cbn.
      rewrite map_size_delete_Some by by eexists. assert (size (held e) ≠ 0) by (intros H%map_size_empty_inv; by rewrite H in En). lia.
    + injection E as <-. cbn. lia.
  - destruct (add_edge _ _ _ _ _) as [g1|] eqn:Ea; [|done]. cbn in E. injection E as <-. apply add_edge_size in Ea. cbn. lia.
  - injection E as <-. cbn. rewrite remove_edge_size. lia.
  - injection E as <-. cbn. lia.
  - injection E as <-. cbn. lia.
  - destruct (get_node _ _); [|injection E as <-; lia]. destruct (f _); [|done]. cbn in E. injection E as <-. cbn. rewrite size_alter_nodes. lia.
Qed.
Lemma process_dsps_size t fc order : ∀ (pg pg' : pools A * graph (dsp St) connection), rfold (process_dsp zero add proc t fc) order pg = Ok pg' →
  size (nodes pg'.2) = size (nodes pg.2).
Proof.
  induction order as [|n order IH]; intros pg pg'; cbn [rfold]; [by intros [= <-]|].
  destruct (process_dsp zero add proc t fc pg n) as [pg1|] eqn:E; [|done]. cbn [rbind]. intros H. rewrite (IH _ _ H). clear IH H.
  destruct pg as [p g]. unfold process_dsp in E. destruct (get_buffer _ _) as [[outb p1]|]; [|done]. cbn [rbind] in E.
  destruct (prepare_input _ _ _ _ _) as [[[inb iep] p2]|]; [|done]. cbn [rbind] in E.
  destruct (get_node g n) as [d|].
  - destruct (run_dsp _ _ _ _ _ _ _) as [[st' outb']|]; [|done]. cbn [rbind] in E.
    destruct (match iep.1 with EInput => _ | EOutput => _ end); [|done]. cbn in E. injection E as <-. cbn. apply size_alter_nodes.
  - cbn [rbind] in E. destruct (match iep.1 with EInput => _ | EOutput => _ end); [|done]. cbn in E. by injection E as <-.
Qed.
Lemma block_size shuffle drain_order (g g' : dspgraph A St) inp iv out ov t out' :
  process zero add proc shuffle drain_order g inp iv out ov t = Ok (g', out') → size (nodes (dg_graph g')) = size (nodes (dg_graph g)).
Proof.
  unfold process. destruct (sort_graph _ _) as [order|]; [|done]. cbn [rbind].
  match goal with |- rbind ?x _ = _ → _ => destruct x as [p1|]; [|done] end. cbn [rbind].
  destruct (rfold _ order (p1, dg_graph g)) as [[p2 g1]|] eqn:E; [|done]. cbn [rbind].
  match goal with |- rbind ?x _ = _ → _ => destruct x as [o|]; [|done] end. cbn [rbind].
  destruct (drain _ _ _) as [p3|]; [|done]. cbn. intros [= <- <-]. cbn. by apply process_dsps_size in E.
Qed.
Lemma chunks_size rate mx t inp iv ov : ∀ fuel offset clock (g : dspgraph A St) out clock' g' out',
  chunk_loop zero add proc fuel sh dr rate mx t inp iv ov offset clock g out = Ok (clock', g', out') →
  size (nodes (dg_graph g')) = size (nodes (dg_graph g)).
Proof.
  induction fuel as [|fuel IH]; intros offset clock g out clock' g' out'; cbn [chunk_loop].
  - destruct (_ <? _); [done|]. by intros [= <- <- <-].
  - destruct (_ <? _); [|by intros [= <- <- <-]]. destruct (slice_frames _ _ _ _); [|done]. cbn [rbind].
    destruct (slice_frames _ _ _ _); [|done]. cbn [rbind]. destruct (process _ _ _ _ _ _ _ _ _ _ _) as [[g1 out1]|] eqn:E; [|done]. cbn [rbind].
    intros H%IH. apply block_size in E. congruence.
Qed.
Lemma render_size e inp iv out ov e' out' : process_graph e inp iv out ov = Ok (e', out') → size (held e') = size (held e).
Proof.
  unfold Processor.process_graph. destruct (chunk_loop _ _ _ _ _ _ _ _ _ _ _ _ _ _ _ _) as [[[clock g] o]|] eqn:E; [|done].
  cbn. intros [= <- <-]. cbn. by apply chunks_size in E.
Qed.
Lemma nodes_accounted s w l : trun start s = Ok (w, l) →
  size (held (w_engine w)) + length (w_garbage w) + length (w_disposed w) + number adds_node (p_queue (w_engine w)) = number adds_node (sends s).
Proof.
  revert w l. induction s as [|a s IH] using rev_ind; intros w l E.
  - by injection E as <- <-.
  - apply trun_snoc in E as (w1 & l1 & l2 & E1 & E2 & _). specialize (IH w1 l1 E1). rewrite sends_app, number_app.
    destruct w1 as [e au next garbage disposed outputs]. cbn [w_engine w_garbage w_disposed] in *.
    destruct a as [c| | |inp iv out ov| | | | |]; cbn [Threads.tstep] in E2.
    + injection E2 as <- <-. cbn [w_engine w_garbage w_disposed send with_queue p_queue p_graph]. rewrite number_app.
      change (sends [ASend c]) with [c]. lia.
    + injection E2 as <- <-. unfold number, send, update_position, with_queue in *. cbn in *. lia.
    + injection E2 as <- <-. unfold number, send, update_position, with_queue in *. cbn in *. lia.
    + destruct au; try discriminate E2. destruct (_ =? _); [|done]. cbn [rassert] in E2. destruct (clear zero out ov); [|done]. cbn in E2. injection E2 as <- <-. unfold number, send, update_position, with_queue in *. cbn in *. lia.
    + destruct au as [|inp iv out ov| |]; try discriminate E2. destruct (p_queue e) as [|c q] eqn:Eq; [injection E2 as <- <-; cbn in *; rewrite Eq; cbn in *; lia|].
      destruct (length _ <=? capacity); [|done]. cbn [rassert] in E2. destruct (if draws_id c then _ else _) as [i next'].
      destruct (apply_command _ _ _) as [e'|] eqn:Ea; [|done]. cbn [rbind] in E2. injection E2 as <- <-.
      pose proof (apply_size _ _ _ Ea) as Hs. apply apply_queue in Ea as (Hq & _).
      cbn [w_engine w_garbage w_disposed]. rewrite Hq, app_length. change (number adds_node (sends [AReceive])) with 0.
      assert (Hr : removed (with_queue e q) (with_edge_id i c) = removed e c) by (by destruct c as [| |[]]).
      assert (Ha : adds_node (with_edge_id i c) = adds_node c) by (by destruct c as [| |[]]).
      rewrite Hr, Ha in Hs. change (held (with_queue e q)) with (held e) in Hs.
      assert (Hn : number adds_node (c :: q) = (if adds_node c then 1 else 0) + number adds_node q) by (unfold number; cbn; by destruct (adds_node c)).
      destruct (removed e c); cbn [length]; lia.
    + destruct au as [| |inp iv out ov|]; try discriminate E2. destruct (p_started e); [|done]. cbn [rassert] in E2.
      destruct (process_graph e inp iv out ov) as [[e' out']|] eqn:Ep; [|done]. injection E2 as <- <-.
      pose proof (render_size _ _ _ _ _ _ _ Ep) as Hs.
      rewrite <-(with_queue_id e) in Ep. apply process_queue in Ep as (Hq & _). cbn [w_engine w_garbage w_disposed]. rewrite Hq, Hs. cbn in *. lia.
    + destruct au; try discriminate E2. injection E2 as <- <-. unfold number, send, update_position, with_queue in *. cbn in *. lia.
    + destruct au; try discriminate E2. destruct (p_started e); [done|]. cbn in E2. injection E2 as <- <-. unfold number, send, update_position, with_queue in *. cbn in *. lia.
    + destruct garbage; [done|]. injection E2 as <- <-. cbn [w_engine w_garbage w_disposed]. rewrite app_length. cbn in *. lia.
Qed.

Lemma not_waiting s w l : trun start s = Ok (w, l) → number is_removal s ≤ capacity + number is_collect s → ¬ waits_for_collector capacity w.
Proof.
  intros E Hn. destruct (garbage_count s w l E) as (H1 & H2 & H3). unfold waits_for_collector.
  destruct (w_audio w); try tauto. destruct (p_queue (w_engine w)) as [|c q]; [tauto|]. intros [Hr Hc].
  destruct c as [| |[]]; try done. cbn in H1. lia.
Qed.
Lemma waiting_stalls w : waits_for_collector capacity w → stalled tstep w.
Proof.
  clear nbuf MC MF sr. unfold waits_for_collector, stalled. destruct w as [e au next garbage disposed outputs]. cbn [w_audio w_engine w_garbage].
  destruct au as [|inp iv out ov| |]; try tauto. destruct (p_queue e) as [|c q] eqn:Eq; [tauto|]. intros [Hr Hc]. split; [done|].
  intros a Ha. destruct a; try done. cbn [Threads.tstep]. rewrite Eq. destruct (removed e c); [|done].
  rewrite app_length. cbn [length]. destruct (_ <=? capacity) eqn:El; [apply Nat.leb_le in El; lia|done].
Qed.
End proofs.
