From stdpp Require Import list list_numbers sorting.
From Coq Require Import ZArith Lia ZifyBool ZifyNat.
From Verif Require Import Base Float Timestamp EventProcessor EventProcessorSpec EventProcessorProofs Buffer Sampler SamplerSpec SamplerDemo EventChannel EventChannelSpec.

Section proofs.
  Context {P : Type}.
  Implicit Types os : list (hop P).

  (** requests already waiting, and those to come *)
  Fixpoint fits_from (capacity n : nat) (os : list (hop P)) : bool :=
    match os with
    | [] => true
    | HSend _ :: os => (n <? capacity) && fits_from capacity (S n) os
    | HBlock _ _ :: os => fits_from capacity 0 os
    end.

  Lemma fits_from_bursts capacity os n : n ≤ capacity → fits_from capacity n os = true →
    (∀ es after, os = (HSend <$> es) ++ after → n + length es ≤ capacity) ∧ bursts_fit capacity os.
  Proof.
    revert n. induction os as [|o os IH]; intros n Hn H.
    - split.
      + intros [|? ?] after E; [cbn; lia|done].
      + intros [|? ?] [|? ?] after E; cbn; try lia; done.
    - destruct o as [e|start fc]; cbn [fits_from] in H.
      + apply andb_true_iff in H as [H1 H2]. apply Nat.ltb_lt in H1.
        destruct (IH (S n) ltac:(lia) H2) as [Ha Hb]. split.
        * intros [|e' es] after E; [cbn; lia|]. cbn in E. injection E as -> ->. pose proof (Ha es after eq_refl). cbn. lia.
        * intros [|x before] es after E.
          -- destruct es as [|e' es]; [cbn; lia|]. cbn in E. injection E as -> ->. pose proof (Ha es after eq_refl). cbn. lia.
          -- cbn in E. injection E as _ ->. by eapply Hb.
      + destruct (IH 0 ltac:(lia) H) as [Ha Hb]. split.
        * intros [|e' es] after E; [cbn; lia|done].
        * intros [|x before] es after E.
          -- destruct es as [|e' es]; [cbn; lia|done].
          -- cbn in E. injection E as _ ->. by eapply Hb.
  Qed.
  Lemma bursts_fits_from capacity os n : (∀ es after, os = (HSend <$> es) ++ after → n + length es ≤ capacity) →
    bursts_fit capacity os → fits_from capacity n os = true.
  Proof.
    revert n. induction os as [|o os IH]; intros n Ha Hb; [done|].
    assert (bursts_fit capacity os) as Hb'.
    { intros before es after ->. by apply (Hb (o :: before) es after). }
    destruct o as [e|start fc]; cbn [fits_from].
    - apply andb_true_iff. split.
      + apply Nat.ltb_lt. pose proof (Ha [e] os eq_refl). cbn in *. lia.
      + apply IH; [|done]. intros es after ->. pose proof (Ha (e :: es) after eq_refl). cbn in *. lia.
    - apply IH; [|done]. intros es after ->. pose proof (Hb [HBlock start fc] es after eq_refl). lia.
  Qed.
  Lemma fits_iff capacity os : fits_from capacity 0 os = true ↔ bursts_fit capacity os.
  Proof.
    split.
    - intros H. by eapply (fits_from_bursts capacity os 0 ltac:(lia) H).
    - intros H. apply bursts_fits_from; [|done]. intros es after E. cbn. exact (H [] es after E).
  Qed.

  Context (sr : nat) (Hsr : (0 < Z.of_nat sr <= 2 ^ 29)%Z).

  Lemma run_bounded_eq capacity os : ∀ q log, Forall (hop_ok (P := P) sr) os → ep_rate q = sr →
    StronglySorted ev_before (ep_pending q) →
    run_bounded capacity q os log =
      if fits_from capacity (length (ep_channel q)) os then run_queue q os log else Panic Blocked.
  Proof.
    induction os as [|o os IH]; intros q log Hok Hr Hs; [done|].
    apply Forall_cons in Hok as [Ho Hok]. destruct o as [e|start fc]; cbn [run_bounded run_queue fits_from].
    - unfold send_bounded. destruct (Nat.ltb_spec (length (ep_channel q)) capacity) as [Hl|Hl]; cbn [rassert rbind andb]; [|done].
      rewrite IH by done. cbn [ep_channel send_event]. rewrite app_length. cbn [length]. by rewrite Nat.add_comm.
    - destruct (event_block_ok log_render (log_handle start fc) sr Hsr start fc q log Ho Hr Hs) as (live & d & rest & _ & _ & _ & Hrest & E).
      rewrite E. destruct (log_pieces sr start fc 0 d log start) as [cur ->]. cbn [rbind]. rewrite IH; [|done..].
      done.
  Qed.
  Lemma bounded_queue capacity os : Forall (hop_ok (P := P) sr) os →
    (bursts_fit capacity os → run_bounded capacity (new_evproc sr) os [] = run_queue (new_evproc sr) os []) ∧
    (¬ bursts_fit capacity os → run_bounded capacity (new_evproc sr) os [] = Panic Blocked).
  Proof.
    intros Hok. rewrite (run_bounded_eq capacity os (new_evproc sr) [] Hok eq_refl ltac:(constructor)). cbn [new_evproc ep_channel length].
    rewrite <- !fits_iff. destruct (fits_from capacity 0 os); split; done.
  Qed.

  (** ** order *)
  Local Notation before_ok := (λ e e' : event P, ev_seq e' < ev_seq e → (ev_time e < ev_time e')%Z).
  Lemma sorted_before_ok (l : list (event P)) : StronglySorted ev_before l → StronglySorted before_ok l.
  Proof.
    induction 1 as [|x l _ IH Hx]; constructor; [done|]. eapply Forall_impl; [exact Hx|]. unfold ev_before.
    intros y. cbn. lia.
  Qed.
  Lemma StronglySorted_app_2 {A} (R : A → A → Prop) l1 l2 : StronglySorted R l1 → StronglySorted R l2 →
    (∀ x y, x ∈ l1 → y ∈ l2 → R x y) → StronglySorted R (l1 ++ l2).
  Proof.
    induction 1 as [|x l _ IH Hx]; intros H2 H; [done|]. cbn. constructor.
    - apply IH; [done|]. intros a b Ha. apply H. by constructor.
    - apply Forall_app. split; [done|]. apply Forall_forall. intros y Hy. apply H; [by constructor|done].
  Qed.
  Lemma hrun_log_from w s os w' s' log : hrun sr w s os w' s' log → ∀ e, e ∈ snd <$> log → e ∈ w ∨ e ∈ s ∨ e ∈ hsent os.
  Proof.
    intros H e He. pose proof (hrun_sent sr Hsr _ _ _ _ _ _ H) as Hs. specialize (Hs e).
    assert (e ∈ w ++ s ++ hsent os) as Hin by (apply Hs, elem_of_app; by left).
    rewrite !elem_of_app in Hin. tauto.
  Qed.
  Lemma hrun_order w s os w' s' log : hrun sr w s os w' s' log → StronglySorted lt (ev_seq <$> hsent os) →
    (∀ x y, x ∈ w ++ s → y ∈ hsent os → ev_seq x < ev_seq y) → StronglySorted before_ok (snd <$> log).
  Proof.
    induction 1 as [w s|w s e os w' s' log H IH|w s start fc live d rest os w' s' log Hl Hd H IH]; intros Hs Hlt.
    - constructor.
    - cbn in Hs. inversion Hs as [|? ? Hs1 Hs2]; subst. apply IH; [done|].
      intros x y Hx Hy. rewrite app_assoc, elem_of_app in Hx. destruct Hx as [Hx|Hx].
      + apply Hlt; [done|]. cbn. by constructor.
      + apply elem_of_list_singleton in Hx as ->. rewrite Forall_forall in Hs2. apply Hs2, elem_of_list_fmap_1, Hy.
    - rewrite fmap_app, <- list_fmap_compose. change (snd ∘ _) with (@id (event P)). rewrite list_fmap_id.
      destruct Hd as (Hp & Hds & Hdue & Hrest).
      assert (∀ x, x ∈ d ++ rest → x ∈ w ++ s) as Hfrom.
      { intros x Hx. rewrite <- Hp in Hx. destruct Hl as [[_ Hl]|(old & c & new & -> & _ & _ & Hl)]; rewrite Hl in Hx; [done|].
        rewrite !elem_of_app. auto. }
      apply StronglySorted_app_2.
      + by apply sorted_before_ok.
      + apply IH; [done|]. intros x y Hx Hy. rewrite app_nil_r in Hx. apply Hlt; [|done]. apply Hfrom, elem_of_app. by right.
      + intros x y Hx Hy Hseq. destruct (hrun_log_from _ _ _ _ _ _ H y Hy) as [Hy'|[Hy'|Hy']].
        * rewrite Forall_forall in Hdue, Hrest. specialize (Hdue x Hx). specialize (Hrest y Hy'). cbn in *. lia.
        * by apply elem_of_nil in Hy'.
        * specialize (Hlt x y (Hfrom x ltac:(apply elem_of_app; by left)) Hy'). lia.
  Qed.
  Lemma StronglySorted_lookup_lt {A} (R : A → A → Prop) l i j x y : StronglySorted R l → i < j → l !! i = Some x → l !! j = Some y → R x y.
  Proof.
    intros H. revert i j. induction H as [|a l _ IH Ha]; intros i j Hij Hx Hy; [done|].
    destruct j as [|j]; [lia|]. destruct i as [|i]; cbn in *.
    - injection Hx as <-. rewrite Forall_forall in Ha. apply Ha. by eapply elem_of_list_lookup_2.
    - by eapply (IH i j); [lia|..].
  Qed.
  Lemma sorted_of_lookup (l : list nat) : (∀ i j x y, i < j → l !! i = Some x → l !! j = Some y → x < y) → StronglySorted lt l.
  Proof.
    induction l as [|a l IH]; intros H; constructor.
    - apply IH. intros i j x y Hij Hx Hy. apply (H (S i) (S j)); [lia|done..].
    - apply Forall_lookup. intros i x Hx. apply (H 0 (S i)); [lia|done..].
  Qed.
  Lemma queue_order os w s r log : Forall (hop_ok (P := P) sr) os → numbered os →
    run_queue (new_evproc sr) os [] = Ok (EvProc w s r, log) → overtakes_only_later log.
  Proof.
    intros Hok Hn E. destruct (queue_refines sr Hsr os Hok) as (w' & s' & log' & E' & H).
    rewrite E in E'. injection E' as -> -> -> ->.
    assert (StronglySorted lt (ev_seq <$> hsent os)) as Hs.
    { apply sorted_of_lookup. intros i j x y Hij Hx Hy. rewrite list_lookup_fmap in Hx, Hy.
      apply fmap_Some in Hx as (e & He & ->). apply fmap_Some in Hy as (e' & He' & ->). by eapply Hn. }
    pose proof (hrun_order _ _ _ _ _ _ H Hs ltac:(intros x y Hx; by apply elem_of_nil in Hx)) as Ho.
    intros i j b b' e e' Hij Hi Hj. eapply (StronglySorted_lookup_lt _ _ i j e e' Ho Hij).
    - by rewrite list_lookup_fmap, Hi.
    - by rewrite list_lookup_fmap, Hj.
  Qed.
End proofs.

(** ** programs *)
Section programs.
  Context {C P : Type} (sends : C → list (nat → event P)).

  Lemma number_length n (es : list (nat → event P)) : length (number n es) = length es.
  Proof. apply imap_length. Qed.
  Lemma opening_burst (l : list (cop C)) n : ∃ es after, program sends n l = (HSend <$> es) ++ after ∧
    length es = opening (λ c, length (sends c)) l.
  Proof.
    revert n. induction l as [|[c|start fc] l IH]; intros n.
    - by exists [], [].
    - destruct (IH (n + length (sends c))) as (es & after & E & Hl). cbn [program opening]. rewrite E.
      exists (number n (sends c) ++ es), after. rewrite fmap_app, app_length, number_length, Hl. by rewrite <- app_assoc.
    - cbn [program opening]. by exists [], (HBlock start fc :: program sends n l).
  Qed.
  Lemma opening_waits sr capacity (l : list (cop C)) n : (0 < Z.of_nat sr <= 2 ^ 29)%Z →
    Forall (λ o, match o with CBlock _ fc => block_ok sr fc | _ => True end) l →
    capacity < opening (λ c, length (sends c)) l →
    run_bounded capacity (new_evproc sr) (program sends n l) [] = Panic Blocked.
  Proof.
    intros Hsr Hok Hc.
    assert (∀ n, Forall (hop_ok (P := P) sr) (program sends n l)) as Hall.
    { clear n Hc. induction Hok as [|o l Ho _ IH]; intros n; [constructor|]. destruct o as [c|start fc]; cbn [program].
      - apply Forall_app. split; [|apply IH]. apply Forall_fmap, Forall_true. done.
      - constructor; [done|apply IH]. }
    apply (bounded_queue sr Hsr capacity _ (Hall n)). intros Hb.
    destruct (opening_burst l n) as (es & after & E & Hl). pose proof (Hb [] es after E). lia.
  Qed.
  Lemma hsent_sends (es : list (event P)) os : hsent ((HSend <$> es) ++ os) = es ++ hsent os.
  Proof. induction es as [|e es IH]; [done|]. transitivity (e :: hsent ((HSend <$> es) ++ os)); [done|by rewrite IH]. Qed.
  Lemma program_numbers l : (∀ c, Forall (λ f, ∀ n, ev_seq (f n) = n) (sends c)) → ∀ n,
    ev_seq <$> hsent (program sends n l) = seq n (length (hsent (program sends n l))).
  Proof.
    intros Hs. induction l as [|[c|start fc] l IH]; intros n; [done| |apply IH].
    cbn [program]. rewrite hsent_sends, fmap_app, app_length, seq_app, number_length, <- IH. f_equal.
    specialize (Hs c). revert n. clear IH. induction Hs as [|f es Hf _ IH]; intros m; [done|].
    unfold number. cbn. rewrite Hf, Nat.add_0_r. f_equal.
    rewrite <- (IH (S m)). unfold number. f_equal. apply imap_ext. intros i f' _. cbn. f_equal. lia.
  Qed.
  Lemma program_numbered l n : (∀ c, Forall (λ f, ∀ n, ev_seq (f n) = n) (sends c)) → numbered (program sends n l).
  Proof.
    intros Hs i j e e' Hij Hi Hj. pose proof (program_numbers l Hs n) as E.
    pose proof (f_equal (.!! i) E) as Ei. pose proof (f_equal (.!! j) E) as Ej. cbn in Ei, Ej.
    rewrite list_lookup_fmap, Hi in Ei. rewrite list_lookup_fmap, Hj in Ej. cbn in Ei, Ej. symmetry in Ei, Ej.
    apply lookup_seq in Ei. apply lookup_seq in Ej. lia.
  Qed.
End programs.

Lemma adsr_numbers c : Forall (λ f, ∀ n, ev_seq (f n) = n) (adsr_sends c).
Proof. destruct c; repeat constructor. Qed.
Lemma sampler_numbers c : Forall (λ f, ∀ n, ev_seq (f n) = n) (sampler_sends c).
Proof. destruct c; repeat constructor. Qed.

Lemma stop_overtakes : ∃ fuel outs,
  demo (ramp 80 60) fuel (script 80 0 [([], 4); (start_then_stop, 8)]) = Ok outs ∧
  data <$> outs = [replicate 4 0; [1; 2; 3; 4; 5; 6; 7; 8]]%Z.
Proof. exists 20. eexists. split; vm_compute; reflexivity. Qed.
Lemma opening_cost {C} (f g : C → nat) l : (∀ c, f c = g c) → opening f l = opening g l.
Proof. intros H. induction l as [|[c|t fc] l IH]; cbn [opening]; [done|by rewrite H, IH|done]. Qed.
Lemma adsr_waits sr (l : list (cop adsr_call)) n :
  (0 < Z.of_nat sr <= 2 ^ 29)%Z → Forall (λ o, match o with CBlock _ fc => block_ok sr fc | _ => True end) l → 32 < opening adsr_cost l →
  run_bounded event_capacity (new_evproc sr) (program adsr_sends n l) [] = Panic Blocked.
Proof.
  intros H1 H2 H3. apply (opening_waits adsr_sends sr event_capacity l n); [done|done|]. rewrite (opening_cost _ adsr_cost l) by (by intros []). exact H3.
Qed.
Lemma adsr_fits sr (l : list (cop adsr_call)) n :
  (0 < Z.of_nat sr <= 2 ^ 29)%Z → Forall (hop_ok sr) (program adsr_sends n l) → bursts_fit 32 (program adsr_sends n l) →
  run_bounded event_capacity (new_evproc sr) (program adsr_sends n l) [] = run_queue (new_evproc sr) (program adsr_sends n l) [].
Proof. intros H1 H2 H3. by apply (bounded_queue sr H1 event_capacity). Qed.
