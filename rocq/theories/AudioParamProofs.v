From stdpp Require Import list list_numbers sorting.
From Coq Require Import ZArith Lia ZifyBool ZifyNat.
From Verif Require Import Base Float FloatProofs Timestamp TimestampProofs AudioParam AudioParamSpec.

(** ** Ranges *)
Lemma clamp_ok d lo hi r v : range_new d lo hi = Ok r →
  ∃ w, range_clamp r v = Ok w ∧ (lo <= w <= hi)%Z ∧ ((lo <= v <= hi)%Z → w = v).
Proof.
  unfold range_new, rassert. destruct (range_valid _) eqn:E; [|done]. intros [= <-].
  unfold range_valid in E. cbn [r_min r_max r_default] in E.
  unfold range_clamp, rassert. cbn [r_min r_max]. rewrite (proj2 (Z.leb_le lo hi)) by lia.
  eexists. split; [done|].
  destruct (Z.ltb_spec v lo).
  - destruct (Z.ltb_spec hi lo); lia.
  - destruct (Z.ltb_spec hi v); lia.
Qed.

Lemma request_ok d lo hi r m e v : range_new d lo hi = Ok r →
  ∃ w, request r m e v = Ok (Change w e m) ∧ (lo <= w <= hi)%Z ∧ ((lo <= v <= hi)%Z → w = v).
Proof.
  intros Hr. destruct (clamp_ok d lo hi r v Hr) as (w & E & H). exists w. split; [|done].
  unfold request. by rewrite E.
Qed.

Lemma requests_in_range d lo hi r v t1 t2 :
  range_new d lo hi = Ok r →
  Forall (λ req, ∃ c, req = Ok c ∧ (lo <= c_value c <= hi)%Z ∧ ((lo <= v <= hi)%Z → c_value c = v))
    [set_value_now r v; set_value_at_time r v t1; linear_ramp_to_value r v t1 t2;
     exponential_ramp_to_value r v t1 t2].
Proof.
  intros Hr.
  assert (∀ m e, ∃ c, request r m e v = Ok c ∧ (lo <= c_value c <= hi)%Z ∧ ((lo <= v <= hi)%Z → c_value c = v)) as H.
  { intros m e. destruct (request_ok d lo hi r m e v Hr) as (w & E & H). eexists. split; [exact E|exact H]. }
  do 4 (constructor; [apply H|]). constructor.
Qed.

(** ** The schedule *)
Section schedule.
  Context {V : Type} (N : num V) (sr : nat).
  Local Notation change := (change V).
  Local Notation item := (item V).
  Implicit Types (l r : list change) (h : list item) (p : param V).

  Definition by_end (a b : change) : Prop := (c_end a <= c_end b)%Z.

  Lemma insert_change_perm c l : insert_change c l ≡ₚ c :: l.
  Proof.
    induction l as [|x l IH]; cbn [insert_change]; [done|]. destruct (c_end c <? c_end x)%Z; [done|].
    rewrite IH. apply Permutation_swap.
  Qed.

  Lemma insert_change_sorted c l : StronglySorted by_end l → StronglySorted by_end (insert_change c l).
  Proof.
    induction 1 as [|x l Hl IH Hx]; cbn [insert_change]; [by repeat constructor|].
    destruct (Z.ltb_spec (c_end c) (c_end x)).
    - constructor; [by constructor|]. constructor; [unfold by_end; lia|].
      eapply Forall_impl; [exact Hx|]. unfold by_end. intros; lia.
    - constructor; [done|]. rewrite insert_change_perm. constructor; [unfold by_end; lia|done].
  Qed.

  Lemma insert_change_last c l : Forall (λ x, by_end x c) l → insert_change c l = l ++ [c].
  Proof.
    induction 1 as [|x l Hx Hl IH]; cbn [insert_change]; [done|].
    destruct (Z.ltb_spec (c_end c) (c_end x)); [unfold by_end in *; lia|]. by rewrite IH.
  Qed.

  Lemma sort_changes_sorted l : StronglySorted by_end l → sort_changes l = l.
  Proof.
    unfold sort_changes. intros Hs.
    enough (∀ acc, StronglySorted by_end (acc ++ l) → fold_left (λ acc c, insert_change c acc) l acc = acc ++ l) as H
      by (by apply H).
    clear Hs. induction l as [|c l IH]; intros acc Hs; cbn [fold_left]; [by rewrite app_nil_r|].
    rewrite insert_change_last.
    - rewrite IH; rewrite <- app_assoc; done.
    - clear -Hs. induction acc as [|x acc IH]; [constructor|]. cbn in Hs. inversion_clear Hs as [|? ? H1 H2].
      apply Forall_app in H2 as [_ H2]. apply Forall_cons in H2 as [? _]. constructor; [done|auto].
  Qed.

  Lemma sort_changes_snoc l c : StronglySorted by_end l → sort_changes (l ++ [c]) = insert_change c l.
  Proof.
    intros Hs. unfold sort_changes. rewrite fold_left_app. cbn [fold_left].
    f_equal. by apply sort_changes_sorted.
  Qed.

  Lemma frame_loop_app ts1 ts2 v p :
    frame_loop N (ts1 ++ ts2) sr v p =
    let? (p1, v1, o1) := frame_loop N ts1 sr v p in
    let? (p2, v2, o2) := frame_loop N ts2 sr v1 p1 in Ok (p2, v2, o1 ++ o2).
  Proof.
    revert v p. induction ts1 as [|t ts1 IH]; intros v p; cbn [app frame_loop rbind].
    - destruct (frame_loop N ts2 sr v p) as [[[p2 v2] o2]|]; done.
    - destruct (value_at_time N t sr v p) as [[p1 v1]|]; cbn [rbind]; [|done]. rewrite IH.
      destruct (frame_loop N ts1 sr v1 p1) as [[[p2 v2] o2]|]; cbn [rbind]; [|done].
      destruct (frame_loop N ts2 sr v2 p2) as [[[p3 v3] o3]|]; done.
  Qed.

  Lemma frame_times_length time n : length (frame_times time n sr) = n.
  Proof. unfold frame_times. by rewrite fmap_length, seq_length. Qed.

  (** *** Rest *)
  Lemma rest_frame t p : pa_changes p = [] → at_rest N p →
    value_at_time N t sr (pa_value p) p = Ok (p, pa_value p).
  Proof.
    intros Hc (Hi & Hco & Hv & Hid). unfold value_at_time, start_change. rewrite Hc. cbn [rbind].
    rewrite Hi, Hco, Hid, <- Hv. by destruct (_ <=? _)%Z.
  Qed.

  Lemma rest_loop ts p : pa_changes p = [] → at_rest N p →
    frame_loop N ts sr (pa_value p) p = Ok (p, pa_value p, replicate (length ts) (pa_value p)).
  Proof.
    intros Hc Hr. induction ts as [|t ts IH]; cbn [frame_loop length replicate]; [done|].
    rewrite rest_frame by done. cbn [rbind]. by rewrite IH.
  Qed.

  Lemma static_changes p : is_static N p = true → pa_changes p = [].
  Proof. unfold is_static. destruct (pa_changes p); [done|]. by rewrite andb_false_r. Qed.

  Lemma set_value_same p : set_value (pa_value p) p = p.
  Proof. by destruct p. Qed.

  Lemma process_loop time n p : (is_static N p = true → at_rest N p) →
    process N time n sr p =
    let? (p', v, out) := frame_loop N (frame_times time n sr) sr (pa_value p) p in Ok (set_value v p', out).
  Proof.
    intros Hr. unfold process. destruct (is_static N p) eqn:E; [|done].
    rewrite rest_loop by (auto using static_changes). cbn [rbind].
    by rewrite set_value_same, frame_times_length.
  Qed.

  (** the value stored in the state is not read by the loop *)
  Lemma value_at_time_stored t v w p :
    value_at_time N t sr v (set_value w p) =
    let? (p', v') := value_at_time N t sr v p in Ok (set_value w p', v').
  Proof.
    unfold value_at_time, start_change. cbn [set_value pa_changes pa_value pa_inc pa_coef pa_current].
    destruct (pa_changes p) as [|c rest]; [done|].
    destruct (c_method c); (destruct (_ <=? t)%Z; cbn [rbind]; [|done]); try done.
    destruct (_ || _); done.
  Qed.

  Lemma frame_loop_stored ts : ∀ v w p,
    frame_loop N ts sr v (set_value w p) =
    let? (p', v', out) := frame_loop N ts sr v p in Ok (set_value w p', v', out).
  Proof.
    induction ts as [|t ts IH]; intros v w p; cbn [frame_loop rbind]; [done|].
    rewrite value_at_time_stored. destruct (value_at_time N t sr v p) as [[p1 v1]|]; cbn [rbind]; [|done].
    rewrite IH. destruct (frame_loop N ts sr v1 p1) as [[[p2 v2] o]|]; done.
  Qed.

  Lemma seq_shift_fmap {A} (f g : nat → A) n m : (∀ k, k < m → f (n + k) = g k) → f <$> seq n m = g <$> seq 0 m.
  Proof.
    intros H. assert (∀ i, i + m ≤ i + m → (∀ k, k < m → f (n + i + k) = g (i + k)) → f <$> seq (n + i) m = g <$> seq i m) as G.
    { clear H. induction m as [|m IH]; intros i _ H; [done|]. cbn [seq fmap list_fmap]. f_equal.
      - specialize (H 0 ltac:(lia)). by rewrite !Nat.add_0_r in H.
      - specialize (IH (S i) ltac:(lia)). rewrite Nat.add_succ_r in IH. apply IH.
        intros k Hk. specialize (H (S k) ltac:(lia)). by rewrite !Nat.add_succ_r in H. }
    specialize (G 0). rewrite Nat.add_0_r in G. apply G; [lia|]. exact H.
  Qed.

  Lemma process_split time n m p p1 out1 :
    (∀ k, k < m → incremented_by_samples time (Z.of_nat (n + k)) (Z.of_nat sr) =
       incremented_by_samples (incremented_by_samples time (Z.of_nat n) (Z.of_nat sr)) (Z.of_nat k) (Z.of_nat sr)) →
    (is_static N p = true → at_rest N p) →
    process N time n sr p = Ok (p1, out1) →
    (is_static N p1 = true → at_rest N p1) →
    process N time (n + m) sr p =
    let? (p2, out2) := process N (incremented_by_samples time (Z.of_nat n) (Z.of_nat sr)) m sr p1 in
    Ok (p2, out1 ++ out2).
  Proof.
    intros Ht Hp E1 Hp1. rewrite process_loop in E1 |- * by done. rewrite (process_loop _ m p1) by done.
    assert (frame_times time (n + m) sr =
      frame_times time n sr ++ frame_times (incremented_by_samples time (Z.of_nat n) (Z.of_nat sr)) m sr) as ->.
    { unfold frame_times. rewrite seq_app, fmap_app. f_equal. cbn [plus].
      apply seq_shift_fmap. exact Ht. }
    rewrite frame_loop_app.
    destruct (frame_loop N (frame_times time n sr) sr (pa_value p) p) as [[[q v] o]|]; [|done].
    cbn [rbind] in E1 |- *. injection E1 as <- <-. cbn [pa_value set_value].
    rewrite frame_loop_stored.
    destruct (frame_loop N _ sr v q) as [[[q2 v2] o2]|]; done.
  Qed.

  (** *** Immediate changes *)
  Definition item_step (p : param V) (i : item) : param V * list V :=
    match i with
    | IAdd c => (add_change c p, [])
    | IFrame t =>
        match value_at_time N t sr (pa_value p) p with
        | Ok (p', v) => (set_value v p', [v])
        | Panic _ => (p, [])
        end
    end.

  (** changes waiting after history [h], with their positions *)
  Definition wait_step (h : list item) (w : list (nat * change)) (i : item) : list (nat * change) :=
    match i with
    | IAdd c => w ++ [(length h, c)]
    | IFrame t => base.filter (λ '(_, c), (t < c_end c)%Z) w
    end.
  Fixpoint waiting_rev (rh : list item) : list (nat * change) :=
    match rh with
    | [] => []
    | i :: rh => wait_step rh (waiting_rev rh) i
    end.
  Definition waiting (h : list item) := waiting_rev (rev h).

  Lemma waiting_snoc h i : waiting (h ++ [i]) = wait_step h (waiting h) i.
  Proof.
    unfold waiting. rewrite rev_app_distr. cbn [rev app waiting_rev]. destruct i; cbn [wait_step]; [|done].
    by rewrite rev_length.
  Qed.

  Lemma waiting_spec h a c : (a, c) ∈ waiting h ↔
    h !! a = Some (IAdd c) ∧ (∀ g t, a < g → h !! g = Some (IFrame t) → (t < c_end c)%Z).
  Proof.
    revert a c. induction h as [|i h IH] using rev_ind; intros a c.
    - unfold waiting. cbn. split; [by intros ?%elem_of_nil|]. by intros [? _].
    - rewrite waiting_snoc. destruct i as [c0|t0]; cbn [wait_step].
      + rewrite elem_of_app, IH, elem_of_list_singleton. split.
        * intros [[Ha Hg]|[= -> ->]].
          -- pose proof (lookup_lt_Some _ _ _ Ha). split; [by rewrite lookup_app_l|].
             intros g t Hag Hl. destruct (decide (g < length h)).
             ++ rewrite lookup_app_l in Hl by done. eauto.
             ++ rewrite lookup_app_r in Hl by lia. destruct (g - length h) as [|k] eqn:Eg; [done|done].
          -- split; [by rewrite lookup_app_r, Nat.sub_diag by lia|].
             intros g t Hag Hl. rewrite lookup_app_r in Hl by lia.
             destruct (g - length h) as [|k] eqn:Eg; [lia|done].
        * intros [Ha Hg]. destruct (decide (a < length h)).
          -- rewrite lookup_app_l in Ha by done. left. split; [done|]. intros g t Hag Hl. eapply Hg; [exact Hag|].
             pose proof (lookup_lt_Some _ _ _ Hl). by rewrite lookup_app_l.
          -- right. rewrite lookup_app_r in Ha by lia. destruct (a - length h) as [|k] eqn:Ea; [|done].
             cbn in Ha. injection Ha as ->. f_equal. lia.
      + rewrite elem_of_list_filter, IH. split.
        * intros (Ht & Ha & Hg). pose proof (lookup_lt_Some _ _ _ Ha). split; [by rewrite lookup_app_l|].
          intros g t Hag Hl. destruct (decide (g < length h)).
          -- rewrite lookup_app_l in Hl by done. eauto.
          -- rewrite lookup_app_r in Hl by lia. destruct (g - length h) as [|k] eqn:Eg; [|done].
             cbn in Hl. by injection Hl as ->.
        * intros [Ha Hg]. destruct (decide (a < length h)).
          -- rewrite lookup_app_l in Ha by done. split.
             ++ apply (Hg (length h)); [done|]. by rewrite lookup_app_r, Nat.sub_diag by lia.
             ++ split; [done|]. intros g t Hag Hl. eapply Hg; [exact Hag|].
                pose proof (lookup_lt_Some _ _ _ Hl). by rewrite lookup_app_l.
          -- rewrite lookup_app_r in Ha by lia. destruct (a - length h) as [|k] eqn:Ea; done.
  Qed.

  Lemma waiting_lt h a c : (a, c) ∈ waiting h → a < length h.
  Proof. intros [Ha _]%waiting_spec. by eapply lookup_lt_Some. Qed.

  Lemma takes_effect_prefix h1 h2 a f c : takes_effect h1 a f c → takes_effect (h1 ++ h2) a f c.
  Proof.
    intros (Haf & Ha & (t & Hf & Ht) & Hg). pose proof (lookup_lt_Some _ _ _ Ha). pose proof (lookup_lt_Some _ _ _ Hf).
    split; [done|]. split; [by rewrite lookup_app_l|]. split; [exists t; by rewrite lookup_app_l|].
    intros g t' Hagf Hl. rewrite lookup_app_l in Hl by lia. eauto.
  Qed.

  Lemma takes_effect_prefix_inv h1 h2 a f c : f < length h1 → takes_effect (h1 ++ h2) a f c → takes_effect h1 a f c.
  Proof.
    intros Hfl (Haf & Ha & (t & Hf & Ht) & Hg).
    rewrite lookup_app_l in Ha, Hf by lia. split; [done|]. split; [done|]. split; [by exists t|].
    intros g t' Hagf Hl. eapply Hg; [exact Hagf|]. by rewrite lookup_app_l by lia.
  Qed.

  Lemma takes_effect_last h t a c :
    takes_effect (h ++ [IFrame t]) a (length h) c ↔ (a, c) ∈ waiting h ∧ (c_end c <= t)%Z.
  Proof.
    rewrite waiting_spec. split.
    - intros (Haf & Ha & (t' & Hf & Ht) & Hg). rewrite lookup_app_l in Ha by lia.
      rewrite lookup_app_r, Nat.sub_diag in Hf by lia. injection Hf as ->. split; [|done]. split; [done|].
      intros g t1 Hag Hl. pose proof (lookup_lt_Some _ _ _ Hl). eapply Hg; [split; [exact Hag|done]|].
      by rewrite lookup_app_l.
    - intros [[Ha Hg] Ht]. pose proof (lookup_lt_Some _ _ _ Ha).
      split; [done|]. split; [by rewrite lookup_app_l|]. split.
      + exists t. split; [|done]. by rewrite lookup_app_r, Nat.sub_diag by lia.
      + intros g t1 [Hag Hgl] Hl. rewrite lookup_app_l in Hl by done. eauto.
  Qed.

  Record inv (initial : V) (h : list item) (p : param V) : Prop := {
    inv_rest : at_rest N p;
    inv_imm : Forall (λ c, c_method c = Immediate ∧ steady N (c_value c)) (pa_changes p);
    inv_sorted : StronglySorted by_end (pa_changes p);
    inv_waiting : pa_changes p ≡ₚ snd <$> waiting h;
    inv_value : ∀ f, length h ≤ S f → value_is initial h f (pa_value p) }.

  Lemma inv_new initial : steady N initial → inv initial [] (new_param N initial).
  Proof.
    intros Hst. split; cbn; try done; [constructor|]. intros f _. right. split; [done|].
    intros a f' c (_ & Ha & _). done.
  Qed.

  Lemma te_length h a f c : takes_effect h a f c → f < length h.
  Proof. intros (_ & _ & (t & Hf & _) & _). by eapply lookup_lt_Some. Qed.

  Lemma value_is_app initial h h2 f v : (∀ g t, length h ≤ g → g ≤ f → (h ++ h2) !! g ≠ Some (IFrame t)) →
    value_is initial h f v → value_is initial (h ++ h2) f v.
  Proof.
    intros Hno [(a & f' & c & He & Hf & Hv & Hmax)|[-> Hno2]].
    - left. exists a, f', c. split; [by apply takes_effect_prefix|]. split; [done|]. split; [done|].
      intros a2 f2 c2 He2 Hf2. apply (Hmax a2 f2 c2); [|done].
      apply takes_effect_prefix_inv in He2; [done|]. destruct (decide (f2 < length h)); [done|].
      destruct He2 as (_ & _ & (t & Hl & _) & _). exfalso. eapply (Hno f2 t); [lia|lia|done].
    - right. split; [done|]. intros a f' c He. destruct (decide (f < f')); [done|].
      destruct He as (H1 & H2 & (t & Hl & Ht) & H4) eqn:Ee. clear Ee.
      destruct (decide (f' < length h)).
      + apply (Hno2 a f' c). eapply takes_effect_prefix_inv; [done|]. exact He.
      + exfalso. eapply (Hno f' t); [lia|lia|done].
  Qed.

  Lemma inv_add initial h p c : c_method c = Immediate → steady N (c_value c) → inv initial h p → inv initial (h ++ [IAdd c]) (add_change c p).
  Proof.
    intros Hc Hst [Hr Hi Hs Hw Hv].
    assert (Ep : pa_changes (add_change c p) = insert_change c (pa_changes p))
      by (cbn; by apply sort_changes_snoc).
    split.
    - exact Hr.
    - rewrite Ep, insert_change_perm. by constructor.
    - rewrite Ep. by apply insert_change_sorted.
    - rewrite Ep, insert_change_perm, waiting_snoc. cbn [wait_step]. rewrite fmap_app, Hw. cbn.
      apply Permutation_cons_append.
    - intros f Hf. rewrite app_length in Hf. cbn in Hf. cbn [add_change pa_value]. apply value_is_app; [|apply Hv; lia].
      intros g t Hg1 Hg2. rewrite lookup_app_r by lia. destruct (g - length h) as [|k]; cbn; [done|done].
  Qed.

  (** at most one due: it is the first *)
  Lemma due_first (l : list change) (w : list (nat * change)) t :
    l ≡ₚ snd <$> w → StronglySorted by_end l →
    (∀ x y, x ∈ w → y ∈ w → (c_end x.2 <= t)%Z → (c_end y.2 <= t)%Z → x.1 = y.1) →
    NoDup (fst <$> w) →
    match l with
    | [] => True
    | c :: rest => if (c_end c <=? t)%Z
                   then rest ≡ₚ snd <$> base.filter (λ '(_, c), (t < c_end c)%Z) w
                   else snd <$> base.filter (λ '(_, c), (t < c_end c)%Z) w = snd <$> w
    end.
  Proof.
    intros Hp Hs Huniq Hnd. destruct l as [|c rest]; [done|].
    assert (Hall : (t < c_end c)%Z → base.filter (λ '(_, c), (t < c_end c)%Z) w = w).
    { intros Ht. assert (Forall (λ x, (t < c_end x.2)%Z) w) as Hf.
      { apply Forall_forall. intros x Hx. inversion_clear Hs as [|? ? _ Hle].
        assert (x.2 ∈ c :: rest) as Hin by (rewrite Hp; apply elem_of_list_fmap; by exists x).
        apply elem_of_cons in Hin as [->|Hin]; [done|]. rewrite Forall_forall in Hle.
        specialize (Hle _ Hin). unfold by_end in Hle. lia. }
      clear -Hf. induction Hf as [|[k x] w Hx Hf IH]; [done|]. rewrite filter_cons_True by done. by rewrite IH. }
    destruct (Z.leb_spec (c_end c) t) as [Hle|Hlt]; [|by rewrite Hall].
    (* remove the due entry from w *)
    assert (∃ k w1 w2, w = w1 ++ (k, c) :: w2) as (k & w1 & w2 & ->).
    { assert (c ∈ snd <$> w) as Hin by (rewrite <- Hp; by left).
      apply elem_of_list_fmap in Hin as ([k x] & -> & Hin). apply elem_of_list_split in Hin as (w1 & w2 & ->).
      by exists k, w1, w2. }
    assert (Hrest : ∀ x, x ∈ w1 ++ w2 → (t < c_end x.2)%Z).
    { intros x Hx. destruct (Z.le_gt_cases (c_end x.2) t) as [Hd|]; [|lia]. exfalso.
      assert (x.1 = k) as Ek.
      { apply (Huniq x (k, c)); [|apply elem_of_app; right; by left|done|done].
        rewrite elem_of_app in Hx |- *. rewrite elem_of_cons. tauto. }
      rewrite fmap_app in Hnd. cbn in Hnd. rewrite NoDup_app in Hnd. destruct Hnd as (_ & Hd1 & Hd2).
      apply NoDup_cons in Hd2 as [Hd2 _].
      apply elem_of_app in Hx as [Hx|Hx].
      - apply (Hd1 k); [|by left]. apply elem_of_list_fmap. by exists x.
      - apply Hd2. apply elem_of_list_fmap. by exists x. }
    rewrite fmap_app in Hp. cbn in Hp. rewrite <- Permutation_middle in Hp. apply Permutation_cons_inv in Hp.
    rewrite Hp, filter_app, filter_cons_False by lia. rewrite <- !fmap_app, <- filter_app.
    clear -Hrest. generalize dependent (w1 ++ w2). intros w Hw.
    assert (base.filter (λ '(_, c), (t < c_end c)%Z) w = w) as ->; [|done].
    induction w as [|[k x] w IH]; [done|]. rewrite filter_cons_True by (apply (Hw (k, x)); by left).
    f_equal. apply IH. intros y Hy. apply Hw. by right.
  Qed.

  Lemma waiting_nodup h : NoDup (fst <$> waiting h).
  Proof.
    induction h as [|i h IH] using rev_ind; [constructor|]. rewrite waiting_snoc. destruct i; cbn [wait_step].
    - rewrite fmap_app. apply NoDup_app. split; [done|]. split; [|cbn; apply NoDup_singleton].
      intros x ([a c0] & -> & Hin)%elem_of_list_fmap Hx. cbn in Hx. apply elem_of_list_singleton in Hx.
      apply waiting_lt in Hin. cbn in Hx. lia.
    - clear -IH. induction (waiting h) as [|[a c] w IHw]; [constructor|]. cbn in IH. apply NoDup_cons in IH as [Ha Hw].
      destruct (decide (t < c_end c)%Z).
      + rewrite filter_cons_True by done. cbn. apply NoDup_cons. split; [|auto].
        intros (y & -> & Hy)%elem_of_list_fmap. apply Ha. apply elem_of_list_fmap. exists y. split; [done|].
        by apply elem_of_list_filter in Hy as [_ ?].
      + rewrite filter_cons_False by done. auto.
  Qed.

  Lemma inv_frame initial h p t : distinct_frames (h ++ [IFrame t]) → inv initial h p →
    ∃ p' v, value_at_time N t sr (pa_value p) p = Ok (p', v) ∧ inv initial (h ++ [IFrame t]) (set_value v p').
  Proof.
    intros Hd [Hr Hi Hs Hw Hv].
    pose proof (due_first (pa_changes p) (waiting h) t Hw Hs) as Hdue.
    assert (Hu : ∀ x y, x ∈ waiting h → y ∈ waiting h → (c_end x.2 <= t)%Z → (c_end y.2 <= t)%Z → x.1 = y.1).
    { intros [a1 c1] [a2 c2] H1 H2 Ht1 Ht2. cbn in *.
      apply (Hd a1 a2 (length h) c1 c2); by apply takes_effect_last. }
    specialize (Hdue Hu (waiting_nodup h)).
    assert (Hkeep : (∀ a c, ¬ takes_effect (h ++ [IFrame t]) a (length h) c) →
       ∀ f, length (h ++ [IFrame t]) ≤ S f → value_is initial (h ++ [IFrame t]) f (pa_value p)).
    { intros Hno f Hf. rewrite app_length in Hf. cbn in Hf.
      destruct (Hv f ltac:(lia)) as [(a & f' & c & He & Hf' & Hv' & Hmax)|[Ei Hno2]].
      - left. exists a, f', c. split; [by apply takes_effect_prefix|]. split; [done|]. split; [done|].
        intros a2 f2 c2 He2 Hf2. pose proof (te_length _ _ _ _ He2) as Hl. rewrite app_length in Hl. cbn in Hl.
        destruct (decide (f2 = length h)) as [->|]; [by apply Hno in He2|].
        apply takes_effect_prefix_inv in He2; [|lia]. by eapply Hmax.
      - right. split; [done|]. intros a f' c He. pose proof (te_length _ _ _ _ He) as Hl. rewrite app_length in Hl. cbn in Hl.
        destruct (decide (f' = length h)) as [->|]; [by apply Hno in He|].
        apply takes_effect_prefix_inv in He; [|lia]. by eapply Hno2. }
    destruct (pa_changes p) as [|c rest] eqn:Ec.
    - exists p, (pa_value p). rewrite rest_frame by done. split; [done|]. rewrite set_value_same.
      assert (waiting h = []) as Hw0 by (destruct (waiting h); [done|apply Permutation_nil_l in Hw; done]).
      split; [done|by rewrite Ec|by rewrite Ec| |].
      + rewrite Ec, waiting_snoc, Hw0. done.
      + apply Hkeep. intros a c [Hin _]%takes_effect_last. rewrite Hw0 in Hin. by apply elem_of_nil in Hin.
    - inversion Hi as [|? ? [Hci Hcs] Hri]; subst. inversion Hs as [|? ? Hsr Hsc]; subst.
      unfold value_at_time, start_change. rewrite Ec, Hci.
      destruct (Z.leb_spec (c_end c) t) as [Hle|Hlt]; cbn [rbind].
      + eexists _, _. split; [reflexivity|]. cbn [pa_current pa_coef pa_inc].
        rewrite (proj2 (Z.leb_le _ _) Hle). split; cbn [set_value pa_changes pa_value pa_inc pa_coef pa_current]; try done.
        * rewrite waiting_snoc. exact Hdue.
        * intros f Hf. rewrite app_length in Hf. cbn in Hf. left.
          assert (∃ a, (a, c) ∈ waiting h) as (a & Ha).
          { assert (c ∈ snd <$> waiting h) as Hin by (rewrite <- Hw; by left).
            apply elem_of_list_fmap in Hin as ([a x] & -> & Hin). by exists a. }
          exists a, (length h), c. split; [by apply takes_effect_last|]. split; [lia|]. split; [done|].
          intros a2 f2 c2 He2 _. pose proof (te_length _ _ _ _ He2) as Hl. rewrite app_length in Hl. cbn in Hl. lia.
      + destruct (Hr) as (Hr1 & Hr2 & Hr3 & Hid).
        exists p, (pa_value p). split.
        { rewrite Hr1, Hr2, Hid, <- Hr3. by destruct (_ <=? _)%Z. }
        rewrite set_value_same. split; [done|by rewrite Ec|by rewrite Ec| |].
        * rewrite Ec, waiting_snoc. cbn [wait_step]. by rewrite Hdue.
        * apply Hkeep. intros a x [Hin Hx]%takes_effect_last.
          assert (x ∈ c :: rest) as Hin' by (rewrite Hw; apply elem_of_list_fmap; by exists (a, x)).
          apply elem_of_cons in Hin' as [->|Hin']; [lia|]. rewrite Forall_forall in Hsc.
          specialize (Hsc _ Hin'). unfold by_end in Hsc. lia.
  Qed.

  Lemma distinct_prefix h1 h2 : distinct_frames (h1 ++ h2) → distinct_frames h1.
  Proof. intros H a1 a2 f c1 c2 H1 H2. eapply (H a1 a2 f); by apply takes_effect_prefix. Qed.

  Lemma value_is_prefix initial h1 h2 f v : f < length h1 →
    value_is initial h1 f v → value_is initial (h1 ++ h2) f v.
  Proof.
    intros Hf Hv. apply value_is_app; [|done]. intros g t Hg1 Hg2. lia.
  Qed.

  Lemma inv_loop initial ts : ∀ h p, distinct_frames (h ++ (IFrame <$> ts)) → inv initial h p →
    ∃ p' v out, frame_loop N ts sr (pa_value p) p = Ok (p', v, out) ∧
      inv initial (h ++ (IFrame <$> ts)) (set_value v p') ∧
      Forall2 (value_is initial (h ++ (IFrame <$> ts))) (seq (length h) (length ts)) out.
  Proof.
    induction ts as [|t ts IH]; intros h p Hd Hinv.
    - eexists _, _, _. split; [reflexivity|]. rewrite set_value_same. cbn. rewrite app_nil_r.
      split; [done|constructor].
    - replace (h ++ (IFrame <$> t :: ts)) with ((h ++ [IFrame t]) ++ (IFrame <$> ts)) in * by (by rewrite <- app_assoc).
      destruct (inv_frame initial h p t) as (p1 & v1 & E1 & H1); [by eapply distinct_prefix|done|].
      destruct (IH _ _ Hd H1) as (p2 & v2 & out & E2 & H2 & Ho).
      cbn [pa_value set_value] in E2. rewrite frame_loop_stored in E2.
      destruct (frame_loop N ts sr v1 p1) as [[[q w] o]|] eqn:E3; [|done]. cbn [rbind] in E2. injection E2 as <- <- <-.
      eexists _, _, _. split; [cbn [frame_loop]; rewrite E1; cbn [rbind]; rewrite E3; reflexivity|].
      split; [exact H2|]. cbn [length seq]. constructor.
      + apply value_is_prefix; [rewrite app_length; cbn; lia|].
        eapply (inv_value _ _ _ H1). rewrite app_length. cbn. lia.
      + rewrite app_length in Ho. cbn in Ho. by rewrite Nat.add_1_r in Ho.
  Qed.

  Lemma frames_from_frames k ts : frames_from k (IFrame (V:=V) <$> ts) = seq k (length ts).
  Proof. revert k. induction ts as [|t ts IH]; intros k; cbn; [done|]. by rewrite <- IH. Qed.

  Lemma frames_from_app k h1 h2 : frames_from k (h1 ++ h2) = frames_from k h1 ++ frames_from (k + length h1) h2.
  Proof.
    revert k. induction h1 as [|[c|t] h1 IH]; intros k; cbn [frames_from app length].
    - by rewrite Nat.add_0_r.
    - rewrite IH. do 2 f_equal; lia.
    - rewrite IH. cbn [app]. do 3 f_equal; lia.
  Qed.

  Lemma run_param_inv initial os : ∀ h p, all_immediate os → all_steady N os → distinct_frames (h ++ timeline sr os) → inv initial h p →
    ∃ p' out, run_param N sr p os = Ok (p', out) ∧ inv initial (h ++ timeline sr os) p' ∧
      Forall2 (value_is initial (h ++ timeline sr os)) (frames_from (length h) (timeline sr os)) out.
  Proof.
    induction os as [|o os IH]; intros h p Him Hst Hd Hinv.
    - eexists _, _. split; [reflexivity|]. cbn. rewrite app_nil_r. split; [done|constructor].
    - destruct o as [c|time n]; unfold timeline in *; cbn [mbind list_bind] in *; fold (timeline sr os) in *.
      + replace (h ++ [IAdd c] ++ timeline sr os) with ((h ++ [IAdd c]) ++ timeline sr os) in * by (by rewrite <- app_assoc).
        destruct (IH (h ++ [IAdd c]) (add_change c p)) as (p' & out & E & H' & Ho); [| |done| |].
        { intros c' Hc'. apply Him. by right. }
        { intros c' Hc'. apply Hst. by right. }
        { apply inv_add; [| |done]; [apply Him|apply Hst]; by left. }
        exists p', out. split; [done|]. split; [done|]. cbn [app frames_from].
        rewrite app_length in Ho. cbn in Ho. by rewrite Nat.add_1_r in Ho.
      + rewrite app_assoc in Hd |- *.
        destruct (inv_loop initial (frame_times time n sr) h p) as (p1 & v & o1 & E1 & H1 & Ho1);
          [by eapply distinct_prefix|done|].
        destruct (IH (h ++ (IFrame <$> frame_times time n sr)) (set_value v p1)) as (p2 & o2 & E2 & H2 & Ho2); [| |done|done|].
        { intros c' Hc'. apply Him. by right. }
        { intros c' Hc'. apply Hst. by right. }
        exists p2, (o1 ++ o2). split.
        { cbn [run_param]. rewrite process_loop by (intros _; apply Hinv). rewrite E1. cbn [rbind]. by rewrite E2. }
        split; [exact H2|]. rewrite frames_from_app, frames_from_frames. apply Forall2_app.
        * rewrite Forall2_lookup in Ho1 |- *. intros i. specialize (Ho1 i).
          destruct (seq (length h) (length (frame_times time n sr)) !! i) as [f|] eqn:Ef;
            inversion Ho1 as [? v' Hvi|]; subst; constructor. apply value_is_prefix; [|done].
          apply lookup_seq in Ef as [-> Hi]. rewrite app_length, fmap_length. lia.
        * rewrite app_length in Ho2. exact Ho2.
  Qed.

  Lemma run_param_value initial os : steady N initial → all_immediate os → all_steady N os → distinct_frames (timeline sr os) →
    ∃ p out, run_param N sr (new_param N initial) os = Ok (p, out) ∧
      Forall2 (value_is initial (timeline sr os)) (frame_positions (timeline sr os)) out.
  Proof.
    intros Hi Him Hst Hd. destruct (run_param_inv initial os [] (new_param N initial) Him Hst Hd (inv_new initial Hi))
      as (p & out & E & _ & Ho). by exists p, out.
  Qed.

  (** *** Several changes due at once *)
  Lemma due_loop d rest ts : ∀ v p, pa_changes p = d ++ rest →
    Forall (λ c, c_method c = Immediate) d → length ts = length d →
    Forall (λ c, Forall (λ t, (c_end c <= t)%Z) ts) d →
    ∃ p' v', frame_loop N ts sr v p = Ok (p', v', c_value <$> d) ∧ pa_changes p' = rest.
  Proof.
    revert ts. induction d as [|c d IH]; intros [|t ts] v p Hc Hi Hl Hd; try done.
    - exists p, v. done.
    - apply Forall_cons in Hi as [Hci Hi]. apply Forall_cons in Hd as [Hcd Hd]. apply Forall_cons in Hcd as [Hct Hcd].
      cbn [frame_loop]. unfold value_at_time, start_change. rewrite Hc. cbn [app]. rewrite Hci.
      rewrite (proj2 (Z.leb_le _ _) Hct). cbn [rbind pa_current pa_coef pa_inc]. rewrite (proj2 (Z.leb_le _ _) Hct).
      destruct (IH ts (c_value c) (Param (pa_value p) (d ++ rest) (n_zero N) (n_one N) c)) as (p' & v' & E & H');
        [done|done|by injection Hl| |].
      { eapply Forall_impl; [exact Hd|]. intros x Hx. by apply Forall_cons in Hx as [_ ?]. }
      rewrite E. cbn [rbind]. by exists p', v'.
  Qed.

  Lemma frame_times_lookup time n k t : frame_times time n sr !! k = Some t ↔
    k < n ∧ t = incremented_by_samples time (Z.of_nat k) (Z.of_nat sr).
  Proof.
    unfold frame_times. rewrite list_lookup_fmap, fmap_Some. split.
    - intros (i & [-> Hk]%lookup_seq & ->). cbn. done.
    - intros [Hk ->]. exists k. split; [|done]. by apply lookup_seq.
  Qed.

  Lemma due_process time d rest p : pa_changes p = d ++ rest → d ≠ [] →
    Forall (λ c, c_method c = Immediate ∧ (c_end c <= time)%Z) d →
    (Z.of_nat (length d) <= 2 ^ 53)%Z → (0 < Z.of_nat sr <= 2 ^ 53)%Z →
    ∃ p', process N time (length d) sr p = Ok (p', c_value <$> d) ∧ pa_changes p' = rest.
  Proof.
    intros Hc Hne Hd Hl Hs. unfold process.
    assert (is_static N p = false) as ->.
    { unfold is_static. rewrite Hc. destruct d; [done|]. cbn. by rewrite andb_false_r. }
    destruct (due_loop d rest (frame_times time (length d) sr) (pa_value p) p) as (p' & v' & E & H'); [done| | | |].
    - eapply Forall_impl; [exact Hd|]. by intros ? [? _].
    - apply frame_times_length.
    - eapply Forall_impl; [exact Hd|]. intros c [_ Hct]. apply Forall_lookup. intros k t [Hk ->]%frame_times_lookup.
      unfold incremented_by_samples. pose proof (frame_time_nonneg (Z.of_nat k) (Z.of_nat sr) ltac:(lia) ltac:(lia)) as Hf.
      unfold frame_time in Hf. lia.
    - rewrite E. cbn [rbind]. by eexists.
  Qed.

  (** *** Ramps *)
  Lemma nondecreasing_tail t ts : nondecreasing (t :: ts) → nondecreasing ts ∧ Forall (λ u, (t <= u)%Z) ts.
  Proof.
    intros H. split.
    - intros i j x y Hij Hx Hy. by eapply (H (S i) (S j)); [lia| |].
    - apply Forall_lookup. intros i u Hu. by eapply (H 0 (S i)); [lia| |].
  Qed.

  Lemma ramp_loop_done ts v p : pa_changes p = [] → Forall (λ t, (c_end (pa_current p) <= t)%Z) ts →
    ∃ v', frame_loop N ts sr v p = Ok (p, v', replicate (length ts) (c_value (pa_current p))).
  Proof.
    intros Hc. revert v. induction ts as [|t ts IH]; intros v Ht; [by exists v|].
    apply Forall_cons in Ht as [Ht Hts]. destruct (IH (c_value (pa_current p)) Hts) as (v' & E). exists v'.
    cbn [frame_loop length replicate]. unfold value_at_time, start_change. rewrite Hc. cbn [rbind].
    rewrite (proj2 (Z.leb_le _ _) Ht), E. done.
  Qed.

  Lemma ramp_loop ts : ∀ v p, pa_changes p = [] → nondecreasing ts →
    ∃ v', frame_loop N ts sr v p = Ok (p, v', imap (λ k t,
      if (c_end (pa_current p) <=? t)%Z then c_value (pa_current p) else iter (S k) (ramp_step N p) v) ts).
  Proof.
    induction ts as [|t ts IH]; intros v p Hc Hs; [by exists v|].
    apply nondecreasing_tail in Hs as [Hs Ht]. cbn [imap].
    destruct (Z.leb_spec (c_end (pa_current p)) t) as [Hle|Hlt].
    - destruct (ramp_loop_done ts (c_value (pa_current p)) p Hc) as (v' & E).
      { eapply Forall_impl; [exact Ht|]. cbn. lia. }
      exists v'. cbn [frame_loop]. unfold value_at_time, start_change. rewrite Hc. cbn [rbind].
      rewrite (proj2 (Z.leb_le _ _) Hle), E. cbn [rbind]. do 2 f_equal. f_equal.
      clear -Ht Hle.
      assert (∀ g : nat → timestamp → V, (∀ k u, (t <= u)%Z → g k u = c_value (pa_current p)) →
        replicate (length ts) (c_value (pa_current p)) = imap g ts) as G.
      { induction Ht as [|u us Hu _ IH]; intros g Hg; [done|]. cbn [length replicate imap]. f_equal; [by rewrite Hg|].
        apply IH. intros k w Hw. cbn. by apply Hg. }
      apply G. intros k u Hu. cbn. by rewrite (proj2 (Z.leb_le _ _)) by lia.
    - destruct (IH (ramp_step N p v) p Hc Hs) as (v' & E). exists v'.
      cbn [frame_loop]. unfold value_at_time, start_change. rewrite Hc. cbn [rbind].
      rewrite (proj2 (Z.leb_gt _ _) Hlt). fold (ramp_step N p v). rewrite E. done.
  Qed.

  Lemma ramp_waits ts p c s : pa_changes p = [c] → ramp_start c = Some s → at_rest N p →
    Forall (λ t, (t < s)%Z) ts →
    frame_loop N ts sr (pa_value p) p = Ok (p, pa_value p, replicate (length ts) (pa_value p)).
  Proof.
    intros Hc Hs (Hi & Hco & Hv & Hid) Ht. induction Ht as [|t ts Ht Hts IH]; [done|].
    cbn [frame_loop length replicate].
    assert (value_at_time N t sr (pa_value p) p = Ok (p, pa_value p)) as ->.
    { unfold value_at_time.
      assert (start_change N t sr (pa_value p) p = Ok p) as ->.
      { unfold start_change. rewrite Hc. unfold ramp_start in Hs. destruct (c_method c); [done| |];
          injection Hs as ->; by rewrite (proj2 (Z.leb_gt _ _) Ht). }
      cbn [rbind]. rewrite Hi, Hco, Hid, <- Hv. by destruct (_ <=? _)%Z. }
    cbn [rbind]. by rewrite IH.
  Qed.

  Lemma ramp_begins (t : timestamp) (ts : list timestamp) p c s v : pa_changes p = [c] → ramp_start c = Some s → (s <= t)%Z →
    (∀ s', c_method c = Exponential s' → n_is_zero N (c_value c) = false ∧ n_is_zero N v = false) →
    ∃ p', ramp_started N sr t v c p' ∧ pa_value p' = pa_value p ∧
      frame_loop N (t :: ts) sr v p = frame_loop N (t :: ts) sr v p'.
  Proof.
    intros Hc Hs Ht Hz.
    assert (∃ p', start_change N t sr v p = Ok p' ∧ ramp_started N sr t v c p' ∧ pa_value p' = pa_value p) as (p' & E & H' & Hv).
    { unfold start_change. rewrite Hc. unfold ramp_start in Hs. unfold ramp_started. destruct (c_method c) eqn:Em; [done| |];
        injection Hs as ->; rewrite (proj2 (Z.leb_le _ _) Ht).
      - eexists. split; [reflexivity|]. done.
      - destruct (Hz s eq_refl) as [-> ->]. cbn [orb]. eexists. split; [reflexivity|]. done. }
    exists p'. split; [done|]. split; [done|]. cbn [frame_loop]. unfold value_at_time. rewrite E. cbn [rbind].
    destruct H' as (Hc' & _). unfold start_change. by rewrite Hc'.
  Qed.

  Lemma frame_times_nondecreasing time n : (Z.of_nat n <= 2 ^ 53)%Z → (0 < Z.of_nat sr <= 2 ^ 53)%Z →
    nondecreasing (frame_times time n sr).
  Proof.
    intros Hn Hs i j t u Hij [Hi ->]%frame_times_lookup [Hj ->]%frame_times_lookup.
    unfold incremented_by_samples.
    pose proof (frame_time_mono (Z.of_nat i) (Z.of_nat j) (Z.of_nat sr) ltac:(lia) ltac:(lia) ltac:(lia)) as H.
    unfold frame_time in H. lia.
  Qed.

  Lemma nondecreasing_app ts1 ts2 : nondecreasing (ts1 ++ ts2) → nondecreasing ts2.
  Proof.
    intros H i j t u Hij Ht Hu. apply (H (length ts1 + i) (length ts1 + j) t u); [lia| |].
    - rewrite <- Ht. rewrite (lookup_app_r ts1 ts2) by lia. f_equal. lia.
    - rewrite <- Hu. rewrite (lookup_app_r ts1 ts2) by lia. f_equal. lia.
  Qed.

  (** the frames of a ramp from its first frame on *)
  Lemma ramp_frames (t : timestamp) (ts : list timestamp) p c s v : pa_changes p = [c] → ramp_start c = Some s → (s <= t)%Z →
    (∀ s', c_method c = Exponential s' → n_is_zero N (c_value c) = false ∧ n_is_zero N v = false) →
    nondecreasing (t :: ts) →
    ∃ p' v', ramp_started N sr t v c p' ∧
      frame_loop N (t :: ts) sr v p = Ok (p', v', imap (λ k t,
        if (c_end c <=? t)%Z then c_value c else iter (S k) (ramp_step N p') v) (t :: ts)).
  Proof.
    intros Hc Hs Ht Hz Hnd. destruct (ramp_begins t ts p c s v Hc Hs Ht Hz) as (p' & H' & _ & ->).
    destruct (ramp_loop (t :: ts) v p') as (v' & E); [apply H'|done|]. exists p', v'. split; [done|].
    rewrite E. destruct H' as (_ & -> & _). done.
  Qed.
End schedule.

(** *** Blocks of a history without new changes *)

Section blocks.
  Context {V : Type} (N : num V) (sr : nat) (I : list timestamp → param V → Prop).
  Context (Istatic : ∀ ts p, I ts p → is_static N p = true → at_rest N p).
  Context (Istep : ∀ t ts p p' v, I (t :: ts) p → value_at_time N t sr (pa_value p) p = Ok (p', v) → I ts (set_value v p')).

  Lemma loop_inv ts ts2 : ∀ p p' v out, I (ts ++ ts2) p → frame_loop N ts sr (pa_value p) p = Ok (p', v, out) →
    I ts2 (set_value v p').
  Proof.
    induction ts as [|t ts IH]; intros p p' v out HI.
    - intros [= <- <- <-]. by rewrite set_value_same.
    - cbn [frame_loop]. destruct (value_at_time N t sr (pa_value p) p) as [[p1 v1]|] eqn:E1; [|done]. cbn [rbind].
      destruct (frame_loop N ts sr v1 p1) as [[[p2 v2] o]|] eqn:E2; [|done]. cbn [rbind]. intros [= <- <- <-].
      pose proof (Istep _ _ _ _ _ HI E1) as HI1.
      apply (IH (set_value v1 p1) (set_value v1 p2) v2 o HI1). cbn [set_value pa_value].
      fold (set_value v1 p1). rewrite (frame_loop_stored N sr). by rewrite E2.
  Qed.

  Lemma run_blocks (bs : list (timestamp * nat)) : ∀ p, I (blocks_times sr bs) p →
    run_param N sr p (blocks bs) =
    let? (p', v, out) := frame_loop N (blocks_times sr bs) sr (pa_value p) p in Ok (set_value v p', out).
  Proof.
    induction bs as [|[time n] bs IH]; intros p HI.
    - cbn. by rewrite set_value_same.
    - change (blocks ((time, n) :: bs)) with (ABlock time n :: blocks (V:=V) bs).
      change (blocks_times sr ((time, n) :: bs)) with (frame_times time n sr ++ blocks_times sr bs) in HI |- *.
      cbn [run_param]. rewrite process_loop by eauto. rewrite frame_loop_app.
      destruct (frame_loop N (frame_times time n sr) sr (pa_value p) p) as [[[p1 v1] o1]|] eqn:E1; [|done]. cbn [rbind].
      pose proof (loop_inv _ _ _ _ _ _ HI E1) as HI'. rewrite (IH _ HI'). cbn [set_value pa_value].
      fold (set_value v1 p1). rewrite frame_loop_stored.
      destruct (frame_loop N (blocks_times sr bs) sr v1 p1) as [[[p2 v2] o2]|]; done.
  Qed.
End blocks.

(** *** A ramp over any blocks *)
Section ramp_blocks.
  Context {V : Type} (N : num V) (sr : nat) (c : change V) (s : timestamp) (v0 : V).
  Context (Hs : ramp_start c = Some s).

  (** a ramp too slow to be told from rest is at rest *)
  Definition not_slow (t : timestamp) : Prop :=
    ∀ q, ramp_started N sr t v0 c q → is_static N q = true →
      pa_inc q = n_zero N ∧ pa_coef q = n_one N ∧ c_value c = v0 ∧ steady N v0.

  Definition ramp_inv (ts : list timestamp) (p : param V) : Prop :=
    (pa_changes p = [c] ∧ at_rest N p ∧ pa_value p = v0 ∧
      ∀ pre t post, ts = pre ++ t :: post → Forall (λ u, (u < s)%Z) pre → (s <= t)%Z → not_slow t) ∨
    (pa_changes p = [] ∧ (is_static N p = false ∨ at_rest N p)).

  Lemma ramp_inv_static ts p : ramp_inv ts p → is_static N p = true → at_rest N p.
  Proof.
    intros [(Hc & _)|[_ [E|?]]] Hst; [|congruence|done].
    unfold is_static in Hst. rewrite Hc, andb_false_r in Hst. done.
  Qed.

  Lemma is_static_value w (p : param V) : is_static N (set_value w p) = is_static N p.
  Proof. done. Qed.

  Lemma ramp_inv_step t ts p p' v : ramp_inv (t :: ts) p → value_at_time N t sr (pa_value p) p = Ok (p', v) →
    ramp_inv ts (set_value v p').
  Proof.
    intros [(Hc & Hr & Hv & Hn)|[Hc Hr]] E.
    - unfold value_at_time in E. destruct (decide (s <= t)%Z) as [Ht|Ht].
      + specialize (Hn [] t ts eq_refl ltac:(constructor) Ht).
        assert (∃ q, start_change N t sr (pa_value p) p = Ok q ∧ ramp_started N sr t (pa_value p) c q) as (q & Eq & Hq).
        { destruct (start_change N t sr (pa_value p) p) as [q|] eqn:Eq; [|done]. exists q. split; [done|].
          unfold start_change in Eq. rewrite Hc in Eq. unfold ramp_start in Hs. unfold ramp_started.
          destruct (c_method c); [done| |]; injection Hs as ->; rewrite (proj2 (Z.leb_le _ _) Ht) in Eq.
          - by injection Eq as <-.
          - destruct (_ || _); [done|]. by injection Eq as <-. }
        rewrite Eq in E. cbn [rbind] in E. injection E as <- <-. right. rewrite Hv in Hq.
        destruct (Hq) as (Hq1 & Hq2 & _). split; [done|]. rewrite is_static_value.
        destruct (is_static N q) eqn:Es; [right|by left].
        destruct (Hn q Hq Es) as (Hi & Hco & Hcv & Hst).
        unfold at_rest. cbn [set_value pa_inc pa_coef pa_value pa_current].
        rewrite Hi, Hco, Hv, Hq2, Hcv. unfold steady in Hst |- *. rewrite Hst. by destruct (_ <=? _)%Z.
      + assert (start_change N t sr (pa_value p) p = Ok p) as Eq.
        { unfold start_change. rewrite Hc. unfold ramp_start in Hs. destruct (c_method c); [done| |];
            injection Hs as ->; by rewrite (proj2 (Z.leb_gt _ _)) by lia. }
        rewrite Eq in E. cbn [rbind] in E. injection E as <- <-. left.
        destruct (Hr) as (Hi & Hco & Hcv & Hst).
        assert ((if (c_end (pa_current p) <=? t)%Z then c_value (pa_current p)
                 else n_add N (n_mul N (pa_value p) (pa_coef p)) (pa_inc p)) = pa_value p) as ->.
        { rewrite Hi, Hco, Hst, <- Hcv. by destruct (_ <=? _)%Z. }
        rewrite set_value_same. do 3 (split; [done|]). intros pre u post -> Hpre Hu.
        apply (Hn (t :: pre) u post); [done| |done]. constructor; [lia|done].
    - right. unfold value_at_time, start_change in E. rewrite Hc in E. cbn [rbind] in E. injection E as <- <-.
      split; [done|]. rewrite is_static_value. destruct Hr as [?|(Hi & Hco & Hcv & Hst)]; [by left|right].
      unfold at_rest. cbn [set_value pa_inc pa_coef pa_value pa_current].
      rewrite Hi, Hco, Hst, <- Hcv. by destruct (_ <=? _)%Z.
  Qed.

  Lemma frame_loop_ramp (pre : list timestamp) (t : timestamp) (post : list timestamp) p :
    pa_changes p = [c] → at_rest N p → pa_value p = v0 →
    Forall (λ u, (u < s)%Z) pre → (s <= t)%Z → nondecreasing (t :: post) →
    (∀ s', c_method c = Exponential s' → n_is_zero N (c_value c) = false ∧ n_is_zero N v0 = false) →
    ∃ p' v' q, ramp_started N sr t v0 c q ∧
      frame_loop N (pre ++ t :: post) sr (pa_value p) p =
      Ok (p', v', replicate (length pre) v0 ++
                imap (λ k u, if (c_end c <=? u)%Z then c_value c else iter (S k) (ramp_step N q) v0) (t :: post)).
  Proof.
    intros Hc Hr Hv Hpre Ht Hnd Hz. rewrite frame_loop_app.
    rewrite (ramp_waits N sr pre p c s Hc Hs Hr Hpre). cbn [rbind]. rewrite Hv.
    destruct (ramp_frames N sr t post p c s v0 Hc Hs Ht Hz Hnd) as (p' & v' & Hst & ->). cbn [rbind].
    exists p', v', p'. split; [done|]. done.
  Qed.

  Lemma run_ramp bs (pre : list timestamp) (t : timestamp) (post : list timestamp) p :
    pa_changes p = [c] → at_rest N p → pa_value p = v0 →
    blocks_times sr bs = pre ++ t :: post →
    Forall (λ u, (u < s)%Z) pre → (s <= t)%Z → nondecreasing (t :: post) →
    (∀ s', c_method c = Exponential s' → n_is_zero N (c_value c) = false ∧ n_is_zero N v0 = false) →
    not_slow t →
    ∃ p' q, ramp_started N sr t v0 c q ∧
      run_param N sr p (blocks bs) =
      Ok (p', replicate (length pre) v0 ++
                imap (λ k u, if (c_end c <=? u)%Z then c_value c else iter (S k) (ramp_step N q) v0) (t :: post)).
  Proof.
    intros Hc Hr Hv Hb Hpre Ht Hnd Hz Hn.
    rewrite (run_blocks N sr ramp_inv ramp_inv_static ramp_inv_step).
    - rewrite Hb. destruct (frame_loop_ramp pre t post p Hc Hr Hv Hpre Ht Hnd Hz) as (p' & v' & q & Hq & E).
      exists (set_value v' p'), q. split; [exact Hq|]. rewrite E. done.
    - left. do 3 (split; [done|]). rewrite Hb. intros pre' u post' Heq Hpre' Hu.
      enough (u = t) by (by subst). clear -Heq Hpre Hpre' Ht Hu.
      revert pre' Heq Hpre'. induction Hpre as [|x pre Hx Hpre IH]; intros [|y pre'] Heq Hpre'; cbn in Heq.
      + congruence.
      + injection Heq as <- _. apply Forall_cons in Hpre' as [? _]. lia.
      + injection Heq as -> _. lia.
      + injection Heq as <- Heq. apply Forall_cons in Hpre' as [_ ?]. eauto.
  Qed.
End ramp_blocks.

(** ** Cancelling *)
Lemma cancel_after_spec {V} t (p : param V) c :
  c ∈ pa_changes (cancel_after t p) ↔ c ∈ pa_changes p ∧ (t <= c_end c)%Z.
Proof. cbn. rewrite elem_of_list_filter. tauto. Qed.

(** ** binary64 numbers are steady *)
Lemma f64_steady v : repr 53 v → steady f64_num v.
Proof.
  intros Hr. unfold steady. cbn [f64_num n_add n_mul n_one n_zero].
  assert (f64_mul v one64 = v) as ->.
  { unfold f64_mul. rewrite Z.mul_comm. apply rnd_exact; [exact one64_pos|lia|done]. }
  unfold f64_add. rewrite Z.add_0_r. by apply rnd_exact1.
Qed.

Lemma cancel_after_sublist {V} t (p : param V) : sublist (pa_changes (cancel_after t p)) (pa_changes p).
Proof.
  cbn. induction (pa_changes p) as [|c l IH]; [constructor|]. destruct (decide (t <= c_end c)%Z).
  - rewrite filter_cons_True by done. by constructor.
  - rewrite filter_cons_False by done. by constructor.
Qed.

Lemma cancel_spec {V} t (p : param V) :
  (∀ c, c ∈ pa_changes (cancel_after t p) ↔ c ∈ pa_changes p ∧ (t <= c_end c)%Z) ∧
  sublist (pa_changes (cancel_after t p)) (pa_changes p) ∧
  pa_changes (cancel_changes p) = [] ∧
  Forall (λ p', pa_value p' = pa_value p ∧ pa_inc p' = pa_inc p ∧ pa_coef p' = pa_coef p ∧ pa_current p' = pa_current p)
    [cancel_after t p; cancel_changes p].
Proof.
  split; [intros c; exact (cancel_after_spec t p c)|]. split; [exact (cancel_after_sublist t p)|]. split; [done|].
  by repeat constructor.
Qed.

Lemma zero_panics {V} (N : num V) t sr v (p : param V) c s rest :
  pa_changes p = c :: rest → c_method c = Exponential s → (s <= t)%Z →
  n_is_zero N (c_value c) = true ∨ n_is_zero N v = true →
  value_at_time N t sr v p = Panic AssertFailed.
Proof.
  intros Hc Hm Hs Hz. unfold value_at_time, start_change. rewrite Hc, Hm, (proj2 (Z.leb_le _ _) Hs).
  destruct Hz as [-> | ->]; [done|]. by rewrite orb_true_r.
Qed.

Lemma times_agree sr q time n k : (Z.of_nat sr * q = 2 ^ 32)%Z → (0 < q)%Z → (Z.of_nat (n + k) * q <= 2 ^ 53)%Z →
  incremented_by_samples time (Z.of_nat (n + k)) (Z.of_nat sr) =
  incremented_by_samples (incremented_by_samples time (Z.of_nat n) (Z.of_nat sr)) (Z.of_nat k) (Z.of_nat sr).
Proof.
  intros Hq Hq0 Hn. unfold incremented_by_samples.
  pose proof (frame_time_exact (Z.of_nat (n + k)) (Z.of_nat sr) q ltac:(lia) Hq Hq0 ltac:(nia) Hn) as E1.
  pose proof (frame_time_exact (Z.of_nat n) (Z.of_nat sr) q ltac:(lia) Hq Hq0 ltac:(nia) ltac:(nia)) as E2.
  pose proof (frame_time_exact (Z.of_nat k) (Z.of_nat sr) q ltac:(lia) Hq Hq0 ltac:(nia) ltac:(nia)) as E3.
  unfold frame_time in E1, E2, E3. rewrite E1, E2, E3. lia.
Qed.
