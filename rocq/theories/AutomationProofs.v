(** Automation of a parameter. *)
From stdpp Require Import gmap list list_numbers sorting strings.
From Coq Require Import ZArith Reals Lra Lia ZifyBool ZifyNat.
From Verif Require Import Base Float FloatProofs Timestamp TimestampProofs AudioParam AudioParamSpec AudioParamProofs AudioParamR AudioParamRProofs
  Graph Buffer BufferSpec DspGraph DspGraphSpec Processor ProcessorSpec Mixer MixerR MixerSpec Node NodeSpec NodeProofs NodeGain StreamSpec NetProofs MelodySpec NetMelody AutomationSpec.
Local Open Scope R_scope.

Definition ends (l : list move) : list nat := mv_end <$> l.
Definition pending (ask : list nat) (l : list move) : list move := filter (fun m => mv_end m ∈ ask) l.

Lemma filter_agree {A} (P Q : A -> Prop) `{!forall x, Decision (P x), !forall x, Decision (Q x)} (l : list A) : (forall x, x ∈ l -> P x <-> Q x) -> filter P l = filter Q l.
Proof.
  induction l as [|x l IH]; intros Hpq; [done|]. rewrite !filter_cons. rewrite IH by (intros y Hy; apply Hpq; by right). pose proof (Hpq x ltac:(by left)) as Hx.
  destruct (decide (P x)), (decide (Q x)); tauto.
Qed.
Lemma in_turn_tail m l : in_turn (m :: l) -> in_turn l.
Proof. destruct l; [done|]. by intros [_ H]. Qed.
Lemma in_turn_all m l : in_turn (m :: l) -> Forall (fun m' => (mv_end m <= mv_from m' /\ mv_from m < mv_from m' /\ mv_end m < mv_end m')%nat) l.
Proof.
  revert m. induction l as [|m' l IH]; intros m; [constructor|]. intros [H1 H2]. constructor; [done|].
  eapply Forall_impl; [exact (IH m' H2)|]. cbn. unfold mv_end in *. intros x Hx. lia.
Qed.

Section automation.
  Context (sr : nat) (q : Z) (Hq : (Z.of_nat sr * q = 2 ^ 32)%Z) (Hq0 : (0 < q)%Z).
  Local Notation cof := (change_of q).

  Lemma pending_sorted ask l : in_turn l -> StronglySorted by_end (cof <$> pending ask l).
  Proof.
    induction l as [|m l IH]; intros H; [constructor|]. pose proof (in_turn_all _ _ H) as Hall. specialize (IH (in_turn_tail _ _ H)).
    unfold pending. rewrite filter_cons. case_decide; [|done]. rewrite fmap_cons. constructor; [done|].
    apply Forall_fmap. apply Forall_forall. intros x Hx. apply elem_of_list_filter in Hx as [_ Hx]. rewrite Forall_forall in Hall. specialize (Hall _ Hx).
    unfold by_end. cbn. nia.
  Qed.

  Lemma pending_insert ask l m : in_turn l -> m ∈ l -> mv_end m ∉ ask ->
    insert_change (cof m) (cof <$> pending ask l) = cof <$> pending (mv_end m :: ask) l.
  Proof.
    induction l as [|x l IH]; intros H Hm Ha; [by apply elem_of_nil in Hm|]. pose proof (in_turn_all _ _ H) as Hall. rewrite Forall_forall in Hall.
    apply elem_of_cons in Hm as [<-|Hm].
    - assert (E : pending (mv_end m :: ask) l = pending ask l).
      { apply filter_agree. intros y Hy. specialize (Hall _ Hy). rewrite elem_of_cons. split; [|by right]. intros [?|?]; [lia|done]. }
      unfold pending in *. rewrite !filter_cons. rewrite decide_False by done. rewrite decide_True by (by left). rewrite E, fmap_cons.
      destruct (filter _ l) as [|y r] eqn:Ef; [done|]. rewrite fmap_cons. cbn [insert_change].
      assert (y ∈ l) as Hy by (eapply (elem_of_list_filter (fun m => mv_end m ∈ ask)); rewrite Ef; by left). specialize (Hall _ Hy).
      destruct (Z.ltb_spec (c_end (cof m)) (c_end (cof y))) as [_|Hl]; [done|]. cbn in Hl. nia.
    - specialize (Hall _ Hm). specialize (IH (in_turn_tail _ _ H) Hm Ha). unfold pending in *. rewrite !filter_cons.
      destruct (decide (mv_end x ∈ ask)) as [Hx|Hx].
      + rewrite decide_True by (by right). rewrite !fmap_cons. cbn [insert_change].
        destruct (Z.ltb_spec (c_end (cof m)) (c_end (cof x))) as [Hl|_]; [cbn in Hl; nia|]. by rewrite IH.
      + rewrite decide_False; [done|]. rewrite elem_of_cons. intros [?|?]; [lia|done].
  Qed.

  (** ** The state of the parameter when frame [k] is next: [cur] is the move last started, from the value [base]; [rest] are the moves to come. *)
  Definition started (cur : option move) : list move := match cur with None => [] | Some m => [m] end.
  Definition moving (base : R) (m : move) (p : param R) : Prop :=
    match mv_shape m with
    | Jump => pa_coef p = 1 /\ pa_inc p = 0
    | Line => pa_coef p = 1 /\ pa_inc p = (mv_to m - base) / INR (mv_frames m)
    | Curve => pa_coef p = Rpower (mv_to m / base) (/ INR (mv_frames m)) /\ pa_inc p = 0
    end.
  Definition state (ask : list nat) (k : nat) (base : R) (cur : option move) (rest : list move) (p : param R) : Prop :=
    pa_changes p = cof <$> pending ask rest /\ in_turn (started cur ++ rest) /\ all_fit base (started cur ++ rest) /\
    Forall (fun m => (k <= mv_from m)%nat) rest /\
    match cur with
    | None => pa_coef p = 1 /\ pa_inc p = 0 /\ pa_value p = base /\ c_value (pa_current p) = base
    | Some m => (mv_from m < k)%nat /\ pa_current p = cof m /\ moving base m p /\ pa_value p = automation base [m] (k - 1)
    end.

  Lemma along_last base m : fit base m -> (0 < mv_frames m)%nat -> along base m (mv_end m - 1) = mv_to m.
  Proof.
    unfold fit, along, mv_end. intros Hf Hm. replace (mv_from m + mv_frames m - 1 - mv_from m + 1)%nat with (mv_frames m) by lia.
    assert (Hi : INR (mv_frames m) / INR (mv_frames m) = 1) by (apply Rinv_r, not_0_INR; lia). rewrite Hi. destruct (mv_shape m); [done|ring|].
    destruct Hf as (_ & Hb & Ht & _). assert (0 < mv_to m / base) by (apply Rdiv_lt_0_compat; done). rewrite Rpower_1 by done. field. lra.
  Qed.
  Lemma settled base m k : fit base m -> (mv_end m <= k)%nat -> (mv_from m < k)%nat -> automation base [m] (k - 1) = mv_to m.
  Proof.
    intros Hf He Hk. cbn [automation]. destruct (Nat.ltb_spec (k - 1) (mv_from m)); [lia|]. destruct (Nat.ltb_spec (k - 1) (mv_end m)); [|done].
    replace (k - 1)%nat with (mv_end m - 1)%nat by lia. apply along_last; [done|unfold mv_end in *; lia].
  Qed.
  Lemma along_step base m k p : fit base m -> moving base m p -> (mv_from m <= k < mv_end m)%nat ->
    (if (mv_from m =? k)%nat then base else along base m (k - 1)) * pa_coef p + pa_inc p = along base m k.
  Proof.
    unfold fit, moving, along, mv_end. intros Hf Hm Hk. assert (Hn : INR (mv_frames m) <> 0) by (apply not_0_INR; lia). destruct (mv_shape m); [lia| |].
    - destruct Hm as [-> ->]. destruct (Nat.eqb_spec (mv_from m) k) as [<-|Hne].
      + replace (mv_from m - mv_from m + 1)%nat with 1%nat by lia. cbn [INR]. field. done.
      + replace (k - mv_from m + 1)%nat with (S (k - 1 - mv_from m + 1)) by lia. rewrite S_INR. field. done.
    - destruct Hm as [-> ->], Hf as (_ & Hb & Ht & _). rewrite Rplus_0_r. destruct (Nat.eqb_spec (mv_from m) k) as [<-|Hne].
      + replace (mv_from m - mv_from m + 1)%nat with 1%nat by lia. cbn [INR]. unfold Rdiv at 3. by rewrite Rmult_1_l.
      + replace (k - mv_from m + 1)%nat with (S (k - 1 - mv_from m + 1)) by lia. rewrite S_INR. rewrite Rmult_assoc, <- Rpower_plus. do 2 f_equal. field. done.
  Qed.
  Lemma automation_one base m k rest : (mv_from m <= k)%nat -> Forall (fun m' => (k < mv_from m')%nat) rest -> automation base (m :: rest) k = automation base [m] k.
  Proof.
    intros Hk Hr. cbn [automation]. destruct (k <? mv_from m)%nat; [done|]. destruct (k <? mv_end m)%nat; [done|].
    destruct Hr as [|m' r Hm' _]; [done|]. cbn [automation]. destruct (Nat.ltb_spec k (mv_from m')); [done|lia].
  Qed.
  Lemma automation_none base k rest : Forall (fun m' => (k < mv_from m')%nat) rest -> automation base rest k = base.
  Proof. intros [|m' r Hm' _]; [done|]. cbn [automation]. destruct (Nat.ltb_spec k (mv_from m')); [done|lia]. Qed.

  Definition base_after (base : R) (cur : option move) : R := match cur with None => base | Some m => mv_to m end.

  Lemma start_value base m' k p rest0 : pa_changes p = cof m' :: rest0 -> mv_from m' = k -> fit base m' -> pa_value p = base ->
    exists p1, value_at_time R_num (Z.of_nat k * q)%Z sr (pa_value p) p = Ok (p1, automation base [m'] k) /\
      pa_changes p1 = rest0 /\ pa_current p1 = cof m' /\ moving base m' p1.
  Proof.
    intros Hc Hk Hf Hv. unfold value_at_time, start_change. rewrite Hc, Hv. cbn [automation]. rewrite Hk, Nat.ltb_irrefl.
    assert (Hd : forall n, samplesR (Z.of_nat (k + n) * q)%Z sr - samplesR (Z.of_nat k * q)%Z sr = INR n).
    { intros n. rewrite samplesR_diff. exact (lengthR_even sr q 0%Z k n Hq). }
    pose proof Hf as Hf'. unfold fit in Hf'. unfold moving, along.
    assert (Ec : cof m' = Change (mv_to m') (Z.of_nat (k + mv_frames m') * q)%Z
      match mv_shape m' with Jump => Immediate | Line => Linear (Z.of_nat k * q)%Z | Curve => Exponential (Z.of_nat k * q)%Z end) by (unfold change_of, mv_end; by rewrite Hk).
    rewrite Ec. unfold mv_end. rewrite Hk. replace (k - k + 1)%nat with 1%nat by lia. clear Ec Hc Hv.
    destruct (mv_shape m') eqn:Es; cbn [c_method c_end c_value].
    - rewrite Hf', Nat.add_0_r, Z.leb_refl, Nat.ltb_irrefl. cbn [rbind pa_current c_end c_value]. rewrite Z.leb_refl.
      eexists. split; [reflexivity|]. done.
    - destruct Hf' as [Hn _]. assert (INR (mv_frames m') <> 0) by (apply not_0_INR; lia). rewrite Z.leb_refl. cbn [rbind pa_current c_end c_value pa_coef pa_inc].
      destruct (Z.leb_spec (Z.of_nat (k + mv_frames m') * q) (Z.of_nat k * q)); [nia|]. destruct (Nat.ltb_spec k (k + mv_frames m')); [|lia].
      cbn [R_num n_add n_mul n_one n_zero n_div n_sub n_samples n_exp n_ln]. rewrite Hd.
      eexists. split; [f_equal; f_equal; cbn [INR]; field; done|]. done.
    - destruct Hf' as (Hn & Hb & Ht & _). assert (INR (mv_frames m') <> 0) by (apply not_0_INR; lia). rewrite Z.leb_refl.
      cbn [R_num n_add n_mul n_one n_zero n_div n_sub n_samples n_exp n_ln n_is_zero]. rewrite Hd. destruct (Req_EM_T (mv_to m') 0); [lra|]. destruct (Req_EM_T base 0); [lra|].
      cbn [orb rassert negb rbind pa_current c_end c_value pa_coef pa_inc]. destruct (Z.leb_spec (Z.of_nat (k + mv_frames m') * q) (Z.of_nat k * q)); [nia|].
      destruct (Nat.ltb_spec k (k + mv_frames m')); [|lia].
      assert (Ep : exp (ln (mv_to m' / base) / INR (mv_frames m')) = Rpower (mv_to m' / base) (/ INR (mv_frames m'))) by (unfold Rpower; f_equal; unfold Rdiv; ring). rewrite Ep.
      eexists. split; [f_equal; f_equal; cbn [INR]; unfold Rdiv at 3; rewrite Rmult_1_l; ring|]. done.
  Qed.

  Lemma no_start ask rest k p v : pa_changes p = cof <$> pending ask rest -> Forall (fun m => (k < mv_from m)%nat) rest ->
    start_change R_num (Z.of_nat k * q)%Z sr v p = Ok p.
  Proof.
    intros Hc Hr. unfold start_change. rewrite Hc. destruct (pending ask rest) as [|y r] eqn:E; [done|].
    assert (y ∈ rest) as Hy. { apply (elem_of_list_filter (fun m => mv_end m ∈ ask)). unfold pending in E. rewrite E. by left. }
    rewrite Forall_forall in Hr. specialize (Hr _ Hy). rewrite fmap_cons. unfold change_of at 1. cbn [c_method].
    destruct (mv_shape y); cbn [c_end change_of]; (match goal with |- context [(?a <=? ?b)%Z] => destruct (Z.leb_spec a b) end; [unfold mv_end in *; nia|done]).
  Qed.

  Lemma frame ask k base cur rest p : state ask k base cur rest p -> (forall m, m ∈ rest -> mv_end m ∈ ask \/ (k < mv_from m)%nat) ->
    exists p1 base' cur' rest', let v := automation base (started cur ++ rest) k in
      value_at_time R_num (Z.of_nat k * q)%Z sr (pa_value p) p = Ok (p1, v) /\ state ask (S k) base' cur' rest' (set_value v p1) /\
      (forall k', (k < k')%nat -> automation base' (started cur' ++ rest') k' = automation base (started cur ++ rest) k') /\
      (forall m, m ∈ rest -> m ∈ rest' \/ mv_from m = k) /\ rest' ⊆ rest.
  Proof.
    intros (Hc & Hit & Hfit & Hge & Hcur) Hask. cbv zeta.
    assert (Hcase : Forall (fun m => (k < mv_from m)%nat) rest \/ exists m' r, rest = m' :: r /\ mv_from m' = k).
    { destruct rest as [|m' r]; [left; constructor|]. inversion_clear Hge as [|? ? H1 H2]. destruct (decide (mv_from m' = k)) as [E|E]; [right; by exists m', r|].
      left. constructor; [lia|]. assert (Hit' : in_turn (m' :: r)) by (destruct cur; [by apply (in_turn_tail m)|done]).
      eapply Forall_impl; [exact (in_turn_all _ _ Hit')|]. cbn. intros; lia. }
    destruct Hcase as [Hlate|(m' & r & -> & Hk)].
    - exists p, base, cur, rest. split; [|split; [|split; [done|split; [by left|done]]]].
      + unfold value_at_time. rewrite (no_start ask rest) by done. cbn [rbind R_num n_add n_mul]. do 2 f_equal. destruct cur as [m|]; cbn [started app].
        * destruct Hcur as (Hm & Hp & Hmv & Hval). rewrite automation_one by (done || lia). rewrite Hp, Hval. cbn [c_end c_value change_of automation].
          destruct (Nat.ltb_spec k (mv_from m)); [lia|]. destruct (Nat.ltb_spec k (mv_end m)) as [He|He].
          -- destruct (Z.leb_spec (Z.of_nat (mv_end m) * q) (Z.of_nat k * q)); [nia|]. destruct (Nat.ltb_spec (k - 1) (mv_from m)); [lia|].
             destruct (Nat.ltb_spec (k - 1) (mv_end m)); [|lia]. rewrite <- (along_step base m k p) by (done || apply Hfit || lia).
             destruct (Nat.eqb_spec (mv_from m) k); [lia|done].
          -- destruct (Z.leb_spec (Z.of_nat (mv_end m) * q) (Z.of_nat k * q)); [done|nia].
        * destruct Hcur as (-> & -> & -> & ->). rewrite automation_none by done. destruct (_ <=? _)%Z; [done|ring].
      + split; [done|]. split; [done|]. split; [done|]. split; [eapply Forall_impl; [exact Hlate|]; cbn; intros; lia|].
        destruct cur as [m|]; cbn [started app].
        * destruct Hcur as (Hm & Hp & Hmv & Hval). split; [lia|]. split; [done|]. split; [done|]. cbn [set_value pa_value]. rewrite automation_one by (done || lia). f_equal. lia.
        * destruct Hcur as (? & ? & ? & ?). rewrite automation_none by done. done.
    - set (base' := base_after base cur).
      assert (Hv : pa_value p = base').
      { unfold base', base_after. destruct cur as [m|]; [|apply Hcur]. destruct Hcur as (Hm & Hp & Hmv & Hval). rewrite Hval. apply settled; [apply Hfit| |done].
        cbn in Hit. destruct Hit as [(? & _) _]. lia. }
      assert (Hf' : all_fit base' (m' :: r)) by (unfold base', base_after; destruct cur as [m|]; [apply Hfit|done]).
      assert (Hit' : in_turn (m' :: r)) by (destruct cur; [by apply (in_turn_tail m)|done]).
      assert (Hsame : forall k', (k <= k')%nat -> automation base (started cur ++ m' :: r) k' = automation base' (m' :: r) k').
      { intros k' Hk'. unfold base', base_after. destruct cur as [m|]; [|done]. cbn [started app]. cbn in Hit. destruct Hit as [(H1 & H2 & _) _].
        change (automation base (m :: m' :: r) k') with (if (k' <? mv_from m)%nat then base else if (k' <? mv_end m)%nat then along base m k' else automation (mv_to m) (m' :: r) k').
        destruct (Nat.ltb_spec k' (mv_from m)); [lia|]. destruct (Nat.ltb_spec k' (mv_end m)); [lia|done]. }
      assert (Hpend : pending ask (m' :: r) = m' :: pending ask r).
      { unfold pending. rewrite filter_cons. apply decide_True. destruct (Hask m') as [?|?]; [by left|done|lia]. }
      rewrite Hpend, fmap_cons in Hc. destruct (start_value base' m' k p _ Hc Hk (proj1 Hf') Hv) as (p1 & E & H1 & H2 & H3).
      assert (Hlate : Forall (fun m => (k < mv_from m)%nat) r) by (eapply Forall_impl; [exact (in_turn_all _ _ Hit')|]; cbn; intros; lia).
      assert (Hone : automation base' (m' :: r) k = automation base' [m'] k) by (apply automation_one; [lia|done]).
      exists p1, base', (Some m'), r. rewrite Hsame, Hone by lia. split; [exact E|]. split; [|split; [|split]].
      + split; [done|]. split; [done|]. split; [done|]. split; [eapply Forall_impl; [exact Hlate|]; cbn; intros; lia|].
        split; [lia|]. split; [done|]. split; [done|]. cbn [set_value pa_value]. f_equal. lia.
      + intros k' Hk'. by rewrite Hsame by lia.
      + intros m Hm. apply elem_of_cons in Hm as [->|Hm]; [by right|by left].
      + intros x Hx. by right.
  Qed.

  Lemma frames ask n : forall k base cur rest p, state ask k base cur rest p -> (forall m, m ∈ rest -> mv_end m ∈ ask \/ (k + n <= mv_from m)%nat) ->
    exists p1 v base' cur' rest',
      frame_loop R_num ((fun i => Z.of_nat i * q)%Z <$> seq k n) sr (pa_value p) p = Ok (p1, v, automation base (started cur ++ rest) <$> seq k n) /\
      state ask (k + n) base' cur' rest' (set_value v p1) /\
      (forall k', (k + n <= k')%nat -> automation base' (started cur' ++ rest') k' = automation base (started cur ++ rest) k') /\
      (forall m, m ∈ rest -> m ∈ rest' \/ (mv_from m < k + n)%nat) /\ rest' ⊆ rest.
  Proof.
    induction n as [|n IH]; intros k base cur rest p Hs Hask.
    - exists p, (pa_value p), base, cur, rest. cbn [seq fmap list_fmap frame_loop]. rewrite Nat.add_0_r, set_value_same. split; [done|]. split; [done|]. split; [done|]. split; [by left|done].
    - destruct (frame ask k base cur rest p Hs) as (p1 & base1 & cur1 & rest1 & E1 & S1 & A1 & R1 & Sub1).
      { intros m Hm. destruct (Hask m Hm); [by left|right; lia]. }
      destruct (IH (S k) base1 cur1 rest1 _ S1) as (p2 & v2 & base2 & cur2 & rest2 & E2 & S2 & A2 & R2 & Sub2).
      { intros m Hm. destruct (Hask m (Sub1 _ Hm)); [by left|right; lia]. }
      rewrite frame_loop_stored in E2. cbn [set_value pa_value] in E2. cbn [seq]. rewrite !fmap_cons. cbn [frame_loop]. rewrite E1. cbn [rbind].
      match type of E2 with context [frame_loop R_num ?a ?b ?c ?d] => destruct (frame_loop R_num a b c d) as [[[p3 v3] o3]|] eqn:E3 end; [|done].
      cbn [rbind] in E2. injection E2 as <- <- ->. 
      exists p3, v3, base2, cur2, rest2. split; [|split; [|split; [|split]]].
      + cbn [rbind]. do 3 f_equal. apply list_fmap_ext. intros i x Hx. apply lookup_seq in Hx as [-> _]. apply A1. lia.
      + replace (k + S n)%nat with (S k + n)%nat by lia. done.
      + intros k' Hk'. rewrite A2 by lia. apply A1. lia.
      + intros m Hm. destruct (R1 m Hm) as [Hm'|?]; [|right; lia]. destruct (R2 m Hm') as [?|?]; [by left|right; lia].
      + intros x Hx. by apply Sub1, Sub2.
  Qed.

  Lemma at_rest_static ask k base cur rest p : state ask k base cur rest p -> is_static R_num p = true -> at_rest R_num p.
  Proof.
    intros (Hc & _ & Hfit & _ & Hcur) Hst. unfold is_static in Hst. apply andb_true_iff in Hst as [Hst _]. apply andb_true_iff in Hst as [H1 H2].
    cbn [R_num n_close n_one n_zero] in H1, H2. unfold at_rest. cbn [R_num n_zero n_one].
    assert (G : forall m, cur = Some m -> mv_to m = base \/ mv_shape m = Jump -> pa_value p = c_value (pa_current p)).
    { intros m -> Hto. destruct Hcur as (Hm & -> & _ & ->). cbn [automation c_value change_of]. destruct (Nat.ltb_spec (k - 1) (mv_from m)); [lia|].
      destruct (Nat.ltb_spec (k - 1) (mv_end m)) as [He|]; [|done]. unfold along. destruct (mv_shape m) eqn:Es; [done| |].
      - destruct Hto as [->|?]; [ring|done].
      - destruct Hto as [Hto|?]; [|done]. cbn in Hfit. destruct Hfit as [Hf _]. unfold fit in Hf. rewrite Es in Hf. destruct Hf as (_ & Hb & _).
        rewrite Hto. unfold Rdiv at 1. rewrite Rinv_r by lra. unfold Rpower. rewrite ln_1, Rmult_0_r, exp_0. ring. }
    destruct cur as [m|]; [|destruct Hcur as (-> & -> & -> & ->); split; [done|]; split; [done|]; split; [done|apply R_steady]].
    cbn in Hfit. destruct Hfit as [Hf _]. destruct Hcur as (Hm & Hp & Hmv & Hval). unfold moving in Hmv. unfold fit in Hf. destruct (mv_shape m) eqn:Es.
    - destruct Hmv as [-> ->]. split; [done|]. split; [done|]. split; [by apply (G m); [done|right]|apply R_steady].
    - destruct Hmv as [-> Hi]. destruct Hf as [_ [Hto|Hf]].
      + split; [rewrite Hi, Hto; unfold Rdiv; ring|]. split; [done|]. split; [by apply (G m); [done|left]|apply R_steady].
      + apply closeR_0 in H2. rewrite Hi in H2. lra.
    - destruct Hmv as [Hco Hi]. destruct Hf as (_ & Hb & Ht & [Hto|Hf]).
      + split; [done|]. split; [|split; [by apply (G m); [done|left]|apply R_steady]]. rewrite Hco, Hto. unfold Rdiv at 1. rewrite Rinv_r by lra.
        unfold Rpower. by rewrite ln_1, Rmult_0_r, exp_0.
      + rewrite Hco in H1. congruence.
  Qed.

  Lemma in_time_all gs : forall k, in_time k gs -> Forall (fun m => (k <= mv_from m)%nat) (asked gs).
  Proof.
    induction gs as [|[m|n] gs IH]; intros k H; [constructor| |].
    - destruct H as [H1 H2]. cbn. constructor; [done|by apply IH].
    - cbn in *. eapply Forall_impl; [by apply IH|]. cbn. intros; lia.
  Qed.

  Lemma gestures gs : forall ask k base cur rest p, state ask k base cur rest p -> in_time k gs -> (forall n, Play n ∈ gs -> (Z.of_nat n * q <= 2 ^ 53)%Z) ->
    (forall m, m ∈ rest -> mv_end m ∈ ask \/ m ∈ asked gs) -> (forall m, m ∈ asked gs -> m ∈ rest /\ mv_end m ∉ ask) -> NoDup (ends (asked gs)) ->
    exists p', run_param R_num sr p (engine_ops q k gs) = Ok (p', automation base (started cur ++ rest) <$> seq k (played_frames gs)).
  Proof.
    induction gs as [|[m|n] gs IH]; intros ask k base cur rest p Hs Ht Hb Hr Ha Hnd.
    - by exists p.
    - destruct Ht as [Ht1 Ht2]. change (asked (Ask m :: gs)) with (m :: asked gs) in *. destruct (Ha m) as [Hm Hma]; [by left|].
      cbn [ends fmap list_fmap] in Hnd. apply NoDup_cons in Hnd as [Hn1 Hn2].
      cbn [engine_ops run_param played_frames]. apply (IH (mv_end m :: ask)); [|done| | | |done].
      + destruct Hs as (Hc & Hit & Hfit & Hge & Hcur). assert (Hit' : in_turn rest) by (destruct cur; [by apply (in_turn_tail m0)|done]).
        split; [|split; [done|split; [done|split; [done|]]]].
        * unfold add_change. cbn [pa_changes]. rewrite Hc, sort_changes_snoc by (by apply pending_sorted). by apply pending_insert.
        * destruct cur; exact Hcur.
      + intros n Hn. apply Hb. by right.
      + intros x Hx. destruct (Hr x Hx) as [?|Hx2]; [left; by right|]. apply elem_of_cons in Hx2 as [->|?]; [left; by left|by right].
      + intros x Hx. destruct (Ha x) as [? Hxa]; [by right|]. split; [done|]. rewrite elem_of_cons. intros [He|?]; [|done]. apply Hn1. rewrite <- He. by apply elem_of_list_fmap_1.
    - change (asked (Play n :: gs)) with (asked gs) in *. cbn [in_time] in Ht. pose proof (in_time_all _ _ Ht) as Hall. rewrite Forall_forall in Hall.
      destruct (frames ask n k base cur rest p Hs) as (p1 & v & base1 & cur1 & rest1 & E & S1 & A1 & R1 & Sub1).
      { intros m Hm. destruct (Hr m Hm) as [?|H]; [by left|right; by apply Hall]. }
      destruct (IH ask (k + n)%nat base1 cur1 rest1 _ S1 Ht) as (p2 & E2); [|intros m Hm; apply Hr; by apply Sub1| |done|].
      { intros n' Hn. apply Hb. by right. }
      { intros m Hm. destruct (Ha m Hm) as [H1 H2]. split; [|done]. destruct (R1 m H1) as [?|?]; [done|]. specialize (Hall _ Hm). lia. }
      exists p2. cbn [engine_ops run_param played_frames]. rewrite process_loop by (intros; by eapply at_rest_static).
      rewrite (frame_times_exact sr q) by (done || (apply Hb; by left)).
      assert (Et : (fun i => (Z.of_nat k * q + Z.of_nat i * q)%Z) <$> seq 0 n = (fun i => Z.of_nat i * q)%Z <$> seq k n).
      { symmetry. apply (seq_shift_fmap (fun i => Z.of_nat i * q)%Z). intros i _. lia. }
      rewrite Et, E. cbn [rbind]. rewrite E2. cbn [rbind]. do 2 f_equal. rewrite seq_app, fmap_app. f_equal.
      apply list_fmap_ext. intros i x Hx. apply lookup_seq in Hx as [-> _]. apply A1. lia.
  Qed.

  Lemma in_turn_nodup l : in_turn l -> NoDup (ends l).
  Proof.
    induction l as [|m l IH]; intros H; [constructor|]. cbn. constructor; [|apply IH; by eapply in_turn_tail].
    pose proof (in_turn_all _ _ H) as Hall. rewrite Forall_forall in Hall. intros Hm. apply elem_of_list_fmap in Hm as (y & E & Hy). specialize (Hall _ Hy). lia.
  Qed.

  Lemma automation_ok v l k gs : in_turn l -> all_fit v l -> asked gs ≡ₚ l -> in_time k gs -> (forall n, Play n ∈ gs -> (Z.of_nat n * q <= 2 ^ 53)%Z) ->
    exists p', run_param R_num sr (new_param R_num v) (engine_ops q k gs) = Ok (p', automation v l <$> seq k (played_frames gs)).
  Proof.
    intros Hit Hfit Hp Ht Hb. pose proof (in_time_all _ _ Ht) as Hk; rewrite Hp in Hk. apply (gestures gs [] k v None l); [|done|done| | |].
    - split; [|split; [done|split; [done|split; [done|done]]]]. cbn [new_param pa_changes]. unfold pending. clear. induction l as [|m l IH]; [done|].
      rewrite filter_cons. rewrite decide_False; [done|]. apply not_elem_of_nil.
    - intros m Hm. right. by rewrite Hp.
    - intros m Hm. rewrite Hp in Hm. split; [done|]. apply not_elem_of_nil.
    - unfold ends. rewrite Hp. by apply in_turn_nodup.
  Qed.
End automation.

(** ** In an engine *)
Lemma asked_app a b : asked (a ++ b) = asked a ++ asked b.
Proof. unfold asked. apply bind_app. Qed.
Lemma played_app a b : played_frames (a ++ b) = (played_frames a + played_frames b)%nat.
Proof. induction a as [|[m|n] a IH]; cbn [app played_frames]; lia. Qed.
Lemma engine_ops_app q a b : forall k, engine_ops q k (a ++ b) = engine_ops q k a ++ engine_ops q (k + played_frames a) b.
Proof.
  induction a as [|[m|n] a IH]; intros k; cbn [app played_frames engine_ops]; [by rewrite Nat.add_0_r|by rewrite IH|]. by rewrite IH, Nat.add_assoc.
Qed.
Lemma in_time_plays ns gs : forall k, in_time (k + sum_list ns) gs -> in_time k ((Play <$> ns) ++ gs).
Proof.
  induction ns as [|n ns IH]; intros k H; cbn [fmap list_fmap app in_time]; [by rewrite Nat.add_0_r in H|]. apply IH. change (sum_list (n :: ns)) with (n + sum_list ns)%nat in H. by rewrite Nat.add_assoc in H.
Qed.
Lemma asked_plays ns : asked (Play <$> ns) = [].
Proof. induction ns as [|n ns IH]; [done|]. exact IH. Qed.
Lemma played_plays ns : played_frames (Play <$> ns) = sum_list ns.
Proof. induction ns as [|n ns IH]; [done|]. cbn [fmap list_fmap played_frames]. by rewrite IH. Qed.
Lemma aops_app {V} (a b : list (pevent V)) : aops_of (a ++ b) = aops_of a ++ aops_of b.
Proof. unfold aops_of. apply bind_app. Qed.

Lemma length_app bs bs' : length_of (bs ++ bs') = (length_of bs + length_of bs')%nat.
Proof. unfold length_of. rewrite fmap_app. induction (bs.*2) as [|x r IH]; [done|]; cbn in *; lia. Qed.

Section engine.
  Context (sr : nat) (q : Z) (Hq : (Z.of_nat sr * q = 2 ^ 32)%Z) (Hq0 : (0 < q)%Z).
  Lemma time_exact f : (Z.of_nat f * q <= 2 ^ 53)%Z -> time_of sr f = (Z.of_nat f * q)%Z.
  Proof. intros Hf. apply (frame_time_exact (Z.of_nat f) (Z.of_nat sr) q); nia. Qed.
  Lemma blocks_plays (bs : list (timestamp * nat)) : forall pos, stream_blocks sr pos bs -> (Z.of_nat (pos + length_of bs) * q <= 2 ^ 53)%Z ->
    aops_of (V := R) ((fun b => PBlock b.1 b.2) <$> bs) = engine_ops q pos (Play <$> bs.*2).
  Proof.
    induction bs as [|[t n] bs IH]; intros pos Hs Hb; [done|]. change (length_of ((t, n) :: bs)) with (n + length_of bs)%nat in Hb. cbn [stream_blocks] in Hs. destruct Hs as [(p & o & Hpo & ->) Hs].
    change (aops_of (V := R) ((fun b : timestamp * nat => PBlock b.1 b.2) <$> ((time_of sr p + time_of sr o)%Z, n) :: bs))
      with (ABlock (V := R) (time_of sr p + time_of sr o)%Z n :: aops_of (V := R) ((fun b : timestamp * nat => PBlock b.1 b.2) <$> bs)).
    cbn [fmap list_fmap engine_ops snd]. f_equal.
    - rewrite !time_exact by nia. f_equal. nia.
    - apply (IH (pos + n)%nat); [done|]. by rewrite <- Nat.add_assoc.
  Qed.

  Lemma calls_gestures {A P} MF n name (os : list (nop R A P)) : (0 < MF)%nat -> forall on pos l, calls_ask q n name on pos os l ->
    (Z.of_nat (pos + length_of (NodeSpec.blocks_of MF sr on pos os)) * q <= 2 ^ 53)%Z ->
    exists gs, aops_of (events_of MF sr n name on pos os) = engine_ops q pos gs /\ asked gs = l /\ in_time pos gs /\
      played_frames gs = length_of (NodeSpec.blocks_of MF sr on pos os) /\ (forall e, PCancel e ∉ events_of MF sr n name on pos os).
  Proof.
    intros Hm. induction os as [|o os IH]; intros on pos l Hc Hb.
    { exists []. cbn in Hc. subst l. repeat (split; [done|]). intros e. apply not_elem_of_nil. }
    destruct o; cbn [calls_ask NodeSpec.blocks_of events_of] in *; try (by apply IH).
    - case_decide as Hd.
      + destruct l as [|m l]; [done|]. destruct Hc as (-> & Ht & Hc). destruct (IH _ _ _ Hc Hb) as (gs & E1 & E2 & E3 & E4 & E5).
        exists (Ask m :: gs). split; [cbn [app engine_ops]; rewrite <- E1; reflexivity|]. split; [change (m :: asked gs = m :: l); by rewrite E2|].
        split; [done|]. split; [done|]. intros e He. cbn [app] in He. apply elem_of_cons in He as [He|He]; [discriminate He|]. by apply (E5 e).
      + cbn [app]. by apply IH.
    - destruct Hc as [Hn Hc]. rewrite decide_False by done. cbn [app]. by apply IH.
    - destruct on; [|by apply IH]. match goal with |- context [callback_blocks _ _ _ ?k] => set (fr := k) in * end.
      destruct (callback_stream MF sr fr pos Hm) as [H1 H2]. rewrite length_app, H2 in Hb |- *.
      destruct (IH _ _ _ Hc) as (gs & E1 & E2 & E3 & E4 & E5); [by rewrite <- Nat.add_assoc|].
      assert (Hsum : sum_list (callback_blocks MF sr pos fr).*2 = fr) by exact H2.
      exists ((Play <$> (callback_blocks MF sr pos fr).*2) ++ gs). split; [|split; [|split; [|split]]].
      + rewrite aops_app, engine_ops_app, (blocks_plays _ pos), played_plays, Hsum; [by rewrite E1|done|rewrite H2; nia].
      + by rewrite asked_app, asked_plays, E2.
      + apply in_time_plays. by rewrite Hsum.
      + by rewrite played_app, played_plays, Hsum, E4.
      + intros e He. apply elem_of_app in He as [He|He]; [|by apply (E5 e)]. apply elem_of_list_fmap in He as (? & He & _). discriminate He.
  Qed.

  Lemma plays_bounded gs n : Play n ∈ gs -> (n <= played_frames gs)%nat.
  Proof. induction gs as [|[m|k] gs IH]; intros H; [by apply elem_of_nil in H| |]; apply elem_of_cons in H as [H|H]; try discriminate H; cbn [played_frames]; [by apply IH|injection H as ->; lia|specialize (IH H); lia]. Qed.

  Lemma automation_engine {A P} MF n name on pos (os : list (nop R A P)) v l l' : (0 < MF)%nat ->
    (Z.of_nat (pos + length_of (NodeSpec.blocks_of MF sr on pos os)) * q <= 2 ^ 53)%Z -> calls_ask q n name on pos os l' -> l' ≡ₚ l -> in_turn l -> all_fit v l ->
    valued sr v (events_of MF sr n name on pos os) (automation v l <$> seq pos (length_of (NodeSpec.blocks_of MF sr on pos os))).
  Proof.
    intros Hm Hb Hc Hp Hit Hfit. destruct (calls_gestures MF n name os Hm on pos l' Hc Hb) as (gs & E1 & E2 & E3 & E4 & E5).
    unfold valued. rewrite run_events_aops by done. rewrite E1, <- E4. apply automation_ok; [done|done|done|done|by rewrite E2|done|].
    intros k Hk. apply plays_bounded in Hk. nia.
  Qed.

  Lemma automation_gain nbuf max_ch max_fr sh dr n cc initial before after st out l l' :
    let os := before ++ NNew n cc cc (gain_state R_num initial) :: NInput n :: NOutput n :: after in
    let proc := dsp_process R_num (fun v => v) (gain_run gain_process_R) in
    good_setup proc nbuf max_fr sr sh dr (to_pop <$> os) -> direct n before after -> unprocessed [] (to_pop <$> os) = [] ->
    prun 0%R Rplus proc sh dr (new_processor 0%R nbuf sr max_ch max_fr) (to_pop <$> os) = Ok (st, out) ->
    let on := running false (sent (to_pop <$> before)) in
    let pos := frames_played false (to_pop <$> before) in
    let frames := length_of (NodeSpec.blocks_of max_fr sr on pos after) in
    (Z.of_nat (pos + frames) * q <= 2 ^ 53)%Z -> calls_ask q n "gain" on pos after l' -> l' ≡ₚ l -> in_turn l -> all_fit initial l ->
    amplified (/ 2 ^ 22) max_ch cc on after (drop (callbacks before) out) (automation initial l <$> seq pos frames).
  Proof.
    intros os proc Hg Hd Hu E on pos frames Hb Hc Hp Hit Hfit.
    destruct (engine_gain nbuf max_ch max_fr sr sh dr n cc initial before after st out Hg Hd Hu E) as (p & gains & Er & Ha).
    destruct (automation_engine max_fr n "gain" on pos after initial l l') as (p' & Ev); [apply Hg|done|done|done|done|done|].
    cbv zeta in Er. fold on pos in Er. rewrite Ev in Er. injection Er as <- <-. exact Ha.
  Qed.
End engine.
