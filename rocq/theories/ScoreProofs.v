(** Requests made for frames of a stream, and the frames on which they are carried out. *)
From stdpp Require Import list list_numbers sorting.
From Coq Require Import ZArith Lia ZifyBool ZifyNat.
From Verif Require Import Base Float Timestamp TimestampProofs EventProcessor EventProcessorSpec EventProcessorProofs ProcessorSpec EventChannel StreamSpec MelodySpec.
Local Open Scope nat_scope.

(** ** On which frame a request is carried out *)
Section frames.
Context (sr : nat) (Hsr : (0 < Z.of_nat sr <= 2 ^ 29)%Z).
Lemma time_frame n : time_of sr n = frame_time (Z.of_nat n) (Z.of_nat sr).
Proof. done. Qed.
Lemma start_inc p o : (time_of sr p + time_of sr o)%Z = incremented_by_samples (frame_time (Z.of_nat p) (Z.of_nat sr)) (Z.of_nat o) (Z.of_nat sr).
Proof. done. Qed.
Lemma landing {P} (e : event P) pos p o fc f : p + o = pos → pos ≤ f → reachable_frame sr f → ev_time e = time_of sr f →
  (ev_time e < block_end sr (time_of sr p + time_of sr o)%Z fc)%Z → lands sr f (pos + frame_of sr (time_of sr p + time_of sr o)%Z e).
Proof.
  intros <- Hf [R1 R2] Et _. unfold frame_of. rewrite Et, start_inc, time_frame.
  assert (Hp : (0 <= position_in_frame (incremented_by_samples (frame_time (Z.of_nat p) (Z.of_nat sr)) (Z.of_nat o) (Z.of_nat sr)) (frame_time (Z.of_nat f) (Z.of_nat sr)) (Z.of_nat sr))%Z) by (unfold position_in_frame; lia).
  split.
  - destruct (Z_le_gt_dec (incremented_by_samples (frame_time (Z.of_nat p) (Z.of_nat sr)) (Z.of_nat o) (Z.of_nat sr)) (frame_time (Z.of_nat f) (Z.of_nat sr))) as [Hle|Hgt].
    + pose proof (event_frame (Z.of_nat f) (Z.of_nat p) (Z.of_nat o) (Z.of_nat sr) ltac:(lia) ltac:(lia) ltac:(lia) R1 Hsr R2 Hle) as H. cbn zeta in H. lia.
    + rewrite position_late in * by lia. assert (f = p + o); [|lia]. destruct (decide (f = p + o)) as [->|Hne]; [done|exfalso].
      pose proof (event_after_end (Z.of_nat f) (Z.of_nat p) (Z.of_nat o) 0 (Z.of_nat sr) ltac:(lia) ltac:(lia) ltac:(lia) ltac:(lia) R1 Hsr) as H.
      unfold incremented_by_samples at 1 in H. change (from_samples (f64_of_Z 0) (Z.of_nat sr)) with (frame_time 0 (Z.of_nat sr)) in H. rewrite frame_time_0 in H by lia. lia.
  - intros q Hq Hfq. pose proof (event_frame_exact (Z.of_nat f) (Z.of_nat p) (Z.of_nat o) (Z.of_nat sr) q ltac:(lia) ltac:(lia) ltac:(lia) Hq) as H.
    cbn zeta in H. assert (0 < q)%Z by nia. specialize (H ltac:(lia) ltac:(lia) Hfq). unfold frame_time in *. lia.
Qed.
Lemma left_over {P} (e : event P) pos p o fc f : p + o = pos → pos ≤ f → reachable_frame sr (pos + fc) → ev_time e = time_of sr f →
  (block_end sr (time_of sr p + time_of sr o)%Z fc <= ev_time e)%Z → pos + fc ≤ f.
Proof.
  intros <- Hf [R1 R2] Et Hle. destruct (decide (p + o + fc ≤ f)) as [|Hlt]; [done|exfalso].
  pose proof (event_before_end (Z.of_nat f) (Z.of_nat p) (Z.of_nat o) (Z.of_nat fc) (Z.of_nat sr) ltac:(lia) ltac:(lia) ltac:(lia) ltac:(lia) ltac:(lia) Hsr) as H.
  rewrite Et in Hle. unfold block_end in Hle. rewrite start_inc in Hle. rewrite time_frame in Hle. lia.
Qed.
End frames.

(** ** Delivery in order *)
Definition comes_first {P} (a b : event P) : Prop := (ev_time a <= ev_time b)%Z ∧ ev_seq a < ev_seq b.
Lemma sorted_split {P} (d : list (event P)) : ∀ es r, StronglySorted comes_first es → es ≡ₚ d ++ r → StronglySorted ev_before d →
  (∀ x y, x ∈ d → y ∈ r → (ev_time x < ev_time y)%Z) → ∃ r', es = d ++ r' ∧ r' ≡ₚ r.
Proof.
  induction d as [|x d IH]; intros es r Hs Hp Hd Hr; [by exists es|]. inversion Hd as [|?? Hd1 Hd2]; subst.
  destruct es as [|e es]; [by apply Permutation_nil in Hp|]. inversion Hs as [|?? Hs1 Hs2]; subst.
  assert (e = x) as ->.
  { assert (Hx : x ∈ e :: es) by (rewrite Hp; by left). apply elem_of_cons in Hx as [->|Hx]; [done|exfalso]. rewrite Forall_forall in Hs2. destruct (Hs2 x Hx) as [H1 H2].
    assert (He : e ∈ x :: d ++ r) by (change (x :: d ++ r) with ((x :: d) ++ r); rewrite <-Hp; by left). apply elem_of_cons in He as [->|He]; [lia|]. apply elem_of_app in He as [He|He].
    - rewrite Forall_forall in Hd2. destruct (Hd2 e He) as [?|[? ?]]; lia.
    - assert (ev_time x < ev_time e)%Z by (apply Hr; [by left|done]). lia. }
  apply Permutation_cons_inv in Hp. destruct (IH es r Hs1 Hp Hd1) as (r' & -> & Hr'); [intros a b Ha Hb; apply Hr; [by right|done]|]. by exists r'.
Qed.
(** ** Actions on frames *)
(** the frames [pos] … of a stream with the requests [l], each before the frame on which it is carried out *)
Section cast.
Context {X : Type}.
Fixpoint cast (pos : nat) (l : list (nat * X)) (n : nat) : list (option (nat * X)) :=
  match l with
  | [] => replicate n None
  | (g, a) :: l => if g <? pos + n then replicate (g - pos) None ++ Some (g, a) :: cast g l (n - (g - pos)) else replicate n None
  end.
Fixpoint ascending (pos : nat) (gs : list nat) : Prop := match gs with [] => True | g :: gs => pos ≤ g ∧ ascending g gs end.
Lemma ascending_ge gs : ∀ pos, ascending pos gs → Forall (λ g, pos ≤ g) gs.
Proof. induction gs as [|g gs IH]; intros pos H; [constructor|]. destruct H as [H1 H2]. constructor; [done|]. eapply Forall_impl; [exact (IH g H2)|]. cbn. lia. Qed.
Lemma cast_far l : ∀ pos n, Forall (λ ga : nat * X, pos + n ≤ ga.1) l → cast pos l n = replicate n None.
Proof. intros pos n H. destruct l as [|[g a] l]; [done|]. apply Forall_cons in H as [H _]. cbn [cast]. cbn in H. by destruct (Nat.ltb_spec g (pos + n)); [lia|]. Qed.
Lemma cast_skip l : ∀ pos pos' n, pos ≤ pos' → ascending pos' l.*1 → cast pos l (pos' - pos + n) = replicate (pos' - pos) None ++ cast pos' l n.
Proof.
  intros pos pos' n Hle Ha. destruct l as [|[g a] l]; cbn [cast]; [by rewrite replicate_add|]. destruct Ha as [Ha _]. cbn in Ha.
  replace (pos + (pos' - pos + n)) with (pos' + n) by lia. destruct (Nat.ltb_spec g (pos' + n)); [|by rewrite replicate_add].
  rewrite app_assoc, <-replicate_add. f_equal; [f_equal; lia|]. f_equal. f_equal. lia.
Qed.
Lemma cast_app l1 : ∀ pos l2 n1 n2, ascending pos l1.*1 → Forall (λ ga : nat * X, ga.1 < pos + n1) l1 → ascending (pos + n1) l2.*1 →
  cast pos (l1 ++ l2) (n1 + n2) = cast pos l1 n1 ++ cast (pos + n1) l2 n2.
Proof.
  induction l1 as [|[g a] l1 IH]; intros pos l2 n1 n2 Ha Hl H2; cbn [app cast].
  - replace (n1 + n2) with (pos + n1 - pos + n2) by lia. rewrite cast_skip by (done || lia). f_equal. f_equal. lia.
  - destruct Ha as [Ha1 Ha2]. apply Forall_cons in Hl as [Hl1 Hl2]. cbn in Ha1, Hl1.
    destruct (Nat.ltb_spec g (pos + (n1 + n2))); [|lia]. destruct (Nat.ltb_spec g (pos + n1)); [|lia]. rewrite <-app_assoc. cbn [app]. do 2 f_equal.
    replace (n1 + n2 - (g - pos)) with ((n1 - (g - pos)) + n2) by lia. rewrite IH.
    + f_equal. f_equal. lia.
    + done.
    + eapply Forall_impl; [exact Hl2|]. cbn. lia.
    + replace (g + (n1 - (g - pos))) with (pos + n1) by lia. done.
Qed.
Lemma cast_prefix l : ∀ pos n n', n ≤ n' → cast pos l n `prefix_of` cast pos l n'.
Proof.
  induction l as [|[g a] l IH]; intros pos n n' Hn; cbn [cast].
  - exists (replicate (n' - n) None). rewrite <-replicate_add. f_equal. lia.
  - destruct (Nat.ltb_spec g (pos + n)), (Nat.ltb_spec g (pos + n')); try lia.
    + apply prefix_app, prefix_cons, IH. lia.
    + exists (replicate (g - pos - n) None ++ Some (g, a) :: cast g l (n' - (g - pos))). rewrite app_assoc, <-replicate_add. do 2 f_equal. lia.
    + exists (replicate (n' - n) None). rewrite <-replicate_add. f_equal. lia.
Qed.
End cast.

(** ** All blocks *)
Section play.
Context (sr : nat) (Hsr : (0 < Z.of_nat sr <= 2 ^ 29)%Z) (pos0 : nat).
Definition landed {P} (e : event P) (g : nat) : Prop := (ev_time e = 0%Z ∧ g = pos0) ∨ ∃ f, ev_time e = time_of sr f ∧ reachable_frame sr f ∧ pos0 ≤ f ∧ lands sr f g.
Definition due {P} (pos : nat) (e : event P) : Prop := (ev_time e = 0%Z ∧ pos = pos0) ∨ ∃ f, ev_time e = time_of sr f ∧ reachable_frame sr f ∧ pos0 ≤ pos ≤ f.
Fixpoint inbox_due {P} (pos : nat) (inbox : list (list (event P))) (blocks : list (timestamp * nat)) : Prop :=
  match inbox, blocks with
  | [], _ => True
  | l :: inbox, [] => Forall (due pos) l ∧ inbox_due pos inbox []
  | l :: inbox, (_, fc) :: blocks => Forall (due pos) l ∧ inbox_due (pos + fc) inbox blocks
  end.
Lemma lands_self f : lands sr f f.
Proof. split; [by left|done]. Qed.
Lemma time_le f g : reachable_frame sr f → reachable_frame sr g → (time_of sr f <= time_of sr g)%Z → f ≤ g.
Proof.
  intros [F1 F2] [G1 G2] Hle. destruct (decide (f ≤ g)) as [|Hgt]; [done|exfalso].
  pose proof (frame_time_strict (Z.of_nat g) (Z.of_nat f) (Z.of_nat sr) ltac:(lia) ltac:(lia) ltac:(lia)). rewrite !time_frame in Hle. lia.
Qed.
Lemma time_0 : time_of sr 0 = 0%Z.
Proof. rewrite time_frame. apply frame_time_0. lia. Qed.
Lemma reachable_0 : reachable_frame sr 0.
Proof. split; lia. Qed.
Lemma time_nonneg f : reachable_frame sr f → (0 <= time_of sr f)%Z.
Proof. intros [F1 _]. rewrite time_frame. apply frame_time_nonneg; lia. Qed.
Lemma later {P} pos (l : list (event P)) : StronglySorted comes_first l → Forall (due pos) l → ∃ gs, Forall2 landed l gs ∧ ascending pos gs.
Proof.
  intros Hs Hd. assert (H : ∃ gs, Forall2 (λ e g, (ev_time e = 0%Z ∧ g = pos ∧ pos = pos0) ∨ (ev_time e = time_of sr g ∧ reachable_frame sr g ∧ pos0 ≤ pos ≤ g)) l gs ∧ ascending pos gs).
  { induction Hs as [|e l Hs IH He]; [by exists []|]. apply Forall_cons in Hd as [Hd1 Hd2]. destruct (IH Hd2) as (gs & H1 & H2).
    assert (∃ g, ((ev_time e = 0%Z ∧ g = pos ∧ pos = pos0) ∨ (ev_time e = time_of sr g ∧ reachable_frame sr g ∧ pos0 ≤ pos ≤ g)) ∧ pos ≤ g) as (g & Hg & Hge).
    { destruct Hd1 as [[? ?]|(f & ? & ? & ?)]; [exists pos; split; [by left|done]|exists f; split; [by right|lia]]. }
    exists (g :: gs). split; [by constructor|]. split; [done|]. destruct H1 as [|e' g' l gs He' H1]; [done|]. split; [|by destruct H2].
    apply Forall_cons in He as [[Ht _] _]. destruct Hg as [(T & -> & P0)|(T & Rg & Pg)]; [by destruct H2|]. destruct He' as [(T' & -> & P0)|(T' & Rg' & Pg')].
    - assert (g ≤ 0); [|lia]. apply time_le; [done|apply reachable_0|]. rewrite time_0. lia.
    - apply time_le; [done|done|lia]. }
  destruct H as (gs & H1 & H2). exists gs. split; [|done]. eapply Forall2_impl; [exact H1|]. intros e g [(T & -> & ->)|(T & Rg & Pg)]; [by left|].
  right. exists g. split; [done|]. split; [done|]. split; [lia|apply lands_self].
Qed.
Lemma ascending_app gs gs' : ∀ pos pos', ascending pos gs → Forall (λ g, g < pos') gs → pos ≤ pos' → ascending pos' gs' → ascending pos (gs ++ gs').
Proof.
  induction gs as [|g gs IH]; intros pos pos' Ha Hl Hle Ha'; cbn [app].
  - destruct gs' as [|g' gs']; [done|]. destruct Ha' as [H1 H2]. split; [lia|done].
  - destruct Ha as [H1 H2]. apply Forall_cons in Hl as [Hl1 Hl2]. split; [done|]. eapply IH; [done|done| |done]. lia.
Qed.
Lemma due_inbox_all {P} inbox : ∀ pos, inbox_due (P := P) pos inbox [] → Forall (due pos) (concat inbox).
Proof. induction inbox as [|l inbox IH]; intros pos H; [constructor|]. destruct H as [H1 H2]. cbn [concat]. apply Forall_app. split; [done|by apply IH]. Qed.
(** the requests of all blocks, and what is known about them *)
Fixpoint casts {P} (pos : nat) (blocks : list (timestamp * nat)) (ds : list (list (event P))) : list (list (option (nat * event P))) :=
  match blocks, ds with
  | (t, fc) :: blocks, d :: ds => cast pos ((λ e, (pos + frame_of sr t e, e)) <$> d) fc :: casts (pos + fc) blocks ds
  | _, _ => []
  end.
Fixpoint in_order {P} (pos : nat) (blocks : list (timestamp * nat)) (ds : list (list (event P))) : Prop :=
  match blocks, ds with
  | (t, fc) :: blocks, d :: ds => StronglySorted (λ a b, frame_of sr t a ≤ frame_of sr t b) d ∧ Forall (λ e, frame_of sr t e < fc) d ∧
      Forall (λ e, landed e (pos + frame_of sr t e)) d ∧ in_order (pos + fc) blocks ds
  | _, _ => blocks = [] ∧ ds = []
  end.
(** what was sent arrives in some block; nothing is cancelled *)
Fixpoint taken {P} (waiting : list (event P)) (inbox : list (list (event P))) (blocks : list (timestamp * nat)) (ds : list (list (event P))) : Prop :=
  match blocks, ds with
  | [], [] => True
  | (t, fc) :: blocks, d :: ds => ∃ rest, delivers sr t fc (waiting ++ default [] (head inbox)) d rest ∧ taken rest (tail inbox) blocks ds
  | _, _ => False
  end.
Lemma play {P} blocks : ∀ pos (w waiting : list (event P)) inbox ds, stream_blocks sr pos blocks → Forall (λ b : timestamp * nat, block_ok sr b.2) blocks → reachable_frame sr (pos + length_of blocks) →
  taken waiting inbox blocks ds → waiting ≡ₚ w → StronglySorted comes_first (w ++ concat inbox) → Forall (due pos) w → inbox_due pos inbox blocks → pos0 ≤ pos →
  ∃ gs, Forall2 landed (w ++ concat inbox) gs ∧ ascending pos gs ∧ in_order pos blocks ds ∧
    concat (casts pos blocks ds) = cast pos (zip gs (w ++ concat inbox)) (length_of blocks).
Proof.
  induction blocks as [|[t fc] blocks IH]; intros pos w waiting inbox ds Hb Hok Hr Har Hw Hs Hdw Hdi Hpos.
  - destruct (later pos (w ++ concat inbox)) as (gs & H1 & H2); [done|apply Forall_app; split; [done|]; apply due_inbox_all; by destruct inbox|].
    exists gs. split; [done|]. split; [done|]. destruct ds; [|done]. split; [done|]. cbn [casts concat]. symmetry. rewrite cast_far; [done|].
    apply Forall_forall. intros [g a] Hin. apply elem_of_zip_l in Hin. pose proof (ascending_ge _ _ H2) as Hge. rewrite Forall_forall in Hge. specialize (Hge g Hin). unfold length_of. cbn. lia.
  - destruct ds as [|d ds]; [done|]. destruct Hb as [(p & o & Hpo & ->) Hb]. destruct Har as (rest & (D1 & D2 & D3 & D4) & Har). apply Forall_cons in Hok as [Hf Hok]. cbn [snd] in Hf.
    change (length_of ((_, fc) :: blocks)) with (fc + length_of blocks) in *.
    set (start := (time_of sr p + time_of sr o)%Z) in *. set (here := default [] (head inbox)) in *.
    assert (Hcat : concat inbox = here ++ concat (tail inbox)) by (unfold here; by destruct inbox).
    assert (Hdh : Forall (due pos) here ∧ inbox_due (pos + fc) (tail inbox) blocks) by (unfold here; destruct inbox as [|l inbox]; [split; [constructor|by destruct blocks]|exact Hdi]).
    destruct Hdh as [Hdh Hdt]. rewrite Hcat, app_assoc in Hs.
    assert (Hd0 : Forall (due pos) (w ++ here)) by (apply Forall_app; by split).
    assert (Hs0 : StronglySorted comes_first (w ++ here)) by (by apply StronglySorted_app_inv_l in Hs).
    rewrite Forall_forall in D3, D4.
    destruct (sorted_split d (w ++ here) rest Hs0) as (w' & Ew & Hw'); [by rewrite <-Hw|done|intros x y Hx Hy; specialize (D3 x Hx); specialize (D4 y Hy); lia|].
    rewrite Ew in Hd0. apply Forall_app in Hd0 as [Hdd Hdw'].
    assert (Rp : reachable_frame sr (pos + fc)) by (destruct Hr; split; lia).
    assert (Rp' : reachable_frame sr p) by (destruct Hr; split; lia). assert (Ro : reachable_frame sr o) by (destruct Hr; split; lia).
    assert (Hst : (0 <= start)%Z) by (pose proof (time_nonneg p Rp'); pose proof (time_nonneg o Ro); unfold start; lia).
    assert (Hend : (0 < block_end sr start fc)%Z).
    { unfold block_end, incremented_by_samples. change (from_samples (f64_of_Z (Z.of_nat fc)) (Z.of_nat sr)) with (frame_time (Z.of_nat fc) (Z.of_nat sr)).
      destruct Hf as (F1 & F2 & _). pose proof (frame_time_strict 0 (Z.of_nat fc) (Z.of_nat sr) ltac:(lia) ltac:(lia) ltac:(lia)) as H. rewrite frame_time_0 in H by lia. lia. }
    destruct (IH (pos + fc) w' rest (tail inbox) ds) as (gs & G1 & G2 & G4 & G3); [done|done|by rewrite <-Nat.add_assoc|done|by rewrite Hw'| | |done|lia|].
    { rewrite Ew, <-app_assoc in Hs. by apply StronglySorted_app_inv_r in Hs. }
    { apply Forall_forall. intros e He. assert (Hlate : (block_end sr start fc <= ev_time e)%Z) by (apply D4; by rewrite <-Hw').
      rewrite Forall_forall in Hdw'. destruct (Hdw' e He) as [[T _]|(f & T & Rf & Pf)]; [lia|]. right. exists f. split; [done|]. split; [done|]. split; [lia|].
      by eapply (left_over sr Hsr e pos p o fc f); [done|lia|done|done|]. }
    assert (Hfr : Forall (λ e, frame_of sr start e < fc) d).
    { apply Forall_forall. intros e He. specialize (D3 e He). unfold frame_of. pose proof (position_before_end start (ev_time e) (Z.of_nat fc) (Z.of_nat sr)) as H.
      destruct Hf as (F1 & F2 & _). specialize (H ltac:(lia) ltac:(lia) D3). lia. }
    assert (Hmono : StronglySorted (λ a b, frame_of sr start a ≤ frame_of sr start b) d).
    { clear -D2 Hsr. induction D2 as [|a l Hs IH Ha]; constructor; [done|]. eapply Forall_impl; [exact Ha|]. intros b Hb. cbv beta.
      apply frame_of_mono; [done|]. destruct Hb as [Hb|[Hb _]]; cbv beta in *; lia. }
    assert (Hland : Forall (λ e, landed e (pos + frame_of sr start e)) d).
    { apply Forall_forall. intros e He. rewrite Forall_forall in Hdd. destruct (Hdd e He) as [[T P0]|(f & T & Rf & Pf)].
      - left. split; [done|]. unfold frame_of. rewrite position_late by lia. lia.
      - right. exists f. split; [done|]. split; [done|]. split; [lia|]. eapply (landing sr Hsr e pos p o fc f); [done|lia|done|done|by apply D3]. }
    exists (((λ e, pos + frame_of sr start e) <$> d) ++ gs). rewrite Hcat, app_assoc, Ew, <-app_assoc. split; [|split; [|split]].
    + apply Forall2_app; [|done]. by apply Forall2_fmap_r, Forall_Forall2_diag.
    + eapply (ascending_app _ _ pos (pos + fc)); [|by apply Forall_fmap; eapply Forall_impl; [exact Hfr|]; cbn; intros; lia|lia|done].
      clear -Hmono. assert (H : ∀ m, Forall (λ e, m ≤ frame_of sr start e) d → ascending (pos + m) ((λ e, pos + frame_of sr start e) <$> d)).
      { induction Hmono as [|e d Hs IH He]; intros m Hm; [done|]. apply Forall_cons in Hm as [Hm _]. split; [lia|]. by apply IH. }
      specialize (H 0). rewrite Nat.add_0_r in H. apply H, Forall_forall. lia.
    + by split; [|split; [|split]].
    + cbn [casts concat]. rewrite G3. rewrite (zip_with_app pair) by (by rewrite !fmap_length).
      assert (Ez : zip ((λ e, pos + frame_of sr start e) <$> d) d = (λ e, (pos + frame_of sr start e, e)) <$> d) by (clear; induction d as [|e d IH]; [done|]; cbn; by rewrite IH).
      rewrite Ez, cast_app; [done| | |].
      * rewrite <-list_fmap_compose. clear -Hmono. assert (H : ∀ m, Forall (λ e, m ≤ frame_of sr start e) d → ascending (pos + m) ((fst ∘ λ e, (pos + frame_of sr start e, e)) <$> d)).
        { induction Hmono as [|e d Hs IH He]; intros m Hm; [done|]. apply Forall_cons in Hm as [Hm _]. split; [cbn; lia|]. by apply IH. }
        specialize (H 0). rewrite Nat.add_0_r in H. apply H, Forall_forall. lia.
      * apply Forall_fmap. eapply Forall_impl; [exact Hfr|]. cbn. intros. lia.
      * rewrite fst_zip; [done|]. apply Forall2_length in G1. lia.
Qed.
End play.

(** ** Calls and requests *)
Section requests.
Context {C P : Type} (sends : C → list (nat → event P)).
Lemma number_app n (es es' : list (nat → event P)) : number n (es ++ es') = number n es ++ number (n + length es) es'.
Proof. unfold number. rewrite imap_app. f_equal. apply imap_ext. intros i x _. cbn. f_equal. lia. Qed.
Lemma requests_concat calls : ∀ n, concat (requests sends n calls) = number n (concat calls ≫= sends).
Proof.
  induction calls as [|cs calls IH]; intros n; [done|]. cbn [requests concat]. by rewrite IH, bind_app, number_app.
Qed.
Lemma number_Forall (Q : event P → Prop) es : ∀ n, Forall (λ e, ∀ k, Q (e k)) es → Forall Q (number n es).
Proof.
  intros n H. apply Forall_lookup. intros i e He. unfold number in He. rewrite list_lookup_imap in He. apply fmap_Some in He as (f & Hf & ->). rewrite Forall_lookup in H. by apply (H i f).
Qed.
End requests.
