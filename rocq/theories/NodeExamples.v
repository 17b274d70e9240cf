(** Engines with nodes that have parameters. *)
From stdpp Require Import gmap list list_numbers strings.
From Coq Require Import ZArith Reals Lia Lra ZifyBool ZifyNat.
From Verif Require Import Base Graph GraphSpec TopoSort TopoSortSpec TopoSortProofs Buffer BufferSpec DspGraph DspGraphSpec DspGraphExamples
  Float Timestamp Processor ProcessorSpec ProcessorExamples AudioParam AudioParamSpec AudioParamR MixerR Node NodeSpec NodeGain LimitsSpec LimitsProofs.

(** ** A node over the integers: the input times the parameter "level", plus the number of blocks so far *)
Definition level_run (p : Z) (t : timestamp) (values : string → res (list Z)) (i o : owned Z) : res (Z * owned Z) :=
  let? g := values "level" in
  Ok ((p + 1)%Z, Owned (imap (λ k _, (default 0 (sample i (k / frames o) (k mod frames o)) * default 0 (g !! (k mod frames o)%nat) + p)%Z) (data o))
     (channels o) (frames o) (rate o)).
Definition whole_part (v : Z) : Z := (v / one64)%Z.
Definition level_proc := dsp_process f64_num whole_part level_run.
Definition level_state (v : Z) : dspstate Z Z := DspState {[ "level" := new_param f64_num v ]} 0%Z.

Lemma level_shape : proc_shape level_proc.
Proof.
  intros t st i o st' o' ni no fc E _ (Hw & Hc & Hf). unfold level_proc, dsp_process in E.
  destruct (process_params _ _ _ _ _) as [m|]; [|done]. cbn [rbind] in E. unfold level_run in E.
  destruct (parameter_values _ _ _) as [g|]; [|done]. cbn [rbind] in E. injection E as <- <-. split; [|done].
  unfold wf in *. cbn. by rewrite imap_length.
Qed.

Definition level_good (_ _ : nat) (names : gset string) (_ : Z) : Prop := "level" ∈ names.
Lemma level_run_good max_fr sr : run_ok level_good level_run max_fr sr.
Proof.
  intros ni no names p t values i o fc _ Hg Hi (Hw & Hc & Hf) _ _ Hv. destruct (Hv "level" Hg) as (g & Eg & _).
  unfold level_run. rewrite Eg. cbn [rbind]. eexists _, _. split; [done|]. split; [|done]. split; [|done]. unfold wf in *. cbn. by rewrite imap_length.
Qed.

Definition call (n : nat) (x : Z) : nop Z Z Z := NCallback (Owned (replicate n x) 1 n 100) Whole (Owned (replicate n 99%Z) 1 n 100) Whole.
Definition seconds (hundredths : Z) : timestamp := (hundredths * 2 ^ 96 / 100)%Z.
(** another node first; then the node, one callback of 6 frames in blocks of 4, a change at 0.08 s, one
    already cancelled, and a callback of 5 frames *)
Definition level_before : list (nop Z Z Z) := [NNew 7 1 1 (level_state one64); NStart; call 2 5].
Definition level_after : list (nop Z Z Z) :=
  [call 6 10; NChange 0 "level" (Change (f64_of_Z 5) (time_of 100 20) Immediate); NCancel 0 "level" None;
   NChange 0 "level" (Change (f64_of_Z 3) (time_of 100 10) Immediate); NChange 7 "level" (Change (f64_of_Z 9) 0%Z Immediate); call 5 10].
Definition level_history : list (nop Z Z Z) := level_before ++ NNew 0 1 1 (level_state (f64_of_Z 2)) :: NInput 0 :: NOutput 0 :: level_after.

Lemma call_ok n x : pop_ok (to_pop (call n x)).
Proof. cbn. unfold wf. cbn. rewrite !replicate_length. repeat split; lia. Qed.
Lemma level_history_ok : good_setup level_proc 8 4 100 (λ _, rev_order) (λ _ l, l) (to_pop <$> level_history).
Proof.
  split; [exact level_shape|]. do 3 (split; [lia|]). split; [intros _; apply rev_order_any|].
  split; [done|]. split; [|constructor].
  repeat (constructor; [first [exact (call_ok _ _)|done]|]). constructor.
Qed.
Lemma level_history_direct : direct 0 level_before level_after.
Proof.
  split; [|split; [|split]].
  - intros eid m c Hin. vm_compute in Hin. repeat (apply elem_of_cons in Hin as [Hin|Hin]; [discriminate Hin|]). by apply elem_of_nil in Hin.
  - intros Hin. vm_compute in Hin. repeat (apply elem_of_cons in Hin as [Hin|Hin]; [discriminate Hin|]). by apply elem_of_nil in Hin.
  - intros m Hin. vm_compute in Hin. repeat (apply elem_of_cons in Hin as [Hin|Hin]; [discriminate Hin|]). by apply elem_of_nil in Hin.
  - intros m Hin. vm_compute in Hin. repeat (apply elem_of_cons in Hin as [Hin|Hin]; [discriminate Hin|]). by apply elem_of_nil in Hin.
Qed.
Definition level_outputs : res (list (list Z)) :=
  let? (_, l) := prun 0%Z Z.add level_proc (λ _, rev_order) (λ _ l, l) (new_processor 0%Z 8 100 2 4) (to_pop <$> level_history) in Ok (data <$> l).
Lemma level_history_outputs :
  level_outputs = Ok [[0; 0]; [20; 20; 20; 20; 21; 21]; [22; 22; 32; 32; 33]]%Z.
Proof. vm_compute. reflexivity. Qed.

(** ** A program that keeps within the limits *)
Definition demo_program : list (nop Z Z Z) :=
  [NNew 1 1 1 (level_state (f64_of_Z 2)); NNew 2 1 1 (level_state (f64_of_Z 3)); NConnect 9 1 2 (Connection 0 0 1);
   NInput 1; NOutput 2; NStart; call 6 10; NChange 2 "level" (Change (f64_of_Z 5) 0%Z (Linear 0%Z)); NDisconnect 1 2; NDrop 1;
   NCancel 1 "pan" None; call 3 1; NStop; NNew 3 1 1 (level_state one64); NConnect 10 2 3 (Connection 0 0 1); NConnect 11 3 2 (Connection 0 0 1); call 3 1].

Lemma ranked_acyclic {ND ED} (s : sgraph ND ED) (rank : id → nat) : (∀ c, c ∈ s_conns s → rank (c_from c) < rank (c_to c)) → acyclic s.
Proof.
  intros H n Hn. assert (Hlt : ∀ a b, tc (feeds s) a b → rank a < rank b).
  { intros a b Hab. induction Hab as [a b (c & Hc & <- & <-)|a b c (x & Hc & <- & <-) _ IH]; [by apply H|]. specialize (H x Hc). lia. }
  apply Hlt in Hn. lia.
Qed.
Lemma level_fit v : node_fit level_good 1 1 (level_state v).
Proof.
  split.
  - intros name p Hp. cbn in Hp. apply lookup_singleton_Some in Hp as [<- <-]. constructor.
  - unfold level_good, level_state. cbn [ds_params]. rewrite dom_singleton. set_solver.
Qed.

Section steps.
Context {V A P : Type} (good : nat → nat → gset string → P → Prop) (nbuf MC : nat).
Notation careful := (careful (V := V) (A := A) good nbuf MC).
Lemma do_new s on n i o names st os : dom (ds_params st) = names → s_nodes s !! n = None → i ≤ MC → o ≤ MC → node_fit good i o st →
  careful (SGraph (<[n := (i, o, names)]> (s_nodes s)) (s_conns s)) on os → careful s on (NNew n i o st :: os).
Proof. intros <-. done. Qed.
Lemma do_drop s on n os : (∀ c, c ∈ s_conns s → ¬ touches n c) → careful (SGraph (delete n (s_nodes s)) (s_conns s)) on os → careful s on (NDrop n :: os).
Proof. done. Qed.
Lemma do_connect s on eid a b x os : is_Some (s_nodes s !! a) → is_Some (s_nodes s !! b) → (∀ c, c ∈ s_conns s → ¬ (c_from c = a ∧ c_to c = b)) →
  src_ch x + ch_count x ≤ MC → dst_ch x + ch_count x ≤ MC →
  careful (SGraph (s_nodes s) (s_conns s ++ [Conn eid a b x])) on os → careful s on (NConnect eid a b x :: os).
Proof. done. Qed.
Lemma do_disconnect s on a b cs os : filter (λ c, ¬ (c_from c = a ∧ c_to c = b)) (s_conns s) = cs →
  careful (SGraph (s_nodes s) cs) on os → careful s on (NDisconnect a b :: os).
Proof. by intros <-. Qed.
Lemma do_input s on n os : careful s on os → careful s on (NInput n :: os).
Proof. done. Qed.
Lemma do_output s on n os : careful s on os → careful s on (NOutput n :: os).
Proof. done. Qed.
Lemma do_start s on os : careful s true os → careful s on (NStart :: os).
Proof. done. Qed.
Lemma do_stop s on os : careful s false os → careful s on (NStop :: os).
Proof. done. Qed.
Lemma do_change s on n name c os : (∀ i o names, s_nodes s !! n = Some (i, o, names) → name ∈ names) → ¬ exponential c →
  careful s on os → careful s on (NChange n name c :: os).
Proof. done. Qed.
Lemma do_cancel s on n name e os : (∀ i o names, s_nodes s !! n = Some (i, o, names) → name ∈ names) →
  careful s on os → careful s on (NCancel n name e :: os).
Proof. done. Qed.
Lemma do_callback s on n (x y : A) rank os : (on = true → (∀ c, c ∈ s_conns s → rank (c_from c) < rank (c_to c)) ∧ size (s_nodes s) + 2 ≤ nbuf) →
  careful s on os → careful s on (NCallback (Owned (replicate n x) 1 n 100) Whole (Owned (replicate n y) 1 n 100) Whole :: os).
Proof.
  intros H Ho. cbn [LimitsSpec.careful]. unfold wf. cbn [data channels frames v_frames]. rewrite !replicate_length.
  do 5 (split; [cbn; lia|]). split; [|done]. intros E. destruct (H E) as [Ha Hs]. split; [by eapply ranked_acyclic|done].
Qed.
End steps.

Lemma level_names v : dom (ds_params (level_state v)) = {["level"]}.
Proof. unfold level_state. cbn [ds_params]. by rewrite dom_singleton_L. Qed.
Lemma demo_careful : careful level_good 8 2 sempty false demo_program.
Proof.
  unfold demo_program, call.
  apply (do_new _ _ _ _ _ _ _ _ _ _ _ (level_names _)); [done|lia|lia|apply level_fit|].
  apply (do_new _ _ _ _ _ _ _ _ _ _ _ (level_names _)); [by cbn [s_nodes]; rewrite lookup_insert_ne|lia|lia|apply level_fit|]. cbn [s_nodes s_conns sempty].
  apply do_connect; [by cbn [s_nodes]; rewrite lookup_insert_ne, lookup_insert; [eauto|]|by cbn [s_nodes]; rewrite lookup_insert; eauto|intros c Hc; by apply elem_of_nil in Hc|cbn; lia|cbn; lia|].
  apply do_input, do_output, do_start. cbn [s_nodes s_conns app].
  apply (do_callback _ _ _ _ _ _ _ _ (λ n, n)).
  { intros _. split; [|cbn [s_nodes]; rewrite !map_size_insert_None, map_size_empty; [lia|done|by rewrite lookup_insert_ne]].
    intros c Hc. cbn in Hc. apply elem_of_list_singleton in Hc as ->. cbn. lia. }
  apply do_change; [intros i o names E; cbn [s_nodes] in E; rewrite lookup_insert in E; injection E as <- <- <-; set_solver|by intros [s Hs]|].
  apply (do_disconnect _ _ _ _ _ _ _ []); [done|].
  apply do_drop; [intros c Hc; by apply elem_of_nil in Hc|]. cbn [s_nodes s_conns].
  rewrite delete_insert_ne, delete_insert by done.
  apply do_cancel; [intros i o names E; cbn [s_nodes] in E; rewrite lookup_insert_ne in E by done; done|].
  apply (do_callback _ _ _ _ _ _ _ _ (λ n, n)).
  { intros _. split; [intros c Hc; by apply elem_of_nil in Hc|]. cbn [s_nodes]. rewrite map_size_insert_None, map_size_empty; [lia|done]. }
  apply do_stop. apply (do_new _ _ _ _ _ _ _ _ _ _ _ (level_names _)); [by cbn [s_nodes]; rewrite lookup_insert_ne|lia|lia|apply level_fit|]. cbn [s_nodes s_conns].
  apply do_connect; [by cbn [s_nodes]; rewrite lookup_insert_ne, lookup_insert; [eauto|]|by cbn [s_nodes]; rewrite lookup_insert; eauto|intros c Hc; by apply elem_of_nil in Hc|cbn; lia|cbn; lia|].
  cbn [s_nodes s_conns app].
  apply do_connect; [by cbn [s_nodes]; rewrite lookup_insert; eauto|by cbn [s_nodes]; rewrite lookup_insert_ne, lookup_insert; [eauto|]| |cbn; lia|cbn; lia|].
  { intros c Hc. cbn in Hc. apply elem_of_list_singleton in Hc as ->. cbn. lia. }
  apply (do_callback _ _ _ _ _ _ _ _ (λ n, n)); done.
Qed.

Definition demo_program_outputs : res (list (list Z)) :=
  let? (_, l) := prun 0%Z Z.add level_proc (λ _, rev_order) (λ _ l, l) (new_processor 0%Z 8 100 2 4) (to_pop <$> demo_program) in Ok (data <$> l).
Lemma demo_program_computed : demo_program_outputs = Ok [[60; 60; 60; 60; 64; 64]; [2; 2; 2]; [0; 0; 0]]%Z.
Proof. vm_compute. reflexivity. Qed.

(** ** A gain node over the reals: half from frame 2 on *)
Definition callR (n : nat) (x : R) : nop R R unit := NCallback (Owned (replicate n x) 1 n 100) Whole (Owned (replicate n 0%R) 1 n 100) Whole.
Definition gain_before : list (nop R R unit) := [NStart].
Definition gain_after : list (nop R R unit) := [NChange 0 "gain" (Change (/ 2)%R (time_of 100 2) Immediate); callR 6 10%R].
Definition gain_history : list (nop R R unit) := gain_before ++ NNew 0 1 1 (gain_state R_num 1%R) :: NInput 0 :: NOutput 0 :: gain_after.

Lemma callR_ok n x : pop_ok (to_pop (callR n x)).
Proof. cbn. unfold wf. cbn. rewrite !replicate_length. repeat split; lia. Qed.
Lemma gain_history_ok : good_setup (dsp_process R_num (λ v, v) (gain_run gain_process_R)) 8 4 100 (λ _, rev_order) (λ _ l, l) (to_pop <$> gain_history).
Proof.
  split; [exact gain_shape|]. do 3 (split; [lia|]). split; [intros _; apply rev_order_any|].
  split; [done|]. split; [|constructor].
  repeat (constructor; [first [exact (callR_ok _ _)|done]|]). constructor.
Qed.
Lemma gain_history_direct : direct 0 gain_before gain_after.
Proof.
  split; [|split; [|split]]; [intros eid m c Hin|intros Hin|intros m Hin|intros m Hin];
    repeat (apply elem_of_cons in Hin as [Hin|Hin]; [discriminate Hin|]); by apply elem_of_nil in Hin.
Qed.
Lemma gain_careful : careful gain_good 8 2 sempty false gain_history.
Proof.
  unfold gain_history, gain_before, gain_after, callR. cbn [app]. apply do_start. apply (do_new _ _ _ _ _ _ _ _ {["gain"]}); [|done|lia|lia| |].
  { unfold gain_state. cbn [ds_params]. by rewrite dom_singleton_L. }
  { split.
    - intros name p Hp. cbn in Hp. apply lookup_singleton_Some in Hp as [<- <-]. constructor.
    - unfold gain_good, gain_state. cbn [ds_params]. rewrite dom_singleton. set_solver. }
  apply do_input, do_output. cbn [s_nodes s_conns sempty].
  apply do_change; [intros i o names E; cbn [s_nodes] in E; rewrite lookup_insert in E; injection E as <- <- <-; set_solver|by intros [s Hs]|].
  apply (do_callback _ _ _ _ _ _ _ _ (λ n, n)); [|done].
  intros _. split; [intros c Hc; by apply elem_of_nil in Hc|]. cbn [s_nodes]. rewrite map_size_insert_None, map_size_empty; [lia|done].
Qed.
Lemma gain_runs : ∃ st l, prun 0%R Rplus (dsp_process R_num (λ v, v) (gain_run gain_process_R)) (λ _, rev_order) (λ _ l, l)
  (new_processor 0%R 8 100 2 4) (to_pop <$> gain_history) = Ok (st, l).
Proof.
  apply (careful_never_aborts R_num (λ v, v) 0%R Rplus (gain_run gain_process_R) gain_good 8 2 4 100 (λ _, rev_order) (λ _ l, l));
    [apply gain_run_good|exact gain_shape|lia|lia|intros _; apply rev_order_any|done|lia|constructor|exact gain_careful].
Qed.
Lemma gain_distinct : distinct_frames (timeline 100 (aops_of (events_of 4 100 0 "gain" true 0 gain_after))).
Proof.
  assert (H : ∀ a c, timeline 100 (aops_of (events_of 4 100 0 "gain" true 0 gain_after)) !! a = Some (IAdd c) → a = 0).
  { intros a c. change (timeline 100 (aops_of (events_of 4 100 0 "gain" true 0 gain_after))) with
      (IAdd (Change (/ 2)%R (time_of 100 2) Immediate) :: timeline (V := R) 100 [ABlock (time_of 100 0 + time_of 100 (0 * 4))%Z 4; ABlock (time_of 100 0 + time_of 100 (1 * 4))%Z 2]).
    destruct a as [|a]; [done|]. rewrite lookup_cons. intros Hc. apply elem_of_list_lookup_2 in Hc. unfold timeline in Hc.
    apply elem_of_list_bind in Hc as (o & Hc & Ho). apply elem_of_cons in Ho as [->|Ho]; [|apply elem_of_list_singleton in Ho as ->];
      apply elem_of_list_fmap in Hc as (? & Hc & _); discriminate Hc. }
  intros a1 a2 f c1 c2 (_ & H1 & _) (_ & H2 & _). apply H in H1, H2. congruence.
Qed.
