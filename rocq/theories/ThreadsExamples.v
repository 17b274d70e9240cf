(** Schedules of the engine of ProcessorExamples.v. *)
From stdpp Require Import functions gmap list.
From Coq Require Import ZArith Lia ZifyBool ZifyNat.
From Verif Require Import Base Graph TopoSort TopoSortSpec TopoSortProofs Buffer BufferSpec DspGraph
  DspGraphSpec DspGraphExamples Float Timestamp Processor ProcessorSpec ProcessorExamples
  Threads ThreadsSpec ThreadsProofs.

Notation demo_trun := (trun 0%Z Z.add clock_proc (λ _, rev_order) (λ _ l, l) 512 (new_world 0%Z 8 100 2 4)).
Notation demo_good := (good_threads clock_proc 8 4 100 (λ _, rev_order) (λ _ l, l)).

(** the callback of [n] frames *)
Definition begin (n : nat) : act Z Z := ABegin (Owned (replicate n 7%Z) 1 n 100) Whole (Owned (replicate n 99%Z) 1 n 100) Whole.
Definition add_node (n : id) : act Z Z := ASend (CGraph (GAddDsp n (Dsp 1 1 0%Z))).
Definition remove_node (n : id) : act Z Z := ASend (CGraph (GRemoveDsp n)).

Lemma begin_ok n : act_ok (begin n).
Proof. cbn. unfold wf. cbn. rewrite !replicate_length. repeat split; lia. Qed.

Lemma demo_good_if (s : list (act Z Z)) : Forall act_ok s → (Z.of_nat (length s) <= 2 ^ 64)%Z → demo_good s.
Proof.
  intros H1 H2. split; [exact clock_shape|]. do 3 (split; [lia|]). split; [intros _; apply rev_order_any|]. done.
Qed.

(** two clients: one draws ids and builds the graph while the callbacks run, the other reads
    the time; a connection is sent during the second callback and received in the third; a
    removal is sent between the second and the third and its node collected *)
Definition demo_schedule : list (act Z Z) :=
  [ADraw; add_node 0; ARead; begin 2; ADraw; ASend (CGraph (GInput (EInput, 0))); AReceive; ASend CStart; AReceive; AReceive; AReceive;
   ARender; ASend (CGraph (GOutput (EOutput, 0))); ARead; AStore; ARead;
   begin 10; AReceive; add_node 1; AReceive; AReceive; ASend (CGraph (GAddConn 77 0 1 (Connection 0 0 1))); ADraw; ARender; ARead; AStore; ARead;
   ASend (CGraph (GRemoveConn 0 1)); remove_node 1; begin 3; AReceive; AReceive; AReceive; ARead; ACollect; AReceive; ARender; AStore; ARead].

Lemma demo_schedule_ok : demo_good demo_schedule.
Proof.
  apply demo_good_if; [|cbn; lia].
  unfold demo_schedule. repeat (constructor; [first [done|exact (begin_ok _)]|]). constructor.
Qed.

(** what it observes *)
Definition demo_observed (s : list (act Z Z)) : res (list (list Z) * list timestamp * list id * nat * nat) :=
  let? (w, log) := demo_trun s in
  Ok (data <$> w_outputs w, times_seen log, ids_seen log, length (w_garbage w), length (w_disposed w)).

Lemma demo_schedule_observed :
  demo_observed demo_schedule
  = Ok ([[0; 0]; [27; 27; 27; 27; 67; 67; 67; 67; 107; 107]; [127; 127; 127]]%Z,
        [0; 0; time_of 100 2; time_of 100 2; time_of 100 12; time_of 100 12; time_of 100 15]%Z,
        [0; 1; 2], 0, 1).
Proof. by vm_compute. Qed.

(** A command sent while a callback renders: the time a client sees changes once although
    the command waits. *)
Definition before_change : list (act Z Z) := [ASend CStart; begin 4; AReceive; AReceive; ARender].
Lemma one_change : ∃ (s s' : list (act Z Z)) w0 w1 l0 t0 l1 t1,
  demo_good (s ++ [ASend CStop] ++ [ARead] ++ s' ++ [ARead]) ∧ sends s' = [] ∧
  demo_trun (s ++ [ASend CStop] ++ [ARead]) = Ok (w0, l0 ++ [STime t0]) ∧
  trun 0%Z Z.add clock_proc (λ _, rev_order) (λ _ l, l) 512 w0 (s' ++ [ARead]) = Ok (w1, l1 ++ [STime t1]) ∧
  t0 ≠ t1 ∧ p_queue (w_engine w1) = [CStop].
Proof.
  exists before_change, [AStore].
  assert (E : ∃ w0, demo_trun (before_change ++ [ASend CStop] ++ [ARead]) = Ok (w0, [] ++ [STime 0%Z]) ∧
    ∃ w1, trun 0%Z Z.add clock_proc (λ _, rev_order) (λ _ l, l) 512 w0 ([AStore] ++ [ARead]) = Ok (w1, [] ++ [STime (time_of 100 4)]) ∧
      p_queue (w_engine w1) = [CStop]).
  { eexists. split; [vm_compute; reflexivity|]. eexists. split; [vm_compute; reflexivity|]. reflexivity. }
  destruct E as (w0 & E0 & w1 & E1 & Hq). exists w0, w1, [], 0%Z, [], (time_of 100 4).
  split; [|split; [done|split; [exact E0|split; [exact E1|split; [vm_compute; discriminate|exact Hq]]]]].
  apply demo_good_if; [|cbn; lia]. unfold before_change. cbn [app]. repeat (constructor; [first [done|exact (begin_ok _)]|]). constructor.
Qed.

(** 513 nodes are added and removed before the collector wakes up. *)
Definition removals (n : nat) : list (act Z Z) :=
  (add_node <$> seq 0 n) ++ (remove_node <$> seq 0 n) ++ begin 4 :: replicate (n + (n - 1)) AReceive.
Lemma removals_ok n : (Z.of_nat n <= 2 ^ 60)%Z → demo_good (removals n).
Proof.
  intros Hn. apply demo_good_if.
  - unfold removals. rewrite !Forall_app, !Forall_fmap. do 2 (split; [by apply Forall_true|]).
    constructor; [apply begin_ok|]. by apply Forall_replicate.
  - unfold removals. rewrite !app_length, !fmap_length, seq_length. cbn [length]. rewrite replicate_length. lia.
Qed.
Definition waits (s : list (act Z Z)) : bool :=
  match demo_trun s with
  | Ok (w, _) =>
      match w_audio w, p_queue (w_engine w) with
      | Draining _ _ _ _, c :: _ => match removed (w_engine w) c with Some _ => 512 <=? length (w_garbage w) | None => false end
      | _, _ => false
      end
  | Panic _ => false
  end.
Lemma waits_spec s : waits s = true → ∃ w l, demo_trun s = Ok (w, l) ∧ waits_for_collector 512 w.
Proof.
  unfold waits. destruct (demo_trun s) as [[w l]|]; [|done]. intros H. exists w, l. split; [done|].
  unfold waits_for_collector. destruct (w_audio w); try done. destruct (p_queue (w_engine w)) as [|c q]; [done|].
  destruct (removed (w_engine w) c); [|done]. apply Nat.leb_le in H. done.
Qed.
Lemma removals_wait : waits (removals 513) = true.
Proof. vm_compute. reflexivity. Qed.
Lemma removals_fine : waits (removals 512) = false.
Proof. vm_compute. reflexivity. Qed.
Lemma removals_stall : ∃ s w log, demo_good s ∧ demo_trun s = Ok (w, log) ∧
  number is_removal s = 513 ∧ waits_for_collector 512 w ∧
  stalled (tstep 0%Z Z.add clock_proc (λ _, rev_order) (λ _ l, l) 512) w.
Proof.
  destruct (waits_spec _ removals_wait) as (w & l & E & Hw). exists (removals 513), w, l.
  split; [apply removals_ok; lia|]. split; [exact E|]. split; [by vm_compute|]. split; [exact Hw|]. exact (waiting_stalls 0%Z Z.add clock_proc (λ _, rev_order) (λ _ l, l) 512 w Hw).
Qed.
