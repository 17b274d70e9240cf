(** An engine of 8 buffers, 2 channels and blocks of 4 frames at 100 Hz. *)
From stdpp Require Import gmap list.
From Coq Require Import ZArith Lia.
From Verif Require Import Base Graph TopoSort TopoSortSpec TopoSortProofs Buffer BufferSpec DspGraph
  DspGraphSpec DspGraphProofs DspGraphExamples Float Timestamp Processor ProcessorSpec ProcessorProofs.

(** The node adds the number of milliseconds of the block's start time to its
    input and counts the blocks. *)
Definition clock_proc (t : timestamp) (st : Z) (i o : owned Z) : res (Z * owned Z) :=
  Ok ((st + 1)%Z,
      Owned (imap (λ k _, (default 0 (sample i (k / frames o) (k mod frames o)) + 1000 * t / 2 ^ 32)%Z) (data o))
        (channels o) (frames o) (rate o)).

Lemma clock_shape : proc_shape clock_proc.
Proof.
  intros t st i o st' o' ni no fc [= <- <-] _ (Hw & Hc & Hf). split; [|done].
  unfold wf in *. cbn. by rewrite imap_length.
Qed.

Lemma clock_ok max_fr r : proc_ok clock_proc max_fr r toy_node_ok.
Proof.
  intros t ni no st i o fc _ _ Hi Ho _ _.
  destruct (clock_proc t st i o) as [[st' o']|] eqn:E; [|done].
  exists st', o'. split; [done|]. split; [|done]. by eapply clock_shape.
Qed.

Definition demo_engine : processor Z Z := new_processor 0%Z 8 100 2 4.
Definition demo_run := prun 0%Z Z.add clock_proc (λ _, rev_order) (λ _ l, l) demo_engine.
Definition demo_outputs os : res (Z * list (list Z)) :=
  let? (st, l) := demo_run os in Ok (p_time st, data <$> l).

(** callback of [n] frames, one channel, filled with garbage before *)
Definition demo_callback (n : nat) : pop Z Z :=
  PCallback (Owned (replicate n 7%Z) 1 n 100) Whole (Owned (replicate n 99%Z) 1 n 100) Whole.

(** commands, a callback before the start, start, callbacks of 10 and 3 frames, stop,
    a callback and a restart *)
Definition demo_history : list (pop Z Z) :=
  [PSend (CGraph (GAddDsp 0 (Dsp 1 1 0%Z))); PSend (CGraph (GInput (EInput, 0)));
   PSend (CGraph (GOutput (EOutput, 0))); demo_callback 2;
   PSend CStop; PSend CStart; demo_callback 10; demo_callback 3; PSend CStop; demo_callback 2;
   PSend CStart; demo_callback 1].

Lemma demo_history_ok : good_setup clock_proc 8 4 100 (λ _, rev_order) (λ _ l, l) demo_history.
Proof.
  split; [exact clock_shape|]. do 3 (split; [lia|]). split; [intros _; apply rev_order_any|].
  split; [done|]. split; [|constructor].
  assert (Hc : ∀ n, pop_ok (demo_callback n)).
  { intros n. cbn. unfold wf. cbn. rewrite !replicate_length. repeat split; lia. }
  repeat (constructor; [first [exact (Hc _)|done]|]). constructor.
Qed.

(** the chunks of the callback of 10 frames start at 0, 40 and 80 ms *)
Lemma demo_history_outputs :
  demo_outputs demo_history
  = Ok (time_of 100 14, [[0; 0]; [7; 7; 7; 7; 47; 47; 47; 47; 87; 87]; [107; 107; 107]; [0; 0]; [136]])%Z.
Proof. by vm_compute. Qed.
