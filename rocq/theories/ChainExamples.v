(** A chain of two nodes between the input and the output. *)
From stdpp Require Import gmap list list_numbers strings.
From Coq Require Import ZArith Lia ZifyBool ZifyNat.
From Verif Require Import Base Graph GraphSpec TopoSort TopoSortSpec TopoSortProofs Buffer BufferSpec DspGraph DspGraphSpec
  Float Timestamp Processor ProcessorSpec AudioParam Node NodeSpec NodeExamples Chain ChainSpec.

(** two nodes of NodeExamples.v, made while another plays; a change for the second in the middle of
    the second callback, the engine stopped for a callback *)
Definition chain_links : list (link Z Z) := [Link 0 1 1 (level_state (f64_of_Z 2)); Link 1 1 1 (level_state (f64_of_Z 3))].
Definition chain_before : list (nop Z Z Z) := [NNew 7 1 1 (level_state one64); NOutput 7; NStart; call 2 5].
Definition chain_after : list (nop Z Z Z) :=
  [call 6 10; NChange 1 "level" (Change (f64_of_Z 5) (time_of 100 10) Immediate); NDisconnect 0 7; NStop; call 1 10; NStart; call 5 10].
Definition chain_calls : list (nop Z Z Z) := [NInput 0; NConnect 9 0 1 (Connection 0 0 1); NOutput 1].
Definition chain_history : list (nop Z Z Z) := chain_before ++ (create <$> chain_links) ++ chain_calls ++ chain_after.

Lemma chain_connected : connect_nodes (chain_of true chain_links) [9] = Some chain_calls.
Proof. reflexivity. Qed.
Lemma chain_history_ok : good_setup level_proc 8 4 100 (λ _, rev_order) (λ _ l, l) (to_pop <$> chain_history).
Proof.
  split; [exact level_shape|]. do 3 (split; [lia|]). split; [intros _; apply rev_order_any|].
  split; [done|]. split; [|change (NoDup [9]); apply NoDup_singleton].
  repeat (constructor; [first [exact (call_ok _ _)|done]|]). constructor.
Qed.
Lemma chain_undisturbed : undisturbed true chain_links chain_before chain_after.
Proof.
  assert (K : ∀ k, k ∈ chain_links → k_id k = 0 ∨ k_id k = 1).
  { intros k Hk. unfold chain_links in Hk. apply elem_of_cons in Hk as [->|Hk]; [by left|]. apply elem_of_list_singleton in Hk as ->. by right. }
  split; [|split; [|split; [|split]]].
  - intros k eid m c Hk Hin. unfold chain_before, chain_after, call in Hin. cbn [app] in Hin.
    repeat (apply elem_of_cons in Hin as [Hin|Hin]; [discriminate Hin|]). by apply elem_of_nil in Hin.
  - intros k Hk Hin. unfold chain_after, call in Hin. repeat (apply elem_of_cons in Hin as [Hin|Hin]; [discriminate Hin|]). by apply elem_of_nil in Hin.
  - intros k m Hk Hin. unfold chain_after, call in Hin. destruct (K k Hk) as [E|E]; rewrite E in Hin;
      repeat (apply elem_of_cons in Hin as [Hin|Hin]; [discriminate Hin|]); by apply elem_of_nil in Hin.
  - intros m Hin. unfold chain_after, call in Hin. repeat (apply elem_of_cons in Hin as [Hin|Hin]; [discriminate Hin|]). by apply elem_of_nil in Hin.
  - intros m Hin. unfold chain_after, call in Hin. repeat (apply elem_of_cons in Hin as [Hin|Hin]; [discriminate Hin|]). by apply elem_of_nil in Hin.
Qed.
Definition chain_outputs : res (list (list Z)) :=
  let? (_, l) := prun 0%Z Z.add level_proc (λ _, rev_order) (λ _ l, l) (new_processor 0%Z 8 100 2 4) (to_pop <$> chain_history) in Ok (data <$> l).
Lemma chain_outputs_computed : chain_outputs = Ok [[0; 0]; [60; 60; 60; 60; 64; 64]; [0]; [68; 68; 112; 112; 118]]%Z.
Proof. vm_compute. reflexivity. Qed.
