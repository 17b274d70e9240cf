(** A network of four nodes: one feeds two others, which a fourth mixes. *)
From stdpp Require Import gmap list list_numbers strings.
From Coq Require Import ZArith Lia ZifyBool ZifyNat.
From Verif Require Import Base Graph GraphSpec TopoSort TopoSortSpec TopoSortProofs Buffer BufferSpec DspGraph DspGraphSpec
  Float Timestamp Processor ProcessorSpec AudioParam Node NodeSpec NodeExamples Chain ChainSpec Effects StreamSpec NetSpec.
Local Open Scope nat_scope.

Definition diamond_links : list (link Z Z) :=
  [Link 0 1 1 (level_state (f64_of_Z 2)); Link 1 1 1 (level_state (f64_of_Z 3)); Link 2 1 1 (level_state (f64_of_Z 5)); Link 3 1 1 (level_state one64)].
Definition diamond_before : list (nop Z Z Z) := [NNew 7 1 1 (level_state one64); NOutput 7; NStart; call 2 5].
Definition diamond_calls : list (nop Z Z Z) :=
  [NOutput 3; NConnect 9 0 1 (Connection 0 0 1); NConnect 10 1 3 (Connection 0 0 1); NConnect 11 0 2 (Connection 0 0 1); NConnect 12 2 3 (Connection 0 0 1);
   NInput 0; NConnect 13 3 7 (Connection 0 0 1)].
Definition diamond_after : list (nop Z Z Z) :=
  [call 6 10; NChange 2 "level" (Change (f64_of_Z 7) (time_of 100 10) Immediate); NDisconnect 3 7; NStop; call 1 10; NStart; call 5 10].
Definition diamond_history : list (nop Z Z Z) := diamond_before ++ (create <$> diamond_links) ++ diamond_calls ++ diamond_after.

Lemma diamond_ok : good_setup level_proc 8 4 100 (λ _, rev_order) (λ _ l, l) (to_pop <$> diamond_history).
Proof.
  split; [exact level_shape|]. do 3 (split; [lia|]). split; [intros _; apply rev_order_any|].
  split; [done|]. split; [|change (NoDup [9; 10; 11; 12; 13]); repeat (constructor; [set_solver|]); constructor].
  repeat (constructor; [first [exact (call_ok _ _)|done]|]). constructor.
Qed.
Lemma diamond_settled : settled diamond_links diamond_calls diamond_before diamond_after.
Proof.
  assert (K : ∀ k, k ∈ diamond_links → k_id k < 4).
  { intros k Hk. unfold diamond_links in Hk. repeat (apply elem_of_cons in Hk as [->|Hk]; [cbn; lia|]). by apply elem_of_nil in Hk. }
  assert (E : k_id <$> diamond_links = [0; 1; 2; 3]) by done.
  split; [unfold diamond_calls; repeat (constructor; [done|]); constructor|]. split; [|split; [|split; [|split; [|split]]]].
  - rewrite E. intros eid m n c Hin Hn. unfold diamond_calls in Hin.
    repeat (apply elem_of_cons in Hin as [Hin|Hin]; [first [discriminate Hin|injection Hin as -> -> -> ->; repeat first [apply elem_of_list_here|apply elem_of_list_further]]|]).
    by apply elem_of_nil in Hin.
  - intros k eid m c Hk Hin. unfold diamond_before, diamond_after, call in Hin. cbn [app] in Hin.
    repeat (apply elem_of_cons in Hin as [Hin|Hin]; [discriminate Hin|]). by apply elem_of_nil in Hin.
  - intros k Hk Hin. unfold diamond_after, call in Hin. repeat (apply elem_of_cons in Hin as [Hin|Hin]; [discriminate Hin|]). by apply elem_of_nil in Hin.
  - intros k m Hk Hin. apply K in Hk. unfold diamond_after, call in Hin.
    repeat (apply elem_of_cons in Hin as [Hin|Hin]; [first [discriminate Hin|injection Hin as _ Hin; lia]|]); by apply elem_of_nil in Hin.
  - change (net_input diamond_calls) with (Some 0). intros m Hin. unfold diamond_after, call in Hin.
    repeat (apply elem_of_cons in Hin as [Hin|Hin]; [discriminate Hin|]). by apply elem_of_nil in Hin.
  - intros o m _ Hin. unfold diamond_after, call in Hin. repeat (apply elem_of_cons in Hin as [Hin|Hin]; [discriminate Hin|]). by apply elem_of_nil in Hin.
Qed.
Definition diamond_outputs : res (list (list Z)) :=
  let? (_, l) := prun 0%Z Z.add level_proc (λ _, rev_order) (λ _ l, l) (new_processor 0%Z 8 100 2 4) (to_pop <$> diamond_history) in Ok (data <$> l).
Lemma diamond_outputs_computed : diamond_outputs = Ok [[0; 0]; [160; 160; 160; 160; 171; 171]; [0]; [182; 182; 226; 226; 239]]%Z.
Proof. vm_compute. reflexivity. Qed.
