(** C104: the curves of notes of any length and at any distance. *)
From stdpp Require Import gmap list list_numbers strings sorting.
From Coq Require Import ZArith Reals Lra Lia ZifyBool ZifyNat.
From Verif Require Import Base Graph GraphSpec TopoSort TopoSortSpec TopoSortProofs Buffer DspGraph DspGraphSpec Timestamp Recorder RecorderSpec Processor ProcessorSpec AudioParam AudioParamR BiquadSpec Node NodeSpec
  NodeExamples Chain ChainSpec Effects EffectsSpec StreamSpec LibraryExamples NetProofs NetExamples NetLibrary NetAutomation NetSpec
  Adsr AdsrSpec AdsrNote EventChannel MelodySpec ProgramSpec NetProgram AnyNotesSpec AdsrCutSpec NotesCurveSpec ShortNotes ShortNotesExample NotesCurve.
Local Open Scope nat_scope.

(** C104: at a rate that divides 2^32, notes of any length, each of which begins when or after the last has ended: every sample of the output is the one of the
    input times the value of the notes.  Each note rises, along the curve of the attack, from the level at which it finds the envelope; once it has reached full level it
    decays to the sustain level and stays there; when it ends, in whatever stage, the level falls from there along the curve of the release, until the next begins. *)
Theorem C104_curves (nbuf max_ch max_fr sr : nat) (sh : nat → oracle) (dr : nat → list endpoint → list endpoint)
    (ds : list (id * device)) (ks : list (link R effect)) (ws before after : list (nop R R effect))
    (st : processor R (dspstate R effect)) (l : list (owned R))
    (n : id) (cc number : nat) (ta td s tr : R) (d : nat) (score : list (list mark)) (notes : list note) (q : Z) :
  let os := before ++ (create <$> ks) ++ ws ++ after in
  made sr max_fr ds ks → good_setup (dsp_process R_num (λ v, v) effect_run) nbuf max_fr sr sh dr (to_pop <$> os) → settled ks ws before after →
  unprocessed [] (to_pop <$> os) = [] →
  prun 0%R Rplus (dsp_process R_num (λ v, v) effect_run) sh dr (new_processor 0%R nbuf sr max_ch max_fr) (to_pop <$> os) = Ok (st, l) →
  let on := running false (sent (to_pop <$> before)) in
  let pos := frames_played false (to_pop <$> before) in
  let blocks := blocks_of max_fr sr on pos after in
  (n, DAdsr cc (requests adsr_sends number (score_calls sr ta td s tr score))) ∈ ds →
  (0 < ta)%R → (0 <= td)%R → (0 < tr)%R → (0 <= s <= 1)%R → is_stage (td * INR sr) d → (Z.of_nat sr * q = 2 ^ 32)%Z →
  concat score = marks (frames_of_note <$> notes) → in_time pos score blocks → notes_ok (ta * INR sr) (td * INR sr) d s (tr * INR sr) 0 pos notes →
  Forall (λ m, exact_frame q (frame_of_mark m)) (marks (frames_of_note <$> notes)) → exact_frame q (pos + length_of blocks) →
  ∃ (xs ys : id → stream R),
    (∀ ch i, ch < cc → i < length_of blocks →
       at_ (ys n ch) i = (at_ (xs n ch) i * notes_value (ta * INR sr) (td * INR sr) d s (tr * INR sr) 0 pos notes (pos + i))%R) ∧
    (∀ n d, (n, d) ∈ ds → performs sr blocks (λ name, events_of max_fr sr n name on pos after) d (xs n) (ys n)) ∧
    (∀ n d ch i, (n, d) ∈ ds → ch < device_inputs d → i < length_of blocks →
       at_ (xs n ch) i = mix_of (λ m c, at_ (ys m c) i) (at_ (input_stream 0%R max_ch (bool_decide (net_input ws = Some n)) on after ch) i) (connections_into n ws) ch) ∧
    (∀ o, net_output ws = Some o → o ∈ ds.*1 → heard_as 0%R max_ch on after (drop (callbacks before) l) (ys o)).
Proof. exact (library_curves nbuf max_ch max_fr sr sh dr ds ks ws before after st l n cc number ta td s tr d score notes q). Qed.
Print Assumptions C104_curves.

(** C104: the last theorem is for all notes that last and do not overlap: there is always a frame in which full level is reached, unless the note ends before. *)
Theorem C104_curves_apply (na nd : R) (d : nat) (s nr u : R) (g : nat) (pairs : list (nat * nat)) :
  in_order g (marks pairs) → Forall (λ p : nat * nat, p.1 < p.2) pairs →
  ∃ notes, frames_of_note <$> notes = pairs ∧ notes_ok na nd d s nr u g notes.
Proof. exact (curves_apply na nd d s nr pairs u g). Qed.
Print Assumptions C104_curves_apply.

(** Two programs that run (C104_short_case, C103_case): notes that are cut short in an attack of four frames, and notes that reach full level in their first frame,
    decay in the second and are held in the third. *)
Example C104_curves_case :
  (let notes := [Note 1 3 4; Note 5 6 4] in
   concat pluck_score = marks (frames_of_note <$> notes) ∧ is_stage (/ 64 * INR 64) 1 ∧
   notes_ok (/ 16 * INR 64) (/ 64 * INR 64) 1 (/ 2) (/ 64 * INR 64) 0 0 notes ∧
   Forall (λ m, exact_frame (2 ^ 26) (frame_of_mark m)) (marks (frames_of_note <$> notes))) ∧
  (let notes := [Note 1 4 1; Note 6 9 1] in
   concat tune_score = marks (frames_of_note <$> notes) ∧
   notes_ok (/ 64 * INR 64) (/ 64 * INR 64) 1 (/ 2) (/ 64 * INR 64) 0 0 notes ∧
   Forall (λ m, exact_frame (2 ^ 26) (frame_of_mark m)) (marks (frames_of_note <$> notes)) ∧
   notes_value (/ 64 * INR 64) (/ 64 * INR 64) 1 (/ 2) (/ 64 * INR 64) 0 0 notes <$> [1; 2; 3] = [1; / 2; / 2]%R).
Proof.
  assert (E : (/ 64 * INR 64 = 1)%R) by (rewrite (INR_IZR_INZ 64); change (Z.of_nat 64) with 64%Z; lra).
  assert (Hex : ∀ l, Forall (λ x, frame_of_mark x ≤ 9) l → Forall (λ m, exact_frame (2 ^ 26) (frame_of_mark m)) l).
  { intros l H. eapply Forall_impl; [exact H|]. intros m Hm. cbn in Hm. unfold exact_frame. lia. }
  assert (Hpos : ∀ u g f, (0 <= u)%R → (0 <= fallen (/ 2) 1 u g f)%R).
  { intros u g f Hu. unfold fallen. destruct (f <=? g); [done|]. unfold falls_from. apply Rmax_l. }
  assert (Hone : ∀ v, (0 <= v)%R → rises_from v 1 0 = 1%R).
  { intros v Hv. unfold rises_from. replace (INR 1 / 1)%R with 1%R by (cbn; lra). rewrite Rpower_1 by lra. rewrite Rmin_left; lra. }
  assert (Hfull : ∀ v n, (0 <= v)%R → full_after 1 v n 1).
  { intros v n Hv. split; [intros k Hk; lia|]. intros _. split; [lia|]. by apply Hone. }
  split; cbv zeta.
  - split; [reflexivity|]. split; [exact tune_stage|]. pose proof pluck_short as (_ & _ & P & _). rewrite E in *. split; [|apply Hex; repeat constructor; cbn; lia].
    cbn [notes_ok]. split; [lia|]. split; [lia|]. split; [split; [intros k _ Hk; by apply P|lia]|]. split; [lia|]. split; [lia|]. split; [|done]. split; [intros k _ Hk; lia|lia].
  - rewrite E. split; [reflexivity|]. split; [|split; [apply Hex; repeat constructor; cbn; lia|]].
    + cbn [notes_ok]. split; [lia|]. split; [lia|]. split; [apply Hfull, Hpos; lra|]. split; [lia|]. split; [lia|]. split; [|done]. apply Hfull, Hpos. cbn. lra.
    + cbn [fmap list_fmap notes_value Nat.ltb Nat.leb Nat.sub]. unfold sounding. cbn [Nat.ltb Nat.leb Nat.sub]. rewrite Hone by (apply Hpos; lra). done.
Qed.
