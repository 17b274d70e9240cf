From stdpp Require Import list strings gmap.
From Verif Require Import Base NodeParameters.
Local Open Scope string_scope.

Lemma create_foldl {P} (options : list (string * P)) : ∀ a b : gmap string P, a = b →
  foldl (λ '(params, realtime) '(name, p), (<[name := p]> params, <[name := p]> realtime)) (a, b) options = (foldl (λ m '(name, p), <[name := p]> m) a options, foldl (λ m '(name, p), <[name := p]> m) a options).
Proof. induction options as [|[n p] l IH]; intros a b ->; [done|]. cbn [foldl]. by apply IH. Qed.
Lemma insert_all {P} (l : list (string * P)) : ∀ m : gmap string P, NoDup l.*1 →
  ∀ name, foldl (λ m '(name, p), <[name := p]> m) m l !! name = match list_find (λ o, o.1 = name) l with Some (_, (_, p)) => Some p | None => m !! name end.
Proof.
  induction l as [|[n p] l IH]; intros m Hd name; [done|]. cbn [foldl fmap list_fmap fst] in *. apply NoDup_cons in Hd as [Hn Hd]. rewrite IH by done. cbn [list_find fst].
  destruct (decide (n = name)) as [->|Hne].
  - destruct (list_find _ l) as [[i [n' p']]|] eqn:E.
    + apply list_find_Some in E as (E1 & E2 & _). cbn in E2. subst n'. exfalso. apply Hn. apply elem_of_list_fmap. exists (name, p'). split; [done|]. by eapply elem_of_list_lookup_2.
    + by rewrite lookup_insert.
  - destruct (list_find _ l) as [[i [n' p']]|] eqn:E; cbn; [done|]. by rewrite lookup_insert_ne.
Qed.
Lemma find_option {P} (l : list (string * P)) name p : NoDup l.*1 → (name, p) ∈ l → ∃ i, list_find (λ o, o.1 = name) l = Some (i, (name, p)).
Proof.
  induction l as [|[n p'] l IH]; intros Hd Hin; [by apply elem_of_nil in Hin|]. cbn [fmap list_fmap fst] in Hd. apply NoDup_cons in Hd as [Hn Hd]. cbn [list_find fst].
  apply elem_of_cons in Hin as [[= -> ->]|Hin]; [rewrite decide_True by done; by eexists|]. destruct (decide (n = name)) as [->|Hne].
  - exfalso. apply Hn. apply elem_of_list_fmap. by exists (name, p).
  - destruct (IH Hd Hin) as [i ->]. by eexists.
Qed.
Lemma created_parameters {P} (options : list (string * P)) : NoDup options.*1 →
  let (params, realtime) := create_parameters options in
  (∀ name p, (name, p) ∈ options → get_parameter params name = Ok p ∧ get_parameter realtime name = Ok p) ∧
  (∀ name, name ∉ options.*1 → get_parameter params name = Panic UnwrapNone ∧ get_parameter realtime name = Panic UnwrapNone).
Proof.
  intros Hd. unfold create_parameters. rewrite create_foldl by done. split.
  - intros name p Hin. unfold get_parameter. rewrite insert_all by done. destruct (find_option options name p Hd Hin) as [i ->]. done.
  - intros name Hn. unfold get_parameter. rewrite insert_all by done. destruct (list_find _ options) as [[i [n p]]|] eqn:E; [|done].
    apply list_find_Some in E as (E1 & E2 & _). cbn in E2. subst n. exfalso. apply Hn, elem_of_list_fmap. exists (name, p). split; [done|]. by eapply elem_of_list_lookup_2.
Qed.
Lemma created_distinct k : NoDup (created k).
Proof. destruct k; repeat constructor; set_solver. Qed.
Lemma get_created {P} k (options : list (string * P)) name : options_for k options → name ∈ created k →
  ∃ p, (name, p) ∈ options ∧ get_parameter (create_parameters options).1 name = Ok p ∧ get_parameter (create_parameters options).2 name = Ok p.
Proof.
  intros Ho Hin. rewrite <-Ho in Hin. apply elem_of_list_fmap in Hin as ([n p] & -> & Hin). exists p. cbn [fst].
  assert (Hd : NoDup options.*1) by (rewrite Ho; apply created_distinct). pose proof (created_parameters options Hd) as H. destruct (create_parameters options) as [a b]. destruct H as [H _].
  split; [done|]. by apply H.
Qed.
Lemma processors_find {P} k (options : list (string * P)) name : options_for k options → name ∈ processor_reads k →
  ∃ p, (name, p) ∈ options ∧ get_parameter (create_parameters options).2 name = Ok p.
Proof.
  intros Ho Hin. destruct (get_created k options name Ho) as (p & H1 & _ & H2); [|by exists p].
  destruct k; cbn [processor_reads created] in *; set_solver.
Qed.
Lemma methods_find {P} k (options : list (string * P)) method name : options_for k options → (method, name) ∈ documented k → method ≠ "shelf_gain" →
  ∃ p, (name, p) ∈ options ∧ call_method k options method = Ok p.
Proof.
  intros Ho Hin Hne.
  assert (Hn : name ∈ created k ∧ (snd <$> list_find (λ m, m.1 = method) (methods k)) = Some (method, name)).
  { destruct k; cbn [documented] in Hin; rewrite ?elem_of_cons, elem_of_nil in Hin; destruct_or?; try done; simplify_eq; split; try reflexivity; cbn [created]; set_solver. }
  destruct Hn as [Hc Hf]. destruct (get_created k options name Ho Hc) as (p & H1 & H2 & _). exists p. split; [done|]. unfold call_method. rewrite Hf. cbn [runwrap rbind snd]. done.
Qed.
Lemma shelf_gain_missing {P} (options : list (string * P)) : options_for BiquadNode options → call_method BiquadNode options "shelf_gain" = Panic UnwrapNone.
Proof.
  intros Ho. assert (Hd : NoDup options.*1) by (rewrite Ho; apply created_distinct). pose proof (created_parameters options Hd) as H. destruct (create_parameters options) as [a b] eqn:E. destruct H as [_ H].
  unfold call_method. rewrite E. cbn [fst]. destruct (H "shelf_gain") as [H1 _]; [rewrite Ho; cbn [created]; rewrite !elem_of_cons, elem_of_nil; intuition discriminate|]. exact H1.
Qed.
