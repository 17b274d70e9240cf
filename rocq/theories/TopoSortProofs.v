From stdpp Require Import gmap list relations.
From Verif Require Import Base Graph GraphSpec GraphProofs TopoSort TopoSortSpec.

Lemma submseteq_length_Permutation {A} (l k : list A) :
  l ⊆+ k → length k ≤ length l → l ≡ₚ k.
Proof. intros. by apply submseteq_Permutation_length_le. Qed.

(** A transitive irreflexive relation has no finite nonempty set in which
    everything has a predecessor. *)
Lemma no_descent {A} (T : relation A) (l : list A) :
  (∀ x y z, T x y → T y z → T x z) → (∀ x, ¬ T x x) →
  l ≠ [] → ¬ (∀ v, v ∈ l → ∃ u, u ∈ l ∧ T u v).
Proof.
  intros Htr Hirr. induction l as [|x l IH]; [done|]. intros _ H.
  destruct (decide (l = [])) as [->|Hne].
  { destruct (H x) as (u & Hu & HT); [left|].
    apply elem_of_list_singleton in Hu as ->. by apply (Hirr x). }
  apply IH; [done|]. intros v Hv.
  destruct (H v) as (u & Hu & HT); [by right|].
  apply elem_of_cons in Hu as [->|Hu]; [|eauto].
  destruct (H x) as (w & Hw & HT'); [left|].
  apply elem_of_cons in Hw as [->|Hw]; [by apply Hirr in HT'|].
  exists w. split; [done|]. eauto.
Qed.

Section proofs.
Context {ND ED : Type}.
Implicit Types (g : graph ND ED) (s : sgraph ND ED).

Definition sources s v : list id := c_from <$> conns_of s v Incoming.
Definition indeg s v : nat := length (sources s v).
Definition fed_by s v u : Prop := u ∈ sources s v.
Global Instance fed_by_dec s v u : Decision (fed_by s v u) := decide (u ∈ sources s v).
(** processed sources of v *)
Definition npop s (order : list id) v : list id := filter (fed_by s v) order.

Lemma in_sources s v u : u ∈ sources s v ↔ feeds s u v.
Proof.
  unfold sources, feeds. rewrite elem_of_list_fmap. setoid_rewrite in_conns_of.
  cbn. naive_solver.
Qed.

Section fixed.
Variable g : graph ND ED.
Variable s : sgraph ND ED.
Hypothesis Hobs : observes g s.
Hypothesis Hclosed : conns_closed s.

Lemma node_ids_elem n : n ∈ all_node_ids g ↔ is_Some (s_nodes s !! n).
Proof.
  rewrite (obs_node_ids _ _ Hobs), elem_of_list_fmap. split.
  - intros ([n' x] & -> & Hx%elem_of_map_to_list). cbn. eauto.
  - intros [x Hx]. exists (n, x). by rewrite elem_of_map_to_list.
Qed.

Lemma node_ids_nodup : NoDup (all_node_ids g).
Proof. unfold all_node_ids. apply NoDup_elements. Qed.

Lemma count_indeg n : connection_count g n Incoming = Ok (indeg s n).
Proof. rewrite (obs_count _ _ Hobs). unfold indeg, sources. by rewrite fmap_length. Qed.

Lemma connected_iff a b :
  is_connected_to g a b = Ok (bool_decide (fed_by s b a)).
Proof.
  destruct (obs_connected _ _ Hobs a b) as (t & -> & Ht). f_equal.
  unfold fed_by. apply eq_true_iff_eq. rewrite bool_decide_eq_true, in_sources. exact Ht.
Qed.

Lemma init_counts_spec ids (acc : gmap id nat) : NoDup ids →
  rfold (λ dc n, let? c := connection_count g n Incoming in Ok (<[n := c]> dc)) ids acc
  = Ok (foldl (λ dc n, <[n := indeg s n]> dc) acc ids).
Proof.
  revert acc. induction ids as [|n ids IH]; intros acc Hnd; [done|].
  apply NoDup_cons in Hnd as [_ Hnd]. cbn. rewrite count_indeg. cbn. by apply IH.
Qed.

Lemma foldl_insert_lookup (f : id → nat) ids acc n :
  foldl (λ (dc : gmap id nat) n, <[n := f n]> dc) acc ids !! n
  = if decide (n ∈ ids) then Some (f n) else (acc : gmap id nat) !! n.
Proof.
  revert acc. induction ids as [|m ids IH]; intros acc.
  - rewrite decide_False; [done|]. set_solver.
  - cbn. rewrite IH. destruct (decide (n ∈ ids)) as [H|H].
    + rewrite decide_True; [done|set_solver].
    + destruct (decide (n = m)) as [->|Hne].
      * rewrite decide_True by set_solver. by rewrite lookup_insert.
      * rewrite decide_False by set_solver. by rewrite lookup_insert_ne.
Qed.

(** ** The loop invariant *)
Record LInv (dc : gmap id nat) (order : list id) : Prop := {
  li_nodup : NoDup order;
  li_dom n : is_Some (dc !! n) ↔ n ∈ all_node_ids g ∧ n ∉ order;
  li_order n : n ∈ order → n ∈ all_node_ids g;
  li_count n c : dc !! n = Some c → c + length (npop s order n) = indeg s n;
  li_sorted pre v post : order = pre ++ v :: post →
    sources s v ≡ₚ npop s pre v;
}.

Lemma npop_snoc order v u :
  npop s (order ++ [u]) v = npop s order v ++ if decide (fed_by s v u) then [u] else [].
Proof. unfold npop. rewrite filter_app. f_equal. Qed.

Lemma npop_sub order v : NoDup order → npop s order v ⊆+ sources s v.
Proof.
  intros Hnd. apply NoDup_submseteq.
  - by apply NoDup_filter.
  - intros u Hu. apply elem_of_list_filter in Hu as [Hu _]. exact Hu.
Qed.

(** one round of decrements *)
Lemma decrement_round next dc ids :
  NoDup ids →
  (∀ n, n ∈ ids → fed_by s n next → ∃ v, dc !! n = Some v ∧ 0 < v) →
  ∃ dc', rfold (decrement g next) ids dc = Ok dc' ∧
    ∀ n, dc' !! n = if decide (n ∈ ids ∧ fed_by s n next) then pred <$> dc !! n else dc !! n.
Proof.
  revert dc. induction ids as [|m ids IH]; intros dc Hnd Hpos.
  - exists dc. split; [done|]. intros n. rewrite decide_False; [done|]. set_solver.
  - apply NoDup_cons in Hnd as [Hm Hnd].
    cbn [rfold]. unfold decrement at 1. rewrite connected_iff. cbn [rbind].
    destruct (decide (fed_by s m next)) as [Hf|Hf].
    + rewrite bool_decide_eq_true_2 by done.
      destruct (Hpos m) as (v & Hv & Hv0); [left|done|].
      rewrite Hv. cbn [runwrap rbind]. destruct (Nat.ltb_spec 0 v); [|lia]. cbn [rassert rbind].
      destruct (IH (<[m := v - 1]> dc)) as (dc' & E & Hdc'); [done| |].
      { intros n Hn Hfn. rewrite lookup_insert_ne by set_solver. apply Hpos; [by right|done]. }
      exists dc'. split; [done|]. intros n. rewrite Hdc'.
      destruct (decide (n = m)) as [->|Hne].
      * rewrite decide_False by tauto. rewrite decide_True by (split; [left|done]).
        rewrite lookup_insert, Hv. cbn. f_equal. lia.
      * rewrite lookup_insert_ne by done.
        apply decide_ext. rewrite elem_of_cons. tauto.
    + rewrite bool_decide_eq_false_2 by done. cbn [rbind].
      destruct (IH dc) as (dc' & E & Hdc'); [done| |].
      { intros n Hn Hfn. apply Hpos; [by right|done]. }
      exists dc'. split; [done|]. intros n. rewrite Hdc'.
      apply decide_ext. rewrite elem_of_cons. split; [tauto|].
      intros [[->|?] ?]; [done|tauto].
Qed.

Lemma find_zero order dc : order ≡ₚ elements (dom dc) →
  match node_without_dependencies order dc with
  | Some n => dc !! n = Some 0
  | None => ∀ n c, dc !! n = Some c → 0 < c
  end.
Proof.
  intros Hord. unfold node_without_dependencies.
  destruct (find _ order) as [n|] eqn:E.
  - apply find_Some_spec in E as [_ H]. destruct (dc !! n) as [c|]; [|done].
    apply Nat.eqb_eq in H. by subst.
  - intros n c Hn. assert (Hin : n ∈ order).
    { rewrite Hord, elem_of_elements. by eapply elem_of_dom_2. }
    apply elem_of_list_In in Hin. eapply find_none in Hin; [|exact E].
    cbn in Hin. rewrite Hn in Hin. apply Nat.eqb_neq in Hin. lia.
Qed.

Lemma loop_step (shuffle : oracle) k dc order next :
  any_order shuffle →
  LInv dc order → dc !! next = Some 0 →
  ∃ dc', rfold (decrement g next) (shuffle k (all_node_ids g)) (delete next dc) = Ok dc'
         ∧ LInv dc' (order ++ [next]).
Proof.
  intros Hsh HI Hz.
  assert (Hnext : next ∈ all_node_ids g ∧ next ∉ order) by (apply (li_dom _ _ HI); eauto).
  destruct Hnext as [Hnin Hnord].
  pose proof (li_count _ _ HI _ _ Hz) as Hc0. cbn in Hc0.
  assert (Hsrc : sources s next ≡ₚ npop s order next).
  { symmetry. apply submseteq_length_Permutation.
    - apply npop_sub. apply (li_nodup _ _ HI).
    - unfold indeg in Hc0. lia. }
  (* any node fed by next is still waiting, with a positive count *)
  assert (Hwait : ∀ n, fed_by s n next → n ≠ next ∧ ∃ v, dc !! n = Some v ∧ 0 < v).
  { intros n Hf.
    assert (Hall : n ∈ all_node_ids g).
    { apply node_ids_elem. apply in_sources in Hf as (c & Hc & _ & <-). by apply Hclosed. }
    assert (Hno : n ∉ order).
    { intros Ho. apply elem_of_list_split in Ho as (pre & post & E).
      pose proof (li_sorted _ _ HI _ _ _ E) as Hs. unfold fed_by in Hf. rewrite Hs in Hf.
      apply elem_of_list_filter in Hf as [_ Hf]. apply Hnord. rewrite E. set_solver. }
    assert (Hne : n ≠ next).
    { intros ->. unfold fed_by in Hf. rewrite Hsrc in Hf.
      apply elem_of_list_filter in Hf as [_ Hf]. done. }
    split; [done|].
    assert (Hd : is_Some (dc !! n)) by (by apply (li_dom _ _ HI)).
    destruct Hd as [v Hv]. exists v. split; [done|].
    pose proof (li_count _ _ HI _ _ Hv) as Hcv.
    destruct v as [|v]; [|lia]. exfalso. cbn in Hcv.
    assert (Hp : sources s n ≡ₚ npop s order n).
    { symmetry. apply submseteq_length_Permutation.
      - apply npop_sub. apply (li_nodup _ _ HI).
      - unfold indeg in Hcv. lia. }
    unfold fed_by in Hf. rewrite Hp in Hf. apply elem_of_list_filter in Hf as [_ Hf]. done. }
  destruct (decrement_round next (delete next dc) (shuffle k (all_node_ids g)))
    as (dc' & E & Hdc').
  { rewrite (Hsh _ _). apply node_ids_nodup. }
  { intros n _ Hf. destruct (Hwait n Hf) as (Hne & v & Hv & Hv0).
    exists v. by rewrite lookup_delete_ne. }
  exists dc'. split; [done|].
  assert (Hlook : ∀ n, dc' !! n =
     if decide (n = next) then None
     else if decide (fed_by s n next) then pred <$> dc !! n else dc !! n).
  { intros n. rewrite Hdc'. destruct (decide (n = next)) as [->|Hne].
    - rewrite !lookup_delete. by case_decide.
    - rewrite lookup_delete_ne by done.
      destruct (decide (fed_by s n next)) as [Hf|Hf].
      + destruct (Hwait n Hf) as (_ & v & Hv & _).
        rewrite decide_True; [done|]. split; [|done].
        rewrite (Hsh _ _). apply (li_dom _ _ HI). eauto.
      + rewrite decide_False; [done|]. tauto. }
  split.
  - apply NoDup_app. split; [apply (li_nodup _ _ HI)|]. split; [|apply NoDup_singleton].
    intros x Hx ->%elem_of_list_singleton. done.
  - intros n. rewrite Hlook, elem_of_app, elem_of_list_singleton.
    destruct (decide (n = next)) as [->|Hne].
    + split; [intros [? ?]; done|]. intros [_ H]. tauto.
    + assert (is_Some (if decide (fed_by s n next) then pred <$> dc !! n else dc !! n)
              ↔ is_Some (dc !! n)) as ->.
      { case_decide; [by rewrite fmap_is_Some|done]. }
      rewrite (li_dom _ _ HI). tauto.
  - intros n. rewrite elem_of_app, elem_of_list_singleton. intros [H| ->]; [|done].
    by apply (li_order _ _ HI).
  - intros n c. rewrite Hlook. rewrite npop_snoc, app_length.
    destruct (decide (n = next)); [done|].
    destruct (decide (fed_by s n next)) as [Hf|Hf].
    + destruct (Hwait n Hf) as (_ & v & Hv & Hv0). rewrite Hv. cbn. intros [= <-].
      pose proof (li_count _ _ HI _ _ Hv). lia.
    + cbn. intros Hc. pose proof (li_count _ _ HI _ _ Hc). lia.
  - intros pre v post Heq.
    destruct (decide (post = [])) as [->|Hne].
    + apply app_inj_tail in Heq as [<- <-]. done.
    + destruct (exists_last Hne) as (post' & x & ->).
      rewrite app_comm_cons, app_assoc in Heq. apply app_inj_tail in Heq as [-> _].
      by eapply (li_sorted _ _ HI).
Qed.

Lemma loop_spec shuffle fuel k dc order :
  any_order shuffle → LInv dc order →
  node_count g < length order + fuel →
  ∃ dc' order', sort_loop fuel shuffle k g dc order = Ok order' ∧
    LInv dc' order' ∧ ∀ n c, dc' !! n = Some c → 0 < c.
Proof.
  intros Hsh. revert k dc order. induction fuel as [|fuel IH]; intros k dc order HI Hf.
  - exfalso. assert (length order ≤ node_count g); [|lia].
    unfold node_count. rewrite <-(size_dom (D := gset id)).
    apply NoDup_length_le; [apply (li_nodup _ _ HI)|].
    intros e He. apply elem_of_elements. exact (li_order _ _ HI _ He).
  - cbn [sort_loop].
    pose proof (find_zero (shuffle (2 * k + 1) (elements (dom dc))) dc (Hsh _ _)) as Hz.
    destruct (node_without_dependencies _ dc) as [next|].
    + destruct (loop_step shuffle (2 * k + 2) dc order next Hsh HI Hz) as (dc' & E & HI').
      rewrite E. cbn [rbind]. apply IH; [done|]. rewrite app_length. cbn. lia.
    + exists dc, order. done.
Qed.

Lemma linv_init ids : ids ≡ₚ all_node_ids g →
  LInv (foldl (λ (dc : gmap id nat) n, <[n := indeg s n]> dc) ∅ ids) [].
Proof.
  intros Hp. split.
  - constructor.
  - intros n. rewrite foldl_insert_lookup, <-Hp. case_decide as H.
    + split; [|eauto]. intros _. split; [done|]. set_solver.
    + rewrite lookup_empty. split; [intros [? ?]; done|tauto].
  - intros n H. by apply elem_of_nil in H.
  - intros n c. rewrite foldl_insert_lookup. case_decide; [|by rewrite lookup_empty].
    intros [= <-]. cbn. lia.
  - intros pre v post H. by destruct pre.
Qed.

Lemma sort_cases shuffle : any_order shuffle →
  ∃ dc order, LInv dc order ∧ (∀ n c, dc !! n = Some c → 0 < c) ∧
    sort shuffle g = if Nat.eqb (length order) (node_count g) then Ok order
                     else Panic CycleDetected.
Proof.
  intros Hsh. unfold sort, init_counts.
  rewrite init_counts_spec by (rewrite (Hsh _ _); apply node_ids_nodup). cbn [rbind].
  destruct (loop_spec shuffle (S (node_count g)) 0
     (foldl (λ (dc : gmap id nat) n, <[n := indeg s n]> dc) ∅ (shuffle 0 (all_node_ids g))) [])
    as (dc & order & E & HI & Hpos); [done| |cbn; lia|].
  { by apply linv_init. }
  rewrite E. cbn [rbind]. exists dc, order. split; [done|]. split; [done|].
  unfold rassert. by destruct (Nat.eqb _ _).
Qed.

Lemma complete_iff dc order : LInv dc order →
  length order = node_count g ↔ ∀ n, n ∈ all_node_ids g → n ∈ order.
Proof.
  intros HI.
  assert (Hlen : length (all_node_ids g) = node_count g).
  { unfold all_node_ids, node_count. by rewrite <-(size_dom (D := gset id)). }
  assert (Hsub : order ⊆+ all_node_ids g).
  { apply NoDup_submseteq; [apply (li_nodup _ _ HI)|]. apply (li_order _ _ HI). }
  split.
  - intros He n Hn. assert (Hp : order ≡ₚ all_node_ids g).
    { apply submseteq_length_Permutation; [done|]. lia. }
    by rewrite Hp.
  - intros Hall. apply Nat.le_antisymm.
    + rewrite <-Hlen. by apply submseteq_length.
    + rewrite <-Hlen. apply submseteq_length. apply NoDup_submseteq; [apply node_ids_nodup|done].
Qed.

Lemma linv_processing_order dc order : LInv dc order →
  length order = node_count g → is_processing_order s order.
Proof.
  intros HI Hlen. rewrite complete_iff in Hlen by done. split.
  - rewrite <-(obs_node_ids _ _ Hobs). apply NoDup_Permutation.
    + apply (li_nodup _ _ HI).
    + apply node_ids_nodup.
    + intros n. split; [apply (li_order _ _ HI)|apply Hlen].
  - intros c Hc. destruct (Hclosed c Hc) as [Ha Hb].
    assert (Hto : c_to c ∈ order) by (apply Hlen, node_ids_elem, Hb).
    apply elem_of_list_split in Hto as (pre & post & E).
    pose proof (li_sorted _ _ HI _ _ _ E) as Hs.
    assert (Hfrom : c_from c ∈ npop s pre (c_to c)).
    { rewrite <-Hs. apply in_sources. exists c. done. }
    apply elem_of_list_filter in Hfrom as [_ Hfrom].
    apply elem_of_list_split in Hfrom as (l1 & l2 & ->).
    exists l1, l2, post. rewrite E, <-app_assoc. done.
Qed.

End fixed.

(** ** What an order implies *)
Lemma order_before_trans s order a b :
  NoDup order → is_processing_order s order → tc (feeds s) a b →
  ∃ l1 l2 l3, order = l1 ++ a :: l2 ++ b :: l3.
Proof.
  intros Hnd [Hp Ho] Ht. induction Ht as [a b (c & Hc & <- & <-)|a b d (c & Hc & <- & <-) Ht IH].
  - by apply Ho.
  - destruct IH as (l1 & l2 & l3 & E). destruct (Ho c Hc) as (m1 & m2 & m3 & E').
    (* b occurs once, so the part of the list before it is the same *)
    assert (Heq : m1 ++ c_from c :: m2 = l1 ∧ m3 = l2 ++ d :: l3).
    { rewrite E in E'. symmetry in E'.
      rewrite app_comm_cons, app_assoc in E'.
      rewrite E in Hnd. clear -E' Hnd.
      revert l1 E' Hnd. generalize (m1 ++ c_from c :: m2) as k.
      induction k as [|x k IH]; intros l1 E Hnd.
      - destruct l1 as [|y l1]; cbn in E; [by injection E|].
        injection E as <- E. cbn in Hnd. apply NoDup_cons in Hnd as [Hn _].
        exfalso. apply Hn. set_solver.
      - destruct l1 as [|y l1]; cbn in E.
        + injection E as -> E. cbn in Hnd. apply NoDup_cons in Hnd as [Hn _].
          exfalso. apply Hn. rewrite <-E. set_solver.
        + injection E as -> E. cbn in Hnd. apply NoDup_cons in Hnd as [_ Hnd].
          destruct (IH l1 E Hnd) as [-> ->]. done. }
    destruct Heq as [<- ->].
    exists m1, (m2 ++ c_to c :: l2), l3. rewrite E.
    rewrite <-app_assoc, <-app_comm_cons. f_equal. f_equal.
    by rewrite <-app_assoc, <-app_comm_cons.
Qed.

Lemma order_acyclic s order :
  NoDup order → is_processing_order s order → acyclic s.
Proof.
  intros Hnd Ho n Ht. destruct (order_before_trans s order n n Hnd Ho Ht) as (l1 & l2 & l3 & E).
  rewrite E in Hnd. apply NoDup_app in Hnd as (_ & _ & H). apply NoDup_cons in H as [H _].
  apply H. set_solver.
Qed.

(** sources with parallel connections are not distinct *)
Lemma no_parallel_sources s :
  no_parallel s ↔ ∀ v, NoDup (sources s v).
Proof.
  unfold no_parallel, sources, conns_of. cbn [near].
  generalize (s_conns s). intros l. induction l as [|c l IH].
  - split; [intros _ v; constructor|intros _; constructor].
  - rewrite fmap_cons, NoDup_cons, IH. split.
    + intros [Hn Hl] v. rewrite filter_cons. case_decide as Hd; [|apply Hl].
      rewrite fmap_cons. apply NoDup_cons. split; [|apply Hl].
      intros Hin. apply Hn. apply elem_of_list_fmap in Hin as (c' & Hf & Hc').
      apply elem_of_list_filter in Hc' as [Ht Hc'].
      apply elem_of_list_fmap. exists c'. split; [|done]. congruence.
    + intros Hl. split.
      * intros Hin. apply elem_of_list_fmap in Hin as (c' & Hp & Hc').
        injection Hp as Hf Ht. specialize (Hl (c_to c)).
        rewrite filter_cons, decide_True in Hl by done. rewrite fmap_cons in Hl.
        apply NoDup_cons in Hl as [Hl _]. apply Hl. apply elem_of_list_fmap.
        exists c'. split; [done|]. apply elem_of_list_filter. done.
      * intros v. specialize (Hl v). rewrite filter_cons in Hl.
        case_decide; [|done]. rewrite fmap_cons in Hl. by apply NoDup_cons in Hl as [_ Hl].
Qed.

Theorem sort_spec g s shuffle : any_order shuffle →
  observes g s → conns_closed s →
  (∃ order, sort shuffle g = Ok order ∧ is_processing_order s order ∧ acyclic s ∧ no_parallel s)
  ∨ (sort shuffle g = Panic CycleDetected ∧ ¬ (acyclic s ∧ no_parallel s)).
Proof.
  intros Hsh Hobs Hcl.
  destruct (sort_cases g s Hobs Hcl shuffle Hsh) as (dc & order & HI & Hpos & E).
  destruct (Nat.eqb_spec (length order) (node_count g)) as [Hlen|Hlen].
  - left. exists order. split; [done|].
    pose proof (linv_processing_order g s Hobs Hcl dc order HI Hlen) as Ho.
    split; [done|]. split; [by eapply order_acyclic; [apply (li_nodup _ _ _ _ HI)|]|].
    apply no_parallel_sources. intros v.
    destruct (decide (v ∈ order)) as [Hv|Hv].
    + apply elem_of_list_split in Hv as (pre & post & Ev).
      rewrite (li_sorted _ _ _ _ HI _ _ _ Ev). apply NoDup_filter.
      pose proof (li_nodup _ _ _ _ HI) as Hnd. rewrite Ev in Hnd.
      by apply NoDup_app in Hnd as [Hnd _].
    + assert (sources s v = []) as ->; [|constructor].
      destruct (sources s v) as [|u l] eqn:Es; [done|].
      assert (Hu : u ∈ sources s v) by (rewrite Es; left).
      apply in_sources in Hu as (c & Hc & _ & Hto).
      exfalso. apply Hv. apply (complete_iff g s dc order HI); [done|].
      apply (node_ids_elem g s Hobs). rewrite <-Hto. by apply Hcl.
  - right. split; [done|]. intros [Hac Hnp]. apply Hlen.
    apply (complete_iff g s dc order HI). intros n Hn.
    destruct (decide (n ∈ order)) as [|Hno]; [done|]. exfalso.
    (* all waiting nodes have a waiting source *)
    assert (Hwait : ∀ v, is_Some (dc !! v) → ∃ u, is_Some (dc !! u) ∧ feeds s u v).
    { intros v [c Hc]. pose proof (Hpos v c Hc) as H0.
      pose proof (li_count _ _ _ _ HI v c Hc) as Hcnt.
      destruct (decide (Forall (λ u, u ∈ order) (sources s v))) as [Hall|Hsome].
      - exfalso. rewrite Forall_forall in Hall.
        assert (sources s v ⊆+ npop s order v) as Hle%submseteq_length.
        { apply NoDup_submseteq; [by apply no_parallel_sources|].
          intros u Hu. apply elem_of_list_filter. split; [exact Hu|]. by apply Hall. }
        unfold indeg in Hcnt. lia.
      - apply not_Forall_Exists in Hsome; [|apply _].
        apply Exists_exists in Hsome as (u & Hu & Huo).
        apply in_sources in Hu. exists u. split; [|done].
        apply (li_dom _ _ _ _ HI). split; [|done].
        apply (node_ids_elem g s Hobs). destruct Hu as (c' & Hc' & <- & _). by apply Hcl. }
    apply (no_descent (tc (feeds s)) (elements (dom dc))).
    + intros x y z. apply tc_transitive.
    + exact Hac.
    + assert (Hd : n ∈ elements (dom dc)).
      { apply elem_of_elements, elem_of_dom. by apply (li_dom _ _ _ _ HI). }
      intros En. rewrite En in Hd. by apply elem_of_nil in Hd.
    + intros v Hv. apply elem_of_elements, elem_of_dom in Hv.
      destruct (Hwait v Hv) as (u & Hu & Hf). exists u. split; [|by apply tc_once].
      by apply elem_of_elements, elem_of_dom.
Qed.

Lemma rep_closed g s : Rep g s → conns_closed s.
Proof. intros HR c Hc. by apply (rep_wf _ _ HR). Qed.

Lemma sort_history shuffle (ops : list (gop ND ED)) g : any_order shuffle → NoDup (edge_ids ops) →
  grun shuffle 0 empty_graph ops = Ok g →
  ∃ s, srun sempty ops (Ok s) ∧ observes g s ∧
    ∀ shuffle', any_order shuffle' →
      (acyclic s ∧ no_parallel s →
         ∃ order, sort shuffle' g = Ok order ∧ is_processing_order s order) ∧
      (¬ (acyclic s ∧ no_parallel s) → sort shuffle' g = Panic CycleDetected) ∧
      (∀ order, sort shuffle' g = Ok order →
         is_processing_order s order ∧ acyclic s ∧ no_parallel s) ∧
      (∀ p, sort shuffle' g = Panic p → p = CycleDetected).
Proof.
  intros Hsh Hnd E. destruct (grun_reaches shuffle ops g Hsh Hnd E) as (s & Hs & HR).
  exists s. split; [done|]. split; [by apply rep_observes|]. intros shuffle' Hsh'.
  destruct (sort_spec g s shuffle' Hsh' (rep_observes _ _ HR) (rep_closed _ _ HR))
    as [(order & Eo & Ho & Hac & Hnp)|[Ep Hno]].
  - split; [eauto|]. split; [tauto|]. split.
    + intros order' E'. rewrite Eo in E'. injection E' as <-. done.
    + intros p E'. rewrite Eo in E'. done.
  - split; [tauto|]. split; [done|]. split.
    + intros order' E'. rewrite Ep in E'. done.
    + intros p E'. rewrite Ep in E'. by injection E'.
Qed.

End proofs.

(** Witness: two connections between the same two nodes *)
Definition id_order : oracle := λ _ l, l.
Definition rev_order : oracle := λ _ l, rev l.
Lemma id_order_any : any_order id_order.
Proof. intros k l. done. Qed.
Lemma rev_order_any : any_order rev_order.
Proof. intros k l. unfold rev_order. symmetry. apply Permutation_rev. Qed.

Definition parallel_ops : list (gop nat nat) :=
  [AddNode 0 10; AddNode 1 11; AddEdge 2 0 1 20; AddEdge 3 0 1 21].

Lemma tc_step_cases {A} (R : relation A) x y : tc R x y → ∃ z, R x z.
Proof. intros H. inversion H; eauto. Qed.

Lemma parallel_refutes :
  ∃ ops : list (gop nat nat), NoDup (edge_ids ops) ∧
  ∃ g s, grun id_order 0 empty_graph ops = Ok g ∧ srun sempty ops (Ok s) ∧
    observes g s ∧ acyclic s ∧
    ∀ shuffle, any_order shuffle → sort shuffle g = Panic CycleDetected.
Proof.
  exists parallel_ops.
  assert (Hnd : NoDup (edge_ids parallel_ops)).
  { apply (bool_decide_unpack _). by vm_compute. }
  split; [done|].
  destruct (grun id_order 0 empty_graph parallel_ops) as [g|p] eqn:E; [|by vm_compute in E].
  destruct (history_refines id_order parallel_ops id_order_any Hnd) as (r & Hr & Hag).
  destruct (sort_history id_order parallel_ops g id_order_any Hnd E) as (s & Hs & Ho & Hsort).
  exists g, s. split; [done|]. split; [done|]. split; [done|].
  (* the abstract run is deterministic here *)
  assert (Hconns : s_conns s = [Conn 2 0 1 20; Conn 3 0 1 21]).
  { clear -Hs. unfold parallel_ops in Hs.
    repeat match goal with
    | H : srun _ (_ :: _) _ |- _ => inversion H; clear H; subst
    | H : srun _ [] _ |- _ => inversion H; clear H; subst
    | H : sstep _ _ _ |- _ => inversion H; clear H; subst
    end; done. }
  split.
  - intros n Hn.
    assert (Hall : ∀ x y, tc (feeds s) x y → x = 0 ∧ y = 1).
    { intros x y Ht.
      assert (Hf : ∀ x y, feeds s x y → x = 0 ∧ y = 1).
      { intros x' y' (c & Hc & <- & <-). rewrite Hconns in Hc.
        apply elem_of_cons in Hc as [->|Hc]; [done|].
        apply elem_of_list_singleton in Hc as ->. done. }
      induction Ht as [x y H|x y z H H' IH]; [by apply Hf|].
      apply Hf in H. lia. }
    apply Hall in Hn. lia.
  - intros shuffle Hsh. apply (Hsort shuffle Hsh). intros [_ Hnp].
    unfold no_parallel in Hnp. rewrite Hconns in Hnp. cbn in Hnp.
    apply NoDup_cons in Hnp as [Hnp _]. apply Hnp. left.
Qed.
