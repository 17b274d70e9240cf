(** Proofs that the linked-list graph refines the abstract one. *)
From stdpp Require Import gmap list.
From Verif Require Import Base Graph GraphSpec.

(** ** Successor in a list of ids *)
Fixpoint next_of (e : id) (l : list id) : option id :=
  match l with
  | [] => None
  | x :: t => if decide (x = e) then head t else next_of e t
  end.

Lemma next_of_not_in e l : e ∉ l → next_of e l = None.
Proof.
  induction l as [|x t IH]; cbn; [done|]. intros H.
  rewrite decide_False by set_solver. apply IH. set_solver.
Qed.

Lemma next_of_app e pre post : e ∉ pre → next_of e (pre ++ e :: post) = head post.
Proof.
  induction pre as [|x t IH]; cbn; intros H.
  - by rewrite decide_True.
  - rewrite decide_False by set_solver. apply IH. set_solver.
Qed.

Lemma next_of_in e l y : next_of e l = Some y → y ∈ l.
Proof.
  induction l as [|x t IH]; cbn; [done|]. case_decide.
  - destruct t; cbn; [done|]. intros [= ->]. set_solver.
  - intros H1%IH. set_solver.
Qed.

Lemma next_of_snoc_new x l : x ∉ l → next_of x (l ++ [x]) = None.
Proof. intros H. by rewrite next_of_app. Qed.

Lemma next_of_snoc e x l : NoDup l → e ∈ l →
  next_of e (l ++ [x]) = if decide (last l = Some e) then Some x else next_of e l.
Proof.
  intros Hnd He. apply elem_of_list_split in He as (pre & post & ->).
  apply NoDup_app in Hnd as (H1 & H2 & H3).
  assert (e ∉ pre) by (intros ?; eapply H2; [done|left]).
  rewrite <-app_assoc, <-app_comm_cons, !next_of_app by done.
  destruct (decide (post = [])) as [->|Hne].
  - cbn. rewrite last_snoc. by rewrite decide_True.
  - destruct post as [|y post]; [done|]. cbn.
    rewrite decide_False; [done|].
    rewrite last_app_cons, last_cons_cons. intros Hl%last_Some_elem_of.
    apply NoDup_cons in H3 as [H3 _]. done.
Qed.

Lemma head_snoc (x : id) l : head (l ++ [x]) = match l with [] => Some x | _ => head l end.
Proof. by destruct l. Qed.

Lemma replace_ptr_neq old new p : p ≠ Some old → replace_ptr old new p = p.
Proof.
  destruct p as [q|]; cbn; [|done]. intros H.
  destruct (Nat.eqb_spec q old); [congruence|done].
Qed.
Lemma replace_ptr_eq old new : replace_ptr old new (Some old) = new.
Proof. cbn. by rewrite Nat.eqb_refl. Qed.

Lemma next_of_remove e x pre post :
  NoDup (pre ++ x :: post) → e ≠ x →
  next_of e (pre ++ post) =
  replace_ptr x (next_of x (pre ++ x :: post)) (next_of e (pre ++ x :: post)).
Proof.
  intros Hnd Hne.
  assert (x ∉ pre ∧ x ∉ post) as [Hx1 Hx2].
  { apply NoDup_app in Hnd as (_ & H2 & H3). split.
    - intros ?. eapply H2; [done|left].
    - by apply NoDup_cons in H3 as []. }
  rewrite (next_of_app x) by done.
  clear Hnd. induction pre as [|y t IH]; cbn.
  - rewrite (decide_False (P := x = e)) by done.
    symmetry. apply replace_ptr_neq. intros H%next_of_in. done.
  - case_decide as Hy.
    + destruct t as [|z t]; cbn [app head].
      * by rewrite replace_ptr_eq.
      * symmetry. apply replace_ptr_neq. intros [= ->]. set_solver.
    + apply IH. set_solver.
Qed.

Lemma head_remove x pre post :
  NoDup (pre ++ x :: post) →
  head (pre ++ post) =
  replace_ptr x (next_of x (pre ++ x :: post)) (head (pre ++ x :: post)).
Proof.
  intros Hnd.
  assert (x ∉ pre) as Hx1.
  { apply NoDup_app in Hnd as (_ & H2 & H3). intros ?. eapply H2; [done|left]. }
  rewrite next_of_app by done.
  destruct pre as [|y t]; cbn [app head].
  - by rewrite replace_ptr_eq.
  - symmetry. apply replace_ptr_neq. intros [= ->]. set_solver.
Qed.

Section proofs.
Context {ND ED : Type}.
Implicit Types (g : graph ND ED) (s : sgraph ND ED) (c : conn ED).

Definition ids_of s n d : list id := c_id <$> conns_of s n d.

Definition enc_edge s c : edge ED :=
  Edge (c_from c) (c_to c) (c_data c)
    (next_of (c_id c) (ids_of s (c_from c) Outgoing))
    (next_of (c_id c) (ids_of s (c_to c) Incoming)).

Definition enc_node s n (x : ND) : node ND :=
  Node x (head (ids_of s n Outgoing)) (head (ids_of s n Incoming)).

Record Rep g s : Prop := {
  rep_nodup : NoDup (c_id <$> s_conns s);
  rep_wf c : c ∈ s_conns s → is_Some (s_nodes s !! c_from c) ∧ is_Some (s_nodes s !! c_to c);
  rep_nodes n : nodes g !! n = enc_node s n <$> s_nodes s !! n;
  rep_edges e ed : edges g !! e = Some ed ↔ ∃ c, c ∈ s_conns s ∧ c_id c = e ∧ ed = enc_edge s c;
}.

Lemma rep_empty : Rep empty_graph sempty.
Proof.
  split; cbn.
  - constructor.
  - intros c H. by apply elem_of_nil in H.
  - intros n. by rewrite !lookup_empty.
  - intros e ed. rewrite lookup_empty. split; [done|].
    intros (c & H & _). by apply elem_of_nil in H.
Qed.

(** The abstract graph determines the concrete one. *)
Lemma rep_det g g' s : Rep g s → Rep g' s → g = g'.
Proof.
  intros H1 H2. destruct g as [n1 e1], g' as [n2 e2]. f_equal.
  - apply map_eq. intros i. transitivity (enc_node s i <$> s_nodes s !! i).
    + apply (rep_nodes _ _ H1).
    + symmetry. apply (rep_nodes _ _ H2).
  - apply map_eq. intros i. apply option_eq. intros ed.
    rewrite (rep_edges _ _ H1 i ed : e1 !! i = _ ↔ _).
    by rewrite (rep_edges _ _ H2 i ed : e2 !! i = _ ↔ _).
Qed.

Lemma conn_inj s c c' : NoDup (c_id <$> s_conns s) →
  c ∈ s_conns s → c' ∈ s_conns s → c_id c = c_id c' → c = c'.
Proof.
  intros Hnd H1 H2 He.
  apply elem_of_list_lookup in H1 as [i Hi].
  apply elem_of_list_lookup in H2 as [j Hj].
  assert (i = j).
  { eapply NoDup_lookup; [exact Hnd| |].
    - by rewrite list_lookup_fmap, Hi.
    - rewrite list_lookup_fmap, Hj. cbn. by rewrite He. }
  subst. congruence.
Qed.

Lemma in_conns_of s n d c : c ∈ conns_of s n d ↔ c ∈ s_conns s ∧ near d c = n.
Proof. unfold conns_of. rewrite elem_of_list_filter. tauto. Qed.

Lemma in_ids_of s n d e : e ∈ ids_of s n d ↔ ∃ c, c ∈ s_conns s ∧ near d c = n ∧ c_id c = e.
Proof.
  unfold ids_of. rewrite elem_of_list_fmap. setoid_rewrite in_conns_of. naive_solver.
Qed.

Lemma fmap_filter_nodup {A} (f : A → id) (P : A → Prop) `{∀ x, Decision (P x)} l :
  NoDup (f <$> l) → NoDup (f <$> filter P l).
Proof.
  induction l as [|x l IH]; [done|].
  rewrite fmap_cons. intros [H1 H2]%NoDup_cons.
  rewrite filter_cons. case_decide.
  - rewrite fmap_cons. apply NoDup_cons. split; [|auto].
    intros Hin. apply H1. apply elem_of_list_fmap in Hin as (y & -> & Hy).
    apply elem_of_list_filter in Hy as [_ Hy]. by apply elem_of_list_fmap_1.
  - auto.
Qed.

Lemma nodup_ids_of s n d : NoDup (c_id <$> s_conns s) → NoDup (ids_of s n d).
Proof. intros H. by apply fmap_filter_nodup. Qed.

(** ** Walking *)
Lemma rep_edge_lookup g s c : Rep g s → c ∈ s_conns s →
  edges g !! c_id c = Some (enc_edge s c).
Proof. intros HR Hc. apply (rep_edges _ _ HR). eauto. Qed.

Lemma enc_edge_after s c d :
  edge_after d (enc_edge s c) = next_of (c_id c) (ids_of s (near d c) d).
Proof. by destruct d. Qed.
Lemma enc_far_end s c d : far_end d (enc_edge s c) = far d c.
Proof. by destruct d. Qed.
Lemma enc_node_first s n x d : node_first d (enc_node s n x) = head (ids_of s n d).
Proof. by destruct d. Qed.

Lemma edge_next_rep g s n d pre c post : Rep g s → is_Some (s_nodes s !! n) →
  conns_of s n d = pre ++ c :: post →
  edge_next g n (Some (c_id c)) d = head (c_id <$> post).
Proof.
  intros HR [x Hx] Hl. unfold edge_next.
  rewrite (rep_nodes _ _ HR), Hx. cbn.
  assert (Hc : c ∈ conns_of s n d) by (rewrite Hl; set_solver).
  apply in_conns_of in Hc as [Hc Hn].
  rewrite (rep_edge_lookup _ _ _ HR Hc), enc_edge_after, Hn.
  unfold ids_of. rewrite Hl, fmap_app, fmap_cons.
  apply next_of_app.
  pose proof (nodup_ids_of s n d (rep_nodup _ _ HR)) as Hnd.
  unfold ids_of in Hnd. rewrite Hl, fmap_app, fmap_cons in Hnd.
  apply NoDup_app in Hnd as (_ & H2 & _).
  intros ?. eapply H2; [done|left].
Qed.

Lemma edge_next_rep_first g s n d : Rep g s → is_Some (s_nodes s !! n) →
  edge_next g n None d = head (ids_of s n d).
Proof.
  intros HR [x Hx]. unfold edge_next.
  rewrite (rep_nodes _ _ HR), Hx. cbn. by rewrite enc_node_first.
Qed.

Lemma edge_walk_rep g s n d fuel post pre c : Rep g s → is_Some (s_nodes s !! n) →
  conns_of s n d = pre ++ c :: post → length post < fuel →
  edge_walk fuel g n (Some (c_id c)) d = Ok (c_id <$> post).
Proof.
  intros HR Hn. revert pre c fuel.
  induction post as [|c' post IH]; intros pre c fuel Hl Hf;
    (destruct fuel as [|fuel]; [cbn in Hf; lia|]); cbn [edge_walk];
    erewrite edge_next_rep by eauto; cbn [fmap list_fmap head]; [done|].
  rewrite (IH (pre ++ [c]) c'); [done| |cbn in Hf; lia].
  by rewrite Hl, <-app_assoc.
Qed.

Lemma node_walk_rep g s n d fuel post pre c : Rep g s → is_Some (s_nodes s !! n) →
  conns_of s n d = pre ++ c :: post → length post < fuel →
  node_walk fuel g n (Some (c_id c)) d = Ok (far d <$> post).
Proof.
  intros HR Hn. revert pre c fuel.
  induction post as [|c' post IH]; intros pre c fuel Hl Hf;
    (destruct fuel as [|fuel]; [cbn in Hf; lia|]); cbn [node_walk]; unfold node_next;
    erewrite edge_next_rep by eauto; cbn [fmap list_fmap head]; [done|].
  assert (Hc : c' ∈ conns_of s n d) by (rewrite Hl; set_solver).
  apply in_conns_of in Hc as [Hc _].
  rewrite (rep_edge_lookup _ _ _ HR Hc).
  rewrite (IH (pre ++ [c]) c'); [|by rewrite Hl, <-app_assoc|cbn in Hf; lia].
  cbn. by rewrite enc_far_end.
Qed.

Lemma NoDup_length_le (l : list id) (X : gset id) :
  NoDup l → (∀ e, e ∈ l → e ∈ X) → length l ≤ size X.
Proof.
  intros Hnd Hin. rewrite <-(size_list_to_set (C := gset id) l Hnd).
  apply subseteq_size. intros e. rewrite elem_of_list_to_set. auto.
Qed.

Lemma rep_conns_le g s : Rep g s → length (s_conns s) ≤ size (edges g).
Proof.
  intros HR. rewrite <-(fmap_length c_id), <-(size_dom (D := gset id)).
  apply NoDup_length_le; [apply (rep_nodup _ _ HR)|].
  intros e He. apply elem_of_list_fmap in He as (c & -> & Hc).
  apply elem_of_dom. rewrite (rep_edge_lookup _ _ _ HR Hc). eauto.
Qed.

Lemma conns_of_length s n d : length (conns_of s n d) ≤ length (s_conns s).
Proof. apply filter_length. Qed.

Lemma conns_of_absent g s n d : Rep g s → s_nodes s !! n = None → conns_of s n d = [].
Proof.
  intros HR Hn. destruct (conns_of s n d) as [|c l] eqn:E; [done|].
  assert (Hc : c ∈ conns_of s n d) by (rewrite E; left).
  apply in_conns_of in Hc as [Hc Hnear].
  apply (rep_wf _ _ HR) in Hc as [[x H1] [y H2]].
  destruct d; cbn in Hnear; congruence.
Qed.

Lemma edge_iterator_rep g s n d : Rep g s →
  edge_iterator g n d = Ok (c_id <$> conns_of s n d).
Proof.
  intros HR. unfold edge_iterator, walk_fuel.
  set (m := S (size (edges g))). cbn [edge_walk].
  destruct (s_nodes s !! n) as [x|] eqn:Hn.
  - rewrite (edge_next_rep_first g s) by eauto. unfold ids_of.
    pose proof (rep_conns_le _ _ HR). pose proof (conns_of_length s n d).
    destruct (conns_of s n d) as [|c post] eqn:E; [done|].
    cbn [fmap list_fmap head]. rewrite (edge_walk_rep g s n d m post [] c); eauto.
    cbn in *. lia.
  - unfold edge_next. rewrite (rep_nodes _ _ HR), Hn. cbn.
    by rewrite (conns_of_absent g).
Qed.

Lemma node_iter_rep g s n d : Rep g s →
  node_iter g n d = Ok (far d <$> conns_of s n d).
Proof.
  intros HR. unfold node_iter, walk_fuel.
  set (m := S (size (edges g))). cbn [node_walk]. unfold node_next.
  destruct (s_nodes s !! n) as [x|] eqn:Hn.
  - rewrite (edge_next_rep_first g s) by eauto. unfold ids_of.
    pose proof (rep_conns_le _ _ HR). pose proof (conns_of_length s n d).
    destruct (conns_of s n d) as [|c post] eqn:E; [done|].
    assert (Hc : c ∈ conns_of s n d) by (rewrite E; set_solver).
    apply in_conns_of in Hc as [Hc _].
    cbn [fmap list_fmap head]. rewrite (rep_edge_lookup _ _ _ HR Hc).
    rewrite (node_walk_rep g s n d m post [] c) by (eauto; cbn in *; lia).
    cbn. by rewrite enc_far_end.
  - unfold edge_next. rewrite (rep_nodes _ _ HR), Hn. cbn.
    by rewrite (conns_of_absent g).
Qed.

Lemma rep_observes g s : Rep g s → observes g s.
Proof.
  intros HR.
  assert (Hdom : dom (nodes g) = dom (s_nodes s)).
  { apply set_eq. intros n. rewrite !elem_of_dom, (rep_nodes _ _ HR).
    by rewrite fmap_is_Some. }
  split.
  - intros n. unfold get_node. rewrite (rep_nodes _ _ HR), <-option_fmap_compose.
    by destruct (s_nodes s !! n).
  - unfold node_count. by rewrite <-!size_dom, Hdom.
  - unfold all_node_ids. rewrite Hdom. apply NoDup_Permutation.
    + apply NoDup_elements.
    + apply NoDup_fst_map_to_list.
    + intros n. rewrite elem_of_elements, elem_of_dom, elem_of_list_fmap. split.
      * intros [x Hx]. exists (n, x). by rewrite elem_of_map_to_list.
      * intros ([n' x] & -> & Hx%elem_of_map_to_list). cbn. eauto.
  - intros n d. by apply edge_iterator_rep.
  - intros n d. by apply node_iter_rep.
  - intros n d. unfold connection_count. rewrite (node_iter_rep g s) by done.
    cbn. by rewrite fmap_length.
  - intros a b. unfold is_connected_to. rewrite (node_iter_rep g s) by done.
    eexists. split; [reflexivity|].
    rewrite existsb_exists. setoid_rewrite Nat.eqb_eq. split.
    + intros (y & Hy & <-). apply elem_of_list_In, elem_of_list_fmap in Hy as (c & -> & Hc).
      apply in_conns_of in Hc as [Hc Hn]. exists c. split; [done|]. cbn in Hn |- *. done.
    + intros (c & Hc & <- & <-). exists (c_to c). split; [|done].
      apply elem_of_list_In, elem_of_list_fmap. exists c. split; [done|].
      by apply in_conns_of.
  - intros e a b x. unfold get_edge. split.
    + intros (ed & He & <- & <- & <-). apply (rep_edges _ _ HR) in He as (c & Hc & <- & ->).
      cbn. by destruct c.
    + intros Hc. exists (enc_edge s (Conn e a b x)). split; [|done].
      exact (rep_edge_lookup _ _ _ HR Hc).
Qed.

(** ** Operations *)
Lemma add_node_rep g s n x : Rep g s →
  ∃ r, sstep s (AddNode n x) r ∧ res_agree Rep (add_node_with_id g n x) r.
Proof.
  intros HR. unfold add_node_with_id.
  pose proof (rep_nodes _ _ HR n) as Hg.
  destruct (s_nodes s !! n) as [y|] eqn:Hn; cbn in Hg; rewrite Hg.
  - exists (Panic AssertFailed). split; [constructor; rewrite Hn; eauto|].
    by rewrite bool_decide_eq_false_2.
  - eexists. split; [by constructor|]. rewrite bool_decide_eq_true_2 by done. cbn.
    split; cbn.
    + apply (rep_nodup _ _ HR).
    + intros c Hc. destruct (rep_wf _ _ HR c Hc) as [H1 H2].
      rewrite !lookup_insert_is_Some'. auto.
    + intros m. destruct (decide (m = n)) as [->|Hne].
      * rewrite !lookup_insert. cbn. unfold enc_node, ids_of.
        assert (H : ∀ d, conns_of (SGraph (<[n:=x]> (s_nodes s)) (s_conns s)) n d = []).
        { intros d. exact (conns_of_absent g s n d HR Hn). }
        by rewrite !H.
      * rewrite !lookup_insert_ne by done. apply (rep_nodes _ _ HR).
    + apply (rep_edges _ _ HR).
Qed.

Lemma remove_node_rep g s n : Rep g s →
  ∃ r, sstep s (RemoveNode n) r ∧
       res_agree Rep (let? r := remove_node g n in Ok (fst r)) r.
Proof.
  intros HR. unfold remove_node. pose proof (rep_nodes _ _ HR n) as Hg.
  destruct (s_nodes s !! n) as [y|] eqn:Hn; cbn in Hg; rewrite Hg.
  2: { eexists. split; [by apply s_remove_absent_node|]. done. }
  cbn [incoming outgoing enc_node node_data].
  unfold ids_of.
  destruct (conns_of s n Incoming) as [|c l] eqn:E1.
  - destruct (conns_of s n Outgoing) as [|c l] eqn:E2.
    + eexists. split.
      { apply s_remove_node; [rewrite Hn; eauto|].
        intros c Hc [Ht|Ht].
        - assert (H : c ∈ conns_of s n Outgoing) by by apply in_conns_of.
          rewrite E2 in H. by apply elem_of_nil in H.
        - assert (H : c ∈ conns_of s n Incoming) by by apply in_conns_of.
          rewrite E1 in H. by apply elem_of_nil in H. }
      cbn. split; cbn.
      * apply (rep_nodup _ _ HR).
      * intros c Hc. destruct (rep_wf _ _ HR c Hc) as [H1 H2].
        assert (c_from c ≠ n).
        { intros Hf. assert (H : c ∈ conns_of s n Outgoing) by by apply in_conns_of.
          rewrite E2 in H. by apply elem_of_nil in H. }
        assert (c_to c ≠ n).
        { intros Hf. assert (H' : c ∈ conns_of s n Incoming) by by apply in_conns_of.
          rewrite E1 in H'. by apply elem_of_nil in H'. }
        by rewrite !lookup_delete_ne.
      * intros m. destruct (decide (m = n)) as [->|Hne].
        -- by rewrite !lookup_delete.
        -- rewrite !lookup_delete_ne by done. apply (rep_nodes _ _ HR).
      * apply (rep_edges _ _ HR).
    + exists (Panic AssertFailed). split; [|done].
      assert (Hc : c ∈ conns_of s n Outgoing) by (rewrite E2; left).
      apply in_conns_of in Hc as [Hc Hf].
      eapply s_remove_connected_node; [rewrite Hn; eauto|exact Hc|by left].
  - exists (Panic AssertFailed). split; [|done].
    assert (Hc : c ∈ conns_of s n Incoming) by (rewrite E1; left).
    apply in_conns_of in Hc as [Hc Hf].
    eapply s_remove_connected_node; [rewrite Hn; eauto|exact Hc|by right].
Qed.

Lemma ids_of_snoc s ns n d c :
  ids_of (SGraph ns (s_conns s ++ [c])) n d =
  ids_of s n d ++ (if decide (near d c = n) then [c_id c] else []).
Proof.
  unfold ids_of, conns_of. cbn [s_conns]. rewrite filter_app, fmap_app. f_equal.
  rewrite filter_cons, filter_nil. by case_decide.
Qed.

Lemma last_fmap_None {A} (f : A → id) (l : list A) : last (f <$> l) = None → l = [].
Proof. destruct l as [|x l]; [done|]. rewrite fmap_cons. intros H%last_None. done. Qed.

Lemma add_edge_rep g s eid a b x : Rep g s → eid ∉ c_id <$> s_conns s →
  ∃ r, sstep s (AddEdge eid a b x) r ∧ res_agree Rep (add_edge g eid a b x) r.
Proof.
  intros HR Hfresh. unfold add_edge.
  destruct (s_nodes s !! a) as [xa|] eqn:Ha.
  2: { exists (Panic AssertFailed). split; [constructor; auto|].
       rewrite bool_decide_eq_false_2; [done|].
       rewrite (rep_nodes _ _ HR), Ha. by intros [? ?]. }
  rewrite bool_decide_eq_true_2 by (rewrite (rep_nodes _ _ HR), Ha; cbn; eauto).
  destruct (s_nodes s !! b) as [xb|] eqn:Hb.
  2: { exists (Panic AssertFailed). split; [constructor; auto|].
       rewrite bool_decide_eq_false_2; [done|].
       rewrite (rep_nodes _ _ HR), Hb. by intros [? ?]. }
  rewrite bool_decide_eq_true_2 by (rewrite (rep_nodes _ _ HR), Hb; cbn; eauto).
  cbn [rassert].
  eexists. split; [by constructor; eauto|].
  set (c := Conn eid a b x).
  set (s' := SGraph (s_nodes s) (s_conns s ++ [c])).
  (* outgoing list *)
  set (lo := last (ids_of s a Outgoing)).
  set (li := last (ids_of s b Incoming)).
  set (g1 := match lo with
     | Some last => Graph (nodes g) (alter (set_next_out (Some eid)) last (edges g))
     | None => Graph (alter (set_outgoing (Some eid)) a (nodes g)) (edges g)
     end).
  assert (E1 : link_out g a eid = Ok g1).
  { unfold link_out, get_last_connected_edge_id. rewrite (edge_iterator_rep g s) by done. done. }
  rewrite E1. cbn [rbind].
  (* walking incoming edges is unaffected by the outgoing update *)
  assert (Hn1 : ∀ n cur, edge_next g1 n cur Incoming = edge_next g n cur Incoming).
  { intros n cur. unfold g1, edge_next. destruct lo as [l|]; cbn.
    - destruct (nodes g !! n); [|done]. destruct cur as [e|]; [|done].
      destruct (decide (e = l)) as [->|].
      + rewrite lookup_alter. by destruct (edges g !! l).
      + by rewrite lookup_alter_ne.
    - destruct (decide (n = a)) as [->|].
      + rewrite lookup_alter. destruct (nodes g !! a); [|done]. by destruct cur.
      + by rewrite lookup_alter_ne. }
  assert (Hw1 : ∀ fuel n cur, edge_walk fuel g1 n cur Incoming = edge_walk fuel g n cur Incoming).
  { induction fuel as [|fuel IH]; [done|]. intros n cur. cbn [edge_walk]. rewrite Hn1.
    destruct (edge_next g n cur Incoming); [|done]. by rewrite IH. }
  assert (Hsz : walk_fuel g1 = walk_fuel g).
  { unfold walk_fuel, g1. destruct lo; [|done]. cbn. do 2 f_equal.
    rewrite <-!(size_dom (D := gset id)). by rewrite dom_alter_L. }
  set (g2 := match li with
     | Some last => Graph (nodes g1) (alter (set_next_in (Some eid)) last (edges g1))
     | None => Graph (alter (set_incoming (Some eid)) b (nodes g1)) (edges g1)
     end).
  assert (E2 : link_in g1 b eid = Ok g2).
  { unfold link_in, get_last_connected_edge_id, edge_iterator. rewrite Hsz, Hw1.
    change (edge_walk (walk_fuel g) g b None Incoming) with (edge_iterator g b Incoming).
    rewrite (edge_iterator_rep g s) by done. done. }
  rewrite E2. cbn [rbind res_agree].
  assert (Hnd : NoDup (c_id <$> s_conns s')).
  { unfold s'. cbn. rewrite fmap_app. apply NoDup_app. split; [apply (rep_nodup _ _ HR)|].
    split; [|apply NoDup_singleton]. intros e He ->%elem_of_list_singleton. done. }
  assert (Hids : ∀ n d, ids_of s' n d = ids_of s n d ++ if decide (near d c = n) then [eid] else []).
  { intros n d. apply ids_of_snoc. }
  assert (Hnin : ∀ n d, eid ∉ ids_of s n d).
  { intros n d Hin. apply Hfresh. apply in_ids_of in Hin as (c' & Hc' & _ & <-).
    by apply elem_of_list_fmap_1. }
  (* pointers of existing connections *)
  assert (Hnext : ∀ c' d, c' ∈ s_conns s →
    next_of (c_id c') (ids_of s' (near d c') d) =
    if decide (last (ids_of s (near d c) d) = Some (c_id c')) then Some eid
    else next_of (c_id c') (ids_of s (near d c') d)).
  { intros c' d Hc'. rewrite Hids.
    assert (Hin : c_id c' ∈ ids_of s (near d c') d) by (apply in_ids_of; eauto).
    destruct (decide (near d c = near d c')) as [Heq|Hne].
    - rewrite next_of_snoc by (try apply nodup_ids_of; try apply (rep_nodup _ _ HR); done).
      by rewrite <-Heq.
    - rewrite app_nil_r. rewrite decide_False; [done|].
      intros Hl%last_Some_elem_of. apply in_ids_of in Hl as (c'' & Hc'' & Hn'' & Hid).
      assert (c'' = c') by exact (conn_inj s _ _ (rep_nodup _ _ HR) Hc'' Hc' Hid). subst c''. done. }
  split.
  - exact Hnd.
  - intros c' Hc'. cbn in Hc'. apply elem_of_app in Hc' as [Hc'|Hc'].
    + exact (rep_wf _ _ HR c' Hc').
    + apply elem_of_list_singleton in Hc' as ->. cbn. eauto.
  - intros n. cbn [nodes]. change (s_nodes _) with (s_nodes s).
    assert (Hout : nodes g1 !! n = (λ y, Node y (head (ids_of s' n Outgoing)) (head (ids_of s n Incoming)))
                      <$> s_nodes s !! n).
    { unfold g1. rewrite Hids. cbn [near c c_from].
      destruct lo as [l|] eqn:Elo; cbn [nodes].
      - rewrite (rep_nodes _ _ HR). destruct (s_nodes s !! n); [|done]. cbn.
        unfold enc_node. f_equal. f_equal. destruct (ids_of s n Outgoing) eqn:Ei; [|done].
        cbn. case_decide; [|done]. subst n. unfold lo in Elo. by rewrite Ei in Elo.
      - assert (Hnil : ids_of s a Outgoing = []).
        { apply last_fmap_None in Elo. unfold ids_of. by rewrite Elo. }
        destruct (decide (n = a)) as [->|Hne].
        + rewrite lookup_alter, (rep_nodes _ _ HR), Ha. cbn.
          rewrite Hnil. cbn. by rewrite decide_True.
        + rewrite lookup_alter_ne by done. rewrite (rep_nodes _ _ HR).
          destruct (s_nodes s !! n); [|done]. cbn. rewrite decide_False by done.
          by rewrite app_nil_r. }
    unfold g2. destruct li as [l|] eqn:Eli; cbn [nodes].
    + rewrite Hout. destruct (s_nodes s !! n); [|done]. cbn.
      unfold enc_node. do 2 f_equal. rewrite Hids. cbn [near c c_to].
      destruct (ids_of s n Incoming) eqn:Ei; [|done].
      cbn. case_decide; [|done]. subst n. unfold li in Eli. by rewrite Ei in Eli.
    + assert (Hnil : ids_of s b Incoming = []).
      { apply last_fmap_None in Eli. unfold ids_of. by rewrite Eli. }
      destruct (decide (n = b)) as [->|Hne].
      * rewrite lookup_alter, Hout, Hb. cbn. unfold enc_node.
        rewrite (Hids b Incoming), Hnil. cbn. by rewrite decide_True.
      * rewrite lookup_alter_ne, Hout by done.
        destruct (s_nodes s !! n); [|done]. cbn. unfold enc_node.
        rewrite (Hids n Incoming). cbn [near c c_to]. rewrite decide_False by done.
        by rewrite app_nil_r.
  - intros e ed. cbn [edges s_conns s'].
    assert (Hed : ∀ e', edges g2 !! e' =
      (λ ed, Edge (from_node_id ed) (to_node_id ed) (edge_data ed)
               (if decide (lo = Some e') then Some eid else next_out ed)
               (if decide (li = Some e') then Some eid else next_in ed)) <$> edges g !! e').
    { intros e'. unfold g2, g1.
      destruct li as [l|]; [destruct (decide (l = e')) as [->|Hne1]|];
        (destruct lo as [l'|]; [destruct (decide (l' = e')) as [->|Hne2]|]); cbn [edges];
        rewrite ?lookup_alter, ?lookup_alter_ne by done;
        rewrite ?lookup_alter, ?lookup_alter_ne by done;
        destruct (edges g !! e') as [[]|]; cbn; repeat case_decide; try done; congruence. }
    destruct (decide (e = eid)) as [->|Hne].
    + rewrite lookup_insert. split.
      * intros [= <-]. exists c. split; [set_solver|]. split; [done|].
        unfold enc_edge. cbn [c c_from c_to c_id c_data]. f_equal.
        -- rewrite Hids. cbn [near c c_from]. rewrite decide_True by done.
           by rewrite next_of_snoc_new.
        -- rewrite Hids. cbn [near c c_to]. rewrite decide_True by done.
           by rewrite next_of_snoc_new.
      * intros (c' & Hc' & Hid & ->).
        apply elem_of_app in Hc' as [Hc'|Hc'].
        { exfalso. apply Hfresh. rewrite <-Hid. by apply elem_of_list_fmap_1. }
        apply elem_of_list_singleton in Hc' as ->. f_equal.
        unfold enc_edge. cbn [c c_from c_to c_id c_data].
        fold c. change (SGraph (s_nodes s) (s_conns s ++ [c])) with s'.
        rewrite !Hids. cbn [near c c_to c_from]. rewrite !decide_True by done.
        by rewrite !next_of_snoc_new.
    + rewrite lookup_insert_ne by done. rewrite Hed.
      assert (Henc : ∀ c', c' ∈ s_conns s →
        Edge (c_from c') (c_to c') (c_data c')
               (if decide (lo = Some (c_id c')) then Some eid else next_out (enc_edge s c'))
               (if decide (li = Some (c_id c')) then Some eid else next_in (enc_edge s c'))
        = enc_edge s' c').
      { intros c' Hc'. unfold enc_edge at 3.
        pose proof (Hnext c' Outgoing Hc') as H1. pose proof (Hnext c' Incoming Hc') as H2.
        cbn [near c c_from c_to] in H1, H2. by rewrite H1, H2. }
      rewrite fmap_Some. split.
      * intros (ed0 & He0 & ->). apply (rep_edges _ _ HR) in He0 as (c' & Hc' & <- & ->).
        exists c'. split; [set_solver|]. split; [done|]. by apply Henc.
      * intros (c' & Hc' & <- & ->).
        apply elem_of_app in Hc' as [Hc'|Hc'].
        2: { apply elem_of_list_singleton in Hc' as ->. done. }
        exists (enc_edge s c'). split; [by apply rep_edge_lookup|]. by rewrite <-Henc.
Qed.

Lemma ids_of_split s before c after n d : s_conns s = before ++ c :: after →
  ids_of s n d =
    (c_id <$> filter (λ c, near d c = n) before) ++
    (if decide (near d c = n) then [c_id c] else []) ++
    (c_id <$> filter (λ c, near d c = n) after).
Proof.
  intros E. unfold ids_of, conns_of. rewrite E, filter_app, filter_cons, fmap_app.
  by case_decide.
Qed.

Lemma ids_of_without s ns before c after n d : s_conns s = before ++ c :: after →
  ids_of (SGraph ns (before ++ after)) n d =
    (c_id <$> filter (λ c, near d c = n) before) ++
    (c_id <$> filter (λ c, near d c = n) after).
Proof. intros _. unfold ids_of, conns_of. cbn. by rewrite filter_app, fmap_app. Qed.

(** pointer surgery in one direction *)
Lemma next_of_without s before c after n d e :
  NoDup (c_id <$> s_conns s) → s_conns s = before ++ c :: after → e ≠ c_id c →
  next_of e (ids_of (SGraph (s_nodes s) (before ++ after)) n d) =
  replace_ptr (c_id c) (next_of (c_id c) (ids_of s (near d c) d)) (next_of e (ids_of s n d)).
Proof.
  intros Hnd E Hne.
  pose proof (nodup_ids_of s n d Hnd) as Hnd'.
  rewrite (ids_of_without s _ before c after) by done.
  destruct (decide (near d c = n)) as [<-|Hn].
  - rewrite (ids_of_split s before c after (near d c) d) in * by done.
    rewrite decide_True in * by done. by apply next_of_remove.
  - rewrite (ids_of_split s before c after n d) in * by done.
    rewrite decide_False in * by done. cbn [app] in *.
    symmetry. apply replace_ptr_neq. intros Hin%next_of_in.
    apply elem_of_app in Hin as [Hin|Hin];
      apply elem_of_list_fmap in Hin as (c' & Hid & Hc');
      apply elem_of_list_filter in Hc' as [Hc' Hin];
      assert (c' = c) by (eapply (conn_inj s); eauto; rewrite E; set_solver);
      by subst.
Qed.

Lemma head_without s before c after n d :
  NoDup (c_id <$> s_conns s) → s_conns s = before ++ c :: after →
  head (ids_of (SGraph (s_nodes s) (before ++ after)) n d) =
  replace_ptr (c_id c) (next_of (c_id c) (ids_of s (near d c) d)) (head (ids_of s n d)).
Proof.
  intros Hnd E.
  pose proof (nodup_ids_of s n d Hnd) as Hnd'.
  rewrite (ids_of_without s _ before c after) by done.
  destruct (decide (near d c = n)) as [<-|Hn].
  - rewrite (ids_of_split s before c after (near d c) d) in * by done.
    rewrite decide_True in * by done. by apply head_remove.
  - rewrite (ids_of_split s before c after n d) in * by done.
    rewrite decide_False in * by done. cbn [app] in *.
    symmetry. apply replace_ptr_neq. intros Hin%head_Some_elem_of.
    apply elem_of_app in Hin as [Hin|Hin];
      apply elem_of_list_fmap in Hin as (c' & Hid & Hc');
      apply elem_of_list_filter in Hc' as [Hc' Hin];
      assert (c' = c) by (eapply (conn_inj s); eauto; rewrite E; set_solver);
      by subst.
Qed.

Lemma remove_found g s before c after : Rep g s → s_conns s = before ++ c :: after →
  Rep (replace_connections
         (replace_connections (Graph (nodes g) (delete (c_id c) (edges g)))
            Outgoing (c_id c) (next_out (enc_edge s c)))
         Incoming (c_id c) (next_in (enc_edge s c)))
      (SGraph (s_nodes s) (before ++ after)).
Proof.
  intros HR E. pose proof (rep_nodup _ _ HR) as Hnd.
  split.
  - cbn. rewrite E in Hnd. rewrite fmap_app, fmap_cons in Hnd. rewrite fmap_app.
    apply NoDup_app in Hnd as (H1 & H2 & H3). apply NoDup_cons in H3 as [H3 H4].
    apply NoDup_app. split; [done|]. split; [|done]. intros e He1 He2.
    eapply H2; [done|by right].
  - intros c' Hc'. cbn in *. apply (rep_wf _ _ HR). rewrite E. set_solver.
  - intros n. unfold replace_connections, replace_node_connections, replace_edge_connections.
    cbn [nodes edges s_nodes]. rewrite !lookup_fmap, (rep_nodes _ _ HR).
    destruct (s_nodes s !! n) as [x|]; [|done]. cbn. unfold set_incoming, set_outgoing, enc_node. cbn.
    do 2 f_equal.
    + symmetry. exact (head_without s before c after n Outgoing Hnd E).
    + symmetry. exact (head_without s before c after n Incoming Hnd E).
  - intros e ed. unfold replace_connections, replace_node_connections, replace_edge_connections.
    cbn [nodes edges s_conns]. rewrite !lookup_fmap.
    assert (Henc : ∀ c', c' ∈ before ++ after → c_id c' ≠ c_id c →
      set_next_in (replace_ptr (c_id c) (next_in (enc_edge s c)) (next_in (enc_edge s c')))
       (set_next_out (replace_ptr (c_id c) (next_out (enc_edge s c)) (next_out (enc_edge s c')))
         (enc_edge s c'))
      = enc_edge (SGraph (s_nodes s) (before ++ after)) c').
    { intros c' Hc' Hne. unfold set_next_in, set_next_out, enc_edge. cbn. f_equal.
      - symmetry. exact (next_of_without s before c after _ Outgoing _ Hnd E Hne).
      - symmetry. exact (next_of_without s before c after _ Incoming _ Hnd E Hne). }
    assert (Hnotc : ∀ c', c' ∈ before ++ after → c_id c' ≠ c_id c).
    { intros c' Hc' Heq. rewrite E, fmap_app, fmap_cons in Hnd.
      apply NoDup_app in Hnd as (H1 & H2 & H3). apply NoDup_cons in H3 as [H3 H4].
      apply elem_of_app in Hc' as [Hc'|Hc'].
      - eapply (H2 (c_id c')); [by apply elem_of_list_fmap_1|rewrite Heq; left].
      - apply H3. rewrite <-Heq. by apply elem_of_list_fmap_1. }
    split.
    + intros H.
      apply fmap_Some in H as (ed1 & H & ->). apply fmap_Some in H as (ed0 & H & ->).
      apply lookup_delete_Some in H as [Hne H].
      apply (rep_edges _ _ HR) in H as (c' & Hc' & <- & ->).
      assert (Hin : c' ∈ before ++ after).
      { rewrite E in Hc'. apply elem_of_app in Hc' as [Hc'|Hc']; [set_solver|].
        apply elem_of_cons in Hc' as [->|Hc']; [done|set_solver]. }
      exists c'. split; [done|]. split; [done|]. apply Henc; [done|]. by apply Hnotc.
    + intros (c' & Hc' & <- & ->).
      rewrite lookup_delete_ne by (intros Heq; by apply (Hnotc c')).
      assert (Hin : c' ∈ s_conns s) by (rewrite E; set_solver).
      rewrite (rep_edge_lookup _ _ _ HR Hin). cbn. f_equal. apply Henc; [done|]. by apply Hnotc.
Qed.

Lemma find_Some_spec (f : id → bool) l e : find f l = Some e → e ∈ l ∧ f e = true.
Proof. intros H. apply find_some in H as [H1 H2]. by rewrite elem_of_list_In. Qed.

Lemma remove_edge_rep g s order a b : Rep g s → order ≡ₚ elements (dom (edges g)) →
  ∃ s', sstep s (RemoveEdge a b) (Ok s') ∧ Rep (fst (remove_edge g order a b)) s'.
Proof.
  intros HR Hord. unfold remove_edge, find_edge_between_nodes.
  destruct (find (edge_matches g a b) order) as [eid|] eqn:Ef.
  - apply find_Some_spec in Ef as [_ Hm]. unfold edge_matches in Hm.
    destruct (edges g !! eid) as [ed|] eqn:Ee; [|done].
    apply andb_prop in Hm as [H1%Nat.eqb_eq H2%Nat.eqb_eq].
    apply (rep_edges _ _ HR) in Ee as (c & Hc & <- & ->).
    apply elem_of_list_split in Hc as (before & after & E).
    eexists. split.
    + eapply s_disconnect; [exact E|exact H1|exact H2].
    + cbn [fst]. by apply remove_found.
  - exists s. split; [|done]. apply s_disconnect_nothing. intros c Hc [Hf Ht].
    pose proof (rep_edge_lookup _ _ _ HR Hc) as He.
    assert (Hin : c_id c ∈ order).
    { rewrite Hord, elem_of_elements, elem_of_dom, He. eauto. }
    apply elem_of_list_In in Hin. eapply find_none in Hin; [|exact Ef].
    unfold edge_matches in Hin. rewrite He in Hin. cbn in Hin.
    rewrite Hf, Ht, !Nat.eqb_refl in Hin. done.
Qed.

(** what remove_edge returns *)
Lemma remove_edge_result g s order a b : Rep g s → order ≡ₚ elements (dom (edges g)) →
  (∃ before c after, s_conns s = before ++ c :: after ∧ c_from c = a ∧ c_to c = b ∧
      Rep (fst (remove_edge g order a b)) (SGraph (s_nodes s) (before ++ after)) ∧
      snd (remove_edge g order a b) = Some (c_data c)) ∨
  ((∀ c, c ∈ s_conns s → ¬ (c_from c = a ∧ c_to c = b)) ∧
    remove_edge g order a b = (g, None)).
Proof.
  intros HR Hord. unfold remove_edge, find_edge_between_nodes.
  destruct (find (edge_matches g a b) order) as [eid|] eqn:Ef.
  - left. apply find_Some_spec in Ef as [_ Hm]. unfold edge_matches in Hm.
    destruct (edges g !! eid) as [ed|] eqn:Ee; [|done].
    apply andb_prop in Hm as [H1%Nat.eqb_eq H2%Nat.eqb_eq].
    apply (rep_edges _ _ HR) in Ee as (c & Hc & <- & ->).
    apply elem_of_list_split in Hc as (before & after & E).
    exists before, c, after. split; [done|]. split; [done|]. split; [done|].
    split; [by apply remove_found|done].
  - right. split; [|done]. intros c Hc [Hf Ht].
    pose proof (rep_edge_lookup _ _ _ HR Hc) as He.
    assert (Hin : c_id c ∈ order).
    { rewrite Hord, elem_of_elements, elem_of_dom, He. eauto. }
    apply elem_of_list_In in Hin. eapply find_none in Hin; [|exact Ef].
    unfold edge_matches in Hin. rewrite He in Hin. cbn in Hin.
    rewrite Hf, Ht, !Nat.eqb_refl in Hin. done.
Qed.

Lemma gstep_rep shuffle k g s o :
  any_order shuffle → Rep g s →
  (∀ e, e ∈ op_edge_ids o → e ∉ c_id <$> s_conns s) →
  ∃ r, sstep s o r ∧ res_agree Rep (gstep shuffle k g o) r.
Proof.
  intros Hsh HR Hf. destruct o as [n x|n|eid a b x|a b]; cbn [gstep].
  - by apply add_node_rep.
  - by apply remove_node_rep.
  - apply add_edge_rep; [done|]. apply Hf. cbn. set_solver.
  - destruct (remove_edge_rep g s (shuffle k (elements (dom (edges g)))) a b HR (Hsh _ _))
      as (s' & H1 & H2).
    exists (Ok s'). by split.
Qed.

Lemma sstep_ids s o s' : sstep s o (Ok s') →
  ∀ e, e ∈ c_id <$> s_conns s' → e ∈ c_id <$> s_conns s ∨ e ∈ op_edge_ids o.
Proof.
  intros H. inversion H; subst; cbn; auto.
  - intros e. rewrite fmap_app, elem_of_app. cbn. intros [?|?]; [auto|right; done].
  - intros e He. left.
    match goal with E : s_conns s = _ |- _ => rewrite E end.
    rewrite fmap_app, fmap_cons. rewrite fmap_app in He. set_solver.
Qed.

Lemma grun_rep shuffle k g s os :
  any_order shuffle → Rep g s →
  NoDup (edge_ids os) → (∀ e, e ∈ edge_ids os → e ∉ c_id <$> s_conns s) →
  ∃ r, srun s os r ∧ res_agree Rep (grun shuffle k g os) r.
Proof.
  intros Hsh. revert k g s.
  induction os as [|o os IH]; intros k g s HR Hnd Hf.
  - exists (Ok s). split; [constructor|done].
  - unfold edge_ids in Hnd, Hf. cbn in Hnd, Hf. fold (edge_ids os) in Hnd, Hf.
    apply NoDup_app in Hnd as (Hnd1 & Hnd2 & Hnd3).
    destruct (gstep_rep shuffle k g s o) as (r & Hs & Ha); [done|done| |].
    { intros e He. apply Hf. set_solver. }
    cbn [grun]. destruct (gstep shuffle k g o) as [g'|p], r as [s'|q]; cbn in Ha; try done.
    + destruct (IH (S k) g' s') as (r & Hr & Hag); [done|done| |].
      * intros e He Hin. destruct (sstep_ids _ _ _ Hs e Hin) as [H|H].
        -- eapply Hf; [|exact H]. set_solver.
        -- eapply Hnd2; done.
      * exists r. split; [by econstructor|done].
    + subst. exists (Panic q). split; [by constructor|done].
Qed.

Lemma srun_ids s os r s' : srun s os r → r = Ok s' →
  ∀ e, e ∈ c_id <$> s_conns s' → e ∈ c_id <$> s_conns s ∨ e ∈ edge_ids os.
Proof.
  intros H. revert s'. induction H as [s|s o os p H|s o os s1 r H1 H2 IH]; intros s' E.
  - injection E as ->. auto.
  - done.
  - intros e He. unfold edge_ids. cbn. rewrite elem_of_app.
    destruct (IH s' E e He) as [Hin|Hin]; [|auto].
    destruct (sstep_ids _ _ _ H1 e Hin); auto.
Qed.

Lemma grun_reaches shuffle (ops : list (gop ND ED)) g : any_order shuffle → NoDup (edge_ids ops) →
  grun shuffle 0 empty_graph ops = Ok g →
  ∃ s, srun sempty ops (Ok s) ∧ Rep g s.
Proof.
  intros Hsh Hnd E.
  destruct (grun_rep shuffle 0 empty_graph sempty ops) as (r & Hr & Ha);
    [done|apply rep_empty|done|cbn; intros; apply not_elem_of_nil|].
  rewrite E in Ha. destruct r as [s|]; [|done]. eauto.
Qed.

Lemma history_refines shuffle (ops : list (gop ND ED)) : any_order shuffle → NoDup (edge_ids ops) →
  ∃ r, srun sempty ops r ∧ res_agree observes (grun shuffle 0 empty_graph ops) r.
Proof.
  intros Hsh Hnd.
  destruct (grun_rep shuffle 0 empty_graph sempty ops) as (r & Hr & Ha);
    [done|apply rep_empty|done|cbn; intros; apply not_elem_of_nil|].
  exists r. split; [done|].
  destruct (grun shuffle 0 empty_graph ops), r; cbn in *; try done. by apply rep_observes.
Qed.

Lemma disconnect_exactly_one shuffle (ops : list (gop ND ED)) g order a b :
  any_order shuffle → NoDup (edge_ids ops) →
  grun shuffle 0 empty_graph ops = Ok g →
  order ≡ₚ elements (dom (edges g)) →
  ∃ s, srun sempty ops (Ok s) ∧ observes g s ∧
   ((∃ before c after, s_conns s = before ++ c :: after ∧ c_from c = a ∧ c_to c = b ∧
      observes (fst (remove_edge g order a b)) (SGraph (s_nodes s) (before ++ after)) ∧
      snd (remove_edge g order a b) = Some (c_data c)) ∨
    ((∀ c, c ∈ s_conns s → ¬ (c_from c = a ∧ c_to c = b)) ∧
     remove_edge g order a b = (g, None))).
Proof.
  intros Hsh Hnd E Hord. destruct (grun_reaches shuffle ops g Hsh Hnd E) as (s & Hs & HR).
  exists s. split; [done|]. split; [by apply rep_observes|].
  destruct (remove_edge_result g s order a b HR Hord)
    as [(before & c & after & H1 & H2 & H3 & H4 & H5)|H]; [left|by right].
  exists before, c, after. repeat (split; [done|]). split; [by apply rep_observes|done].
Qed.

Lemma snoc_split_last {A} (l : list A) x before y after (P : A → Prop) :
  l ++ [x] = before ++ y :: after → P y → (∀ z, z ∈ l → ¬ P z) →
  before = l ∧ y = x ∧ after = [].
Proof.
  intros E HP Hl. destruct (decide (after = [])) as [->|Hne].
  - apply app_inj_tail in E as [-> ->]. done.
  - destruct (exists_last Hne) as (after' & z & ->). exfalso.
    rewrite app_comm_cons, app_assoc in E. apply app_inj_tail in E as [-> _].
    apply (Hl y); [set_solver|done].
Qed.

Lemma disconnect_undoes_connect shuffle (ops : list (gop ND ED)) g eid a b x g' order :
  any_order shuffle → NoDup (edge_ids ops) →
  grun shuffle 0 empty_graph ops = Ok g →
  eid ∉ edge_ids ops →
  is_connected_to g a b = Ok false →
  add_edge g eid a b x = Ok g' →
  order ≡ₚ elements (dom (edges g')) →
  remove_edge g' order a b = (g, Some x).
Proof.
  intros Hsh Hnd E Hfr Hnc Hadd Hord.
  destruct (grun_reaches shuffle ops g Hsh Hnd E) as (s & Hs & HR).
  assert (Hfr' : eid ∉ c_id <$> s_conns s).
  { intros Hin. destruct (srun_ids _ _ _ s Hs eq_refl eid Hin) as [H|H]; [|done].
    by apply elem_of_nil in H. }
  destruct (add_edge_rep g s eid a b x HR Hfr') as (r & Hst & Hag).
  rewrite Hadd in Hag. destruct r as [s'|]; [|done]. cbn in Hag.
  assert (Hno : ∀ c, c ∈ s_conns s → ¬ (c_from c = a ∧ c_to c = b)).
  { intros c Hc [H1 H2]. destruct (obs_connected _ _ (rep_observes _ _ HR) a b) as (t & Ht & Hiff).
    rewrite Hnc in Ht. injection Ht as <-. enough (false = true) by done.
    apply Hiff. eauto. }
  inversion Hst as [| | | | |s0 eid' a' b' x' Ha Hb E1 E2 E3| | |]. subst s0 eid' a' b' x' s'.
  destruct (remove_edge_result g' _ order a b Hag Hord)
    as [(before & c & after & H1 & H2 & H3 & H4 & H5)|[H _]].
  - cbn in H1. apply (snoc_split_last _ _ _ _ _ (λ c, c_from c = a ∧ c_to c = b)) in H1
      as (-> & -> & ->); [|done|done].
    cbn in H5. rewrite app_nil_r in H4. cbn [s_nodes] in H4.
    destruct (remove_edge g' order a b) as [g'' o]. cbn in *. subst o. f_equal.
    apply (rep_det g'' g s); [|done]. by destruct s.
  - exfalso. apply (H (Conn eid a b x)); [|done]. cbn. set_solver.
Qed.

Lemma abort_iff_illegal shuffle (ops : list (gop ND ED)) g k o p :
  any_order shuffle → NoDup (edge_ids (ops ++ [o])) →
  grun shuffle 0 empty_graph ops = Ok g →
  gstep shuffle k g o = Panic p ↔ p = AssertFailed ∧ illegal g o.
Proof.
  intros Hsh Hnd E.
  assert (Hids : edge_ids (ops ++ [o]) = edge_ids ops ++ op_edge_ids o).
  { unfold edge_ids. rewrite bind_app. cbn. by rewrite app_nil_r. }
  rewrite Hids in Hnd. apply NoDup_app in Hnd as (Hnd1 & Hnd2 & _).
  destruct (grun_reaches shuffle ops g Hsh Hnd1 E) as (s & Hs & HR).
  pose proof (rep_observes _ _ HR) as Ho.
  destruct (gstep_rep shuffle k g s o Hsh HR) as (r & Hst & Hag).
  { intros e He Hin. destruct (srun_ids _ _ _ s Hs eq_refl e Hin) as [H|H].
    - by apply elem_of_nil in H.
    - by eapply Hnd2. }
  assert (Hill : illegal g o ↔
    match r with Panic _ => True | Ok _ => False end).
  { inversion Hst; subst; cbn [illegal]; rewrite ?(obs_node _ _ Ho).
    - match goal with H : _ = None |- _ => rewrite H end. split; [intros [? ?]; done|done].
    - tauto.
    - match goal with H : _ = None |- _ => rewrite H end. split; [intros [[? ?] _]; done|done].
    - split; [|done]. intros (_ & d & j & Hc & Hj).
      rewrite (obs_count _ _ Ho) in Hc. injection Hc as <-.
      destruct (conns_of s n d) as [|c l] eqn:Ec; [cbn in Hj; lia|].
      assert (Hin : c ∈ conns_of s n d) by (rewrite Ec; left).
      apply in_conns_of in Hin as [Hin Hnear].
      match goal with H : ∀ c, c ∈ s_conns s → ¬ touches n c |- _ => apply (H c Hin) end.
      destruct d; [by left|by right].
    - split; [done|]. intros _. split; [done|].
      match goal with H : touches n c |- _ => destruct H as [Ht|Ht] end.
      + exists Outgoing, (length (conns_of s n Outgoing)). split; [apply (obs_count _ _ Ho)|].
        assert (Hin : c ∈ conns_of s n Outgoing) by (by apply in_conns_of).
        destruct (conns_of s n Outgoing); [by apply elem_of_nil in Hin|cbn; lia].
      + exists Incoming, (length (conns_of s n Incoming)). split; [apply (obs_count _ _ Ho)|].
        assert (Hin : c ∈ conns_of s n Incoming) by (by apply in_conns_of).
        destruct (conns_of s n Incoming); [by apply elem_of_nil in Hin|cbn; lia].
    - split; [|done].
      repeat match goal with H : is_Some _ |- _ => destruct H as [? H]; rewrite H end.
      intros [?|?]; done.
    - tauto.
    - done.
    - done. }
  assert (Hp : ∀ q, r = Panic q → q = AssertFailed).
  { intros q ->. by inversion Hst. }
  rewrite Hill.
  destruct (gstep shuffle k g o) as [g'|q], r as [s'|q']; cbn in Hag; try done.
  - split; [done|tauto].
  - subst q'. rewrite (Hp q eq_refl). split; [intros [= <-]; done|intros [-> _]; done].
Qed.

End proofs.
