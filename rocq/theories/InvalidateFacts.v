(** Facts about [invalidate_by_id]: termination for every cache content and its
    exact effect on synchronised dependency graphs. *)
From Verif Require Export Cache.
From stdpp Require Import relations.

(** [dep_rel c x y]: [y] is recorded as depending on [x]. *)
Definition dep_rel (c : cache) (x y : addr) : Prop := y ∈ default ∅ (dependents c !! x).

(** Both directions of the recorded graph agree. *)
Definition sync (c : cache) : Prop :=
  ∀ x y, y ∈ default ∅ (dependents c !! x) ↔ x ∈ default ∅ (dependencies c !! y).

Lemma elem_iter_order pr X x : x ∈ iter_order pr X ↔ x ∈ X.
Proof.
  unfold iter_order. rewrite <-elem_of_elements.
  assert (merge_sort (prio_le pr) (elements X) ≡ₚ elements X) as -> by apply merge_sort_Permutation. done.
Qed.
Lemma NoDup_iter_order pr X : NoDup (iter_order pr X).
Proof.
  unfold iter_order.
  assert (merge_sort (prio_le pr) (elements X) ≡ₚ elements X) as -> by apply merge_sort_Permutation.
  apply NoDup_elements.
Qed.
Lemma length_iter_order pr X : length (iter_order pr X) = size X.
Proof.
  unfold iter_order.
  assert (merge_sort (prio_le pr) (elements X) ≡ₚ elements X) as -> by apply merge_sort_Permutation.
  done.
Qed.

(** ** Edge count *)
Notation ecount := (map_fold (λ (_ : addr) (X : gset addr) n, size X + n) 0).

Lemma ecount_delete (m : gmap addr (gset addr)) x X :
  m !! x = Some X → ecount m = size X + ecount (delete x m).
Proof.
  intros Hx.
  rewrite <-(insert_delete m x X Hx) at 1.
  rewrite (map_fold_insert_L (λ (_ : addr) (X : gset addr) n, size X + n) 0 x X (delete x m)); [done| |].
  - intros; lia.
  - apply lookup_delete.
Qed.
Lemma ecount_delete_none (m : gmap addr (gset addr)) x :
  m !! x = None → delete x m = m.
Proof. apply delete_notin. Qed.
Lemma ecount_insert (m : gmap addr (gset addr)) x X Y :
  m !! x = Some X → ecount (<[x := Y]> m) + size X = ecount m + size Y.
Proof.
  intros Hx. rewrite (ecount_delete (<[x:=Y]> m) x Y) by apply lookup_insert.
  rewrite delete_insert_delete. rewrite (ecount_delete m x X Hx). lia.
Qed.

Lemma inv_deps_ecount dbg P b l c c' :
  inv_deps dbg P b l c = COk c' → edge_count c' ≤ edge_count c.
Proof.
  revert c; induction l as [|d l IH]; intros c; cbn [inv_deps]; [by intros [= ->]|].
  case_bool_decide; [apply IH|].
  destruct (dependents c !! d) as [X|] eqn:HX; [|done].
  destruct (dbg && _); [done|]. intros Hr. apply IH in Hr.
  etrans; [exact Hr|]. unfold edge_count.
  assert (∀ c1, ecount (dependents (if bool_decide (X ∖ {[b]} = ∅) then set_leafs ({[d]} ∪.) c1 else c1)) = ecount (dependents c1)) as ->
    by (intros c1; by case_bool_decide).
  cbn [dependents set_dependents].
  pose proof (ecount_insert (dependents c) d X (X ∖ {[b]}) HX).
  pose proof (subseteq_size (X ∖ {[b]}) X ltac:(set_solver)). lia.
Qed.

Lemma inv_deps_no_fuel dbg P b l c : inv_deps dbg P b l c ≠ CFuel.
Proof.
  revert c; induction l as [|d l IH]; intros c; cbn [inv_deps]; [done|].
  case_bool_decide; [apply IH|].
  destruct (dependents c !! d) as [X|] eqn:HX; [|done].
  destruct (dbg && _); [done|]. apply IH.
Qed.

Lemma inv_loop_no_fuel fuel dbg pr i P L c :
  edge_count c + length L ≤ fuel → inv_loop fuel dbg pr i P L c ≠ CFuel.
Proof.
  revert i P L c; induction fuel as [|fuel IH]; intros i P [|b L] c Hf; cbn [inv_loop]; try done.
  { cbn [length] in Hf. lia. }
  destruct (inv_deps _ _ _ _ _) as [c3| |] eqn:H3; [|done|by apply inv_deps_no_fuel in H3].
  apply IH. apply inv_deps_ecount in H3.
  unfold edge_count in *. cbn [dependents set_artifacts set_leafs set_dependencies set_dependents] in *.
  cbn [length] in Hf.
  destruct (dependents c !! b) as [X|] eqn:HX.
  - rewrite app_length, rev_length, length_iter_order.
    pose proof (ecount_delete (dependents c) b X HX). lia.
  - rewrite delete_notin in H3 by done. lia.
Qed.

Lemma invalidate_no_fuel dbg pr a c : invalidate_by_id dbg pr a c ≠ CFuel.
Proof. apply inv_loop_no_fuel. cbn [length]. lia. Qed.

(** ** Exact effect *)

Lemma inv_deps_spec dbg P b l c :
  NoDup l →
  (∀ x, x ∈ l → x ∉ P → ∃ X, dependents c !! x = Some X ∧ b ∈ X) →
  ∃ c', inv_deps dbg P b l c = COk c' ∧
    artifacts c' = artifacts c ∧ dyn_states c' = dyn_states c ∧ dependencies c' = dependencies c ∧
    known c' = known c ∧
    (∀ x, dependents c' !! x =
       if bool_decide (x ∈ l ∧ x ∉ P) then (.∖ {[b]}) <$> dependents c !! x else dependents c !! x) ∧
    (∀ x, x ∈ leafs c' ↔ x ∈ leafs c ∨ (x ∈ l ∧ x ∉ P ∧ ∃ X, dependents c !! x = Some X ∧ X ∖ {[b]} = ∅)).
Proof.
  revert c; induction l as [|d l IH]; intros c Hnd Hpre; cbn [inv_deps].
  { exists c. split_and!; try done.
    intros x. rewrite elem_of_nil. naive_solver. }
  apply NoDup_cons in Hnd as [Hd Hnd].
  case_bool_decide as HdP.
  { destruct (IH c Hnd) as (c' & Hr & ? & ? & ? & ? & Hdep & Hleaf).
    { intros x Hx. apply Hpre. by right. }
    exists c'. split_and!; try done.
    - intros x. rewrite Hdep. 
      destruct (decide (x = d)) as [->|Hne].
      + rewrite !bool_decide_eq_false_2 by tauto. done.
      + assert (bool_decide (x ∈ l ∧ x ∉ P) = bool_decide (x ∈ d :: l ∧ x ∉ P)) as ->; [|done].
        apply bool_decide_ext. rewrite elem_of_cons. naive_solver.
    - intros x. rewrite Hleaf. rewrite elem_of_cons. naive_solver. }
  destruct (Hpre d) as (X & HX & Hb); [by left|done|].
  rewrite HX.
  rewrite (bool_decide_eq_true_2 (b ∈ X)) by done. rewrite andb_false_r.
  set (c1 := set_dependents <[d:=X ∖ {[b]}]> c).
  set (c2 := if bool_decide (X ∖ {[b]} = ∅) then set_leafs ({[d]} ∪.) c1 else c1).
  assert (artifacts c2 = artifacts c ∧ dyn_states c2 = dyn_states c ∧ dependencies c2 = dependencies c ∧
    known c2 = known c ∧ dependents c2 = <[d:=X ∖ {[b]}]> (dependents c) ∧
    (∀ x, x ∈ leafs c2 ↔ x ∈ leafs c ∨ (x = d ∧ X ∖ {[b]} = ∅))) as (Ha&Hs&Hds&Hk&Hdep2&Hl2).
  { unfold c2, c1. case_bool_decide; cbn; split_and!; try done; set_solver. }
  destruct (IH c2 Hnd) as (c' & Hr & ? & ? & ? & ? & Hdep & Hleaf).
  { intros x Hx HxP. rewrite Hdep2. rewrite lookup_insert_ne by (intros ->; done).
    apply Hpre; [by right|done]. }
  exists c'. split_and!; try done; try congruence.
  - intros x. rewrite Hdep, Hdep2.
    destruct (decide (x = d)) as [->|Hne].
    + rewrite (bool_decide_eq_false_2 (d ∈ l ∧ _)) by tauto.
      rewrite (bool_decide_eq_true_2 (d ∈ d :: l ∧ _)) by (split; [by left|done]).
      rewrite lookup_insert, HX. done.
    + rewrite lookup_insert_ne by done.
      assert (bool_decide (x ∈ l ∧ x ∉ P) = bool_decide (x ∈ d :: l ∧ x ∉ P)) as ->; [|done].
      apply bool_decide_ext. rewrite elem_of_cons. naive_solver.
  - intros x. rewrite Hleaf, Hl2, Hdep2. rewrite elem_of_cons.
    destruct (decide (x = d)) as [->|Hne].
    + rewrite lookup_insert. naive_solver.
    + rewrite lookup_insert_ne by done. naive_solver.
Qed.

(** The effect of removing the set of builders [Q] from the graph. *)
Record removed (c : cache) (Q : gset addr) (c' : cache) : Prop := {
  rm_art : ∀ x, artifacts c' !! x = if bool_decide (x ∈ Q) then None else artifacts c !! x;
  rm_dyn : dyn_states c' = dyn_states c;
  rm_known : known c' = known c;
  rm_dependents : ∀ x, dependents c' !! x =
    if bool_decide (x ∈ Q) then None else (.∖ Q) <$> dependents c !! x;
  rm_dependencies : ∀ x, dependencies c' !! x =
    if bool_decide (x ∈ Q) then None else dependencies c !! x;
  rm_leafs : ∀ x, x ∈ leafs c' ↔
    x ∈ leafs c ∨ x ∈ Q ∨ ((∃ y, y ∈ Q ∧ dep_rel c x y) ∧ ∀ y, dep_rel c x y → y ∈ Q);
}.

Lemma cache_eq c1 c2 :
  artifacts c1 = artifacts c2 → dyn_states c1 = dyn_states c2 → dependents c1 = dependents c2 →
  dependencies c1 = dependencies c2 → leafs c1 = leafs c2 → known c1 = known c2 → c1 = c2.
Proof. destruct c1, c2; cbn; congruence. Qed.

Lemma removed_unique c Q c1 c2 : removed c Q c1 → removed c Q c2 → c1 = c2.
Proof.
  intros H1 H2. apply cache_eq.
  - apply map_eq; intros x. by rewrite (rm_art _ _ _ H1 x), (rm_art _ _ _ H2 x).
  - etrans; [apply (rm_dyn _ _ _ H1)|symmetry; apply (rm_dyn _ _ _ H2)].
  - apply map_eq; intros x. by rewrite (rm_dependents _ _ _ H1 x), (rm_dependents _ _ _ H2 x).
  - apply map_eq; intros x. by rewrite (rm_dependencies _ _ _ H1 x), (rm_dependencies _ _ _ H2 x).
  - apply set_eq; intros x. by rewrite (rm_leafs _ _ _ H1 x), (rm_leafs _ _ _ H2 x).
  - etrans; [apply (rm_known _ _ _ H1)|symmetry; apply (rm_known _ _ _ H2)].
Qed.

Lemma removed_empty c : removed c ∅ c.
Proof.
  split; try done.
  - intros x. destruct (dependents c !! x) as [X|] eqn:HX; [|done].
    rewrite bool_decide_eq_false_2 by set_solver. cbn. f_equal. set_solver.
  - intros x. split; [by left|]. intros [?|[?|[(y&?&?) ?]]]; set_solver.
Qed.

Lemma removed_idem c Q b c' :
  b ∈ Q → removed c Q c' →
  removed c Q (set_artifacts (delete b) (set_leafs ({[b]} ∪.) (set_dependencies (delete b) (set_dependents (delete b) c')))).
Proof.
  intros Hb H. split; cbn.
  - intros x. destruct (decide (x = b)) as [->|Hne].
    + rewrite lookup_delete, bool_decide_eq_true_2 by done. done.
    + rewrite lookup_delete_ne by done. apply (rm_art _ _ _ H).
  - apply (rm_dyn _ _ _ H).
  - apply (rm_known _ _ _ H).
  - intros x. destruct (decide (x = b)) as [->|Hne].
    + rewrite lookup_delete, bool_decide_eq_true_2 by done. done.
    + rewrite lookup_delete_ne by done. apply (rm_dependents _ _ _ H).
  - intros x. destruct (decide (x = b)) as [->|Hne].
    + rewrite lookup_delete, bool_decide_eq_true_2 by done. done.
    + rewrite lookup_delete_ne by done. apply (rm_dependencies _ _ _ H).
  - intros x. rewrite elem_of_union, elem_of_singleton, (rm_leafs _ _ _ H x). naive_solver.
Qed.

(** One iteration of the work list. *)
Lemma inv_iter dbg c0 Q b c pr :
  sync c0 → removed c0 Q c → b ∉ Q →
  ∃ c3, inv_deps dbg ({[b]} ∪ Q) b
      (match dependencies (set_dependents (delete b) c) !! b with
       | Some set => iter_order pr set | None => [] end)
      (set_dependencies (delete b) (set_dependents (delete b) c)) = COk c3 ∧
    removed c0 ({[b]} ∪ Q) (set_artifacts (delete b) (set_leafs ({[b]} ∪.) c3)).
Proof.
  intros Hsync H Hb. cbn [dependencies set_dependents].
  pose proof (rm_dependencies _ _ _ H b) as Hds.
  rewrite bool_decide_eq_false_2 in Hds by done.
  set (l := match dependencies c !! b with Some X => iter_order pr X | None => [] end).
  assert (∀ x, x ∈ l ↔ dep_rel c0 x b) as Hl.
  { intros x. unfold l, dep_rel. rewrite (Hsync x b), <-Hds.
    destruct (dependencies c !! b) as [X|]; cbn; [apply elem_iter_order|set_solver]. }
  assert (NoDup l) as Hnd.
  { unfold l. destruct (dependencies c !! b); [apply NoDup_iter_order|constructor]. }
  destruct (inv_deps_spec dbg ({[b]} ∪ Q) b l (set_dependencies (delete b) (set_dependents (delete b) c)) Hnd)
    as (c3 & Hr & Ha & Hs & Hds3 & Hk & Hdep & Hleaf).
  { intros x Hx HxP. cbn. rewrite lookup_delete_ne by set_solver.
    rewrite (rm_dependents _ _ _ H), bool_decide_eq_false_2 by set_solver.
    apply Hl in Hx. unfold dep_rel in Hx.
    destruct (dependents c0 !! x) as [X|]; cbn in *; [|set_solver].
    eexists; split; [done|]. set_solver. }
  exists c3. split; [exact Hr|].
  cbn in Ha, Hs, Hds3, Hk, Hdep, Hleaf.
  split; cbn.
  - intros x. rewrite Ha.
    destruct (decide (x = b)) as [->|Hne].
    + rewrite lookup_delete, bool_decide_eq_true_2 by set_solver. done.
    + rewrite lookup_delete_ne by done. rewrite (rm_art _ _ _ H).
      assert (bool_decide (x ∈ Q) = bool_decide (x ∈ {[b]} ∪ Q)) as ->; [|done].
      apply bool_decide_ext. set_solver.
  - rewrite Hs. apply (rm_dyn _ _ _ H).
  - rewrite Hk. apply (rm_known _ _ _ H).
  - intros x. rewrite Hdep.
    destruct (decide (x = b)) as [->|Hne].
    + rewrite lookup_delete. rewrite (bool_decide_eq_true_2 (b ∈ {[b]} ∪ Q)) by set_solver.
      by case_bool_decide.
    + rewrite lookup_delete_ne by done. rewrite (rm_dependents _ _ _ H).
      destruct (decide (x ∈ Q)) as [HQ|HQ].
      * rewrite (bool_decide_eq_true_2 (x ∈ {[b]} ∪ Q)) by set_solver.
        rewrite (bool_decide_eq_true_2 (x ∈ Q)) by set_solver. by case_bool_decide.
      * rewrite (bool_decide_eq_false_2 (x ∈ {[b]} ∪ Q)) by set_solver.
        rewrite (bool_decide_eq_false_2 (x ∈ Q)) by set_solver.
        destruct (dependents c0 !! x) as [X|] eqn:HX; cbn; [|by case_bool_decide].
        case_bool_decide as HxD; cbn; f_equal; [set_solver|].
        assert (b ∉ X); [|set_solver]. intros Hbx. apply HxD. split; [|set_solver].
        apply Hl. unfold dep_rel. rewrite HX. done.
  - intros x. rewrite Hds3.
    destruct (decide (x = b)) as [->|Hne].
    + rewrite lookup_delete, bool_decide_eq_true_2 by set_solver. done.
    + rewrite lookup_delete_ne by done. rewrite (rm_dependencies _ _ _ H).
      assert (bool_decide (x ∈ Q) = bool_decide (x ∈ {[b]} ∪ Q)) as ->; [|done].
      apply bool_decide_ext. set_solver.
  - intros x. rewrite elem_of_union, elem_of_singleton, Hleaf, (rm_leafs _ _ _ H x).
    rewrite elem_of_union, elem_of_singleton.
    destruct (decide (x = b)) as [->|Hne]; [tauto|].
    rewrite lookup_delete_ne by done. rewrite (rm_dependents _ _ _ H).
    destruct (decide (x ∈ Q)) as [HQ|HQ]; [tauto|].
    rewrite (bool_decide_eq_false_2 (x ∈ Q)) by done.
    assert (∀ y, dep_rel c0 x y ↔ y ∈ default ∅ (dependents c0 !! x)) as Hdr by done.
    rewrite Hl. setoid_rewrite Hdr.
    clear - Hne HQ Hb.
    destruct (dependents c0 !! x) as [X|]; cbn; [|set_solver].
    split.
    + intros [?|[[?|[?|[(y & Hy & Hy') Hall]]]|(Hx & HxP & (Y & [= <-] & HY))]]; try tauto.
      * right; right. split; [exists y; set_solver|]. intros z Hz. set_solver.
      * right; right. split; [exists b; set_solver|]. intros z Hz.
        destruct (decide (z = b)); [set_solver|]. destruct (decide (z ∈ Q)); set_solver.
    + intros [?|[?|[(y & Hy & Hy') Hall]]]; try tauto.
      right. destruct (decide (b ∈ X)) as [Hbx|Hbx].
      * right. split_and!; [done|set_solver|]. eexists; split; [done|]. set_solver.
      * left; right; right. split.
        -- exists y. split; [|done]. set_solver.
        -- intros z Hz. specialize (Hall z Hz). set_solver.
Qed.

Lemma inv_loop_spec fuel dbg pr i a c0 Q L c :
  sync c0 → removed c0 Q c →
  (∀ x, x ∈ Q ∨ x ∈ L → rtc (dep_rel c0) a x) →
  (∀ x y, x ∈ Q → dep_rel c0 x y → y ∈ Q ∨ y ∈ L) →
  (a ∈ Q ∨ (Q = ∅ ∧ L = [a])) →
  edge_count c + length L ≤ fuel →
  ∃ C c', inv_loop fuel dbg pr i ({[a]} ∪ Q) L c = COk c' ∧ removed c0 C c' ∧
    (∀ x, x ∈ C ↔ rtc (dep_rel c0) a x).
Proof.
  intros Hsync. revert i Q L c.
  induction fuel as [|fuel IH]; intros i Q [|b L] c Hrm Hreach Hclosed Ha Hf.
  1,3: exists Q, c; cbn [inv_loop]; split_and!; [done|done|];
    (intros x; split; [intros ?; apply Hreach; by left|]);
    (destruct Ha as [Ha|[_ ?]]; [|done]);
    revert x; apply rtc_ind_r; [done|];
    intros y z Hr Hyz IHr; destruct (Hclosed _ _ IHr Hyz) as [?|?%elem_of_nil]; done.
  { cbn [length] in Hf. lia. }
  cbn [inv_loop].
  assert ({[b]} ∪ ({[a]} ∪ Q) = {[a]} ∪ ({[b]} ∪ Q)) as HPeq by set_solver.
  destruct (decide (b ∈ Q)) as [HbQ|HbQ].
  - (* popped again: nothing left to remove *)
    assert (dependents c !! b = None) as Hdn.
    { rewrite (rm_dependents _ _ _ Hrm), bool_decide_eq_true_2 by done. done. }
    assert (dependencies c !! b = None) as Hsn.
    { rewrite (rm_dependencies _ _ _ Hrm), bool_decide_eq_true_2 by done. done. }
    cbn [dependencies set_dependents]. rewrite Hdn, Hsn. cbn [inv_deps].
    assert ({[b]} ∪ ({[a]} ∪ Q) = {[a]} ∪ Q) as -> by set_solver.
    apply IH.
    + apply removed_idem; [done|]. done.
    + intros x Hx. apply Hreach. set_solver.
    + intros x y Hx Hxy. destruct (Hclosed x y Hx Hxy) as [?|[->|?]%elem_of_cons]; auto.
    + left. destruct Ha as [?|[-> ?]]; [done|set_solver].
    + cbn [length] in Hf. unfold edge_count in *.
      cbn [dependents set_artifacts set_leafs set_dependencies set_dependents].
      rewrite delete_notin by done. lia.
  - destruct (inv_iter dbg c0 Q b c (pr (2 * i + 1)) Hsync Hrm HbQ) as (c3 & Hr3 & Hrm3).
    assert ({[b]} ∪ ({[a]} ∪ Q) = {[b]} ∪ Q) as HP.
    { destruct Ha as [Ha|[-> [= ->]]]; set_solver. }
    rewrite HP, Hr3.
    assert (∀ y, y ∈ (match dependents c !! b with Some X => rev (iter_order (pr (2 * i)) X) ++ L | None => L end)
       ↔ y ∈ L ∨ (dep_rel c0 b y ∧ y ∉ Q)) as HL'.
    { intros y. pose proof (rm_dependents _ _ _ Hrm b) as Hdb.
      rewrite bool_decide_eq_false_2 in Hdb by done. unfold dep_rel.
      rewrite Hdb. destruct (dependents c0 !! b) as [X|]; cbn; [|set_solver].
      rewrite elem_of_app, elem_of_list_In, <-in_rev, <-elem_of_list_In, elem_iter_order. set_solver. }
    assert (({[b]} ∪ Q : gset addr) = {[a]} ∪ ({[b]} ∪ Q)) as Heq.
    { rewrite <-HP at 1. set_solver. }
    rewrite Heq.
    apply IH.
    + exact Hrm3.
    + intros x [[->%elem_of_singleton|Hx]%elem_of_union|Hx].
      * apply Hreach. right; by left.
      * apply Hreach. by left.
      * apply HL' in Hx as [Hx|[Hx _]].
        -- apply Hreach. right; by right.
        -- eapply rtc_r; [|exact Hx]. apply Hreach. right; by left.
    + intros x y [->%elem_of_singleton|Hx]%elem_of_union Hxy.
      * destruct (decide (y ∈ Q)); [set_solver|]. right. apply HL'. by right.
      * destruct (Hclosed x y Hx Hxy) as [?|[->|?]%elem_of_cons]; [set_solver|set_solver|].
        right. apply HL'. by left.
    + left. destruct Ha as [?|[-> [= ->]]]; set_solver.
    + apply inv_deps_ecount in Hr3. unfold edge_count in *.
      cbn [dependents set_artifacts set_leafs set_dependencies set_dependents] in *.
      cbn [length] in Hf.
      destruct (dependents c !! b) as [X|] eqn:HX.
      * rewrite app_length, rev_length, length_iter_order.
        pose proof (ecount_delete (dependents c) b X HX). lia.
      * rewrite delete_notin in Hr3 by done. lia.
Qed.

(** [invalidate_by_id] removes exactly the transitive dependents, in any
    iteration order, and does not panic. *)
Theorem invalidate_by_id_spec dbg pr a c :
  sync c →
  ∃ C c', invalidate_by_id dbg pr a c = COk c' ∧ removed c C c' ∧
    (∀ x, x ∈ C ↔ rtc (dep_rel c) a x).
Proof.
  intros Hsync. unfold invalidate_by_id.
  assert (({[a]} : gset addr) = {[a]} ∪ ∅) as Heq by set_solver.
  rewrite Heq.
  apply inv_loop_spec.
  - done.
  - apply removed_empty.
  - intros x [?|[->|?%elem_of_nil]%elem_of_cons]; set_solver.
  - intros x y Hx. set_solver.
  - by right.
  - cbn [length]. lia.
Qed.
