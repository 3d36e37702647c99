(** Facts about [invalidate_dependents] and [lookup_mut]. *)
From Verif Require Export Invariant.
From stdpp Require Import relations.

Lemma inv_deps_panic dbg P x a l c :
  a ∈ l → a ∉ P → dependents c !! a = None →
  NoDup l →
  (∀ y, y ∈ l → y ∉ P → y ≠ a → ∃ Y, dependents c !! y = Some Y ∧ x ∈ Y) →
  ∃ c', inv_deps dbg P x l c = CPanic PkCounterpart c'.
Proof.
  intros Ha HaP. revert c. induction l as [|d l IH]; intros c Hn Hnd Hl; [by apply elem_of_nil in Ha|].
  apply NoDup_cons in Hnd as [Hdl Hnd]. cbn [inv_deps].
  destruct (decide (d = a)) as [->|Hda].
  { rewrite bool_decide_eq_false_2 by done. rewrite Hn. eauto. }
  assert (a ∈ l) as Hal by (by apply elem_of_cons in Ha as [->|?]).
  case_bool_decide as HdP.
  { apply IH; [done..|]. intros y Hy. apply Hl. by right. }
  destruct (Hl d) as (Y & HY & HxY); [by left|done|done|].
  rewrite HY. rewrite (bool_decide_eq_true_2 (x ∈ Y)) by done. rewrite andb_false_r.
  apply IH; [done| |done|].
  - case_bool_decide; cbn; rewrite lookup_insert_ne; done.
  - intros y Hy HyP Hya.
    assert (y ≠ d) as Hyd by (intros ->; done).
    case_bool_decide; cbn; rewrite lookup_insert_ne by done; (apply Hl; [by right|done|done]).
Qed.

Lemma invalidate_panics dbg pr a x c :
  dependents c !! a = None → x ≠ a → a ∈ default ∅ (dependencies c !! x) →
  (∀ y, y ∈ default ∅ (dependencies c !! x) → y ≠ a → y ≠ x → ∃ Y, dependents c !! y = Some Y ∧ x ∈ Y) →
  ∃ c', invalidate_by_id dbg pr x c = CPanic PkCounterpart c'.
Proof.
  intros Hn Hxa Ha Hy. unfold invalidate_by_id. cbn [inv_loop].
  cbn [dependencies set_dependents].
  destruct (dependencies c !! x) as [X|] eqn:HX; cbn [default] in *; [|set_solver].
  destruct (inv_deps_panic dbg ({[x]} ∪ {[x]}) x a (iter_order (pr (2 * 0 + 1)) X)
     (set_dependencies (delete x) (set_dependents (delete x) c))) as [c' ->].
  - by apply elem_iter_order.
  - set_solver.
  - cbn. rewrite lookup_delete_ne by done. done.
  - apply NoDup_iter_order.
  - intros y Hy1%elem_iter_order Hy2 Hy3. cbn. rewrite lookup_delete_ne by set_solver.
    apply Hy; [done..|set_solver].
  - eauto.
Qed.

(** Invalidating a builder whose only recorded dependent is itself, after its
    own dependents entry has been taken out. *)
Lemma invalidate_self dbg pr a c :
  sync c →
  ∃ c', invalidate_by_id dbg pr a (set_dependents (delete a) c) = COk c' ∧ removed c {[a]} c'.
Proof.
  intros Hs. unfold invalidate_by_id. cbn [inv_loop].
  cbn [dependents set_dependents]. rewrite lookup_delete.
  assert (set_dependents (delete a) (set_dependents (delete a) c) = set_dependents (delete a) c) as Hdd.
  { unfold set_dependents; cbn. by rewrite delete_idemp. }
  rewrite Hdd.
  destruct (inv_iter dbg c ∅ a c (pr (2 * 0 + 1)) Hs (removed_empty c)) as (c3 & Hr & Hrm); [set_solver|].
  assert (({[a]} ∪ {[a]} : gset addr) = {[a]} ∪ ∅) as -> by set_solver.
  rewrite Hr.
  assert (∀ f P (x : cache), inv_loop f dbg pr 1 P [] x = COk x) as -> by (by intros [|?]).
  assert (({[a]} ∪ ∅ : gset addr) = {[a]}) as Heq by set_solver.
  rewrite Heq in Hrm. eauto.
Qed.

Lemma iter_order_singleton pr x : iter_order pr {[x]} = [x].
Proof.
  assert (iter_order pr {[x]} ≡ₚ [x]) as H.
  { unfold iter_order. rewrite merge_sort_Permutation. by rewrite elements_singleton. }
  by apply Permutation_singleton_r in H.
Qed.

Lemma inv_dependents_ok dbg pr a c :
  sync c → (∀ y, dep_rel c a y → y = a) →
  ∃ c', invalidate_dependents dbg pr a c = COk c' ∧
    ((dep_rel c a a ∧ pruned c {[a]} ∅ ∅ c') ∨
     (¬ dep_rel c a a ∧ artifacts c' = artifacts c ∧ dyn_states c' = dyn_states c ∧
      known c' = known c ∧ dependencies c' = dependencies c ∧
      dependents c' = delete a (dependents c) ∧ leafs c' = {[a]} ∪ leafs c)).
Proof.
  intros Hs Hd. unfold invalidate_dependents, dep_rel in *.
  destruct (dependents c !! a) as [X|] eqn:HX; cbn [default] in *.
  - destruct (decide (a ∈ X)) as [HaX|HaX].
    + assert (X = {[a]}) as ->.
      { apply set_eq; intros z. rewrite elem_of_singleton. split; [apply Hd|intros ->; done]. }
      rewrite iter_order_singleton. cbn [inv_each].
      destruct (invalidate_self dbg (pr 1) a c Hs) as (c' & -> & Hrm).
      eexists; split; [done|]. left. split; [done|].
      apply removed_pruned in Hrm. split; cbn; try apply Hrm.
      intros x. rewrite elem_of_union, elem_of_singleton, (pn_leafs _ _ _ _ _ Hrm).
      set_solver.
    + assert (X = ∅) as ->.
      { apply set_eq; intros z. split; [|set_solver]. intros Hz. apply Hd in Hz as Heq. by subst. }
      assert (iter_order (pr 0 0) ∅ = []) as ->.
      { apply Permutation_nil_r. unfold iter_order. rewrite merge_sort_Permutation.
        by rewrite elements_empty. }
      cbn [inv_each]. eexists; split; [done|]. right. split_and!; done.
  - eexists; split; [done|]. right. split_and!; try done.
    cbn. by rewrite delete_notin.
Qed.

Lemma inv_dependents_panic dbg pr a y c :
  sync c → dep_rel c a y → y ≠ a →
  ∃ c', invalidate_dependents dbg pr a c = CPanic PkCounterpart c'.
Proof.
  intros Hs Hd Hya. unfold invalidate_dependents.
  destruct (dependents c !! a) as [X|] eqn:HX; [|unfold dep_rel in Hd; rewrite HX in Hd; set_solver].
  assert (∀ z, z ∈ X ↔ dep_rel c a z) as HXd by (intros z; unfold dep_rel; by rewrite HX).
  assert (∀ z c1, dep_rel c a z → z ≠ a → dependents c1 !! a = None → dependencies c1 !! z = dependencies c !! z →
     (∀ w, w ≠ a → ∀ W, dependents c !! w = Some W → ∃ W', dependents c1 !! w = Some W' ∧ W ∖ {[a]} ⊆ W') →
     ∀ pr', ∃ c', invalidate_by_id dbg pr' z c1 = CPanic PkCounterpart c') as Hpan.
  { intros z c1 Hz Hza Hn Hdz Hw pr'. apply (invalidate_panics dbg pr' a z c1); [done|done| |].
    - rewrite Hdz. by apply Hs.
    - rewrite Hdz. intros w Hw1%Hs Hwa Hwz.
      destruct (dependents c !! w) as [W|] eqn:HW; cbn in Hw1; [|set_solver].
      destruct (Hw w Hwa W HW) as (W' & HW' & Hsub). exists W'. split; [done|]. set_solver. }
  assert (∀ l i, y ∈ l → NoDup l → (∀ z, z ∈ l → z ∈ X) →
      ∃ c', inv_each dbg pr i l (set_dependents (delete a) c) = CPanic PkCounterpart c') as Hall.
  { intros l i Hy Hnd Hl. destruct l as [|x l]; [by apply elem_of_nil in Hy|].
    apply NoDup_cons in Hnd as [Hxl Hnd]. cbn [inv_each].
    destruct (decide (x = a)) as [->|Hxa].
    - destruct (invalidate_self dbg (pr i) a c Hs) as (c1 & -> & Hrm).
      destruct l as [|x2 l2]; [set_solver|]. cbn [inv_each].
      assert (x2 ≠ a) as Hx2a by set_solver.
      destruct (Hpan x2 c1) with (pr' := pr (S i)) as (c' & ->); [| | | | |by eauto].
      + apply HXd, Hl. right; left.
      + done.
      + rewrite (rm_dependents _ _ _ Hrm), bool_decide_eq_true_2 by set_solver. done.
      + rewrite (rm_dependencies _ _ _ Hrm), bool_decide_eq_false_2 by set_solver. done.
      + intros w Hwa W HW. rewrite (rm_dependents _ _ _ Hrm), bool_decide_eq_false_2 by set_solver.
        rewrite HW. cbn. eauto.
    - destruct (Hpan x (set_dependents (delete a) c)) with (pr' := pr i) as (c' & ->); [| | | | |by eauto].
      + apply HXd, Hl. by left.
      + done.
      + cbn. apply lookup_delete.
      + done.
      + intros w Hwa W HW. cbn. rewrite lookup_delete_ne by done. exists W. split; [done|set_solver]. }
  destruct (Hall (iter_order (pr 0 0) X) 1) as (c' & ->).
  - apply elem_iter_order. by apply HXd.
  - apply NoDup_iter_order.
  - intros z. by rewrite elem_iter_order.
  - eauto.
Qed.

(** Either there is another dependent, or there is none besides the builder. *)
Lemma other_dependent_dec c a :
  (∃ y, dep_rel c a y ∧ y ≠ a) ∨ (∀ y, dep_rel c a y → y = a).
Proof.
  unfold dep_rel. destruct (set_choose_or_empty (default ∅ (dependents c !! a) ∖ {[a]})) as [[y Hy]|Hy].
  - left. exists y. set_solver.
  - right. intros y Hyd. destruct (decide (y = a)); [done|]. set_solver.
Qed.

(** Taking out an entry without dependents and adding a leaf. *)
Lemma CInv_leaf ob c c' a :
  CInv ob c → (∀ y, ¬ dep_rel c a y) →
  artifacts c' = artifacts c → dyn_states c' = dyn_states c → known c' = known c →
  dependencies c' = dependencies c → dependents c' = delete a (dependents c) →
  leafs c' = {[a]} ∪ leafs c → CInv ob c'.
Proof.
  intros I Hn Ha Hs Hk Hds Hdt Hl.
  assert (∀ x y, dep_rel c' x y ↔ dep_rel c x y) as Hdr.
  { intros x y. unfold dep_rel in *. rewrite Hdt. destruct (decide (x = a)) as [->|Hne].
    - rewrite lookup_delete. cbn. specialize (Hn y). set_solver.
    - by rewrite lookup_delete_ne. }
  split.
  - intros x y. change (dep_rel c' x y ↔ x ∈ default ∅ (dependencies c' !! y)).
    rewrite Hdr, Hds. apply I.
  - rewrite Ha, Hs. apply I.
  - rewrite Hk, Hs. apply I.
  - intros x y Hxy. rewrite Hk. apply (ci_edge_known _ _ I). by apply Hdr.
  - intros x. rewrite Hk, Hl. intros Hx. setoid_rewrite Hdr.
    rewrite elem_of_union, elem_of_singleton, (ci_leaf _ _ I x Hx). naive_solver.
  - rewrite Hk. apply I.
  - rewrite Ha, Hk. apply I.
  - rewrite Hs, Hk. apply I.
Qed.

Lemma CInv_inv_dependents ob dbg pr a c c' :
  CInv ob c → invalidate_dependents dbg pr a c = COk c' → CInv ob c'.
Proof.
  intros I Hr. destruct (other_dependent_dec c a) as [(y & Hy & Hne)|Hself].
  { destruct (inv_dependents_panic dbg pr a y c (ci_sync _ _ I) Hy Hne) as [? Hp]. congruence. }
  destruct (inv_dependents_ok dbg pr a c (ci_sync _ _ I) Hself) as (c1 & Hr1 & Hc1).
  assert (c1 = c') as -> by congruence.
  destruct Hc1 as [[Hd Hp]|(Hd & H1 & H2 & H3 & H4 & H5 & H6)].
  - eapply CInv_pruned; [exact I| | | |exact Hp]; [|set_solver|set_solver].
    intros x y ->%elem_of_singleton Hxy. apply Hself in Hxy as ->. set_solver.
  - eapply CInv_leaf; [exact I| |exact H1|exact H2|exact H3|exact H4|exact H5|exact H6].
    intros y Hy. apply Hself in Hy as Heq. subst. done.
Qed.
