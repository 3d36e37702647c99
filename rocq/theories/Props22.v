(** C55: how much the cache stores. *)
From Verif Require Import FootFacts StormFacts Props2 Demo.
From stdpp Require Import relations.

(** The cache stores nothing but what belongs to the builders it knows, to the
    dependencies between them, and ids left over. *)
Theorem C55_bound E s D :
  reachable E s → all_deps s D →
  number_of_known (ch s) ≤ footprint s ≤ 6 * number_of_known (ch s) + 2 * size D + size (left_over s).
Proof.
  intros Hr HD. split; [unfold footprint, number_of_known; lia|].
  apply foot_bound; [by apply reach_Inv in Hr as [? _]|by eapply reach_keyed|done].
Qed.
Print Assumptions C55_bound.
(** There is such a set of dependencies, between known builders only. *)
Theorem C55_deps E s : reachable E s →
  ∃ D, all_deps s D ∧ (∀ D', all_deps s D' → D' = D) ∧ size D ≤ number_of_known (ch s) * number_of_known (ch s).
Proof.
  intros Hr. destruct (shows_ex s) as [A HA]. exists (r_deps A).
  assert (all_deps s (r_deps A)) as HD by (intros u w; apply (sh_deps _ _ HA)).
  split; [done|]. split; [intros D' HD'; apply set_eq; intros [u w]; by rewrite (HD u w), (HD' u w)|].
  apply reach_Inv in Hr as [I _]. destruct (known_set s I) as (X & HX & HXs). unfold number_of_known in *. rewrite <- HXs.
  transitivity (size (set_bind (λ u, set_map (λ w, (u, w)) X) X : gset (obj * obj))).
  - apply subseteq_size. intros [u w] Hp%HD. apply depends_knows in Hp as [Hu Hw]. apply HX in Hu, Hw.
    apply elem_of_set_bind. exists u. split; [done|]. apply elem_of_map. by exists w.
  - clear. assert (∀ Z : gset obj, size (set_bind (λ u, set_map (λ w, (u, w)) X) Z : gset (obj * obj)) ≤ size Z * size X) as H; [|apply H].
    intros Z. induction Z as [|z Z Hz IH] using set_ind_L.
    + rewrite size_empty. cbn. assert (set_bind (λ u, set_map (λ w, (u, w)) X) (∅ : gset obj) = (∅ : gset (obj * obj))) as ->; [|done].
      apply elem_of_equiv_empty_L. intros p. rewrite elem_of_set_bind. intros (? & ? & _). set_solver.
    + rewrite size_union, size_singleton by set_solver. cbn.
      transitivity (size ((set_map (λ w, (z, w)) X : gset (obj * obj)) ∪ set_bind (λ u, set_map (λ w, (u, w)) X) Z)).
      * apply subseteq_size. intros p. rewrite elem_of_union, !elem_of_set_bind. intros (u & Hu & Hp). set_solver.
      * rewrite size_union_alt. apply Nat.add_le_mono.
        -- apply (size_le_inj snd); [intros [? ?]; set_solver|]. intros [a b] [a' b'] H1 H2; cbn. set_solver.
        -- etrans; [|exact IH]. apply subseteq_size. set_solver.
Qed.
Print Assumptions C55_deps.

(** An id is left over only by [purge], or by [invalidate] or [lookup_mut] of an
    unknown builder; at most one by each such call since the cache was cleared. *)
Lemma left_loose s a : a ∈ left_over s ↔ loose (ch s) a.
Proof. unfold left_over, loose. rewrite elem_of_difference, elem_of_dom, eq_None_not_Some. done. Qed.
Theorem C55_left_over E P l s : runs E P init_st l s → size (left_over s) ≤ litter l.
Proof.
  induction 1 as [|l s n x r s' Hr IH HP Hs|l s n x k s' Hr IH HP Hs Hk].
  - assert (left_over init_st = ∅) as ->; [|done]. apply elem_of_equiv_empty_L. intros a [H _]%elem_of_difference. cbn in H. set_solver.
  - destruct (runs_Inv E P init_st l s Hr Inv_init eq_refl) as [I Hst].
    assert (goes (step E n x s) s') as Hg by (left; eauto).
    pose proof (λ a, step_loose E n x s s' a I Hst Hg) as Hl.
    destruct (decide (litters x = true)) as [Hx|Hx].
    + assert (∃ a0, ∀ a, spoils x s a → a = a0) as [a0 Ha0].
      { assert (∀ o, ∃ a0, ∀ d a, at_addr s o d a → a = a0) as Hone.
        { intros o. destruct (objs s !! o) as [[d0 a0]|] eqn:Ho.
          - exists a0. intros d a Hd. unfold at_addr in Hd. congruence.
          - exists 0%N. intros d a Hd. unfold at_addr in Hd. congruence. }
        destruct x as [d|o|h o|o f|h o|o f|o|o f|o|o|o| | | |o| ]; try done;
          destruct (Hone o) as [a0 H0]; exists a0; intros a Hsp; cbn in Hsp.
        - destruct Hsp as [_ [d Hd]]. by eapply H0.
        - destruct Hsp as [_ [d Hd]]. by eapply H0.
        - destruct Hsp as [d Hd]. by eapply H0. }
      assert (size (left_over s') ≤ 1 + size (left_over s)) as Hle.
      { transitivity (size ({[a0]} ∪ left_over s)); [apply subseteq_size|rewrite size_union_alt, size_singleton; apply Nat.add_le_mono; [done|apply subseteq_size; set_solver]].
        intros a. rewrite left_loose, Hl, elem_of_union, elem_of_singleton, left_loose. intros (_ & _ & [?|?%Ha0]); auto. }
      destruct x; try done; cbn in *; lia.
    + assert (x ≠ OClearAll → left_over s' ⊆ left_over s) as Hsub.
      { intros Hne a. rewrite !left_loose, Hl. intros (_ & _ & [?|Hsp]); [done|]. by destruct x. }
      assert (x = OClearAll ∨ x ≠ OClearAll) as [->|Hne] by (destruct x; (by left) || (by right)).
      * cbn. assert (left_over s' = ∅) as ->; [|done]. apply elem_of_equiv_empty_L. intros a. rewrite left_loose, Hl. tauto.
      * specialize (Hsub Hne). apply subseteq_size in Hsub. destruct x; try done; cbn in *; lia.
  - destruct (runs_Inv E P init_st l s Hr Inv_init eq_refl) as [I Hst].
    assert (goes (step E n x s) s') as Hg by (right; eauto).
    pose proof (λ a, step_loose E n x s s' a I Hst Hg) as Hl.
    assert (left_over (unwound s') ⊆ left_over s) as Hsub.
    { intros a. rewrite !left_loose. change (loose (ch (unwound s')) a) with (loose (ch s') a). rewrite Hl. intros (_ & _ & [?|Hsp]); [done|].
      exfalso. by eapply (spoiler_no_panic E n x k s s' a). }
    apply subseteq_size in Hsub. destruct x; try (cbn in *; lia). by cbn in Hs.
Qed.
Print Assumptions C55_left_over.
(** So with the calls that agree with garbage collection nothing is left over. *)
Theorem C55_friendly E s : reach_by E gc_friendly s → left_over s = ∅.
Proof.
  intros Hr. apply (friendly_lk E) in Hr. apply elem_of_equiv_empty_L. intros a [Ha Hn]%elem_of_difference. by apply Hn, Hr.
Qed.
Print Assumptions C55_friendly.

(** Garbage collection gives everything back once nobody needs it; clearing the
    cache always does. *)
Lemma footprint_zero s : keyed (ch s) → Inv s → number_of_known (ch s) = 0 → left_over s = ∅ → footprint s = 0.
Proof.
  intros Hk I Hn Hl. assert (all_deps s ∅) as HD.
  { intros u w. split; [set_solver|]. intros Hd. exfalso. apply depends_knows in Hd as [(d & a & _ & Ha) _].
    unfold number_of_known in Hn. apply map_size_empty_inv in Hn. rewrite Hn in Ha. by rewrite lookup_empty in Ha. }
  pose proof (foot_bound s ∅ I Hk HD) as H. rewrite Hn, Hl in H. rewrite !size_empty in H. cbn in H. lia.
Qed.
Lemma gcs_last E n s s' : gcs E (S n) s s' → ∃ s1 m r, gcs E n s s1 ∧ step E m OGc s1 = Done r s'.
Proof.
  revert s. induction n as [|n IH]; intros s H; inversion H as [|? m ? r s1 ? H1 H2]; subst.
  - inversion H2; subst. exists s, m, r. split; [constructor|done].
  - apply IH in H2 as (s2 & m' & r' & H2 & H3). exists s2, m', r'. split; [by econstructor|done].
Qed.
Lemma gcs_reach E n s s' : gcs E n s s' → reachable E s → reachable E s'.
Proof.
  induction 1 as [|n m s r s1 s2 H1 _ IH]; [done|]. intros [l Hl]. apply IH. eexists. by eapply runs_done.
Qed.
Theorem C55_reclaimed E s n s' :
  reachable E s → gcs E (S n) s s' → number_of_known (ch s) ≤ S n →
  (∀ w, knows s w → ¬ live s w) → (∀ v, ¬ tc (λ x y, depends s y x) v v) →
  footprint s' = 0.
Proof.
  intros Hr Hg Hn Hl Hc. destruct (C12_gc_empties E s (S n) s' Hr Hg Hn Hl Hc) as [H0 _].
  pose proof (gcs_reach E (S n) s s' Hg Hr) as Hr'. destruct (gcs_last E n s s' Hg) as (s1 & m & r & H1 & H2).
  pose proof (gcs_reach E n s s1 H1 Hr) as Hr1. apply reach_Inv in Hr1 as [I1 Hst1].
  apply footprint_zero; [by eapply reach_keyed|by apply reach_Inv in Hr' as [? _]|done|].
  apply elem_of_equiv_empty_L. intros a. rewrite left_loose, (step_loose E m OGc s1 s' a I1 Hst1) by (left; eauto).
  intros (_ & _ & [Hlo|[]]). assert (∃ s2, step E m OGc s1 = Panic PkGcIndex s2) as [s2 Hs2] by (apply gc_panics_loose; [done|eauto]).
  congruence.
Qed.
Print Assumptions C55_reclaimed.
Theorem C55_clear E n s r s' : step E n OClearAll s = Done r s' → footprint s' = 0.
Proof. cbn [step]. intros [= _ <-]. done. Qed.
Print Assumptions C55_clear.
Theorem C55_clear_artifacts E n s r s' : reachable E s → step E n OClearArtifacts s = Done r s' →
  footprint s' ≤ 3 * number_of_known (ch s) + size (left_over s).
Proof.
  intros [I _]%reach_Inv. cbn [step]. intros [= _ <-]. unfold footprint, left_over, number_of_known. cbn -[size Nat.mul].
  unfold weigh. rewrite !map_fold_empty, map_size_empty.
  assert (size (dyn_states (ch s)) ≤ size (known (ch s))) as H2.
  { rewrite <- !size_dom. apply subseteq_size. intros a Ha%elem_of_dom. apply elem_of_dom. by apply (ci_dyn_known _ _ (i_c _ I)). }
  assert (size (leafs (ch s) ∪ dom (known (ch s))) ≤ size (known (ch s)) + size (leafs (ch s) ∖ dom (known (ch s)))) as H3.
  { rewrite <- size_dom. rewrite <- (size_union_alt (dom (known (ch s))) (leafs (ch s))). apply subseteq_size. set_solver. }
  lia.
Qed.
Print Assumptions C55_clear_artifacts.

(** The leak: what is left over stays until the cache is cleared or a builder gets
    known at that address; and any number of ids can be left over by a cache that
    knows nothing any more. *)
Theorem C55_left_over_stays E s a l s' :
  reachable E s → a ∈ left_over s →
  runs E (λ t y, ¬ occupied t a ∧ y ≠ OClearAll) s l s' → ¬ occupied s' a → a ∈ left_over s'.
Proof.
  intros Hr Hl Hruns. apply reach_Inv in Hr as [I Hst]. rewrite left_loose in *.
  refine (runs_inv E _ (λ x, ¬ occupied x a → loose (ch x) a) s l s' I Hst (λ _, Hl) _ Hruns).
  intros m y s2 s3 I2 Hst2 Hlo [Hn2 Hy] Hg2 Hn3. change (loose (ch s3) a).
  assert (Inv (unwound s3)) as I3 by (by eapply goes_Inv).
  apply (step_loose E m y s2 s3 a I2 Hst2 Hg2). split_and!; [|done|auto].
  rewrite (occupied_known _ a I3) in Hn3. by apply eq_None_not_Some.
Qed.
Print Assumptions C55_left_over_stays.

Lemma purge_empty dbg pr a L : purge dbg pr a (Cache ∅ ∅ ∅ ∅ L ∅) = COk (Cache ∅ ∅ ∅ ∅ ({[a]} ∪ L) ∅).
Proof.
  unfold purge, invalidate_by_id, edge_count, set_known, set_artifacts, set_dyn_states. cbn [dependents]. rewrite map_fold_empty.
  cbn [inv_loop dependents dependencies artifacts dyn_states known leafs set_dependents set_dependencies].
  rewrite lookup_empty. cbn [inv_deps set_leafs set_artifacts dependents dependencies artifacts dyn_states known leafs].
  f_equal. unfold set_artifacts, set_leafs, set_dependencies, set_dependents. cbn [dependents dependencies artifacts dyn_states known leafs].
  f_equal; rewrite ?delete_empty; done.
Qed.
Theorem C55_leak pr dbg kd n : let E := Env N.of_nat pr dbg kd in
  ∃ s, reachable E s ∧ (∀ w, ¬ live s w) ∧ (∀ w, ¬ knows s w) ∧ footprint s = n.
Proof.
  intros E.
  assert (∃ s L, reachable E s ∧ ch s = Cache ∅ ∅ ∅ ∅ L ∅ ∧ alive s = ∅ ∧ stack s = [] ∧ size L = n ∧ ∀ a, a ∈ L → (a < N.of_nat (tick s))%N)
    as (s & L & Hr & Hc & Ha & _ & Hs & _).
  { induction n as [|n (s & L & [l Hr] & Hc & Ha & Hst & Hs & HL)].
    { exists init_st, ∅. split; [exists []; constructor|]. cbn. split_and!; try done; set_solver. }
    destruct s as [c ob al no nb t sk re tr]. cbn [ch alive stack tick] in *. subst c al sk.
    set (d := BDef 0 0 (Some VUnit) PPanic).
    set (s1 := St (Cache ∅ ∅ ∅ ∅ L ∅) (<[no := (d, N.of_nat t)]> ob) ({[no]} ∪ ∅) (N.succ no) nb (S t) [] re tr).
    assert (step E 0 (OAlloc d) (St (Cache ∅ ∅ ∅ ∅ L ∅) ob ∅ no nb t [] re tr) = Done (OutObj no) s1) as H1.
    { cbn [step]. unfold alloc, is_known. cbn [alive objs ch known tick]. rewrite lookup_empty.
      rewrite bool_decide_eq_false_2 by (intros (? & ? & _); set_solver). rewrite bool_decide_eq_false_2 by (by intros [? ?]). done. }
    set (s2 := log (EInvalidate no) (tock (set_ch (Cache ∅ ∅ ∅ ∅ ({[N.of_nat t]} ∪ L) ∅) s1))).
    assert (step E 0 (OPurge no) s1 = Done OutUnit s2) as H2.
    { cbn [step]. assert (promise no s1 = Some (d, N.of_nat t)) as ->.
      { apply promise_Some. cbn. rewrite lookup_insert. split; [set_solver|done]. }
      unfold lift. cbn [ch s1]. rewrite purge_empty. done. }
    set (s3 := set_alive ∅ s2).
    assert (step E 0 (ODrop no) s2 = Done OutUnit s3) as H3.
    { cbn [step]. unfold drop_obj. cbn [alive stack s2 s1 log tock set_ch]. rewrite bool_decide_eq_true_2 by set_solver.
      rewrite bool_decide_eq_false_2 by (apply not_elem_of_nil). cbn [andb negb]. unfold s3. f_equal. f_equal. set_solver. }
    exists s3, ({[N.of_nat t]} ∪ L). split.
    { eexists. eapply runs_done; [|done|exact H3]. eapply runs_done; [|done|exact H2]. eapply runs_done; [exact Hr|done|exact H1]. }
    cbn. split_and!; try done.
    - rewrite size_union, size_singleton, Hs; [done|]. intros x ->%elem_of_singleton Hx. apply HL in Hx. lia.
    - intros a [->%elem_of_singleton|Hx]%elem_of_union; [lia|]. apply HL in Hx. lia. }
  exists s. split; [done|]. split; [intros w; unfold live; rewrite Ha; set_solver|]. split.
  - intros w (d & a & _ & Hk). rewrite Hc in Hk. cbn in Hk. by rewrite lookup_empty in Hk.
  - unfold footprint. rewrite Hc. cbn -[size]. unfold weigh. rewrite !map_fold_empty, !map_size_empty. lia.
Qed.
Print Assumptions C55_leak.

(** Not vacuous: the diamond of builders; and after dropping and collecting all. *)
Example C55_applies : reachable env_s s_diamond ∧ reach_by env_s gc_friendly s_alldrop ∧
  (∃ D, all_deps s_diamond D ∧ D ≠ ∅) ∧ footprint s_diamond = 31 ∧ number_of_known (ch s_diamond) = 5 ∧
  footprint s_alldrop = 31 ∧ (∃ s', gcs env_s 5 s_alldrop s' ∧ footprint s' = 0).
Proof.
  split; [apply after_reachable|]. split.
  { apply after_by. repeat constructor; intros; exact Logic.I. }
  split.
  { destruct (shows_ex s_diamond) as [A HA]. exists (r_deps A).
    assert (all_deps s_diamond (r_deps A)) as HD by (intros u w; apply (sh_deps _ _ HA)).
    split; [exact HD|]. intros H0. assert ((2, 0)%N ∈ r_deps A) as Hin; [|rewrite H0 in Hin; set_solver].
    apply HD. apply depends_b_spec. vm_compute. reflexivity. }
  split; [vm_compute; reflexivity|]. split; [vm_compute; reflexivity|]. split; [vm_compute; reflexivity|].
  assert (∀ l, answer_to env_s 10 l OGc = Some (Returned OutUnit) → ∀ n s', gcs env_s n (after env_s 10 (l ++ [OGc])) s' →
    gcs env_s (S n) (after env_s 10 l) s') as H.
  { intros l Ha n s' Hg. eapply gcs_S; [by apply after_done|done]. }
  eexists. split; [unfold s_alldrop; do 5 (apply H; [vm_compute; reflexivity|]); apply gcs_O|].
  vm_compute. reflexivity.
Qed.
