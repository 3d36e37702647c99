(** Which leafs are not known: exactly when garbage collection panics. *)
From Verif Require Export MoreFacts.
From stdpp Require Import relations.

Definition loose (c : cache) (x : addr) : Prop := x ∈ leafs c ∧ known c !! x = None.
(** Unknown leafs other than [a] are those there were. *)
Definition leaf_frame (a : addr) (c c' : cache) : Prop :=
  ∀ x, x ≠ a → known c' !! x = None → known c !! x = None ∧ (x ∈ leafs c' ↔ x ∈ leafs c).

Lemma leaf_frame_refl a c : leaf_frame a c c.
Proof. by intros x _ ?. Qed.
Lemma leaf_frame_trans a c1 c2 c3 : leaf_frame a c1 c2 → leaf_frame a c2 c3 → leaf_frame a c1 c3.
Proof.
  intros H1 H2 x Hx Hk. destruct (H2 x Hx Hk) as [Hk2 ->]. by apply H1.
Qed.

Lemma pruned_leaf_frame ob a c C K c' :
  CInv ob c → pruned c C K ∅ c' → K ⊆ {[a]} → (∀ x, x ∈ C ↔ rtc (dep_rel c) a x) → leaf_frame a c c' ∧ a ∈ leafs c'.
Proof.
  intros I Hp HK HC. split.
  - intros x Hxa Hk. rewrite (pn_known _ _ _ _ _ Hp), bool_decide_eq_false_2 in Hk by set_solver. split; [done|].
    rewrite (pn_leafs _ _ _ _ _ Hp). split; [|intros; split; [set_solver|auto]].
    intros [_ [?|[Hx|[(y & _ & Hy) _]]]]; [done|exfalso..].
    + apply HC in Hx. apply rtc_inv_r in Hx as [->|(y & _ & Hyx)]; [done|].
      apply (ci_edge_known _ _ I) in Hyx as [_ [? ?]]. congruence.
    + apply (ci_edge_known _ _ I) in Hy as [[? ?] _]. congruence.
  - apply (pn_leafs _ _ _ _ _ Hp). split; [set_solver|]. right. left. apply HC, rtc_refl.
Qed.
Lemma invalidate_leafs ob dbg pr a c c' :
  CInv ob c → invalidate_by_id dbg pr a c = COk c' → known c' = known c ∧ leaf_frame a c c' ∧ a ∈ leafs c'.
Proof.
  intros I Heq. destruct (invalidate_ok dbg pr a c (ci_sync _ _ I)) as (C & c2 & Heq2 & Hp & HC).
  assert (c2 = c') as -> by congruence. split.
  - apply map_eq. intros x. rewrite (pn_known _ _ _ _ _ Hp). by rewrite bool_decide_eq_false_2 by set_solver.
  - eapply pruned_leaf_frame; [done|done|set_solver|done].
Qed.
Lemma purge_leafs ob dbg pr a c c' :
  CInv ob c → purge dbg pr a c = COk c' → known c' = delete a (known c) ∧ leaf_frame a c c' ∧ a ∈ leafs c'.
Proof.
  intros I Heq. destruct (purge_ok dbg pr a c (ci_sync _ _ I)) as (C & c2 & Heq2 & Hp & HC).
  assert (c2 = c') as -> by congruence. split.
  - apply map_eq. intros x. rewrite (pn_known _ _ _ _ _ Hp). case_bool_decide as Hx.
    + apply elem_of_singleton in Hx as ->. by rewrite lookup_delete.
    + rewrite lookup_delete_ne; [done|]. set_solver.
  - eapply pruned_leaf_frame; [done|done|done|done].
Qed.
Lemma inv_dependents_leafs ob dbg pr a c c' :
  CInv ob c → invalidate_dependents dbg pr a c = COk c' → known c' = known c ∧ leaf_frame a c c' ∧ a ∈ leafs c'.
Proof.
  intros I Heq. destruct (other_dependent_dec c a) as [(y & Hy & Hne)|Hno].
  { destruct (inv_dependents_panic dbg pr a y c (ci_sync _ _ I) Hy Hne) as [c2 Heq2]. congruence. }
  destruct (inv_dependents_ok dbg pr a c (ci_sync _ _ I) Hno) as (c2 & Heq2 & Hcase).
  assert (c2 = c') as -> by congruence.
  destruct Hcase as [[_ Hp]|(_ & _ & _ & Hk & _ & _ & Hlf)].
  - assert (known c' = known c) as Hk.
    { apply map_eq. intros x. rewrite (pn_known _ _ _ _ _ Hp). by rewrite bool_decide_eq_false_2 by set_solver. }
    split; [done|]. split.
    + intros x Hxa Hkx. rewrite Hk in Hkx. split; [done|]. rewrite (pn_leafs _ _ _ _ _ Hp).
      split; [|intros; split; [set_solver|auto]].
      intros [_ [?|[Hx|[(y & _ & Hy) _]]]]; [done|set_solver|].
      apply (ci_edge_known _ _ I) in Hy as [[? ?] _]. congruence.
    + apply (pn_leafs _ _ _ _ _ Hp). split; [set_solver|]. right. left. set_solver.
  - split; [done|]. split; [|set_solver]. intros x Hxa Hkx. split; [congruence|]. set_solver.
Qed.
Lemma make_known_leafs a o c : leaf_frame a c (make_known a o c).
Proof.
  intros x Hxa. unfold make_known. destruct (known c !! a) eqn:Ha; [done|]. cbn.
  rewrite lookup_insert_ne by done. intros. split; [done|]. set_solver.
Qed.
Lemma ensure_leafs a o t i c c' r :
  ensure_dyn_state a o t i c = (c', r) → leaf_frame a c c' ∧ is_Some (known c' !! a).
Proof.
  intros He. assert (leafs c' = leafs (make_known a o c) ∧ known c' = known (make_known a o c)) as [Hl Hk].
  { unfold ensure_dyn_state in He. destruct (dyn_states _ !! a) as [v|]; [destruct (_ =? _)%N|destruct i]; by injection He as <- <-. }
  split; [|rewrite Hk; apply make_known_known]. unfold leaf_frame. rewrite Hl, Hk. apply make_known_leafs.
Qed.

Section Leaf.
Context (E : env).
Local Notation prim := (Prims.prim E).
Local Notation prims := (rtc prim).

Definition leaf_all (c c' : cache) : Prop :=
  ∀ x, known c' !! x = None → known c !! x = None ∧ (x ∈ leafs c' ↔ x ∈ leafs c).
Lemma prim_leafs s s' : prim s s' → leaf_all (ch s) (ch s').
Proof.
  intros Hp x. destruct Hp; cbn; try done.
  - unfold make_known. destruct (known (ch s) !! a) eqn:Ha; [done|]. cbn. rewrite lookup_insert_None.
    intros [? ?]. split; [done|]. set_solver.
  - intros Hk. split; [done|]. unfold add_edge. cbn. 
    assert (x ≠ wa) by (intros ->; rewrite Hk in *; match goal with H : is_Some None |- _ => by destruct H end). set_solver.
  - match goal with H : alloc _ _ _ = _ |- _ => by apply alloc_Some in H as (_ & -> & _) end.
  - match goal with H : drop_obj _ _ = _ |- _ => by apply drop_Some in H as (_ & _ & ->) end.
Qed.
Lemma prims_leafs s s' : prims s s' → leaf_all (ch s) (ch s').
Proof.
  induction 1 as [z|s1 s2 s3 H1 _ IH]; [by intros y|]. intros y Hk. destruct (IH y Hk) as [Hk2 ->].
  by apply (prim_leafs s1 s2).
Qed.

Lemma occupied_known s a : Inv s → occupied s a ↔ is_Some (known (ch s) !! a).
Proof.
  intros I. split.
  - intros (o & d & Ho & d' & a' & Ho' & Hk). unfold at_addr in *. assert (a' = a) as -> by congruence. eauto.
  - intros [o Hk]. destruct (knows_known s a o I Hk) as (d & ? & ?). by exists o, d.
Qed.

Lemma frame_loose a0 c c' x :
  leaf_frame a0 c c' → x ≠ a0 → loose c' x ↔ known c' !! x = None ∧ loose c x.
Proof. unfold loose. intros H Hx. split; [|intros [Hk [Hl _]]]; [intros [Hl Hk]|]; destruct (H x Hx Hk); tauto. Qed.

Lemma step_loose n x s s' a :
  Inv s → stack s = [] → goes (step E n x s) s' →
  loose (ch s') a ↔ known (ch s') !! a = None ∧ x ≠ OClearAll ∧ (loose (ch s) a ∨ spoils x s a).
Proof.
  intros I Hst Hg. pose proof (step_effect E n x s s' I Hst Hg) as He.
  (* no target: nothing spoilt *)
  assert (leaf_all (ch s) (ch s') → (∀ s a, ¬ spoils x s a) → x ≠ OClearAll →
    loose (ch s') a ↔ known (ch s') !! a = None ∧ x ≠ OClearAll ∧ (loose (ch s) a ∨ spoils x s a)) as Hall.
  { unfold loose. intros H Hn Hx. specialize (H a). specialize (Hn s a). split; [intros [? ?]|intros (? & _ & [[? ?]|?])]; tauto. }
  (* target at [a0], known afterwards *)
  assert (∀ a0, leaf_frame a0 (ch s) (ch s') → is_Some (known (ch s') !! a0) → (∀ s a, ¬ spoils x s a) → x ≠ OClearAll →
    loose (ch s') a ↔ known (ch s') !! a = None ∧ x ≠ OClearAll ∧ (loose (ch s) a ∨ spoils x s a)) as Hkn.
  { intros a0 H [w Hw] Hn Hx. apply Hall; [|done|done]. intros y Hk. apply H; [|done]. intros ->. congruence. }
  (* target at [a0], a leaf afterwards *)
  assert (∀ a0, leaf_frame a0 (ch s) (ch s') → a0 ∈ leafs (ch s') → x ≠ OClearAll →
    (∀ a, spoils x s a → a = a0) → (known (ch s') !! a0 = None → spoils x s a0) →
    loose (ch s') a ↔ known (ch s') !! a = None ∧ x ≠ OClearAll ∧ (loose (ch s) a ∨ spoils x s a)) as Htg.
  { intros a0 H Hl Hx Hs1 Hs2. destruct (decide (a = a0)) as [->|Hne].
    - unfold loose. split; [intros [_ Hk]; auto|tauto].
    - rewrite (frame_loose a0 (ch s) (ch s') a H Hne). assert (¬ spoils x s a) by (intros ?%Hs1; done). tauto. }
  destruct x as [d|o|h o|o f|h o|o f|o|o f|o|o|o| | | |o| ]; cbn [effect_of] in He;
    try (apply Hall; [by apply prims_leafs|by intros ? ? []|done]);
    try (subst s'; apply Hall; [by intros ?|by intros ? ? []|done]); unfold goes in Hg.
  - (* get_mut *)
    cbn [step] in Hg. unfold op_get_mut in Hg. destruct (e_kind E); [by gd|].
    destruct (promise o s) as [[d a0]|] eqn:Hp; [|by gd].
    destruct (lookup_mut (e_dbg E) (prio E s) a0 (bd_aty d) (ch s)) as [r lr] eqn:Hlm.
    destruct (lookup_mut_ok (e_dbg E) (prio E s) o s d a0 I Hp) as [H1 H2].
    destruct (other_dependent_dec (ch s) a0) as [Hex|Hno].
    { destruct (H1 Hex) as [c' Hc']. rewrite Hlm in Hc'. injection Hc' as -> ->. by gd. }
    destruct (H2 Hno) as (c & Hid & HC & Hkc & Hlm'). rewrite Hlm in Hlm'. injection Hlm' as -> ->.
    destruct (inv_dependents_leafs _ _ _ _ _ _ (i_c _ I) Hid) as (_ & Hf1 & _).
    set (s1 := tock (set_ch c s)) in *.
    assert (Inv s1) as I1.
    { apply Inv_tock, Inv_set_ch; [done..|]. intros a' o'. rewrite Hkc. intros Hk. right. by exists a'. }
    destruct (artifacts c !! a0) as [e|] eqn:Ha.
    + assert (is_Some (known c !! a0)) as Hka by (apply (ci_dyn_known _ _ HC), (ci_art_dyn _ _ HC); eauto).
      destruct (lookup_mut (e_dbg E) (prio E s1) a0 (bd_aty d) (ch s1)) as [r lr] eqn:Hlm2.
      destruct (lookup_mut_ok (e_dbg E) (prio E s1) o s1 d a0 I1 Hp) as [H3 H4].
      destruct (other_dependent_dec (ch s1) a0) as [Hex|Hno1].
      { destruct (H3 Hex) as [c' Hc']. rewrite Hlm2 in Hc'. injection Hc' as -> ->. by gd. }
      destruct (H4 Hno1) as (c2 & Hid2 & HC2 & Hkn2 & Hlm'). rewrite Hlm2 in Hlm'. injection Hlm' as -> ->.
      destruct (inv_dependents_leafs _ _ _ _ _ _ HC Hid2) as (Hk2 & Hf2 & _).
      assert (leaf_frame a0 (ch s) c2) as Hf by (by eapply leaf_frame_trans).
      rewrite <- Hk2 in Hka.
      destruct (artifacts c2 !! a0); gd; apply (Hkn a0); (done || by intros ? ? []).
    + assert (∀ s2, (∃ r, build E n o s1 = Done r s2) ∨ (∃ k, build E n o s1 = Panic k s2) →
        leaf_frame a0 c (ch s2) ∧ is_Some (known (ch s2) !! a0)) as Hb.
      { intros s2 Hb. set (s0 := set_ch (make_known a0 o (ch s1)) s1).
        assert (Inv s0) as I0 by (eapply (prim_Inv E s1 s0); [by eapply pm_know|done]).
        assert (build E n o s0 = build E n o s1 ∨ build E n o s1 = Panic PkDebug s1) as Heq.
        { destruct n as [|n]; cbn [build]; [by left|].
          assert (promise o s0 = promise o s1) as -> by done.
          assert (promise o s1 = Some (d, a0)) as -> by done. destruct d as [aty sty init body].
          unfold contains_artifact. cbn [s0 ch set_ch]. rewrite (proj1 (make_known_fields a0 o (ch s1))).
          destruct (e_dbg E && _); [by right|]. left. rewrite make_known_idem. done. }
        assert (prims s0 s2) as Hpr.
        { destruct Heq as [Heq|Heq].
          - rewrite <- Heq in Hb. eapply (build_prims E n o s0 d a0); [done|done| |exact Hb].
            cbn. by rewrite (proj1 (make_known_fields a0 o c)).
          - exfalso. destruct (build_user E n o s1 d a0 I1 Hp Ha) as [Hu _]. specialize (Hu _ _ Heq). done. }
        split.
        - intros y Hy Hk. destruct (prims_leafs _ _ Hpr y Hk) as [Hk0 ->]. by apply (make_known_leafs a0 o c).
        - assert (∀ x y, prims x y → is_Some (known (ch x) !! a0) → is_Some (known (ch y) !! a0)) as Hkm.
          { induction 1; eauto using prim_known_some. }
          eapply Hkm; [exact Hpr|]. cbn. apply make_known_known. }
      assert (∀ s2, leaf_frame a0 c (ch s2) → leaf_frame a0 (ch s) (ch s2)) as Hf by (intros s2; by apply leaf_frame_trans).
      destruct (build E n o s1) as [[e|e] s2|k s2| |]; try by gd.
      * destruct (Hb s2) as [? ?]; [eauto|]. destruct (_ =? _)%N; gd; apply (Hkn a0); try done; try (by intros ? ? []); by apply Hf.
      * destruct (Hb s2) as [? ?]; [eauto|]. gd; apply (Hkn a0); try done; try (by intros ? ? []); by apply Hf.
      * destruct (Hb s2) as [? ?]; [eauto|]. gd; apply (Hkn a0); try done; try (by intros ? ? []); by apply Hf.
  - (* lookup_mut *)
    cbn [step] in Hg. unfold op_lookup_mut in Hg. destruct (e_kind E); [by gd|].
    destruct (promise o s) as [[d a0]|] eqn:Hp; [|by gd].
    destruct (lookup_mut (e_dbg E) (prio E s) a0 (bd_aty d) (ch s)) as [r lr] eqn:Hlm.
    destruct (lookup_mut_ok (e_dbg E) (prio E s) o s d a0 I Hp) as [H1 H2].
    destruct (other_dependent_dec (ch s) a0) as [Hex|Hno].
    { destruct (H1 Hex) as [c' Hc']. rewrite Hlm in Hc'. injection Hc' as -> ->. by gd. }
    destruct (H2 Hno) as (c & Hid & HC & Hkc & Hlm'). rewrite Hlm in Hlm'. injection Hlm' as -> ->.
    destruct (inv_dependents_leafs _ _ _ _ _ _ (i_c _ I) Hid) as (_ & Hf1 & Hl1).
    apply promise_Some in Hp as Hp'. destruct Hp' as [_ Ho].
    assert (leafs (ch s') = leafs c ∧ known (ch s') = known c) as [Hl Hk].
    { destruct (artifacts c !! a0); by gd. }
    apply (Htg a0).
    + unfold leaf_frame. rewrite Hl, Hk. exact Hf1.
    + by rewrite Hl.
    + done.
    + intros a' [_ [d' Hd']]. unfold at_addr in Hd'. congruence.
    + intros Hn. split; [|by exists d]. rewrite Hk, Hkc in Hn. rewrite (live_knows s o d a0 I Hp). rewrite Hn. by intros [? ?].
  - (* dyn_state *)
    cbn [step] in Hg. destruct (promise o s) as [[d a0]|] eqn:Hp; [|by gd].
    destruct (ensure_dyn_state a0 o (bd_sty d) (bd_init d) (ch s)) as [c r] eqn:Hen.
    destruct (ensure_leafs _ _ _ _ _ _ _ Hen) as [Hf Hk].
    destruct r; gd; apply (Hkn a0); (done || by intros ? ? []).
  - (* dyn_state_mut *)
    cbn [step] in Hg. destruct (promise o s) as [[d a0]|] eqn:Hp; [|by gd].
    destruct (invalidate_by_id (e_dbg E) (prio E s 0) a0 (ch s)) as [c|k c|] eqn:Hiv.
    + destruct (invalidate_leafs _ _ _ _ _ _ (i_c _ I) Hiv) as (_ & Hf1 & _).
      cbn [ch log tock set_ch] in Hg.
      destruct (ensure_dyn_state a0 o (bd_sty d) (bd_init d) c) as [c2 r] eqn:Hen.
      destruct (ensure_leafs _ _ _ _ _ _ _ Hen) as [Hf Hk].
      assert (leaf_frame a0 (ch s) c2) by (by eapply leaf_frame_trans).
      destruct r; gd; apply (Hkn a0); (done || by intros ? ? []).
    + gd. destruct (invalidate_ok (e_dbg E) (prio E s 0) a0 (ch s) (ci_sync _ _ (i_c _ I))) as (C & c' & Heq & _). congruence.
    + by gd.
  - (* invalidate *)
    cbn [step] in Hg. destruct (promise o s) as [[d a0]|] eqn:Hp; [|by gd].
    destruct (invalidate_by_id (e_dbg E) (prio E s 0) a0 (ch s)) as [c|k c|] eqn:Hiv.
    + destruct (invalidate_leafs _ _ _ _ _ _ (i_c _ I) Hiv) as (Hk1 & Hf1 & Hl1). cbn in Hg.
      apply promise_Some in Hp as Hp'. destruct Hp' as [_ Ho].
      gd. apply (Htg a0); try done.
      * intros a' [_ [d' Hd']]. unfold at_addr in Hd'. congruence.
      * intros Hn. split; [|by exists d]. cbn in Hn. rewrite Hk1 in Hn. rewrite (live_knows s o d a0 I Hp). rewrite Hn. by intros [? ?].
    + cbn in Hg. gd. destruct (invalidate_ok (e_dbg E) (prio E s 0) a0 (ch s) (ci_sync _ _ (i_c _ I))) as (C & c' & Heq & _). congruence.
    + by gd.
  - (* purge *)
    cbn [step] in Hg. destruct (promise o s) as [[d a0]|] eqn:Hp; [|by gd].
    destruct (purge (e_dbg E) (prio E s 0) a0 (ch s)) as [c|k c|] eqn:Hiv.
    + destruct (purge_leafs _ _ _ _ _ _ (i_c _ I) Hiv) as (Hk1 & Hf1 & Hl1). cbn in Hg.
      apply promise_Some in Hp as Hp'. destruct Hp' as [_ Ho].
      gd. apply (Htg a0); try done.
      * intros a' [d' Hd']. unfold at_addr in Hd'. congruence.
      * intros Hn. by exists d.
    + cbn in Hg. gd. destruct (purge_ok (e_dbg E) (prio E s 0) a0 (ch s) (ci_sync _ _ (i_c _ I))) as (C & c' & Heq & _). congruence.
    + by gd.
  - (* clear_artifacts *) cbn [step] in Hg. gd. apply Hall; [|by intros ? ? []|done].
    intros y Hk. cbn in *. split; [done|]. rewrite elem_of_union, elem_of_dom, Hk. split; [intros [?|[? ?]]; done|auto].
  - (* clear_all *) cbn [step] in Hg. gd. unfold loose. cbn. split; [set_solver|]. tauto.
  - (* gc *)
    cbn [step] in Hg. destruct (gc_ok (e_dbg E) (prio E s) (alive s) (objs s) (ch s) (i_c _ I)) as [Hok Hno].
    destruct (decide (leafs (ch s) ⊆ dom (known (ch s)))) as [Hsub|Hsub].
    + destruct (Hok Hsub) as (D & c' & Heq' & Hp & _ & HD). rewrite Heq' in Hg. cbn in Hg. gd. unfold loose. cbn.
      split.
      * intros [Hl Hk]. exfalso. apply (pn_leafs _ _ _ _ _ Hp) in Hl as [Hn Hl].
        rewrite (pn_known _ _ _ _ _ Hp), bool_decide_eq_false_2 in Hk by done.
        destruct Hl as [Hl|[Hl|[(y & _ & Hy) _]]]; [|done|].
        -- apply Hsub, elem_of_dom in Hl. rewrite Hk in Hl. by destruct Hl.
        -- apply (ci_edge_known _ _ (i_c _ I)) in Hy as [[? ?] _]. congruence.
      * intros (_ & _ & [[Hl Hk]|[]]). apply Hsub, elem_of_dom in Hl. rewrite Hk in Hl. by destruct Hl.
    + rewrite (Hno Hsub) in Hg. cbn in Hg. gd. apply Hall; [by intros ?|by intros ? ? []|done].
Qed.

Lemma spoiler_no_panic n x k s s' a :
  Inv s → step E n x s = Panic k s' → resumable k = true → spoils x s a → False.
Proof.
  intros I Hs Hk Hsp. destruct x as [d|o|h o|o f|h o|o f|o|o f|o|o|o| | | |o| ]; try done; clear Hsp; cbn [step] in Hs.
  - unfold op_lookup_mut in Hs. destruct (e_kind E); [done|].
    destruct (promise o s) as [[d a0]|] eqn:Hp; [|done].
    destruct (lookup_mut (e_dbg E) (prio E s) a0 (bd_aty d) (ch s)) as [r lr] eqn:Hlm.
    destruct (lookup_mut_ok (e_dbg E) (prio E s) o s d a0 I Hp) as [H1 H2].
    destruct (other_dependent_dec (ch s) a0) as [Hex|Hno].
    { destruct (H1 Hex) as [c' Hc']. rewrite Hlm in Hc'. injection Hc' as -> ->. injection Hs as <- <-. done. }
    destruct (H2 Hno) as (c & Hid & HC & Hkc & Hlm'). rewrite Hlm in Hlm'. injection Hlm' as -> ->.
    destruct (artifacts c !! a0); done.
  - destruct (promise o s) as [[d a0]|] eqn:Hp; [|done].
    destruct (invalidate_ok (e_dbg E) (prio E s 0) a0 (ch s) (ci_sync _ _ (i_c _ I))) as (C & c' & Heq & _).
    rewrite Heq in Hs. done.
  - destruct (promise o s) as [[d a0]|] eqn:Hp; [|done].
    destruct (purge_ok (e_dbg E) (prio E s 0) a0 (ch s) (ci_sync _ _ (i_c _ I))) as (C & c' & Heq & _).
    rewrite Heq in Hs. done.
Qed.

Lemma gc_panics_loose s m : Inv s → (∃ s2, step E m OGc s = Panic PkGcIndex s2) ↔ ∃ a, loose (ch s) a.
Proof.
  intros I. destruct (gc_ok (e_dbg E) (prio E s) (alive s) (objs s) (ch s) (i_c _ I)) as [Hok Hno].
  cbn [step]. split.
  - intros [s2 Hs]. destruct (decide (leafs (ch s) ⊆ dom (known (ch s)))) as [Hsub|Hsub].
    + destruct (Hok Hsub) as (D & c & Heq & _). rewrite Heq in Hs. done.
    + destruct (decide (set_Exists (λ a, known (ch s) !! a = None) (leafs (ch s)))) as [(a & Ha & Hk)|Hne]; [by exists a|].
      exfalso. apply Hsub. intros a Ha. apply elem_of_dom. destruct (known (ch s) !! a) eqn:Hk; [eauto|].
      exfalso. apply Hne. by exists a.
  - intros (a & Ha & Hk). rewrite Hno; [cbn; eauto|]. intros Hsub. apply Hsub, elem_of_dom in Ha as [? ?]. congruence.
Qed.
Lemma unknown_lookup_mut_loose n o f r s s' :
  Inv s → stack s = [] → ¬ knows s o → step E n (OLookupMut o f) s = Done r s' → ∃ a, loose (ch s') a.
Proof.
  intros I Hst Hk Hs. pose proof Hs as Hs'. cbn [step] in Hs'. unfold op_lookup_mut in Hs'. destruct (e_kind E); [done|].
  destruct (promise o s) as [[d a]|] eqn:Hp; [|done].
  destruct (lookup_mut (e_dbg E) (prio E s) a (bd_aty d) (ch s)) as [r' lr] eqn:Hlm.
  destruct (lookup_mut_ok (e_dbg E) (prio E s) o s d a I Hp) as [H1 H2].
  destruct (other_dependent_dec (ch s) a) as [Hex|Hno].
  { destruct (H1 Hex) as [c' Hc']. rewrite Hlm in Hc'. injection Hc' as -> ->. done. }
  destruct (H2 Hno) as (c & Hid & HC & Hkc & Hlm'). rewrite Hlm in Hlm'. injection Hlm' as -> ->.
  assert (known (ch s') = known (ch s)) as Hk'.
  { destruct (artifacts c !! a); injection Hs' as <- <-; done. }
  exists a. apply (step_loose n (OLookupMut o f) s s' a I Hst); [left; eauto|].
  rewrite (live_knows s o d a I Hp) in Hk. split_and!; [|done|].
  - rewrite Hk'. by apply eq_None_not_Some.
  - right. split; [by rewrite (live_knows s o d a I Hp)|]. apply promise_Some in Hp as [_ ?]. by exists d.
Qed.

Lemma loose_history s a :
  reachable E s →
  loose (ch s) a ↔ ∃ s0 n x r s1 l, reachable E s0 ∧ step E n x s0 = Done r s1 ∧ spoils x s0 a ∧
    runs E (λ t y, ¬ occupied t a ∧ y ≠ OClearAll) s1 l s ∧ ¬ occupied s a.
Proof.
  intros Hr0. split.
  - destruct Hr0 as [l Hr]. induction Hr as [|l s n x r s' Hr IH HP Hs|l s n x k s' Hr IH HP Hs Hk]; intros Hlo.
    + destruct Hlo as [H _]. cbn in H. set_solver.
    + destruct (runs_Inv E any_op init_st l s Hr Inv_init eq_refl) as [I1 Hst1].
      destruct (step_Inv E n x s r s' I1 Hst1 Hs) as [I2 Hst2].
      assert (¬ occupied s' a) as Hno by (rewrite (occupied_known s' a I2), (proj2 Hlo); by apply is_Some_None).
      apply (step_loose n x s s' a I1 Hst1) in Hlo as (Hk & Hx & [Hlo|Hsp]); [|..|left; eauto].
      * assert (¬ occupied s a) as Hns by (rewrite (occupied_known s a I1), (proj2 Hlo); by apply is_Some_None).
        destruct (IH Hlo) as (s0 & m & y & r' & s1 & l2 & H1 & H2 & H3 & H4 & H5).
        exists s0, m, y, r', s1, ((x, Returned r) :: l2). split_and!; try done. by eapply runs_done.
      * exists s, n, x, r, s', []. split_and!; try done; [by exists l|constructor].
    + destruct (runs_Inv E any_op init_st l s Hr Inv_init eq_refl) as [I1 Hst1].
      assert (goes (step E n x s) s') as Hg by (right; eauto).
      assert (Inv (unwound s')) as I2 by (by eapply goes_Inv).
      assert (¬ occupied (unwound s') a) as Hno by (rewrite (occupied_known _ a I2), (proj2 Hlo); by apply is_Some_None).
      change (loose (ch s') a) in Hlo.
      apply (step_loose n x s s' a I1 Hst1 Hg) in Hlo as (Hk' & Hx & [Hlo|Hsp]).
      * assert (¬ occupied s a) as Hns by (rewrite (occupied_known s a I1), (proj2 Hlo); by apply is_Some_None).
        destruct (IH Hlo) as (s0 & m & y & r' & s1 & l2 & H1 & H2 & H3 & H4 & H5).
        exists s0, m, y, r', s1, ((x, Panicked k) :: l2). split_and!; try done. by eapply runs_panic.
      * exfalso. by eapply (spoiler_no_panic n x k s s' a).
  - intros (s0 & n & x & r & s1 & l & [h Hh] & Hs & Hsp & Hr & Hno).
    destruct (runs_Inv E any_op init_st h s0 Hh Inv_init eq_refl) as [I0 Hst0].
    destruct (step_Inv E n x s0 r s1 I0 Hst0 Hs) as [I1 Hst1].
    enough (¬ occupied s a → loose (ch s) a) by auto. clear Hno.
    refine (runs_inv E _ (λ x, ¬ occupied x a → loose (ch x) a) s1 l s I1 Hst1 _ _ Hr).
    + intros Hno. apply (step_loose n x s0 s1 a I0 Hst0); [left; eauto|]. split_and!; [|by destruct x|auto].
      rewrite (occupied_known s1 a I1) in Hno. by apply eq_None_not_Some.
    + intros m y s2 s3 I2 Hst2 Hlo [Hn2 Hy] Hg2 Hn3. change (loose (ch s3) a).
      assert (Inv (unwound s3)) as I3 by (by eapply goes_Inv).
      apply (step_loose m y s2 s3 a I2 Hst2 Hg2). split_and!; [|done|auto].
      rewrite (occupied_known _ a I3) in Hn3. by apply eq_None_not_Some.
Qed.
End Leaf.
