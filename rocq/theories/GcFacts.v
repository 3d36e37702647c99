(** When garbage collection panics, and repeated garbage collection. *)
From Verif Require Export Facts1.
From stdpp Require Import relations.

Section GcFacts.
Context (E : env).
Notation prim := (prim E).
Notation prims := (rtc prim).

Definition lk (c : cache) : Prop := leafs c ⊆ dom (known c).

Lemma lk_make_known a o c : lk c → lk (make_known a o c).
Proof. unfold lk, make_known. intros H. destruct (known c !! a); [done|]. cbn. set_solver. Qed.
Lemma prim_lk s s' : prim s s' → lk (ch s) → lk (ch s').
Proof.
  intros Hp Hl. destruct Hp; cbn; try done.
  - by apply lk_make_known.
  - unfold lk in *. cbn. set_solver.
  - apply alloc_Some in H as (-> & -> & _). done.
  - apply drop_Some in H as (_ & _ & ->). done.
Qed.
Lemma prims_lk s s' : prims s s' → lk (ch s) → lk (ch s').
Proof. induction 1 as [|x y z H _ IH]; [done|]. intros Hl. apply IH. by eapply prim_lk. Qed.

(** The invalidated ids are known, if the first one is. *)
Lemma closure_known ob c a (C : gset addr) :
  CInv ob c → (∀ x, x ∈ C ↔ rtc (dep_rel c) a x) → is_Some (known c !! a) → C ⊆ dom (known c).
Proof.
  intros I HC Ha x Hx. apply HC in Hx. apply elem_of_dom.
  apply rtc_inv_r in Hx as [->|(y & _ & Hyz)]; [done|]. by apply (ci_edge_known _ _ I) in Hyz as [_ ?].
Qed.

Lemma pruned_lk ob c C K L c' :
  CInv ob c → pruned c C K L c' → K ⊆ L → C ⊆ dom (known c) → lk c → lk c'.
Proof.
  intros I Hp HKL HC Hl x Hx. apply (pn_leafs _ _ _ _ _ Hp) in Hx as (HxL & Hx).
  apply elem_of_dom. rewrite (pn_known _ _ _ _ _ Hp). rewrite bool_decide_eq_false_2 by set_solver.
  apply elem_of_dom. destruct Hx as [?|[?|[(y & _ & Hy) _]]]; [set_solver..|].
  apply (ci_edge_known _ _ I) in Hy as [? _]. by apply elem_of_dom.
Qed.

Lemma invalidate_lk dbg pr ob a c c' :
  CInv ob c → is_Some (known c !! a) → invalidate_by_id dbg pr a c = COk c' → lk c → lk c'.
Proof.
  intros I Ha Heq Hl. destruct (invalidate_ok dbg pr a c (ci_sync _ _ I)) as (C & c2 & Heq2 & Hp & HC).
  assert (c2 = c') as -> by congruence. eapply pruned_lk; [done|exact Hp|done| |done].
  by eapply closure_known.
Qed.
Lemma gc_lk dbg pr ob al c c' :
  CInv ob c → garbage_collection dbg pr al c = COk c' → lk c → lk c'.
Proof.
  intros I Heq Hl. destruct (gc_ok dbg pr al ob c I) as [Hok _].
  destruct (Hok Hl) as (D & c2 & Heq2 & Hp & _ & HD). assert (c2 = c') as -> by congruence.
  eapply pruned_lk; [done|exact Hp|done| |done]. intros x Hx. apply HD in Hx as [_ (o & Ho & _)].
  apply elem_of_dom. eauto.
Qed.
(** Also if the target is unknown, as long as it is made known afterwards. *)
Lemma invalidate_lk_known dbg pr ob a c c' :
  CInv ob c → invalidate_by_id dbg pr a c = COk c' → lk c →
  leafs c' ⊆ dom (known c') ∪ {[a]}.
Proof.
  intros I Heq Hl. destruct (invalidate_ok dbg pr a c (ci_sync _ _ I)) as (C & c2 & Heq2 & Hp & HC).
  assert (c2 = c') as -> by congruence.
  assert (dom (known c') = dom (known c)) as Hd.
  { apply set_eq. intros x. rewrite !elem_of_dom, (pn_known _ _ _ _ _ Hp), bool_decide_eq_false_2; [done|set_solver]. }
  rewrite Hd. intros x Hx. apply (pn_leafs _ _ _ _ _ Hp) in Hx as (_ & [?|[Hx|[(y & _ & Hy) _]]]).
  - set_solver.
  - apply HC in Hx. apply rtc_inv_r in Hx as [->|(y & _ & Hyz)]; [set_solver|].
    apply (ci_edge_known _ _ I) in Hyz as [_ ?]. apply elem_of_union_l, elem_of_dom. done.
  - apply (ci_edge_known _ _ I) in Hy as [? _]. apply elem_of_union_l, elem_of_dom. done.
Qed.
Lemma inv_dependents_lk dbg pr ob a c c' :
  CInv ob c → invalidate_dependents dbg pr a c = COk c' → lk c → leafs c' ⊆ dom (known c') ∪ {[a]}.
Proof.
  intros I Heq Hl. destruct (other_dependent_dec c a) as [(y & Hy & Hne)|Hno].
  - destruct (inv_dependents_panic dbg pr a y c (ci_sync _ _ I) Hy Hne) as [c2 Heq2]. congruence.
  - destruct (inv_dependents_ok dbg pr a c (ci_sync _ _ I) Hno) as (c2 & Heq2 & Hcase).
    assert (c2 = c') as -> by congruence. destruct Hcase as [[_ Hp]|(_ & _ & _ & Hk & _ & _ & Hlf)].
    + assert (dom (known c') = dom (known c)) as Hd.
      { apply set_eq. intros x. rewrite !elem_of_dom, (pn_known _ _ _ _ _ Hp), bool_decide_eq_false_2; [done|set_solver]. }
      rewrite Hd. intros x Hx. apply (pn_leafs _ _ _ _ _ Hp) in Hx as (_ & [?|[Hx|[(y & _ & Hy) _]]]); [set_solver..|].
      apply (ci_edge_known _ _ I) in Hy as [? _]. apply elem_of_union_l, elem_of_dom. done.
    + rewrite Hlf, Hk. unfold lk in Hl. set_solver.
Qed.
Lemma lk_made_known a o c : leafs c ⊆ dom (known c) ∪ {[a]} → lk (make_known a o c).
Proof.
  intros H. unfold lk, make_known. destruct (known c !! a) eqn:Ha; cbn.
  - intros x Hx. apply H, elem_of_union in Hx as [?| ->%elem_of_singleton]; [done|]. apply elem_of_dom; eauto.
  - set_solver.
Qed.
Lemma ensure_lk a o t i c c' r :
  ensure_dyn_state a o t i c = (c', r) → leafs c ⊆ dom (known c) ∪ {[a]} → lk c'.
Proof.
  unfold ensure_dyn_state. intros He Hl. apply (lk_made_known a o) in Hl.
  destruct (dyn_states _ !! a) as [v|]; [destruct (_ =? _)%N|destruct i]; by injection He as <- <-.
Qed.

Lemma build_lk n o s d a s' :
  Inv s → promise o s = Some (d, a) → artifacts (ch s) !! a = None → leafs (ch s) ⊆ dom (known (ch s)) ∪ {[a]} →
  (∃ r, build E n o s = Done r s') ∨ (∃ k, build E n o s = Panic k s') → lk (ch s').
Proof.
  intros I Hp Ha Hl Hb.
  set (s0 := set_ch (make_known a o (ch s)) s).
  assert (Inv s0) as I0 by (eapply (prim_Inv E s s0); [by eapply pm_know|done]).
  assert (lk (ch s0)) as Hl0 by (by apply lk_made_known).
  assert (build E n o s0 = build E n o s ∨ build E n o s = Panic PkDebug s) as Heq.
  { destruct n as [|n]; cbn [build]; [by left|].
    assert (promise o s0 = promise o s) as -> by done. rewrite Hp. destruct d as [aty sty init body].
    unfold contains_artifact. cbn [s0 ch set_ch]. rewrite (proj1 (make_known_fields a o (ch s))).
    destruct (e_dbg E && _); [by right|]. left. rewrite make_known_idem. done. }
  assert (rtc prim s0 s' ∨ s' = s ∧ False) as [Hpr|[_ []]].
  { destruct Heq as [Heq|Heq].
    - left. rewrite <- Heq in Hb. eapply (build_prims E n o s0 d a); [done|done| |exact Hb].
      cbn. by rewrite (proj1 (make_known_fields a o (ch s))).
    - exfalso. destruct (build_user E n o s d a I Hp Ha) as [Hu _]. specialize (Hu _ _ Heq). done. }
  by eapply prims_lk.
Qed.

Lemma gc_friendly_lk n x s s' :
  Inv s → stack s = [] → gc_friendly s x → goes (step E n x s) s' → lk (ch s) → lk (ch s').
Proof.
  intros I Hst Hf Hg Hl. apply (step_effect E n x s s' I Hst) in Hg as He.
  destruct x as [d|o|h o|o f|h o|o f|o|o f|o|o|o| | | |o| ]; unfold goes in Hg; cbn [gc_friendly] in Hf;
    try (cbn [effect_of] in He; first [by eapply prims_lk | by subst s'| done]).
  - (* get_mut *)
    cbn [step] in Hg. unfold op_get_mut in Hg. destruct (e_kind E); [by gd|].
    destruct (promise o s) as [[d a]|] eqn:Hp; [|by gd].
    destruct (lookup_mut (e_dbg E) (prio E s) a (bd_aty d) (ch s)) as [r lr] eqn:Hlm.
    destruct (lookup_mut_ok (e_dbg E) (prio E s) o s d a I Hp) as [H1 H2].
    destruct (other_dependent_dec (ch s) a) as [Hex|Hno].
    { destruct (H1 Hex) as [c' Hc']. rewrite Hlm in Hc'. injection Hc' as -> ->. by gd. }
    destruct (H2 Hno) as (c & Hid & HC & Hkn & Hlm'). rewrite Hlm in Hlm'. injection Hlm' as -> ->.
    pose proof (inv_dependents_lk _ _ _ _ _ _ (i_c _ I) Hid Hl) as Hlc.
    set (s1 := tock (set_ch c s)) in *.
    assert (Inv s1) as I1.
    { apply Inv_tock, Inv_set_ch; [done..|]. intros a' o'. rewrite Hkn. intros Hk. right. by exists a'. }
    destruct (artifacts c !! a) as [e|] eqn:Ha.
    + assert (lk c) as Hlk.
      { intros x Hx. apply Hlc, elem_of_union in Hx as [?| ->%elem_of_singleton]; [done|].
        apply elem_of_dom, (ci_dyn_known _ _ HC), (ci_art_dyn _ _ HC). eauto. }
      destruct (lookup_mut (e_dbg E) (prio E s1) a (bd_aty d) (ch s1)) as [r lr] eqn:Hlm2.
      destruct (lookup_mut_ok (e_dbg E) (prio E s1) o s1 d a I1 Hp) as [H3 H4].
      destruct (other_dependent_dec (ch s1) a) as [Hex|Hno1].
      { destruct (H3 Hex) as [c' Hc']. rewrite Hlm2 in Hc'. injection Hc' as -> ->. by gd. }
      destruct (H4 Hno1) as (c2 & Hid2 & HC2 & Hkn2 & Hlm'). rewrite Hlm2 in Hlm'. injection Hlm' as -> ->.
      pose proof (inv_dependents_lk _ _ _ _ _ _ HC Hid2 Hlk) as Hlc2.
      assert (lk c2) as Hlk2.
      { intros x Hx. apply Hlc2, elem_of_union in Hx as [?| ->%elem_of_singleton]; [done|].
        rewrite Hkn2. apply elem_of_dom, (ci_dyn_known _ _ HC), (ci_art_dyn _ _ HC). eauto. }
      destruct (artifacts c2 !! a); gd; exact Hlk2.
    + assert (∀ s2, (∃ r, build E n o s1 = Done r s2) ∨ (∃ k, build E n o s1 = Panic k s2) → lk (ch s2)) as Hb.
      { intros s2. by eapply (build_lk n o s1 d a). }
      destruct (build E n o s1) as [[e|e] s2|k s2| |]; try by gd.
      * specialize (Hb s2 ltac:(eauto)). destruct (_ =? _)%N; gd; exact Hb.
      * specialize (Hb s2 ltac:(eauto)). by gd.
      * specialize (Hb s2 ltac:(eauto)). by gd.
  - (* lookup_mut *)
    cbn [step] in Hg. unfold op_lookup_mut in Hg. destruct (e_kind E); [by gd|].
    destruct (promise o s) as [[d a]|] eqn:Hp; [|by gd].
    destruct (lookup_mut (e_dbg E) (prio E s) a (bd_aty d) (ch s)) as [r lr] eqn:Hlm.
    destruct (lookup_mut_ok (e_dbg E) (prio E s) o s d a I Hp) as [H1 H2].
    destruct (other_dependent_dec (ch s) a) as [Hex|Hno].
    { destruct (H1 Hex) as [c' Hc']. rewrite Hlm in Hc'. injection Hc' as -> ->. by gd. }
    destruct (H2 Hno) as (c & Hid & HC & Hkn & Hlm'). rewrite Hlm in Hlm'. injection Hlm' as -> ->.
    pose proof (inv_dependents_lk _ _ _ _ _ _ (i_c _ I) Hid Hl) as Hlc.
    apply (live_knows s o d a I Hp) in Hf.
    assert (lk c) as Hlk.
    { intros x Hx. apply Hlc, elem_of_union in Hx as [?| ->%elem_of_singleton]; [done|].
      rewrite Hkn. by apply elem_of_dom. }
    destruct (artifacts c !! a); gd; exact Hlk.
  - (* dyn_state *)
    cbn [step] in Hg. destruct (promise o s) as [[d a]|] eqn:Hp; [|by gd].
    destruct (ensure_dyn_state a o (bd_sty d) (bd_init d) (ch s)) as [c r] eqn:Hen.
    apply ensure_lk in Hen; [|unfold lk in Hl; set_solver]. destruct r; gd; exact Hen.
  - (* dyn_state_mut *)
    cbn [step] in Hg. destruct (promise o s) as [[d a]|] eqn:Hp; [|by gd].
    destruct (invalidate_by_id (e_dbg E) (prio E s 0) a (ch s)) as [c|k c|] eqn:Hiv.
    + pose proof (invalidate_lk_known _ _ _ _ _ _ (i_c _ I) Hiv Hl) as Hlc.
      cbn [ch log tock set_ch] in Hg.
      destruct (ensure_dyn_state a o (bd_sty d) (bd_init d) c) as [c2 r] eqn:Hen.
      apply ensure_lk in Hen; [|done]. destruct r; gd; exact Hen.
    + gd. destruct (invalidate_ok (e_dbg E) (prio E s 0) a (ch s) (ci_sync _ _ (i_c _ I))) as (C & c' & Heq & _). congruence.
    + by gd.
  - (* invalidate *)
    cbn [step] in Hg. destruct (promise o s) as [[d a]|] eqn:Hp; [|by gd].
    apply (live_knows s o d a I Hp) in Hf.
    destruct (invalidate_by_id (e_dbg E) (prio E s 0) a (ch s)) as [c|k c|] eqn:Hiv.
    + pose proof (invalidate_lk _ _ _ _ _ _ (i_c _ I) Hf Hiv Hl) as Hlc. cbn in Hg. gd. exact Hlc.
    + cbn in Hg. gd. destruct (invalidate_ok (e_dbg E) (prio E s 0) a (ch s) (ci_sync _ _ (i_c _ I))) as (C & c' & Heq & _). congruence.
    + by gd.
  - (* clear_artifacts *) cbn [step] in Hg. gd. unfold lk in *. cbn. set_solver.
  - (* clear_all *) cbn [step] in Hg. gd. unfold lk in *. cbn. set_solver.
  - (* gc *)
    cbn [step] in Hg. destruct (garbage_collection (e_dbg E) (prio E s) (alive s) (ch s)) as [c|k c|] eqn:Hgc.
    + pose proof (gc_lk _ _ _ _ _ _ (i_c _ I) Hgc Hl). cbn in Hg. by gd.
    + destruct (gc_ok (e_dbg E) (prio E s) (alive s) (objs s) (ch s) (i_c _ I)) as [Hok _].
      destruct (Hok Hl) as (D & c' & Heq' & _). congruence.
    + cbn in Hg. by gd.
Qed.

Lemma friendly_lk s : reach_by E gc_friendly s → lk (ch s).
Proof.
  intros [l Hr]. refine (runs_inv E gc_friendly (λ x, lk (ch x)) init_st l s Inv_init eq_refl _ _ Hr); [done|].
  intros n x s1 s2 I1 Hst1 H1 Hf Hg. exact (gc_friendly_lk n x s1 s2 I1 Hst1 Hf Hg H1).
Qed.

Lemma gc_no_panic s n : reach_by E gc_friendly s → ∃ s', step E n OGc s = Done OutUnit s'.
Proof.
  intros Hr. pose proof (friendly_lk s Hr) as Hl. apply reach_Inv in Hr as [I _].
  destruct (gc_ok (e_dbg E) (prio E s) (alive s) (objs s) (ch s) (i_c _ I)) as [Hok _].
  destruct (Hok Hl) as (D & c' & Heq' & _). cbn [step]. rewrite Heq'. cbn. eauto.
Qed.

(** After a purge, garbage collection panics. *)
Lemma purge_gc_panics s n o s1 m :
  Inv s → stack s = [] → step E n (OPurge o) s = Done OutUnit s1 → ∃ s2, step E m OGc s1 = Panic PkGcIndex s2.
Proof.
  intros I Hst Hs. destruct (step_Inv E _ _ _ _ _ I Hst Hs) as [I1 _].
  cbn [step] in Hs. destruct (promise o s) as [[d a]|] eqn:Hp; [|done].
  destruct (purge_ok (e_dbg E) (prio E s 0) a (ch s) (ci_sync _ _ (i_c _ I))) as (C & c' & Heq & Hpr & HC).
  rewrite Heq in Hs. cbn in Hs. injection Hs as <-.
  destruct (gc_ok (e_dbg E) (prio E (log (EInvalidate o) (tock (set_ch c' s)))) (alive s) (objs s) c' (i_c _ I1)) as [_ Hno].
  cbn [step]. cbn. rewrite Hno; [by eexists|].
  intros Hsub. assert (a ∈ leafs c') as Ha.
  { apply (pn_leafs _ _ _ _ _ Hpr). split; [set_solver|]. right. left. apply HC. apply rtc_refl. }
  apply Hsub, elem_of_dom in Ha. rewrite (pn_known _ _ _ _ _ Hpr), bool_decide_eq_true_2 in Ha by set_solver.
  by destruct Ha.
Qed.
Lemma unknown_invalidate_gc_panics s n o s1 m :
  Inv s → stack s = [] → ¬ knows s o →
  step E n (OInvalidate o) s = Done OutUnit s1 → ∃ s2, step E m OGc s1 = Panic PkGcIndex s2.
Proof.
  intros I Hst Hk Hs. destruct (step_Inv E _ _ _ _ _ I Hst Hs) as [I1 _].
  cbn [step] in Hs. destruct (promise o s) as [[d a]|] eqn:Hp; [|done].
  destruct (invalidate_ok (e_dbg E) (prio E s 0) a (ch s) (ci_sync _ _ (i_c _ I))) as (C & c' & Heq & Hpr & HC).
  rewrite Heq in Hs. cbn in Hs. injection Hs as <-.
  destruct (gc_ok (e_dbg E) (prio E (log (EInvalidate o) (tock (set_ch c' s)))) (alive s) (objs s) c' (i_c _ I1)) as [_ Hno].
  cbn [step]. cbn. rewrite Hno; [by eexists|].
  intros Hsub. assert (a ∈ leafs c') as Ha.
  { apply (pn_leafs _ _ _ _ _ Hpr). split; [set_solver|]. right. left. apply HC. apply rtc_refl. }
  apply Hsub, elem_of_dom in Ha. rewrite (pn_known _ _ _ _ _ Hpr), bool_decide_eq_false_2 in Ha by set_solver.
  apply Hk. by eapply live_knows.
Qed.

(** ** The known builders *)
Lemma known_set s : Inv s → ∃ X : gset obj, (∀ o, o ∈ X ↔ knows s o) ∧ size X = number_of_known (ch s).
Proof.
  intros I.
  assert (NoDup ((map_to_list (known (ch s))).*2)) as Hnd.
  { apply NoDup_fmap_2_strong; [|apply NoDup_map_to_list].
    intros [a1 o1] [a2 o2] H1%elem_of_map_to_list H2%elem_of_map_to_list Heq. cbn in Heq. subst o2.
    apply (ci_known_obj _ _ (i_c _ I)) in H1 as [d1 H1]. apply (ci_known_obj _ _ (i_c _ I)) in H2 as [d2 H2].
    congruence. }
  exists (list_to_set ((map_to_list (known (ch s))).*2)). split.
  - intros o. rewrite elem_of_list_to_set, elem_of_list_fmap. split.
    + intros ([a o'] & -> & Hin%elem_of_map_to_list). cbn.
      destruct (ci_known_obj _ _ (i_c _ I) _ _ Hin) as [d Hd]. exists d, a. done.
    + intros (d & a & Ho & Hk). exists (a, o). split; [done|]. by apply elem_of_map_to_list.
  - rewrite size_list_to_set by done. rewrite fmap_length. done.
Qed.

(** ** Repeated garbage collection *)

(** [n] collections in a row, all returning. *)
Inductive gcs : nat → st → st → Prop :=
| gcs_O s : gcs 0 s s
| gcs_S n m s r s1 s2 : step E m OGc s = Done r s1 → gcs n s1 s2 → gcs (S n) s s2.

(** Reason to stay: [w] is used, directly or not, by a live builder or by a
    cycle of dependencies. *)
Definition needed (s : st) (w : obj) : Prop :=
  ∃ v, affected s w v ∧ (live s v ∨ tc (λ x y, depends s y x) v v).

Lemma depends_known s u w : depends s u w → knows s u ∧ knows s w.
Proof. intros (du & ua & dw & wa & X & H1 & H2 & H3 & H4 & _). split; eexists _, _; eauto. Qed.

Lemma tc_first {A} (R : relation A) x y : tc R x y → ∃ z, R x z.
Proof. destruct 1; eauto. Qed.

Lemma tc_mono {A} (R R' : relation A) x y : (∀ a b, R a b → R' a b) → tc R x y → tc R' x y.
Proof. intros Hs. induction 1 as [x y H|x y z H Ht IH]; [apply tc_once; auto|]. eapply tc_l; eauto. Qed.

Lemma affected_uncollected s w v x :
  affected s w v → (live s v ∨ tc (λ x y, depends s y x) v v) → affected s w x → affected s x v → ¬ collected s x.
Proof.
  intros _ Hv _ Hxv (Hk & Hnl & Hnd). destruct Hxv as [|x y v Hxy _].
  - destruct Hv as [?|Hc]; [done|]. apply tc_first in Hc as [z Hz]. by eapply Hnd.
  - by eapply Hnd.
Qed.

Lemma gc_edge s s1 u w : forgets s (collected s) (collected s) s1 →
  depends s1 u w ↔ depends s u w ∧ ¬ collected s u.
Proof.
  intros Hf. rewrite (fg_depends _ _ _ _ Hf). split; [tauto|]. intros [H1 H2]. split_and!; [done..|].
  intros (_ & _ & H). by eapply H.
Qed.
Lemma tc_collected s x y : tc (λ x y, depends s y x) x y → ¬ collected s y →
  ∀ s1, forgets s (collected s) (collected s) s1 → tc (λ x y, depends s1 y x) x y.
Proof.
  intros Ht Hy s1 Hf. induction Ht as [x y H|x y z H Ht IH].
  - apply tc_once. by apply (gc_edge s s1 y x Hf).
  - eapply tc_l; [|by apply IH]. apply (gc_edge s s1 y x Hf). split; [done|].
    intros (_ & _ & Hn). destruct Ht; by eapply Hn.
Qed.
Lemma rtc_collected s x y : affected s x y → ¬ collected s y →
  ∀ s1, forgets s (collected s) (collected s) s1 → affected s1 x y.
Proof.
  intros Ht Hy s1 Hf. unfold affected in *. apply rtc_tc in Ht as [->|Ht]; [apply rtc_refl|].
  apply tc_rtc. by eapply tc_collected.
Qed.
Lemma affected_sub s s1 x y : (∀ u w, depends s1 u w → depends s u w) → affected s1 x y → affected s x y.
Proof. intros H. apply rtc_subrel. intros a b. apply H. Qed.

Lemma gc_needed s s1 w : forgets s (collected s) (collected s) s1 → needed s1 w ↔ needed s w.
Proof.
  intros Hf. assert (∀ u w, depends s1 u w → depends s u w) as Hsub.
  { intros u w'. rewrite (gc_edge s s1 u w' Hf). tauto. }
  split.
  - intros (v & Ha & Hv). exists v. split; [by eapply affected_sub|].
    destruct Hv as [Hv|Hv]; [left; by apply (fg_live _ _ _ _ Hf)|right].
    revert Hv. apply tc_mono. intros a b. apply Hsub.
  - intros (v & Ha & Hv).
    assert (¬ collected s v) as Hnc by (eapply affected_uncollected; [exact Ha|done|exact Ha|apply rtc_refl]).
    exists v. split; [by eapply rtc_collected|].
    destruct Hv as [Hv|Hv]; [left; by apply (fg_live _ _ _ _ Hf)|right]. by eapply tc_collected.
Qed.
Lemma needed_uncollected s w : needed s w → ¬ collected s w.
Proof. intros (v & Ha & Hv). eapply affected_uncollected; [exact Ha|done|apply rtc_refl|done]. Qed.

(** If nothing can be collected any more, everything known is needed. *)
Lemma stuck_needed s w : Inv s → (∀ w, ¬ collected s w) → knows s w → needed s w.
Proof.
  intros I Hstuck. destruct (known_set s I) as (X & HX & _).
  assert (∀ w, knows s w → live s w ∨ ∃ u, depends s u w) as Hnext.
  { intros x Hx. destruct (decide (x ∈ alive s)) as [|Hnl]; [by left|]. right.
    (* finitely many candidates *)
    assert (∀ L : list obj, (∃ u, u ∈ L ∧ depends s u x) ∨ (∀ u, u ∈ L → ¬ depends s u x)) as Hdec.
    { induction L as [|y L IH]; [right; set_solver|]. destruct IH as [(u & ? & ?)|IH].
      - left. exists u. set_solver.
      - assert (depends s y x ∨ ¬ depends s y x) as [Hy|Hy].
        { destruct Hx as (dx & ax & Hox & Hkx).
          destruct (objs s !! y) as [[dy ay]|] eqn:Hoy.
          2: { right. intros (? & ? & ? & ? & ? & Hat & _). unfold at_addr in Hat. congruence. }
          destruct (decide (known (ch s) !! ay = Some y)) as [Hky|Hky].
          2: { right. intros (? & ? & ? & ? & ? & Hat & ? & _). unfold at_addr in *. by simplify_eq. }
          destruct (dependents (ch s) !! ax) as [Y|] eqn:HY.
          2: { right. intros (? & ? & ? & ? & ? & ? & ? & Hat & ? & ? & _). unfold at_addr in *. by simplify_eq. }
          destruct (decide (ay ∈ Y)) as [Hin|Hin].
          - left. exists dy, ay, dx, ax, Y. done.
          - right. intros (? & ? & ? & ? & ? & Hat1 & ? & Hat & ? & ? & ?). unfold at_addr in *. by simplify_eq. }
        + left. exists y. set_solver.
        + right. intros u. rewrite elem_of_cons. intros [->|?]; auto. }
    destruct (Hdec (elements X)) as [(u & _ & ?)|Hno]; [by exists u|]. exfalso.
    apply (Hstuck x). split_and!; [done..|]. intros u Hu. apply (Hno u); [|done].
    apply elem_of_elements, HX. by apply depends_known in Hu as [? _]. }
  (* follow the dependents until a live builder or a repetition *)
  assert (∀ n (V : gset obj) w, size (X ∖ V) < n → knows s w →
    (∀ v, v ∈ V → affected s v w) → w ∉ V → needed s w) as Hwalk.
  { induction n as [|n IH]; [lia|]. intros V x Hn Hx HV HxV.
    destruct (Hnext x Hx) as [Hl|[u Hu]]; [exists x; split; [apply rtc_refl|by left]|].
    apply depends_known in Hu as Hk. destruct Hk as [Hku _].
    destruct (decide (u ∈ {[x]} ∪ V)) as [Hin|Hnin].
    - exists x. split; [apply rtc_refl|]. right. 
      apply elem_of_union in Hin as [->%elem_of_singleton|Hin]; [by apply tc_once|].
      eapply tc_rtc_r; [by apply tc_once|]. by apply HV.
    - assert (needed s u) as (v & Hv & Hor).
      { apply (IH ({[x]} ∪ V)); [|done| |done].
        - assert (x ∈ X ∖ V) as HxX by (apply elem_of_difference; split; [by apply HX|done]).
          assert (size (X ∖ ({[x]} ∪ V)) < size (X ∖ V)); [|lia].
          apply subset_size. split; [set_solver|]. intros H. apply H in HxX. set_solver.
        - intros v [->%elem_of_singleton|Hv]%elem_of_union.
          + by apply rtc_once.
          + eapply rtc_r; [by apply HV|done]. }
      exists v. split; [|done]. eapply rtc_l; done. }
  intros Hk. apply (Hwalk (S (size (X ∖ ∅))) ∅); [lia|done|set_solver..].
Qed.

Lemma gc_count n s r s1 :
  Inv s → Inv s1 → step E n OGc s = Done r s1 →
  number_of_known (ch s1) ≤ number_of_known (ch s) ∧
  ((∃ w, collected s w) → number_of_known (ch s1) < number_of_known (ch s)).
Proof.
  intros I I1 Hs. destruct (gc_done_effect E n s r s1 I Hs) as [_ Hf].
  destruct (known_set s I) as (X & HX & <-). destruct (known_set s1 I1) as (X1 & HX1 & <-).
  assert (X1 ⊆ X) as Hsub.
  { intros o Ho. apply HX1, (fg_knows _ _ _ _ Hf) in Ho as [? _]. by apply HX. }
  split; [by apply subseteq_size|]. intros (w & Hw). apply subset_size. split; [done|].
  intros H. assert (w ∈ X1) as Hw1 by (apply H, HX, Hw).
  apply HX1, (fg_knows _ _ _ _ Hf) in Hw1 as [_ Hn]. by apply Hn.
Qed.

Lemma gcs_complete n s s' :
  Inv s → stack s = [] → gcs n s s' → 
  Inv s' ∧
  (∀ w, knows s' w → knows s w) ∧
  (∀ w, knows s' w → cached s' w = cached s w ∧ state_of s' w = state_of s w) ∧
  (∀ w, knows s w → needed s w → knows s' w) ∧
  (∀ w, needed s' w ↔ needed s w) ∧
  ((∀ w, ¬ collected s w) ∨ number_of_known (ch s) ≤ n → ∀ w, ¬ collected s' w).
Proof.
  intros I Hst Hg. induction Hg as [s|n m s r s1 s2 Hs Hg IH].
  { split_and!; try done. intros [?|Hn] w; [done|]. intros (Hk & _).
    destruct (known_set s I) as (X & HX & HsX). apply HX in Hk. assert (size X = 0) as H0 by lia.
    apply size_empty_inv in H0. set_solver. }
  destruct (step_Inv E _ _ _ _ _ I Hst Hs) as [I1 Hst1].
  destruct (gc_count _ _ _ _ I I1 Hs) as [Hle Hlt].
  destruct (gc_done_effect E m s r s1 I Hs) as [_ Hf].
  destruct (IH I1 Hst1) as (I2 & H0 & H1 & H2 & H3 & H4). clear IH.
  split_and!.
  - done.
  - intros w Hw. by apply H0, (fg_knows _ _ _ _ Hf) in Hw as [? _].
  - intros w Hw. destruct (H1 w Hw) as [-> ->]. apply H0, (fg_knows _ _ _ _ Hf) in Hw as [_ Hw].
    split; [by apply (fg_kept _ _ _ _ Hf)|by apply (fg_state_kept _ _ _ _ Hf)].
  - intros w Hk Hn. apply H2; [|by apply (gc_needed s s1 w Hf)].
    apply (fg_knows _ _ _ _ Hf). split; [done|]. by apply needed_uncollected.
  - intros w. rewrite H3. by apply gc_needed.
  - intros Hor. apply H4.
    destruct (decide (number_of_known (ch s1) = number_of_known (ch s))) as [Heq|Hne].
    + left. assert (∀ w, ¬ collected s w) as Hnc.
      { intros w Hw. pose proof (Hlt (ex_intro _ w Hw)). lia. }
      intros w (Hk & Hnl & Hnd). apply (Hnc w). split_and!.
      * by apply (fg_knows _ _ _ _ Hf) in Hk as [? _].
      * intros Hl. apply Hnl. by apply (fg_live _ _ _ _ Hf).
      * intros u Hu. apply (Hnd u). apply (gc_edge s s1 u w Hf). split; [done|]. apply Hnc.
    + destruct Hor as [Hnc|Hn]; [|right; lia]. left.
      intros w (Hk & Hnl & Hnd). apply (Hnc w). split_and!.
      * by apply (fg_knows _ _ _ _ Hf) in Hk as [? _].
      * intros Hl. apply Hnl. by apply (fg_live _ _ _ _ Hf).
      * intros u Hu. apply (Hnd u). apply (gc_edge s s1 u w Hf). split; [done|]. apply Hnc.
Qed.

Lemma gcs_exact n s s' w :
  Inv s → stack s = [] → gcs n s s' → number_of_known (ch s) ≤ n →
  knows s' w ↔ knows s w ∧ needed s w.
Proof.
  intros I Hst Hg Hn. destruct (gcs_complete n s s' I Hst Hg) as (I2 & H0 & _ & H2 & H3 & H4). split.
  - intros Hk. split; [by apply H0|]. apply H3. apply stuck_needed; [done| |done]. apply H4. by right.
  - intros [Hk Hnd]. by apply H2.
Qed.

End GcFacts.
