(** Sizes of the tables of the cache. *)
From Verif Require Export FootSpec LeafFacts.
From stdpp Require Import relations.

(** Sets of dependents and dependencies, also empty ones, are kept for known
    builders only. *)
Definition keyed (c : cache) : Prop :=
  ∀ a, is_Some (dependents c !! a) ∨ is_Some (dependencies c !! a) → is_Some (known c !! a).

Lemma keyed_same c c' : dependents c' = dependents c → dependencies c' = dependencies c → known c' = known c → keyed c → keyed c'.
Proof. intros H1 H2 H3 H a. rewrite H1, H2, H3. apply H. Qed.
Lemma keyed_pruned c C K L c' : keyed c → K ⊆ C → pruned c C K L c' → keyed c'.
Proof.
  intros H HK Hp a. rewrite (pn_dependents _ _ _ _ _ Hp), (pn_dependencies _ _ _ _ _ Hp), (pn_known _ _ _ _ _ Hp).
  case_bool_decide as HC; [by intros [[? ?]|[? ?]]|]. rewrite bool_decide_eq_false_2 by set_solver.
  intros Ha. apply H. destruct Ha as [Ha|Ha]; [left|by right]. by destruct (dependents c !! a).
Qed.
Lemma keyed_known a o c : keyed c → keyed (make_known a o c).
Proof.
  intros H x Hx. unfold make_known in *. destruct (known c !! a) eqn:Ha; [by apply H|]. cbn in *.
  destruct (decide (x = a)) as [->|Hne]; [rewrite lookup_insert; eauto|]. rewrite lookup_insert_ne by done. by apply H.
Qed.
Lemma keyed_ensure a o t i c c' r : keyed c → ensure_dyn_state a o t i c = (c', r) → keyed c'.
Proof.
  intros H He. apply (keyed_known a o) in H. unfold ensure_dyn_state in He.
  destruct (dyn_states _ !! a) as [v|]; [destruct (_ =? _)%N|destruct i]; injection He as <- <-; try exact H.
  all: by eapply keyed_same; [..|exact H].
Qed.
Lemma keyed_inv_dependents ob dbg pr a c c' :
  CInv ob c → keyed c → invalidate_dependents dbg pr a c = COk c' → keyed c'.
Proof.
  intros I H Heq. destruct (other_dependent_dec c a) as [(y & Hy & Hne)|Hno].
  { destruct (inv_dependents_panic dbg pr a y c (ci_sync _ _ I) Hy Hne) as [c2 Heq2]. congruence. }
  destruct (inv_dependents_ok dbg pr a c (ci_sync _ _ I) Hno) as (c2 & Heq2 & Hcase).
  assert (c2 = c') as -> by congruence.
  destruct Hcase as [[_ Hp]|(_ & _ & _ & Hk & Hd & Hd' & _)].
  - eapply keyed_pruned; [exact H| |exact Hp]. set_solver.
  - intros x. rewrite Hk, Hd, Hd'. intros [Hx|Hx]; [|apply H; by right]. apply H. left.
    destruct (decide (x = a)) as [->|Hne]; [rewrite lookup_delete in Hx; by destruct Hx|]. by rewrite lookup_delete_ne in Hx.
Qed.

Section Foot.
Context (E : env).
Local Notation prim := (Prims.prim E).
Local Notation prims := (rtc prim).

Lemma prim_keyed s s' : prim s s' → Inv s → keyed (ch s) → keyed (ch s').
Proof.
  intros Hp I H. destruct Hp; try exact H.
  - by apply keyed_known.
  - intros x. cbn. unfold insert_in. intros Hx.
    destruct (decide (x = ua)) as [->|Hu].
    { destruct (i_stack _ I u) as (_ & d' & a' & Ho & Hk & _); [rewrite H0; by left|]. assert (a' = ua) as -> by congruence. eauto. }
    destruct (decide (x = wa)) as [->|Hw]; [done|].
    rewrite !lookup_insert_ne in Hx by done. by apply H.
  - match goal with H : alloc _ _ _ = _ |- _ => by apply alloc_Some in H as (_ & -> & _) end.
  - match goal with H : drop_obj _ _ = _ |- _ => by apply drop_Some in H as (_ & _ & ->) end.
Qed.
Lemma prims_keyed s s' : prims s s' → Inv s → keyed (ch s) → keyed (ch s').
Proof.
  induction 1 as [z|s1 s2 s3 H1 _ IH]; intros I H; [done|]. apply IH; [by eapply prim_Inv|by eapply prim_keyed].
Qed.

Lemma step_keyed n x s s' : Inv s → stack s = [] → goes (step E n x s) s' → keyed (ch s) → keyed (ch s').
Proof.
  intros I Hst Hg H. pose proof (step_effect E n x s s' I Hst Hg) as He.
  destruct x as [d|o|h o|o f|h o|o f|o|o f|o|o|o| | | |o| ]; cbn [effect_of] in He;
    try (by eapply prims_keyed); try (by subst s'); unfold goes in Hg; clear He.
  - (* get_mut *)
    cbn [step] in Hg. unfold op_get_mut in Hg. destruct (e_kind E); [by gd|].
    destruct (promise o s) as [[d a0]|] eqn:Hp; [|by gd].
    destruct (lookup_mut (e_dbg E) (prio E s) a0 (bd_aty d) (ch s)) as [r lr] eqn:Hlm.
    destruct (lookup_mut_ok (e_dbg E) (prio E s) o s d a0 I Hp) as [H1 H2].
    destruct (other_dependent_dec (ch s) a0) as [Hex|Hno].
    { destruct (H1 Hex) as [c' Hc']. rewrite Hlm in Hc'. injection Hc' as -> ->. by gd. }
    destruct (H2 Hno) as (c & Hid & HC & Hkc & Hlm'). rewrite Hlm in Hlm'. injection Hlm' as -> ->.
    pose proof (keyed_inv_dependents _ _ _ _ _ _ (i_c _ I) H Hid) as Hf1.
    set (s1 := tock (set_ch c s)) in *.
    assert (Inv s1) as I1.
    { apply Inv_tock, Inv_set_ch; [done..|]. intros a' o'. rewrite Hkc. intros Hk. right. by exists a'. }
    destruct (artifacts c !! a0) as [e|] eqn:Ha.
    + destruct (lookup_mut (e_dbg E) (prio E s1) a0 (bd_aty d) (ch s1)) as [r lr] eqn:Hlm2.
      destruct (lookup_mut_ok (e_dbg E) (prio E s1) o s1 d a0 I1 Hp) as [H3 H4].
      destruct (other_dependent_dec (ch s1) a0) as [Hex|Hno1].
      { destruct (H3 Hex) as [c' Hc']. rewrite Hlm2 in Hc'. injection Hc' as -> ->. by gd. }
      destruct (H4 Hno1) as (c2 & Hid2 & HC2 & Hkn2 & Hlm'). rewrite Hlm2 in Hlm'. injection Hlm' as -> ->.
      pose proof (keyed_inv_dependents _ _ _ _ _ _ HC Hf1 Hid2) as Hf2.
      destruct (artifacts c2 !! a0); gd; by eapply keyed_same; [..|exact Hf2].
    + assert (∀ s2, (∃ r, build E n o s1 = Done r s2) ∨ (∃ k, build E n o s1 = Panic k s2) → keyed (ch s2)) as Hb.
      { intros s2 Hb. eapply prims_keyed; [eapply (build_prims E n o s1 d a0 s2 I1 Hp Ha Hb)|done|done]. }
      destruct (build E n o s1) as [[e|e] s2|k s2| |]; try by gd.
      * assert (keyed (ch s2)) as Hk2 by (apply Hb; eauto). destruct (_ =? _)%N; gd; by eapply keyed_same; [..|exact Hk2].
      * assert (keyed (ch s2)) as Hk2 by (apply Hb; eauto). by gd.
      * assert (keyed (ch s2)) as Hk2 by (apply Hb; eauto). by gd.
  - (* lookup_mut *)
    cbn [step] in Hg. unfold op_lookup_mut in Hg. destruct (e_kind E); [by gd|].
    destruct (promise o s) as [[d a0]|] eqn:Hp; [|by gd].
    destruct (lookup_mut (e_dbg E) (prio E s) a0 (bd_aty d) (ch s)) as [r lr] eqn:Hlm.
    destruct (lookup_mut_ok (e_dbg E) (prio E s) o s d a0 I Hp) as [H1 H2].
    destruct (other_dependent_dec (ch s) a0) as [Hex|Hno].
    { destruct (H1 Hex) as [c' Hc']. rewrite Hlm in Hc'. injection Hc' as -> ->. by gd. }
    destruct (H2 Hno) as (c & Hid & HC & Hkc & Hlm'). rewrite Hlm in Hlm'. injection Hlm' as -> ->.
    pose proof (keyed_inv_dependents _ _ _ _ _ _ (i_c _ I) H Hid) as Hf1.
    destruct (artifacts c !! a0); gd; by eapply keyed_same; [..|exact Hf1].
  - (* dyn_state *)
    cbn [step] in Hg. destruct (promise o s) as [[d a0]|] eqn:Hp; [|by gd].
    destruct (ensure_dyn_state a0 o (bd_sty d) (bd_init d) (ch s)) as [c r] eqn:Hen.
    pose proof (keyed_ensure _ _ _ _ _ _ _ H Hen). destruct r; by gd.
  - (* dyn_state_mut *)
    cbn [step] in Hg. destruct (promise o s) as [[d a0]|] eqn:Hp; [|by gd].
    destruct (invalidate_ok (e_dbg E) (prio E s 0) a0 (ch s) (ci_sync _ _ (i_c _ I))) as (C & c & Hiv & Hpr & _).
    rewrite Hiv in Hg. assert (keyed c) as Hc by (eapply keyed_pruned; [exact H| |exact Hpr]; set_solver).
    cbn [ch log tock set_ch] in Hg. destruct (ensure_dyn_state a0 o (bd_sty d) (bd_init d) c) as [c2 r] eqn:Hen.
    pose proof (keyed_ensure _ _ _ _ _ _ _ Hc Hen) as Hc2. destruct r; gd; by eapply keyed_same; [..|exact Hc2].
  - (* invalidate *)
    cbn [step] in Hg. destruct (promise o s) as [[d a0]|] eqn:Hp; [|by gd].
    destruct (invalidate_ok (e_dbg E) (prio E s 0) a0 (ch s) (ci_sync _ _ (i_c _ I))) as (C & c & Hiv & Hpr & _).
    rewrite Hiv in Hg. cbn in Hg. gd. eapply keyed_pruned; [exact H| |exact Hpr]; set_solver.
  - (* purge *)
    cbn [step] in Hg. destruct (promise o s) as [[d a0]|] eqn:Hp; [|by gd].
    destruct (purge_ok (e_dbg E) (prio E s 0) a0 (ch s) (ci_sync _ _ (i_c _ I))) as (C & c & Hiv & Hpr & HC).
    rewrite Hiv in Hg. cbn in Hg. gd. eapply keyed_pruned; [exact H| |exact Hpr].
    intros z ->%elem_of_singleton. apply HC, rtc_refl.
  - cbn [step] in Hg. gd. intros a. cbn. rewrite !lookup_empty. by intros [[? ?]|[? ?]].
  - cbn [step] in Hg. gd. intros a. cbn. rewrite !lookup_empty. by intros [[? ?]|[? ?]].
  - (* gc *)
    cbn [step] in Hg. destruct (gc_ok (e_dbg E) (prio E s) (alive s) (objs s) (ch s) (i_c _ I)) as [Hok Hno].
    destruct (decide (leafs (ch s) ⊆ dom (known (ch s)))) as [Hsub|Hsub].
    + destruct (Hok Hsub) as (D & c' & Heq' & Hp & _ & HD). rewrite Heq' in Hg. cbn in Hg. gd.
      eapply keyed_pruned; [exact H| |exact Hp]; done.
    + rewrite (Hno Hsub) in Hg. cbn in Hg. by gd.
Qed.
Lemma runs_keyed P s0 l s : Inv s0 → stack s0 = [] → keyed (ch s0) → runs E P s0 l s → keyed (ch s).
Proof.
  intros I Hst H Hr. refine (runs_inv E P (λ s, keyed (ch s)) s0 l s I Hst H _ Hr).
  intros n x s1 s2 I1 Hst1 H1 _ Hg. exact (step_keyed n x s1 s2 I1 Hst1 Hg H1).
Qed.
Lemma reach_keyed s : reachable E s → keyed (ch s).
Proof. intros [l Hr]. eapply runs_keyed; [exact Inv_init|done| |exact Hr]. intros a. cbn. rewrite !lookup_empty. by intros [[? ?]|[? ?]]. Qed.
End Foot.

(** ** Counting *)

Lemma size_le_inj {A B} `{Countable A, Countable B} (f : A → B) (X : gset A) (Y : gset B) :
  (∀ x, x ∈ X → f x ∈ Y) → (∀ x y, x ∈ X → y ∈ X → f x = f y → x = y) → size X ≤ size Y.
Proof.
  intros H1 H2. unfold size, set_size. cbn. rewrite <- (fmap_length f (elements X)).
  apply submseteq_length, NoDup_submseteq.
  - apply NoDup_fmap_2_strong; [|apply NoDup_elements]. intros x y Hx Hy. apply H2; by apply elem_of_elements.
  - intros z (x & -> & Hx)%elem_of_list_fmap. apply elem_of_elements, H1. by apply elem_of_elements.
Qed.

Lemma weigh_le (F : addr → addr → obj * obj) (m : gmap addr (gset addr)) :
  ∀ (K : gset addr) (D : gset (obj * obj)),
  (∀ a X, m !! a = Some X → a ∈ K) →
  (∀ a X y, m !! a = Some X → y ∈ X → F y a ∈ D) →
  (∀ a X y a' X' y', m !! a = Some X → y ∈ X → m !! a' = Some X' → y' ∈ X' → F y a = F y' a' → y = y' ∧ a = a') →
  weigh m ≤ size K + size D.
Proof.
  unfold weigh. apply (map_fold_ind (λ r m, ∀ (K : gset addr) (D : gset (obj * obj)),
    (∀ a X, m !! a = Some X → a ∈ K) → (∀ a X y, m !! a = Some X → y ∈ X → F y a ∈ D) →
    (∀ a X y a' X' y', m !! a = Some X → y ∈ X → m !! a' = Some X' → y' ∈ X' → F y a = F y' a' → y = y' ∧ a = a') →
    r ≤ size K + size D)); [intros; lia|].
  clear m. intros i x m r Hi IH K D HK HD Hinj.
  set (Y := list_to_set ((λ y, F y i) <$> elements x) : gset (obj * obj)).
  assert (∀ p, p ∈ Y ↔ ∃ y, p = F y i ∧ y ∈ x) as HY.
  { intros p. unfold Y. rewrite elem_of_list_to_set, elem_of_list_fmap. by setoid_rewrite elem_of_elements. }
  assert (size x ≤ size Y) as Hs.
  { apply (size_le_inj (λ y, F y i)); [intros y Hy; apply HY; eauto|].
    intros y y' Hy Hy' Heq. eapply (Hinj i x y i x y'); [by rewrite lookup_insert|done|by rewrite lookup_insert|done|done]. }
  assert (Y ⊆ D) as Hsub.
  { intros p (y & -> & Hy)%HY. eapply HD; [apply lookup_insert|done]. }
  assert (i ∈ K) as HiK by (eapply HK; apply lookup_insert).
  specialize (IH (K ∖ {[i]}) (D ∖ Y)).
  rewrite (size_difference D Y Hsub), (size_difference K {[i]}) in IH by set_solver. rewrite size_singleton in IH.
  assert (1 ≤ size K) as H1 by (rewrite <- (size_singleton (C := gset addr) i); apply subseteq_size; set_solver).
  assert (size Y ≤ size D) as H2 by (by apply subseteq_size).
  assert (r ≤ size K - 1 + (size D - size Y)); [|lia].
  apply IH.
  - intros a X Ha. assert (a ≠ i) by congruence. apply elem_of_difference. split; [|set_solver]. apply (HK a X). by rewrite lookup_insert_ne.
  - intros a X y Ha Hy. assert (a ≠ i) by congruence. apply elem_of_difference. split.
    + apply (HD a X y); [by rewrite lookup_insert_ne|done].
    + intros (y' & Heq & Hy')%HY.
      destruct (Hinj a X y i x y') as [_ ?]; [by rewrite lookup_insert_ne|done|by rewrite lookup_insert|done|done|done].
  - intros a X y a' X' y' Ha Hy Ha' Hy' Heq. assert (a ≠ i) by congruence. assert (a' ≠ i) by congruence.
    eapply Hinj; [rewrite lookup_insert_ne; [exact Ha|done]|done|rewrite lookup_insert_ne; [exact Ha'|done]|done|done].
Qed.

Lemma known_inj s a b o : Inv s → known (ch s) !! a = Some o → known (ch s) !! b = Some o → a = b.
Proof.
  intros I Ha Hb. destruct (ci_known_obj _ _ (i_c _ I) a o Ha) as [d Hd]. destruct (ci_known_obj _ _ (i_c _ I) b o Hb) as [d' Hd']. congruence.
Qed.
Lemma dep_rel_depends s a y : Inv s → dep_rel (ch s) a y →
  ∃ u w, known (ch s) !! y = Some u ∧ known (ch s) !! a = Some w ∧ depends s u w.
Proof.
  intros I Hd. destruct (ci_edge_known _ _ (i_c _ I) a y Hd) as [[w Hw] [u Hu]]. exists u, w. split; [done|]. split; [done|].
  destruct (ci_known_obj _ _ (i_c _ I) a w Hw) as [dw Hdw]. destruct (ci_known_obj _ _ (i_c _ I) y u Hu) as [du Hdu].
  unfold dep_rel in Hd. destruct (dependents (ch s) !! a) as [X|] eqn:HX; cbn in Hd; [|set_solver].
  exists du, y, dw, a, X. done.
Qed.

Lemma size_dom_known s : size (dom (known (ch s))) = size (known (ch s)).
Proof. apply size_dom. Qed.

Lemma foot_bound s D : Inv s → keyed (ch s) → all_deps s D →
  footprint s ≤ 6 * number_of_known (ch s) + 2 * size D + size (left_over s).
Proof.
  intros I Hk HD. unfold footprint, number_of_known, left_over.
  assert (size (artifacts (ch s)) ≤ size (known (ch s))) as H1.
  { rewrite <- !size_dom. apply subseteq_size. intros a Ha%elem_of_dom. apply elem_of_dom.
    by apply (ci_dyn_known _ _ (i_c _ I)), (ci_art_dyn _ _ (i_c _ I)). }
  assert (size (dyn_states (ch s)) ≤ size (known (ch s))) as H2.
  { rewrite <- !size_dom. apply subseteq_size. intros a Ha%elem_of_dom. apply elem_of_dom. by apply (ci_dyn_known _ _ (i_c _ I)). }
  assert (size (leafs (ch s)) ≤ size (known (ch s)) + size (leafs (ch s) ∖ dom (known (ch s)))) as H3.
  { rewrite <- size_dom. rewrite <- (size_union_alt (dom (known (ch s))) (leafs (ch s))). apply subseteq_size. set_solver. }
  set (ob := λ a, default 0%N (known (ch s) !! a)).
  assert (weigh (dependents (ch s)) ≤ size (known (ch s)) + size D) as H4.
  { rewrite <- (size_dom_known s). apply (weigh_le (λ y a, (ob y, ob a))).
    - intros a X Ha. apply elem_of_dom, Hk. left. eauto.
    - intros a X y Ha Hy. apply HD. destruct (dep_rel_depends s a y I) as (u & w & Hu & Hw & Hd); [unfold dep_rel; by rewrite Ha|].
      unfold ob. by rewrite Hu, Hw.
    - intros a X y a' X' y' Ha Hy Ha' Hy' [= E1 E2].
      destruct (dep_rel_depends s a y I) as (u & w & Hu & Hw & _); [unfold dep_rel; by rewrite Ha|].
      destruct (dep_rel_depends s a' y' I) as (u' & w' & Hu' & Hw' & _); [unfold dep_rel; by rewrite Ha'|].
      unfold ob in E1, E2. rewrite Hu, Hu' in E1. rewrite Hw, Hw' in E2. cbn in *. subst. split; by eapply known_inj. }
  assert (weigh (dependencies (ch s)) ≤ size (known (ch s)) + size D) as H5.
  { assert (∀ a X y, dependencies (ch s) !! a = Some X → y ∈ X → dep_rel (ch s) y a) as Hdr.
    { intros a X y Ha Hy. apply (sync_dep _ _ _ (ci_sync _ _ (i_c _ I))). by rewrite Ha. }
    rewrite <- (size_dom_known s). apply (weigh_le (λ y a, (ob a, ob y))).
    - intros a X Ha. apply elem_of_dom, Hk. right. eauto.
    - intros a X y Ha Hy. apply HD. destruct (dep_rel_depends s y a I (Hdr a X y Ha Hy)) as (u & w & Hu & Hw & Hd).
      unfold ob. by rewrite Hu, Hw.
    - intros a X y a' X' y' Ha Hy Ha' Hy' [= E1 E2].
      destruct (dep_rel_depends s y a I (Hdr a X y Ha Hy)) as (u & w & Hu & Hw & _).
      destruct (dep_rel_depends s y' a' I (Hdr a' X' y' Ha' Hy')) as (u' & w' & Hu' & Hw' & _).
      unfold ob in E1, E2. rewrite Hu, Hu' in E1. rewrite Hw, Hw' in E2. cbn in *. subst. split; by eapply known_inj. }
  lia.
Qed.
