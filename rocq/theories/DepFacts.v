(** Recorded dependencies and the doctor's view. *)
From Verif Require Export CohFacts.
From stdpp Require Import relations.

Lemma runs_trans E P s0 l s l' s' : runs E P s0 l s → runs E P s l' s' → runs E P s0 (l' ++ l) s'.
Proof.
  intros H1 H2. induction H2; cbn; [done| |]; econstructor; eauto.
Qed.

Section DepFacts.
Context (E : env).
Notation prim := (prim E).
Notation prims := (rtc prim).

Lemma step_depends n x s s' l u w :
  Inv s → stack s = [] → goes (step E n x s) s' → trace s' = l ++ trace s →
  depends s' u w ↔ (depends s u w ∧ ¬ drops E x s u ∧ ¬ drops E x s w) ∨ EResolve u w ∈ l.
Proof.
  intros I Hst Hg Hl. pose proof (step_effect E n x s s' I Hst Hg) as He.
  assert (∀ l', adds l' s s' → l = l') as Hll.
  { intros l' [Hl' _]. rewrite Hl' in Hl. by apply app_inv_tail in Hl. }
  assert (∀ (F G : obj → Prop) l', forgets s F G s' → adds l' s s' → (∀ u w, EResolve u w ∉ l') →
    (∀ w, F w ↔ drops E x s w) →
    depends s' u w ↔ (depends s u w ∧ ¬ drops E x s u ∧ ¬ drops E x s w) ∨ EResolve u w ∈ l) as Hfg.
  { intros F G l' Hf Ha Hn HF. rewrite (Hll _ Ha). rewrite (fg_depends _ _ _ _ Hf), <- !HF.
    pose proof (Hn u w). tauto. }
  destruct x as [d|o|h o|o f|h o|o f|o|o f|o|o|o| | | |o| ]; cbn [effect_of drops] in He, Hfg |- *;
    try (rewrite (prims_depends E s s' l u w I He Hl); tauto);
    try (subst s'; apply app_inv_tail_nil in Hl as ->; rewrite elem_of_nil; tauto).
  - (* get_mut *)
    destruct He as (Hlv & Hno & _).
    destruct (get_mut_more E n o f s s' I Hst Hg) as [(Ha & Hw & Hnd)|(s1 & s2 & I1 & Hst1 & Ha1 & Hs1 & Hp & Hend)].
    + rewrite (Hll _ Ha), elem_of_nil, (wr_depends _ _ _ _ Hw). pose proof (Hnd o). tauto.
    + assert (trace s2 = l ++ trace s1) as Hl2.
      { destruct Ha1 as [-> _]. destruct Hend as [->|([Ha2 _] & _)]; [done|]. cbn in Ha2. by rewrite <- Ha2. }
      assert (depends s' u w ↔ depends s2 u w) as ->.
      { destruct Hend as [->|(_ & Hw & _)]; [done|]. apply (wr_depends _ _ _ _ Hw). }
      rewrite (prims_depends E s1 s2 l u w I1 Hp Hl2). apply or_iff_compat_r.
      destruct Hs1 as [[Hd Hf]|[Hd Hf]]; rewrite (fg_depends _ _ _ _ Hf); [tauto|]. naive_solver.
  - destruct He as (_ & Hno & Ha & [[Hd Hw]|[Hd Hf]]).
    + rewrite (Hll _ Ha), elem_of_nil, (wr_depends _ _ _ _ Hw). tauto.
    + eapply Hfg; [done|done|set_solver|]. naive_solver.
  - destruct He as (_ & [->|(_ & Hs & Ha)]).
    + apply app_inv_tail_nil in Hl as ->. rewrite elem_of_nil. tauto.
    + rewrite (Hll _ Ha), elem_of_nil, (ss_depends _ _ _ _ Hs). tauto.
  - destruct He as (_ & s1 & Hf & Ha & Hs). rewrite (Hll _ Ha), (ss_depends _ _ _ _ Hs), (fg_depends _ _ _ _ Hf).
    rewrite elem_of_list_singleton. naive_solver.
  - destruct He as (_ & Hf & Ha). eapply Hfg; [done|done|set_solver|done].
  - destruct He as (_ & Hf & Ha). eapply Hfg; [done|done|set_solver|done].
  - destruct He as (Hf & Ha). eapply Hfg; [done|done|set_solver|done].
  - destruct He as (Hf & Ha). eapply Hfg; [done|done|set_solver|done].
  - (* gc *)
    destruct Hg as [[r Hd]|(k & Hp & Hk)].
    + destruct (gc_done_effect E n s r s' I Hd) as [_ Hf].
      assert (adds [] s s') as Ha.
      { cbn [step] in Hd. destruct (garbage_collection _ _ _ _); cbn in Hd; try done. by injection Hd as _ <-. }
      eapply (Hfg _ _ _ Hf Ha); [set_solver|]. intros w'. split; [|tauto]. intros H. split; [|exact H]. eauto.
    + assert (¬ ∃ m r s1, step E m OGc s = Done r s1) as Hn.
      { intros (m & r & s1 & Hm). change (step E n OGc s = Done r s1) in Hm. congruence. }
      assert (s' = tock s) as ->.
      { destruct He as [(_ & Ha)| -> ]; [|done].
        destruct (step_panic E n OGc s k s' I Hst Hp) as [[-> _]|[(_ & _ & -> & _)|[(? & ? & ? & ? & [?|?] & _) _]]]; try done.
        exfalso. destruct (gc_ok (e_dbg E) (prio E s) (alive s) (objs s) (ch s) (i_c _ I)) as [Hok Hno].
        cbn [step] in Hp. destruct (decide (leafs (ch s) ⊆ dom (known (ch s)))) as [Hsub|Hsub].
        - destruct (Hok Hsub) as (D & c' & Heq' & _). rewrite Heq' in Hp. done.
        - rewrite (Hno Hsub) in Hp. done. }
      cbn in Hl. apply app_inv_tail_nil in Hl as ->. rewrite elem_of_nil.
      change (depends (tock s) u w) with (depends s u w). tauto.
Qed.

(** ** Histories *)
Definition undropped (u w : obj) (s : st) (x : op) : Prop := ¬ drops E x s u ∧ ¬ drops E x s w.

Lemma step_new n x s s' : Inv s → stack s = [] → goes (step E n x s) s' → ∃ l, trace s' = l ++ trace s.
Proof.
  intros I Hst Hg. pose proof (step_effect E n x s s' I Hst Hg) as He.
  assert (∀ l, adds l s s' → ∃ l, trace s' = l ++ trace s) as Ha by (intros l [? _]; eauto).
  destruct x as [d|o|h o|o f|h o|o f|o|o f|o|o|o| | | |o| ]; cbn [effect_of] in He;
    try (by eapply prims_trace); try (subst; by exists []); try (by naive_solver).
  - destruct He as (_ & _ & [[? _]|(s1 & s2 & I1 & _ & [H1 _] & _ & _ & _ & Hp & Hend)]); [eauto|].
    destruct (prims_trace E s1 s2 Hp) as [l Hl]. exists l. cbn in H1.
    destruct Hend as [->|[[H2 _] _]]; [|cbn in H2; rewrite H2]; by rewrite Hl, H1.
  - destruct He as (_ & [->|(_ & _ & ?)]); [by exists []|eauto].
  - destruct He as [[_ ?]| ->]; [eauto|by exists []].
Qed.

Lemma depends_history P s u w :
  reach_by E P s →
  depends s u w ↔ ∃ s0 n x s1 l0 l, reach_by E P s0 ∧ P s0 x ∧ goes (step E n x s0) s1 ∧ trace s1 = l0 ++ trace s0 ∧
    EResolve u w ∈ l0 ∧ runs E (λ s x, P s x ∧ undropped u w s x) (unwound s1) l s.
Proof.
  intros Hr0. split.
  - destruct Hr0 as [l Hr]. induction Hr as [|l s n x r s' Hr IH HP Hs|l s n x k s' Hr IH HP Hs Hk].
    + intros (du & ua & dw & wa & X & H & _). unfold at_addr in H. cbn in H. by rewrite lookup_empty in H.
    + intros Hd. destruct (runs_Inv E P init_st l s Hr Inv_init eq_refl) as [I1 Hst1].
      assert (goes (step E n x s) s') as Hg by (left; eauto).
      destruct (step_new n x s s' I1 Hst1 Hg) as [l0 Hl0].
      assert (unwound s' = s') as Heq.
      { destruct (step_Inv E n x s r s' I1 Hst1 Hs) as [_ Hst2]. destruct s'; cbn in *; by subst. }
      apply (step_depends n x s s' l0 u w I1 Hst1 Hg Hl0) in Hd as [(Hd & Hu & Hw)|Hin].
      * destruct (IH Hd) as (s0 & m & y & s1 & l1 & l2 & H1 & H2 & H3 & H4 & H5 & H6).
        exists s0, m, y, s1, l1, ((x, Returned r) :: l2). split_and!; try done. by eapply runs_done.
      * exists s, n, x, s', l0, []. split_and!; try done; [by exists l|]. rewrite Heq. constructor.
    + intros Hd. change (depends s' u w) in Hd. destruct (runs_Inv E P init_st l s Hr Inv_init eq_refl) as [I1 Hst1].
      assert (goes (step E n x s) s') as Hg by (right; eauto).
      destruct (step_new n x s s' I1 Hst1 Hg) as [l0 Hl0].
      apply (step_depends n x s s' l0 u w I1 Hst1 Hg Hl0) in Hd as [(Hd & Hu & Hw)|Hin].
      * destruct (IH Hd) as (s0 & m & y & s1 & l1 & l2 & H1 & H2 & H3 & H4 & H5 & H6).
        exists s0, m, y, s1, l1, ((x, Panicked k) :: l2). split_and!; try done. by eapply runs_panic.
      * exists s, n, x, s', l0, []. split_and!; try done; [by exists l|]. constructor.
  - intros (s0 & n & x & s1 & l0 & l & [h Hh] & HP & Hg & Hl & Hin & Hr).
    destruct (runs_Inv E P init_st h s0 Hh Inv_init eq_refl) as [I0 Hst0].
    assert (Inv (unwound s1)) as I1 by (by eapply goes_Inv).
    refine (runs_inv E _ (λ x, depends x u w) (unwound s1) l s I1 eq_refl _ _ Hr).
    + apply (step_depends n x s0 s1 l0 u w I0 Hst0 Hg Hl). by right.
    + intros m y s2 s3 I2 Hst2 Hd [_ [Hu Hw]] Hg2. destruct (step_new m y s2 s3 I2 Hst2 Hg2) as [l1 Hl1].
      apply (step_depends m y s2 s3 l1 u w I2 Hst2 Hg2 Hl1). left. done.
Qed.

(** ** The doctor's events *)
Lemma prim_cached_exact s s' l o :
  Inv s → prim s s' → trace s' = l ++ trace s →
  cached s' o = match l with EBuilt u b :: _ => if decide (u = o) then Some b else cached s o | _ => cached s o end.
Proof.
  intros I Hp Hl.
  assert (∀ b, cached s' o = Some b → cached s o = Some b ∨ trace s' = EBuilt o b :: trace s) as Hnew.
  { intros b Hb. destruct (prim_cached_new E s s' o b I Hp Hb) as [?|[? _]]; auto. }
  assert ((∀ b, trace s' ≠ EBuilt o b :: trace s) → cached s' o = cached s o) as Hsame.
  { intros Hne. destruct (cached s o) as [b|] eqn:Hb.
    - assert (knows s o) as (d & a & Ho & Hk) by (destruct (decide (knows s o)); [done|by rewrite cached_unknown in Hb]).
      rewrite (cached_at s o d a Ho Hk) in Hb.
      assert (at_addr s' o d a) as Ho' by (by eapply prim_at).
      assert (known (ch s') !! a = Some o) as Hk' by (by eapply prim_known).
      rewrite (cached_at s' o d a Ho' Hk').
      assert (artifacts (ch s') !! a = artifacts (ch s) !! a) as ->; [|done].
      destruct Hp; try done.
      + cbn. by rewrite (proj1 (make_known_fields _ _ _)).
      + by apply alloc_Some in H as (-> & -> & _).
      + by apply drop_Some in H as (_ & _ & ->).
      + cbn. rewrite lookup_insert_ne; [done|]. intros ->.
        assert (o = u) as -> by (by eapply (stack_addr s u S d0 a o d)). by eapply Hne.
    - destruct (cached s' o) as [b|] eqn:Hb'; [|done]. exfalso. destruct (Hnew b eq_refl) as [?|?]; [done|by eapply Hne]. }
  destruct Hp; cbn in Hl, Hsame;
    try (apply app_inv_tail_nil in Hl as ->; apply Hsame; intros b Heq; apply (f_equal length) in Heq; cbn in Heq; lia);
    try (apply app_one in Hl as ->; apply Hsame; intros b Heq; by injection Heq).
  - apply alloc_Some in H as (-> & -> & _). cbn in Hl, Hsame. apply app_inv_tail_nil in Hl as ->.
    apply Hsame; intros b Heq; apply (f_equal length) in Heq; cbn in Heq; lia.
  - apply drop_Some in H as (_ & _ & ->). cbn in Hl, Hsame. apply app_inv_tail_nil in Hl as ->.
    apply Hsame; intros b Heq; apply (f_equal length) in Heq; cbn in Heq; lia.
  - apply app_one in Hl as ->. destruct (decide (u = o)) as [->|Hne].
    + eapply (prim_ok_cached E s _ o b I); [by eapply pm_ok|done].
    + apply Hsame. intros b' [= ? ?]. done.
Qed.

Definition mirrors (s : st) : Prop :=
  (∀ u w, depends s u w ↔ rdep (trace s) u w) ∧ (∀ u b, cached s u = Some b ↔ rart (trace s) u b).

Lemma prim_mirrors s s' : Inv s → prim s s' → mirrors s → mirrors s'.
Proof.
  intros I Hp [H1 H2]. destruct (prim_new E s s' Hp) as [l Hl].
  assert (l = [] ∨ ∃ e, l = [e] ∧ match e with EInvalidate _ | EClear => False | _ => True end) as Hone.
  { destruct Hp; cbn in Hl; try (left; by apply app_inv_tail_nil in Hl);
      try (right; apply app_one in Hl as ->; by eexists).
    - apply alloc_Some in H as (-> & -> & _). left; by apply app_inv_tail_nil in Hl.
    - apply drop_Some in H as (_ & _ & ->). left; by apply app_inv_tail_nil in Hl. }
  split.
  - intros u w. rewrite (prim_depends E s s' l u w I Hp Hl), Hl, H1.
    destruct Hone as [->|(e & -> & He)]; [cbn; rewrite elem_of_nil; tauto|].
    rewrite elem_of_list_singleton. destruct e; cbn; try done; try naive_solver.
  - intros u b. rewrite (prim_cached_exact s s' l u I Hp Hl), Hl.
    destruct Hone as [->|(e & -> & He)]; [apply H2|]. destruct e as [| | |u' b'| | |]; cbn; try done; try apply H2.
    destruct (decide (u' = u)) as [->|Hne]; [naive_solver|]. rewrite H2. naive_solver.
Qed.
Lemma prims_mirrors s s' : Inv s → prims s s' → mirrors s → mirrors s'.
Proof.
  intros I Hp Ha. refine (prims_ind_inv E mirrors s s' I Ha _ Hp). intros s1 s2 I1 _ _ H1 H2. exact (prim_mirrors s1 s2 I1 H2 H1).
Qed.

Lemma mirrors_affected s : mirrors s → ∀ o w, affected s o w ↔ rtc (λ x y, rdep (trace s) y x) o w.
Proof.
  intros [H _] o w. unfold affected. split; apply rtc_subrel; intros x y; apply H.
Qed.

Lemma forgets_mirrors s o s' (G : obj → Prop) :
  forgets s (affected s o) G s' → trace s' = EInvalidate o :: trace s → mirrors s → mirrors s'.
Proof.
  intros Hf Ht Hm. pose proof (mirrors_affected s Hm o) as Ha. destruct Hm as [H1 H2]. split.
  - intros u w. rewrite (fg_depends _ _ _ _ Hf), Ht, H1, !Ha. done.
  - intros u b. rewrite Ht. cbn. rewrite <- H2, <- Ha. split.
    + intros Hb. assert (¬ affected s o u) as Hn by (intros HF; rewrite (fg_gone _ _ _ _ Hf) in Hb; done).
      by rewrite (fg_kept _ _ _ _ Hf) in Hb.
    + intros [Hb Hn]. by rewrite (fg_kept _ _ _ _ Hf).
Qed.
Lemma step_mirrors n x s s' :
  Inv s → stack s = [] → doctored s x → goes (step E n x s) s' → mirrors s → mirrors s'.
Proof.
  intros I Hst Hx Hg Hm. pose proof (step_effect E n x s s' I Hst Hg) as He.
  destruct x as [d|o|h o|o f|h o|o f|o|o f|o|o|o| | | |o| ]; cbn [effect_of doctored] in He, Hx; try done;
    try (by eapply prims_mirrors); try (by subst).
  - destruct He as (_ & [->|(_ & Hs & Ha & _)]); [done|]. destruct Hm as [H1 H2]. cbn in Ha. split.
    + intros u w. by rewrite (ss_depends _ _ _ _ Hs), Ha.
    + intros u b. by rewrite (ss_cached _ _ _ _ Hs), Ha.
  - destruct He as (_ & s1 & Hf & [Ha _] & Hs). cbn in Ha.
    pose proof (mirrors_affected s Hm o) as Haf. destruct Hm as [H1 H2]. split.
    + intros u w. rewrite (ss_depends _ _ _ _ Hs), (fg_depends _ _ _ _ Hf), Ha, H1, !Haf. done.
    + intros u b. rewrite (ss_cached _ _ _ _ Hs), Ha. cbn. rewrite <- H2, <- Haf. split.
      * intros Hb. assert (¬ affected s o u) as Hn by (intros HF; rewrite (fg_gone _ _ _ _ Hf) in Hb; done).
        by rewrite (fg_kept _ _ _ _ Hf) in Hb.
      * intros [Hb Hn]. by rewrite (fg_kept _ _ _ _ Hf).
  - destruct He as (_ & Hf & [Ha _]). by eapply forgets_mirrors.
  - destruct He as (_ & Hf & [Ha _]). by eapply forgets_mirrors.
  - destruct He as (Hf & [Ha _]). cbn in Ha. split.
    + intros u w. rewrite (fg_depends _ _ _ _ Hf), Ha. cbn. tauto.
    + intros u b. rewrite (fg_gone _ _ _ _ Hf), Ha by done. cbn. split; done.
Qed.
Lemma reach_mirrors s : reach_by E doctored s → mirrors s.
Proof.
  intros [l Hr]. refine (runs_inv E doctored mirrors init_st l s Inv_init eq_refl _ _ Hr).
  { split; [intros u w; cbn; split; [|done]|intros u b; by cbn].
    intros (du & ua & dw & wa & X & H & _). unfold at_addr in H. cbn in H. by rewrite lookup_empty in H. }
  intros n x s1 s2 I1 Hst1 H1 Hx Hg. exact (step_mirrors n x s1 s2 I1 Hst1 Hx Hg H1).
Qed.
End DepFacts.
