(** What is cached is what a run of the code gave. *)
From Verif Require Export CodeFacts EvalSpec.
From stdpp Require Import relations.

Section PlayFacts.
Context (E : env) (o : obj) (V : val → Prop).
Local Notation prim := (Prims.prim E).
Local Notation prims := (rtc prim).
Local Notation mstep := (Machine.mstep E).

(** [V]: what is known about the dynamic state the run started with. *)
Definition playing (s : st) (p : prog) : Prop :=
  ∃ d a v0 v, V v0 ∧ at_addr s o d a ∧ plays (bd_body d) v0 (gots o (trace s)) p v ∧ state_of s o = Some v.

(** [o] is not re-entered. *)
Definition single (s : st) : Prop := reent s = false ∨ leaf s o.
Definition once (l : list obj) : Prop := ∀ i j, l !! i = Some o → l !! j = Some o → i = j.

Definition PK (fs : list prog) (s : st) : Prop :=
  frames fs s ∧
  (∀ i p, fs !! S i = Some p → ∃ h w k, p = PResolve h w k) ∧
  (single s → once (stack s) ∧
    (o ∈ stack s → cached s o = None) ∧
    (∀ i p, stack s !! i = Some o → fs !! i = Some p → playing s p) ∧
    (∀ b, cached s o = Some b → playing s (PRet (Ok b)))).

Lemma single_mono s s' : Inv s → prims s s' → single s' → single s.
Proof.
  intros I Hp [Hr|Hl]; [left; by eapply prims_reent|]. right. intros d a w Hat. eapply Hl. by eapply (prims_at E).
Qed.

(** States that look alike for [o]. *)
Lemma playing_ext s s' p :
  (∀ d a, at_addr s o d a → at_addr s' o d a) → gots o (trace s') = gots o (trace s) →
  (∀ v, state_of s o = Some v → state_of s' o = Some v) → playing s p → playing s' p.
Proof.
  intros H1 H2 H3 (d & a & v0 & v & HV & Hat & Hpl & Hs). exists d, a, v0, v. split_and!; eauto. by rewrite H2.
Qed.

Lemma mstep_gots fs s fs' s' :
  mstep (fs, s) (fs', s') →
  gots o (trace s') = gots o (trace s) ∨
  (stack s' = o :: stack s ∧ gots o (trace s') = []) ∨
  (∃ S h w k gs rv, stack s = o :: S ∧ fs = PResolve h w k :: gs ∧ fs' = k rv :: gs ∧ stack s' = stack s ∧
    ((∃ b, rv = conv h b) ∨ ∃ e, rv = RvErr e) ∧ gots o (trace s') = (w, rv) :: gots o (trace s)).
Proof.
  intros Hm. inversion Hm; subst; try (by left); cbn.
  - destruct (decide _) as [->|]; [|by left]. right. left. done.
  - destruct (decide _) as [->|]; [|by left]. right. right. eexists _, _, _, _, _, _. split_and!; try done.
    match goal with H : _ ∨ _ |- _ => destruct H as [(e & _ & ->)|(e & t & -> & _)]; eauto end.
  - match goal with H : alloc _ _ _ = _ |- _ => apply alloc_Some in H as (_ & -> & _) end. by left.
  - match goal with H : drop_obj _ _ = _ |- _ => apply drop_Some in H as (_ & _ & ->) end. by left.
Qed.

Lemma mstep_state fs s fs' s' v :
  Inv s → mstep (fs, s) (fs', s') → state_of s o = Some v →
  state_of s' o = Some v ∨
  (∃ S x p gs, stack s = o :: S ∧ fs = PSetState x p :: gs ∧ fs' = p :: gs ∧ state_of s' o = Some x).
Proof.
  intros I Hm Hc.
  assert (knows s o) as (d & a & Ho & Hk) by (destruct (decide (knows s o)); [done|by rewrite state_unknown in Hc]).
  pose proof (mstep_prims E _ _ _ _ Hm) as Hp.
  assert (at_addr s' o d a) as Ho' by (by eapply (prims_at E)).
  assert (known (ch s') !! a = Some o) as Hk1.
  { clear -I Hp Hk. refine (prims_ind_inv E (λ x, known (ch x) !! a = Some o) s s' I Hk _ Hp).
    intros s1 s2 I1 _ _ H H12. by eapply prim_known. }
  rewrite (state_at s o d a Ho Hk) in Hc. rewrite (state_at s' o d a Ho' Hk1).
  inversion Hm; subst; cbn in *; auto.
  - match goal with |- context [make_known ?x ?y ?z] => destruct (make_known_fields x y z) as (_ & -> & _) end. auto.
  - left. rewrite lookup_insert_ne; [auto|]. intros ->. match goal with H : dyn_states _ !! _ = None |- _ => by rewrite H in Hc end.
  - match goal with H1 : stack s = u :: S, H2 : objs s !! u = _ |- _ => pose proof (λ H, stack_addr s u S du ua o d I H1 H2 H) as Hsa end.
    destruct (decide (ua = a)) as [->|Hne].
    + right. rewrite lookup_insert. specialize (Hsa Ho Hk) as ->. by eexists _, _, _, _.
    + left. by rewrite lookup_insert_ne.
  - match goal with H : alloc _ _ _ = _ |- _ => apply alloc_Some in H as (_ & -> & _) end. auto.
  - match goal with H : drop_obj _ _ = _ |- _ => apply drop_Some in H as (_ & _ & ->) end. auto.
Qed.

Lemma set_acyclic q : ∀ x, PSetState x q ≠ q.
Proof. induction q as [r| |h w k IH|k IH|v p IH|k IH|v k IH|d k IH|w p IH]; intros x Hx; try done. injection Hx as -> Hx. by eapply IH. Qed.
Lemma playing_mstep fs s fs' s' p :
  Inv s → mstep (fs, s) (fs', s') → gots o (trace s') = gots o (trace s) →
  (∀ S x q gs, stack s = o :: S → fs = PSetState x q :: gs → fs' = q :: gs → False) → playing s p → playing s' p.
Proof.
  intros I Hm Hg Hn. apply playing_ext; [|done|].
  - intros d a. apply (prims_at E); [done|]. by eapply mstep_prims.
  - intros v Hv. destruct (mstep_state _ _ _ _ v I Hm Hv) as [?|(S & x & q & gs & ? & ? & ? & _)]; [done|].
    exfalso. by eapply Hn.
Qed.

Definition PC (fs : list prog) (s : st) : Prop :=
  once (stack s) ∧
  (o ∈ stack s → cached s o = None) ∧
  (∀ i p, stack s !! i = Some o → fs !! i = Some p → playing s p) ∧
  (∀ b, cached s o = Some b → playing s (PRet (Ok b))).

(** The top frame moves on. *)
Lemma PC_advance s s' p q gs u S :
  stack s = u :: S → stack s' = stack s → cached s' o = cached s o →
  (u = o → playing s p → playing s' q) → (u ≠ o → ∀ p', playing s p' → playing s' p') →
  PC (p :: gs) s → PC (q :: gs) s'.
Proof.
  intros Hs Hs' Hc H1 H2 (Ho & Hn & Hp & Hb). unfold PC. rewrite Hs', Hc. split_and!; [done|done| |].
  - intros [|i] p' Hi Hp'.
    + rewrite Hs in Hi. injection Hi as ->. injection Hp' as <-. apply H1; [done|]. apply (Hp 0); [by rewrite Hs|done].
    + apply H2; [|by apply (Hp (Datatypes.S i))]. intros ->. assert (0 = Datatypes.S i) by (apply Ho; [by rewrite Hs|done]). done.
  - intros b Hb'. apply H2; [|by apply Hb]. intros ->. rewrite Hn in Hb'; [done|]. rewrite Hs. left.
Qed.

Lemma once_tail u S : once (u :: S) → once S.
Proof. intros H i j Hi Hj. assert (Datatypes.S i = Datatypes.S j) by (by apply H). lia. Qed.
Lemma once_top S : once (o :: S) → o ∉ S.
Proof. intros H [i Hi]%elem_of_list_lookup. by pose proof (H 0 (Datatypes.S i) eq_refl Hi). Qed.

(** The builder on top returns. *)
Lemma PC_pop s s' p fs u S :
  stack s = u :: S → stack s' = S → (u ≠ o → cached s' o = cached s o) →
  (u = o → playing s p → ∀ b, cached s' o = Some b → playing s' (PRet (Ok b))) →
  (∀ p', playing s p' → playing s' p') →
  PC (p :: fs) s → PC fs s'.
Proof.
  intros Hs Hs' Hc H1 H2 (Ho & Hn & Hp & Hb). unfold PC. rewrite Hs'. rewrite Hs in Ho, Hn, Hp.
  assert (∀ b, cached s' o = Some b → playing s' (PRet (Ok b))) as Hcb.
  { intros b Hcb. destruct (decide (u = o)) as [->|Hne]; [|apply H2, Hb; by rewrite <- Hc].
    apply H1; [done| |done]. by apply (Hp 0). }
  split_and!; [by eapply once_tail| | |done].
  - intros Hin. rewrite Hc; [apply Hn; by right|]. intros ->. by apply once_top in Ho.
  - intros i q Hi Hq. apply H2. by apply (Hp (Datatypes.S i)).
Qed.

Lemma mstep_cached fs s fs' s' :
  Inv s → mstep (fs, s) (fs', s') →
  cached s' o = cached s o ∨
  (∃ b S, cached s' o = Some b ∧ fs = PRet (Ok b) :: fs' ∧ stack s = o :: S ∧ stack s' = S ∧ trace s' = EBuilt o b :: trace s).
Proof.
  intros I Hm.
  assert (∀ l, prim s s' → trace s' = l ++ trace s → (∀ u b l', l = EBuilt u b :: l' → u ≠ o) → cached s' o = cached s o) as Hq.
  { intros l Hp Hl Hn. rewrite (prim_cached_exact E s s' l o I Hp Hl). destruct l as [|[]]; try done.
    rewrite decide_False; [done|]. by eapply Hn. }
  inversion Hm; subst; try (by left).
  - left. apply (Hq []); [by eapply pm_know|done|done].
  - left. match goal with H : alloc _ _ _ = _ |- _ => pose proof H as H'; apply alloc_Some in H' as (_ & Hs & _) end. apply (Hq []); [by eapply pm_alloc|by rewrite Hs|done].
  - left. match goal with H : drop_obj _ _ = _ |- _ => pose proof H as H'; apply drop_Some in H' as (_ & _ & Hs) end. apply (Hq []); [by eapply pm_drop|by rewrite Hs|done].
  - destruct (decide (u = o)) as [->|Hne].
    + right. exists b, S. split_and!; try done.
      set (s1 := set_stack _ _).
      rewrite (prim_cached_exact E s s1 [EBuilt o b] o I); [|by eapply pm_ok|done]. by rewrite decide_True.
    + left. apply (Hq [EBuilt u b]); [by eapply pm_ok|done|]. by intros ? ? ? [= <- _].
Qed.

Lemma single_not_in s fs w :
  frames fs s → (∀ i p, fs !! S i = Some p → ∃ h w k, p = PResolve h w k) → callable w fs →
  leaf s o → o ∈ stack s → False.
Proof.
  intros HF Hr Hc Hl [i Hi]%elem_of_list_lookup.
  destruct (Forall2_lookup_l _ _ _ _ _ HF Hi) as (p & Hp & d & a & Hat & Hd).
  assert (∃ h w k, p = PResolve h w k) as (h & w' & k & ->).
  { destruct i as [|i]; [|by eapply Hr]. destruct fs as [|q fs]; [done|]. injection Hp as <-.
    destruct Hc as (h & k & ->). eauto. }
  eapply (Hl d a w' Hat). by exists h, k.
Qed.

Lemma PK_step fs s fs' s' :
  Inv s → Inv s' → (∀ v, o ∉ stack s → state_of s o = Some v → V v) → mstep (fs, s) (fs', s') → PK fs s → PK fs' s'.
Proof.
  intros I I' HV Hm (HF & Hr & HC).
  split; [exact (frames_step E fs s fs' s' I Hm HF)|]. split.
  { clear HC. inversion Hm; subst; try exact Hr; try (intros i p Hp; apply (Hr i); exact Hp);
      try (intros i p Hp; apply (Hr (Datatypes.S i)); exact Hp).
    intros [|i] p Hp; cbn in Hp; [|by apply (Hr i)].
    destruct fs as [|q fs]; [done|]. injection Hp as ->.
    match goal with H : callable _ _ |- _ => destruct H as (h & k & ->) end. eauto. }
  intros Hsg'. pose proof (mstep_prims E _ _ _ _ Hm) as Hps.
  pose proof (single_mono s s' I Hps Hsg') as Hsg. specialize (HC Hsg). change (PC fs s) in HC. change (PC fs' s').
  pose proof (mstep_cached fs s fs' s' I Hm) as Hca.
  pose proof (playing_mstep fs s fs' s') as Hpl.
  assert (gots o (trace s') = gots o (trace s) → stack s' = stack s → fs' = fs → cached s' o = cached s o → PC fs' s') as Hquiet.
  { intros Hg Hs -> Hc. destruct HC as (H1 & H2 & H3 & H4). unfold PC. rewrite Hs, Hc.
    split_and!; [done|done| |]; intros; (apply Hpl; [done|done|done| |eauto]); intros ? ? ? ? _ -> [= Hx]; by apply set_acyclic in Hx. }
  assert (∀ p q gs, fs = p :: gs → fs' = q :: gs → stack s' = stack s →
    (∀ x r, p ≠ PSetState x r) → (∀ r, p ≠ PRet r) → gots o (trace s') = gots o (trace s) →
    (∀ p0 v0 l v, plays p0 v0 l p v → state_of s o = Some v → (∃ S, stack s = o :: S) → plays p0 v0 l q v) → PC fs' s') as Hadv.
  { intros p q gs -> -> Hs Hn1 Hn2 Hg Hq.
    assert (length (stack s) = S (length gs)) as Hlen by (by apply Forall2_length in HF).
    destruct (stack s) as [|u S] eqn:Hst; [done|].
    assert (∀ p', playing s p' → playing s' p') as Hpl'.
    { intros p'. apply Hpl; [done|done|done|]. intros S' x r gs' _ [= -> _] _. by eapply Hn1. }
    eapply (PC_advance s s' p q gs u S Hst); [congruence| | |by intros _|done].
    - destruct Hca as [|(b & ? & _ & [= -> _] & _)]; [done|]. by edestruct Hn2.
    - intros -> (d & a & v0 & v & HV0 & Hat & Hp & Hv). apply Hpl'. exists d, a, v0, v. split_and!; [done|done| |done].
      apply Hq; [done|done|eauto]. }
  assert (∀ b T, fs = PRet (Ok b) :: fs' → stack s = o :: T → stack s' = T → stack s' = stack s → False) as Hnpop.
  { intros b T _ H1 H2 H3. rewrite H1, H2 in H3. apply (f_equal length) in H3. cbn in H3. lia. }
  inversion Hm; subst.
  - apply Hquiet; try done. destruct Hca as [|(b & T & _ & ? & ? & ? & _)]; [done|by edestruct Hnpop].
  - apply Hquiet; try done. 
  - (* push *) clear Hquiet Hadv Hnpop.
    match goal with H : promise _ _ = _ |- _ => pose proof H as Hpr; apply promise_Some in H as [_ Ho0] end.
    destruct HC as (C1 & C2 & C3 & C4). destruct Hca as [Hca|(? & T & _ & ? & HT & HT' & _)];
      [|cbn in HT'; rewrite HT in HT'; apply (f_equal length) in HT'; cbn in HT'; lia].
    set (s1 := log _ _) in *.
    destruct (decide (o0 = o)) as [->|Hne].
    + assert (o ∉ stack s) as Hni.
      { intros Hin. destruct Hsg' as [Hx|Hx].
        - cbn in Hx. apply orb_false_iff in Hx as [_ Hx]. by apply bool_decide_eq_false in Hx.
        - by eapply (single_not_in s fs o). }
      assert (cached s o = None) as Hnone.
      { rewrite (live_cached s o d a I Hpr). match goal with H : artifacts _ !! _ = None |- _ => by rewrite H end. }
      unfold PC. rewrite Hca. split_and!.
      * intros [|i] [|j] Hi Hj; cbn in Hi, Hj; [done| | |]; try (by apply elem_of_list_lookup_2 in Hi); by apply elem_of_list_lookup_2 in Hj.
      * done.
      * intros [|i] p Hi Hp; cbn in Hi, Hp; [|by apply elem_of_list_lookup_2 in Hi]. injection Hp as <-.
        match goal with H : is_Some (dyn_states _ !! _) |- _ => destruct H as [v Hv] end.
        assert (state_of s o = Some (ds_val v)) as Hsv by (by rewrite (live_state s o d a I Hpr), Hv).
        exists d, a, (ds_val v), (ds_val v). split; [by apply HV|]. split; [done|]. cbn. rewrite decide_True by done. split; [constructor|].
        exact Hsv.
      * intros b Hb. congruence.
    + assert (∀ p, playing s p → playing s1 p) as Hpl'.
      { intros p. apply Hpl; [done|done|cbn; by rewrite decide_False|].
        intros ? ? ? ? _ -> [= Hx _]. match goal with H : callable _ _ |- _ => by destruct H as (? & ? & ?) end. }
      unfold PC. rewrite Hca. split_and!.
      * intros [|i] [|j] Hi Hj; cbn in Hi, Hj; try done; [congruence..|]. f_equal. by apply C1.
      * intros [->|Hin]%elem_of_cons; [done|auto].
      * intros [|i] p Hi Hp; cbn in Hi, Hp; [congruence|]. eauto.
      * eauto.
  - apply Hquiet; try done.
  - (* got *) match goal with H : stack s = _ |- _ => pose proof H as Hst end.
    eapply (PC_advance s _ _ _ fs0 u S Hst); [done|done| | |exact HC].
    + intros -> (d' & a' & v0 & v & HV0 & Hat & Hp & Hv). exists d', a', v0, v. split; [done|]. split; [done|]. split; [|done].
      cbn. rewrite decide_True by done.
      match goal with H : _ ∨ _ |- _ => destruct H as [(e & _ & ->)|(e & t & -> & _)] end; by econstructor.
    + intros Hne p. apply Hpl; [done|done|cbn; by rewrite decide_False|done].
  - (* state *) match goal with H : stack s' = _ |- _ => pose proof H as Hst end.
    eapply Hadv; [done|done|done|done|done|done|]. intros p0 v0 l v' Hp Hv [T HT].
    assert (u = o) as -> by congruence.
    destruct (i_stack _ I o) as (_ & d1 & a1 & Hu1 & Hk1 & _); [rewrite Hst; left|].
    rewrite (state_at s' o d1 a1 Hu1 Hk1) in Hv. assert (a1 = ua) as -> by congruence.
    match goal with H : dyn_states _ !! _ = Some _ |- _ => rewrite H in Hv end. injection Hv as <-. by constructor.
  - (* set *) match goal with H : stack s = _ |- _ => pose proof H as Hst end.
    eapply (PC_advance s _ _ _ fs0 u S Hst); [done|done| | |exact HC].
    + intros -> (d' & a' & v0 & v' & HV0 & Hat & Hp & Hv). exists d', a', v0, v. split; [done|]. split; [done|]. split; [by econstructor|].
      destruct (i_stack _ I o) as (_ & d1 & a1 & Hu1 & Hk1 & _); [rewrite Hst; left|].
      assert (a1 = ua) as -> by congruence.
      rewrite (state_at _ o d1 ua); [|done|done]. cbn. by rewrite lookup_insert.
    + intros Hne p'. apply Hpl; [done|done|done|]. intros. congruence.
  - eapply Hadv; try done. intros p0 v0 l v Hp _ _. by constructor.
  - eapply Hadv; try done. intros p0 v0 l v' Hp _ _. by constructor.
  - match goal with H : alloc _ _ _ = _ |- _ => apply alloc_Some in H as (_ & Hs' & _) end.
    eapply Hadv; try done; [by rewrite Hs'..|]. intros p0 v0 l v' Hp _ _. by econstructor.
  - match goal with H : drop_obj _ _ = _ |- _ => apply drop_Some in H as (_ & _ & Hs') end.
    eapply Hadv; try done; [by rewrite Hs'..|]. intros p0 v0 l v' Hp _ _. by econstructor.
  - (* ok *) match goal with H : stack s = _ |- _ => pose proof H as Hst end.
    assert (∀ p', playing s p' → playing (set_stack S (log (EBuilt u b) (set_ch (set_artifacts <[ua:=Art (bd_aty d) b]> (ch s)) s))) p') as Hpl'.
    { intros p'. by apply Hpl. }
    eapply (PC_pop s _ _ fs' u S Hst); [done| | |exact Hpl'|exact HC].
    + intros Hne. destruct Hca as [?|(? & ? & _ & _ & ? & _)]; [done|]. congruence.
    + intros -> Hp b' Hb'. destruct Hca as [Hca|(b1 & ? & Hc1 & [= <-] & _)].
      * exfalso. destruct HC as (_ & C2 & _). rewrite C2 in Hca by (rewrite Hst; left). congruence.
      * assert (b' = b) as -> by congruence. by apply Hpl'.
  - (* fail *) match goal with H : stack s = _ |- _ => pose proof H as Hst end.
    assert (∀ p', playing s p' → playing (set_stack S (log (EFailed u e) s)) p') as Hpl'.
    { intros p'. by apply Hpl. }
    eapply (PC_pop s _ _ fs' u S Hst); [done|done| |exact Hpl'|exact HC].
    intros -> Hp b' Hb'. exfalso. destruct HC as (_ & C2 & _). rewrite (C2 ltac:(rewrite Hst; left)) in Hca.
    destruct Hca as [Hca|(? & ? & _ & ? & _)]; [|done]. congruence.
Qed.

Lemma fg_back s F G s' b : forgets s F G s' → cached s' o = Some b → cached s o = Some b.
Proof.
  intros Hf Hb. destruct (cached s o) as [b'|] eqn:Hc.
  - destruct (decide (b' = b)) as [->|Hne]; [done|]. exfalso.
    assert (¬ F o) as Hn by (intros HF; rewrite (fg_gone _ _ _ _ Hf o HF) in Hb; done).
    rewrite (fg_kept _ _ _ _ Hf o Hn) in Hb. congruence.
  - exfalso. assert (¬ F o) as Hn by (intros HF; rewrite (fg_gone _ _ _ _ Hf o HF) in Hb; done).
    rewrite (fg_kept _ _ _ _ Hf o Hn) in Hb. congruence.
Qed.

Lemma runless_gots n x s s' :
  Inv s → stack s = [] → runless x → goes (step E n x s) s' →
  gots o (trace s') = gots o (trace s) ∧ ∀ w, calls s' w = calls s w.
Proof.
  intros I Hst Hr Hg. destruct (runless_trace E n x s s' I Hst Hr Hg) as (l & Ht & Hl). unfold calls, count. rewrite Ht. clear -Hl.
  induction l as [|e l IH]; [done|].
  destruct IH as [IH1 IH2]; [intros; apply Hl; by right|].
  destruct (Hl e ltac:(left)) as [->|[w ->]]; cbn; (split; [done|]); intros; rewrite <- IH2; done.
Qed.

Lemma runless_cached n x s s' b :
  Inv s → stack s = [] → runless x → unmutated o s x → goes (step E n x s) s' → cached s' o = Some b →
  cached s o = Some b ∧ state_of s' o = state_of s o.
Proof.
  intros I Hst Hr Hu Hg Hb. destruct (runless_gots n x s s' I Hst Hr Hg) as [_ Hcalls].
  destruct (cached_step E n x o s s' b I Hst Hg (Hcalls o) Hb) as (b1 & Hb1 & _ & _ & Hs). split; [|done].
  pose proof (step_effect E n x s s' I Hst Hg) as He.
  assert (o ∉ stack s) as Hns by (rewrite Hst; set_solver).
  destruct x as [d|w|h w|w f|h w|w f|w|w f|w|w|w| | | |w| ]; cbn [effect_of runless unmutated] in *; try done; try (by subst);
    try (by rewrite <- (prims_cached_back E s s' o I He Hns (Hcalls o)));
    try (eapply fg_back; [|exact Hb]; apply He).
  - destruct He as (_ & _ & _ & [[_ Hw]|[_ Hf]]); [|by eapply fg_back]. by rewrite <- (wr_others _ _ _ _ Hw).
  - destruct He as (_ & [->|(_ & Hw & _)]); [done|]. by rewrite <- (ss_cached _ _ _ _ Hw).
  - destruct He as (_ & s1 & Hf & _ & Hw). eapply fg_back; [exact Hf|]. by rewrite <- (ss_cached _ _ _ _ Hw).
  - destruct He as [[Hf _]| ->]; [by eapply fg_back|done].
Qed.

Lemma reach_playing s b :
  (∀ v, V v) → reach_by E (unmutated o) s → single s → cached s o = Some b → playing s (PRet (Ok b)).
Proof.
  intros HV [l Hr] Hsg Hb.
  assert (∀ s s', objs s' = objs s → reent s' = reent s → single s' → single s) as Hsg_ext.
  { intros s1 s2 Ho Hre [H|H]; [left; congruence|]. right. intros d a w Hat. eapply H. unfold at_addr in *. by rewrite Ho. }
  assert (∀ s s', objs s' = objs s → adds [] s s' → stack s' = [] →
    (∀ b, cached s' o = Some b → cached s o = Some b ∧ state_of s' o = state_of s o) → PK [] s → PK [] s') as Hext.
  { intros s1 s2 Ho [Ht Hre] Hst Hc (_ & _ & HC). split; [unfold frames; by rewrite Hst|]. split; [done|].
    intros Hsg2. specialize (HC (Hsg_ext _ _ Ho Hre Hsg2)). destruct HC as (_ & _ & _ & C4). rewrite Hst.
    split_and!; [by intros ? ? ?|by intros ?%elem_of_nil|done|].
    intros b' Hb'. destruct (Hc b' Hb') as [H1 H2]. eapply playing_ext; [| | |by apply C4].
    - unfold at_addr. by rewrite Ho.
    - by rewrite Ht.
    - intros v. by rewrite H2. }
  assert (PK [] s) as (_ & _ & HC); [|by apply HC].
  refine (mach_reach E (unmutated o) PK init_st l s Inv_init eq_refl _ _ _ _ _ _ Hr).
  - split; [constructor|]. split; [done|]. intros _. split_and!; done.
  - intros fs s1 fs' s2 I1 I2 Hm. apply (PK_step fs s1 fs' s2 I1 I2); [|exact Hm]. auto.
  - intros fs s1 (_ & _ & HC) _. split; [constructor|]. split; [done|]. intros Hsg1. destruct (HC Hsg1) as (_ & _ & _ & C4).
    split_and!; [by intros ? ? ?|by intros ?%elem_of_nil|done|]. intros b' Hb'. eapply playing_ext; [| | |by apply C4]; done.
  - intros n x s1 s2 I1 Hst1 HP Hx Hg (_ & _ & HC). split; [constructor|]. split; [done|]. intros Hsg2.
    assert (∀ y, objs s1 !! o = Some y → objs s2 !! o = Some y) as Ho by (intros y; by eapply (objs_mono E n x)).
    assert (single s1) as Hsg1.
    { destruct Hsg2 as [H|H]; [left|right; intros d a w Hat; apply (H d a w); by apply Ho].
      cbn in H. clear -I1 Hst1 Hx Hg H. pose proof (step_effect E n x s1 s2 I1 Hst1 Hg) as He.
      destruct x as [d|w|h w|w f|h w|w f|w|w f|w|w|w| | | |w| ]; cbn [effect_of runless unmutated] in *; try done; try (by subst);
        try (by apply (prims_reent E s1 s2));
        try (destruct He as (_ & _ & [_ Hre]); congruence); try (destruct He as (_ & [_ Hre]); congruence).
      - destruct He as (_ & _ & [_ Hre] & _). congruence.
      - destruct He as (_ & [->|(_ & _ & [_ Hre])]); congruence.
      - destruct He as (_ & ? & _ & [_ Hre] & _). congruence.
      - destruct He as [[_ [_ Hre]]| ->]; [congruence|done]. }
    destruct (HC Hsg1) as (_ & _ & _ & C4).
    split_and!; [by intros ? ? ?|by intros ?%elem_of_nil|done|]. intros b' Hb'.
    destruct (runless_cached n x s1 s2 b' I1 Hst1 Hx HP Hg Hb') as [H1 H2].
    eapply playing_ext; [| | |by apply C4].
    + intros d a. apply Ho.
    + apply (runless_gots n x s1 s2 I1 Hst1 Hx Hg).
    + intros v. intros Hv. change (state_of s2 o = Some v). by rewrite H2.
  - intros s1 w f s2 I1 I2 Hst1 Hst2 Ha Hsf HP. apply Hext; [|done|done|].
    + destruct Hsf as [Hf|Hf]; apply (fg_objs _ _ _ _ Hf).
    + intros b' Hb'. destruct Hsf as [Hf|Hf]; (split; [by eapply fg_back|]); apply (fg_state_kept _ _ _ _ Hf); tauto.
  - intros s0 s1 w f s2 I1 Hst1 Hst2 HP Ha Hw. apply Hext; [apply (wr_objs _ _ _ _ Hw)|done|done|].
    intros b' Hb'. cbn in HP. rewrite (wr_others _ _ _ _ Hw) in Hb' by done. split; [done|apply (wr_state _ _ _ _ Hw)].
Qed.

Definition gots_dep (s : st) : Prop := ∀ w rv, (w, rv) ∈ gots o (trace s) → depends s o w.
Lemma mstep_gots_dep fs s fs' s' : Inv s → mstep (fs, s) (fs', s') → gots_dep s → gots_dep s'.
Proof.
  intros I Hm Hd. pose proof (mstep_prims E _ _ _ _ Hm) as Hp.
  assert (∀ w, depends s o w → depends s' o w) as Hmono.
  { intros w Hw. destruct (prims_trace E s s' Hp) as [l Hl]. apply (prims_depends E s s' l o w I Hp Hl). auto. }
  destruct (mstep_gots fs s fs' s' Hm) as [Hg|[[_ Hg]|(S & h & w & k & gs & rv & Hst & -> & -> & Hst' & Hrv & Hg)]];
    intros w' rv'; rewrite Hg.
  - intros Hin. by eapply Hmono, Hd.
  - by intros ?%elem_of_nil.
  - intros [[= -> ->]|Hin]%elem_of_cons; [|by eapply Hmono, Hd]. clear Hmono Hp Hd Hst'.
    inversion Hm; subst; try (exfalso; cbn in Hg; apply (f_equal length) in Hg; cbn in Hg; lia).
    + exfalso. match goal with H : _ :: gs = gs |- _ => apply (f_equal length) in H; cbn in H; lia end.
    + assert (u = o) as -> by congruence.
      match goal with H : ∃ _ _ _, _ |- _ => destruct H as (du & ua & X & Hu & HX & Hin) end.
      match goal with H : promise _ _ = _ |- _ => pose proof H as Hpr; apply promise_Some in H as [_ Hw] end.
      match goal with H : is_Some (known _ !! _) |- _ => destruct H as [w' Hkw] end.
      assert (w' = w) as -> by (exact (Inv_known_is s w d wa w' I Hpr Hkw)).
      destruct (i_stack _ I o) as (_ & d1 & a1 & Hu1 & Hk1 & _); [rewrite Hst; left|].
      assert (a1 = ua) as -> by congruence. by exists du, ua, d, wa, X.
Qed.

(** A call of [get] that runs the builder [o]. *)
Definition bottom (fs : list prog) (s : st) : Prop :=
  PK fs s ∧ gots_dep s ∧ length fs = length (stack s) ∧ (fs ≠ [] → ∃ T, stack s = T ++ [o]).
Lemma bottom_step fs s fs' s' :
  Inv s → Inv s' → 1 ≤ length fs → mstep (fs, s) (fs', s') → bottom fs s → bottom fs' s'.
Proof.
  intros I I' Hl Hm (HK & HD & Hlen & Hb).
  assert (fs ≠ []) as Hne by (by destruct fs; cbn in Hl; [lia|]). destruct (Hb Hne) as [T HT].
  split.
  { apply (PK_step fs s fs' s' I I'); [|done|done]. intros v Hn. exfalso. apply Hn. rewrite HT. set_solver. }
  split. { exact (mstep_gots_dep fs s fs' s' I Hm HD). }
  split. { symmetry. apply (msteps_length E (fs, s) (fs', s')); [by apply rtc_once|done]. }
  intros Hne'. clear HK Hb Hne Hl.
  inversion Hm; subst; try (by exists T); try (exists T; exact HT).
  - exists (o0 :: T). cbn. by rewrite HT.
  - match goal with H : alloc _ _ _ = _ |- _ => apply alloc_Some in H as (_ & -> & _) end. by exists T.
  - match goal with H : drop_obj _ _ = _ |- _ => apply drop_Some in H as (_ & _ & ->) end. by exists T.
  - match goal with H : stack s = _ :: _ |- _ => rewrite H in HT, Hlen end. destruct T as [|x T]; injection HT as -> ->; [|by exists T].
    cbn in Hlen. by destruct fs'.
  - match goal with H : stack s = _ :: _ |- _ => rewrite H in HT, Hlen end. destruct T as [|x T]; injection HT as -> ->; [|by exists T].
    cbn in Hlen. by destruct fs'.
Qed.
End PlayFacts.

Section GetPlay.
Context (E : env).
Local Notation prim := (Prims.prim E).
Local Notation prims := (rtc prim).

Lemma build_plays fuel o s d a :
  Inv s → stack s = [] → promise o s = Some (d, a) → cached s o = None →
  match build E fuel o s with
  | Done r s' => single o s' → ∃ v0 v l, config s o = Some v0 ∧ plays (bd_body d) v0 l (PRet (match r with BOk e => Ok (ar_bin e) | BErr e => Err e end)) v ∧
      (∀ w rv, (w, rv) ∈ l → EGot o w rv ∈ trace s' ∧ depends s' o w) ∧ gots o (trace s') = l ∧ state_of s' o = Some v ∧
      cached s' o = match r with BOk e => Some (ar_bin e) | BErr e => None end
  | Panic PkUser s' => config s o = None ∨ (single o s' → ∃ v0 v l p, config s o = Some v0 ∧ plays (bd_body d) v0 l p v ∧
      gots o (trace s') = l ∧ (p = PPanic ∨ ∃ h w k, p = PResolve h w k))
  | _ => True
  end.
Proof.
  intros I Hst Hp Hc.
  assert (artifacts (ch s) !! a = None) as Hna.
  { rewrite (live_cached s o d a I Hp) in Hc. by destruct (artifacts (ch s) !! a). }
  destruct fuel as [|fuel]; [done|]. cbn [build]. rewrite Hp. destruct d as [aty sty init body].
  destruct (e_dbg E && _); [done|].
  destruct (ensure_dyn_state a o sty init (make_known a o (ch s))) as [c2 r] eqn:He.
  destruct (ensure_prims E o s (BDef aty sty init body) a c2 r Hp He) as (P1 & Pa & Pk & Pd).
  apply promise_Some in Hp as Hp'. destruct Hp' as [Hal Ho].
  assert (config s o = match r with inl PkUser => None | inr v => Some v | _ => config s o end) as Hstart.
  { unfold config. rewrite (live_state s o _ a I Hp). unfold initial. rewrite Ho. cbn.
    unfold ensure_dyn_state in He. rewrite make_known_idem in He.
    destruct (make_known_fields a o (ch s)) as (_ & Hs & _). rewrite Hs in He.
    destruct (dyn_states (ch s) !! a) as [x|]; [|destruct init; by injection He as <- <-].
    destruct (_ =? _)%N; by injection He as <- <-. }
  destruct r as [k|v]; [destruct k; try done; by left|].
  set (s1 := log _ _).
  assert (rtc (mstepk E 0) ([], s) ([body], s1)) as M01.
  { eapply rtc_r; [exact (ensure_ms E o s _ a c2 _ [] Hp He)|]. split; [|done].
    apply (ms_push E [] (set_ch c2 s) o (BDef aty sty init body) a); try done. cbn. congruence. }
  pose proof (mstepsk_msteps E _ _ _ M01) as M01'.
  assert (Inv s1) as I1 by (eapply prims_Inv; [exact (msteps_prims E _ _ M01')|done]).
  assert (state_of s1 o = Some v) as Hv1.
  { assert (promise o s1 = Some (BDef aty sty init body, a)) as Hp1 by (apply promise_Some; done).
    rewrite (live_state s1 o _ a I1 Hp1). cbn.
    unfold ensure_dyn_state in He. rewrite make_known_idem in He.
    destruct (dyn_states (make_known a o (ch s)) !! a) as [x|] eqn:Hx.
    - destruct (_ =? _)%N; [|done]. injection He as <- <-. by rewrite Hx.
    - destruct init; [|done]. injection He as <- <-. cbn. by rewrite lookup_insert. }
  assert (cached s1 o = None) as Hc1.
  { assert (promise o s1 = Some (BDef aty sty init body, a)) as Hp1 by (apply promise_Some; done).
    rewrite (live_cached s1 o _ a I1 Hp1). cbn. rewrite Pa. by rewrite Hna. }
  assert (gots o (trace s1) = []) as Hg1 by (cbn; by rewrite decide_True).
  set (V := eq v).
  assert (bottom o V [body] s1) as HB.
  { split; [split_and!|split; [|split]].
    - unfold frames. cbn. rewrite Hst. constructor; [|constructor]. exists (BDef aty sty init body), a. split; [done|]. constructor.
    - done.
    - intros _. cbn. rewrite Hst. split_and!; [..|congruence].
      + intros [|i] [|j]; done.
      + done.
      + intros [|i] p; [|done]. intros _ [= <-]. exists (BDef aty sty init body), a, v, v. split_and!; [done|done| |done].
        rewrite Hg1. constructor.
    - intros w rv. rewrite Hg1. by intros ?%elem_of_nil.
    - cbn. by rewrite Hst.
    - intros _. exists []. cbn. by rewrite Hst. }
  destruct (exec_ms E (build E fuel) o (BDef aty sty init body) a [] [] (build_bld_ok E fuel) (build_ms E fuel) body s1) as [X1 X2]; [exact (i_wf _ I1)|cbn; by rewrite Hst|done|].
  destruct (exec_prims E (build E fuel) o (BDef aty sty init body) a [] (build_bld_ok E fuel) body s1) as [_ Y2]; [exact (i_wf _ I1)|cbn; by rewrite Hst|done|].
  cbn [bd_sty] in X1, X2, Y2.
  assert (∀ fs s', rtc (mstepk E 1) ([body], s1) (fs, s') → bottom o V fs s') as Hrun.
  { intros fs s' M. refine (mstepsk_ind_inv E 1 (bottom o V) [body] s1 fs s' I1 _ M HB).
    intros f1 t1 f2 t2 It1 It2 Hl Hm. by apply (bottom_step E). }
  cbn [bd_body].
  destruct (exec E (build E fuel) o a sty body s1) as [r s2|k s2| |] eqn:Hx; try done.
  - pose proof (X1 _ _ eq_refl) as M12. pose proof (Hrun _ _ M12) as ((HF & _ & HC) & HD & _ & _).
    pose proof (Y2 _ _ eq_refl) as Hst2.
    assert (single o s2 → ∃ v0 v' l, config s o = Some v0 ∧ plays body v0 l (PRet r) v' ∧ gots o (trace s2) = l ∧ state_of s2 o = Some v' ∧ cached s2 o = None) as Hfin.
    { intros Hsg. destruct (HC Hsg) as (_ & C2 & C3 & _).
      destruct (C3 0 (PRet r)) as (d' & a' & v0 & v' & HV & Hat & Hpl & Hs'); [by rewrite Hst2; cbn|done|].
      unfold V in HV. subst v0. exists v, v', (gots o (trace s2)). split_and!; [done| |done|done|apply C2; rewrite Hst2; left].
      assert (at_addr s2 o (BDef aty sty init body) a) as Hat2.
      { eapply (prims_at E s1 s2); [done|exact (msteps_prims E _ _ (mstepsk_msteps E _ _ _ M12))|done]. }
      unfold at_addr in *. assert (d' = BDef aty sty init body) as -> by congruence. done. }
    assert (∀ t, objs t = objs s2 → known (ch t) = known (ch s2) → dependents (ch t) = dependents (ch s2) → ∀ w, depends s2 o w → depends t o w) as Hdt.
    { intros t H1 H2 H3 w (du & ua & dw & wa & X & Hd). exists du, ua, dw, wa, X. unfold at_addr in *. by rewrite H1, H2, H3. }
    assert (∀ l w rv, (w, rv) ∈ gots o l → EGot o w rv ∈ l) as Hgl.
    { clear. intros l w rv. induction l as [|e l IH]; cbn; [set_solver|].
      destruct e; try (intros H; right; by apply IH).
      - destruct (decide _); [set_solver|]. intros H; right; by apply IH.
      - destruct (decide _) as [->|]; [|intros H; right; by apply IH]. intros [[= <- <-]|H]%elem_of_cons; [left|right; by apply IH]. }
    assert (Inv s2) as I2 by (eapply prims_Inv; [exact (msteps_prims E _ _ (mstepsk_msteps E _ _ _ M12))|done]).
    destruct r as [b|e].
    + cbn [artifacts set_artifacts]. rewrite lookup_insert. intros Hsg.
      destruct (Hfin Hsg) as (v0 & v' & l & H1 & H2 & H3 & H4 & H5). exists v0, v', l. split_and!; try done.
      * intros w rv Hin. rewrite <- H3 in Hin. split; [right; by apply Hgl|]. by eapply (Hdt _ eq_refl eq_refl eq_refl), HD.
      * set (s3 := set_stack _ _). cbn [ar_bin].
        assert (at_addr s2 o (BDef aty sty init body) a) as Hat2.
        { eapply (prims_at E s1 s2); [done|exact (msteps_prims E _ _ (mstepsk_msteps E _ _ _ M12))|done]. }
        rewrite (prim_cached_exact E s2 s3 [EBuilt o b] o I2); [by rewrite decide_True| |done].
        unfold s3. rewrite Hst. apply (pm_ok E s2 o (BDef aty sty init body) a [] b); [rewrite Hst2; cbn; by rewrite Hst|exact Hat2].
    + intros Hsg. destruct (Hfin Hsg) as (v0 & v' & l & H1 & H2 & H3 & H4 & H5). exists v0, v', l. split_and!; try done.
      intros w rv Hin. rewrite <- H3 in Hin. split; [right; by apply Hgl|]. by eapply (Hdt _ eq_refl eq_refl eq_refl), HD.
  - destruct k; try done. right. intros Hsg. destruct (X2 _ eq_refl) as (fs' & M12 & Hstk & Hln). cbn in Hln.
    destruct (Hrun _ _ M12) as ((HF & Hres & HC) & HD & Hlen & Hbot).
    destruct Hbot as [T HT]; [by destruct fs'; cbn in Hln; [lia|]|].
    destruct (HC Hsg) as (_ & _ & C3 & _).
    assert (stack s2 !! length T = Some o) as Hi by (rewrite HT; by apply list_lookup_middle).
    destruct (lookup_lt_is_Some_2 fs' (length T)) as [p Hpf]; [rewrite Hlen, HT, app_length; cbn; lia|].
    destruct (C3 _ p Hi Hpf) as (d' & a' & v0 & v' & HV & Hat & Hpl & _). unfold V in HV. subst v0.
    assert (at_addr s2 o (BDef aty sty init body) a) as Hat2.
    { eapply (prims_at E s1 s2); [done|exact (msteps_prims E _ _ (mstepsk_msteps E _ _ _ M12))|done]. }
    unfold at_addr in *. assert (d' = BDef aty sty init body) as -> by congruence.
    exists v, v', (gots o (trace s2)), p. split_and!; [done|done|done|].
    destruct T as [|x T]; cbn in Hpf.
    + destruct fs' as [|q fs']; [done|]. injection Hpf as ->. exact Hstk.
    + right. by apply (Hres (length T)).
Qed.

Lemma get_plays n h o s r s' :
  Inv s → stack s = [] → cached s o = None → step E n (OGet h o) s = Done (OutRes r) s' → single o s' →
  ∃ d a v0 v l res, at_addr s o d a ∧ config s o = Some v0 ∧ plays (bd_body d) v0 l (PRet res) v ∧
    r = match res with Ok b => conv h b | Err e => RvErr e end ∧
    cached s' o = match res with Ok b => Some b | Err e => None end ∧ state_of s' o = Some v ∧ l = gots o (trace s') ∧
    ∀ w rv, (w, rv) ∈ l → EGot o w rv ∈ trace s' ∧ depends s' o w.
Proof.
  intros I Hst Hc Hs Hsg. cbn [step] in Hs. unfold get, get_with in Hs.
  destruct (promise o s) as [[d a]|] eqn:Hp; [|done]. destruct (how_legal E h); [|done].
  rewrite (lookup_art_ok _ o s d a I Hp) in Hs.
  pose proof Hc as Hc'. rewrite (live_cached s o d a I Hp) in Hc'. destruct (artifacts (ch s) !! a) as [e|] eqn:He; [done|].
  pose proof (build_plays n o s d a I Hst Hp Hc) as Hb.
  destruct (build E n o s) as [[e|e] s1|k s1| |] eqn:Hq; try done.
  - destruct (_ =? _)%N; [|done]. injection Hs as <- <-.
    destruct (Hb Hsg) as (v0 & v & l & H1 & H2 & H3 & H4 & H5 & H6).
    apply promise_Some in Hp as [_ Ho]. exists d, a, v0, v, l, (Ok (ar_bin e)). split_and!; done.
  - injection Hs as <- <-. destruct (Hb Hsg) as (v0 & v & l & H1 & H2 & H3 & H4 & H5 & H6).
    apply promise_Some in Hp as [_ Ho]. exists d, a, v0, v, l, (Err e). split_and!; done.
Qed.

Lemma get_plays_panic n h o s s' :
  Inv s → stack s = [] → step E n (OGet h o) s = Panic PkUser s' → single o s' →
  ∃ d a, at_addr s o d a ∧ (config s o = None ∨
    ∃ v0 v l p, config s o = Some v0 ∧ plays (bd_body d) v0 l p v ∧ l = gots o (trace s') ∧ (p = PPanic ∨ ∃ h w k, p = PResolve h w k)).
Proof.
  intros I Hst Hs Hsg. cbn [step] in Hs. unfold get, get_with in Hs.
  destruct (promise o s) as [[d a]|] eqn:Hp; [|done]. destruct (how_legal E h); [|done].
  rewrite (lookup_art_ok _ o s d a I Hp) in Hs.
  pose proof (live_cached s o d a I Hp) as Hc. destruct (artifacts (ch s) !! a) as [e|] eqn:He; [done|].
  pose proof (build_plays n o s d a I Hst Hp Hc) as Hb. apply promise_Some in Hp as [_ Ho]. exists d, a. split; [done|].
  destruct (build E n o s) as [[e|e] s1|k s1| |] eqn:Hq; try done.
  - by destruct (_ =? _)%N.
  - injection Hs as -> ->. destruct Hb as [Hb|Hb]; [by left|right]. destruct (Hb Hsg) as (v0 & v & l & p & H1 & H2 & H4 & H3).
    by exists v0, v, l, p.
Qed.
End GetPlay.

Lemma runs_trace E (P : st → op → Prop) s0 l s :
  Inv s0 → stack s0 = [] → runs E P s0 l s → ∃ l', trace s = l' ++ trace s0.
Proof.
  intros I Hst Hr. refine (runs_inv E P (λ x, ∃ l', trace x = l' ++ trace s0) s0 l s I Hst _ _ Hr); [by exists []|].
  intros n x s1 s2 I1 Hst1 [l1 H1] _ Hg.
  destruct (step_trace E n x s1 s2 I1 Hst1 Hg) as (t1 & t2 & l2 & _ & _ & Ht & Hp & Ht2 & _).
  destruct (prims_trace E t1 t2 Hp) as [l3 Hl3]. exists (l2 ++ l3 ++ l1).
  cbn. rewrite Ht2, Hl3, Ht, H1. by rewrite <- !(assoc_L (++)).
Qed.

(** With shared cans nobody can change an artifact. *)
Lemma shared_unmutated E o s : e_kind E = Shared → reachable E s → reach_by E (unmutated o) s.
Proof.
  intros Hk [l Hr]. exists l. induction Hr as [|l s n x r s' Hr IH HP Hs|l s n x k s' Hr IH HP Hs Hp]; [constructor| |].
  - eapply runs_done; [done| |done]. destruct x; try done; cbn [step] in Hs; unfold op_get_mut, op_lookup_mut in Hs; by rewrite Hk in Hs.
  - eapply runs_panic; [done| |done|done]. destruct x; try done; cbn [step] in Hs; unfold op_get_mut, op_lookup_mut in Hs; by rewrite Hk in Hs.
Qed.

Lemma gots_since s u w rv l : since_call s u l → (w, rv) ∈ gots u (trace s) ↔ EGot u w rv ∈ l.
Proof.
  intros (l2 & -> & Hc). induction l as [|e l IH]; cbn.
  - rewrite decide_True by done. set_solver.
  - assert (count (is_call u) l = 0 ∧ (is_call u e = false)) as [Hc1 He].
    { unfold count in *. rewrite filter_cons in Hc. destruct (decide _) as [Hd|Hd]; [done|]. split; [done|]. by destruct (is_call u e). }
    specialize (IH Hc1). rewrite elem_of_cons.
    destruct e as [o|u' w'|o w' r|o b|o e|o| ]; cbn in He; cbn [gots]; try (rewrite IH; split; [by right|by intros [?|?]]).
    + rewrite decide_False; [rewrite IH; split; [by right|by intros [?|?]]|]. intros ->. by rewrite N.eqb_refl in He.
    + destruct (decide (o = u)) as [->|Hne].
      * rewrite elem_of_cons, IH. split; (intros [?|?]; [left|right]; [congruence|done]).
      * rewrite IH. split; [by right|]. intros [[=]|?]; [congruence|done].
Qed.
