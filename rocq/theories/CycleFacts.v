(** Builders that wait for each other: none of them is ever built. *)
From Verif Require Export Machine.
From stdpp Require Import relations.

Section Cycle.
Context (E : env) (C : obj → Prop).
Local Notation prim := (Prims.prim E).
Local Notation prims := (rtc prim).

Lemma mstep_prim fs s fs' s' : mstep E (fs, s) (fs', s') → s' = s ∨ prim s s'.
Proof.
  intros H. inversion H; subst; try (by left); right;
    [by eapply pm_know|by eapply pm_dyn|by eapply pm_push|by eapply pm_edge|by eapply pm_got|by eapply pm_set|
     apply pm_tick|apply pm_newbin|by eapply pm_alloc|by eapply pm_drop|by eapply pm_ok|by eapply pm_fail].
Qed.

Definition cyc (s0 : st) (fs : list prog) (s : st) : Prop :=
  (∀ w, C w → cached s w = None ∧ ∃ d a, at_addr s w d a ∧ must_resolve C (bd_body d)) ∧
  Forall2 (λ u p, C u → must_resolve C p) (stack s) fs ∧
  ∃ l, trace s = l ++ trace s0 ∧ (∀ w e, C w → EFailed w e ∉ l) ∧ (fs ≠ [] → l ≠ []).

Lemma cyc_step s0 fs s fs' s' : Inv s → mstep E (fs, s) (fs', s') → cyc s0 fs s → cyc s0 fs' s'.
Proof.
  intros I Hm (Hc & Hf & l & Hl & Hn & Hne).
  pose proof (mstep_prims E _ _ _ _ Hm) as Hp.
  assert (∀ w d a, at_addr s w d a → at_addr s' w d a) as Hat.
  { intros w d a Ha. exact (prims_objs E s s' w (d, a) Hp (i_wf _ I) Ha). }
  assert (∀ u e t, C u → trace s = EFailed u e :: t → fs ≠ [] → False) as Hhd.
  { intros u e t Hu Ht Hfs. rewrite Hl in Ht. destruct l as [|x l]; [by apply Hne|].
    injection Ht as -> _. apply (Hn u e Hu). set_solver. }
  split.
  { intros w Hw. destruct (Hc w Hw) as (Hcw & d & a & Ha & Hr). split; [|by eauto 6].
    destruct (cached s' w) as [b|] eqn:Hb; [|done]. exfalso.
    destruct (mstep_prim _ _ _ _ Hm) as [->|Hpr]; [congruence|].
    destruct (prim_cached_new E s s' w b I Hpr Hb) as [|[Ht _]]; [congruence|].
    inversion Hm; subst; cbn in Ht; try (by apply (f_equal length) in Ht; cbn in Ht; lia); try by simplify_eq.
    - match goal with H : alloc _ _ _ = _ |- _ => apply alloc_Some in H as (_ & H & _) end.
      subst. cbn in Ht. apply (f_equal length) in Ht; cbn in Ht; lia.
    - match goal with H : drop_obj _ _ = _ |- _ => apply drop_Some in H as (_ & _ & ->) end.
      cbn in Ht. apply (f_equal length) in Ht; cbn in Ht; lia.
    - injection Ht as -> -> . 
      match goal with H : stack s = _ |- _ => rewrite H in Hf end. apply Forall2_cons in Hf as [Hf _]. by apply Hf. }
  assert (∀ x, (∀ w e, C w → x ≠ EFailed w e) → trace s' = x :: trace s →
     ∃ l0, trace s' = l0 ++ trace s0 ∧ (∀ w e, C w → EFailed w e ∉ l0) ∧ (fs' ≠ [] → l0 ≠ [])) as Hlog.
  { intros x Hx Ht. exists (x :: l). rewrite Ht, Hl. split_and!; [done| |done].
    intros w e Hw Hin. apply elem_of_cons in Hin as [Hin|Hin]; [by apply (Hx w e)|by apply (Hn w e)]. }
  assert (trace s' = trace s → (fs' ≠ [] → fs ≠ []) →
     ∃ l0, trace s' = l0 ++ trace s0 ∧ (∀ w e, C w → EFailed w e ∉ l0) ∧ (fs' ≠ [] → l0 ≠ [])) as Hsame.
  { intros Ht Hff. exists l. rewrite Ht. split_and!; auto. }
  inversion Hm; subst;
    try (match goal with H : alloc _ _ _ = _ |- _ => apply alloc_Some in H as (_ & H & _); subst s' end);
    try (match goal with H : drop_obj _ _ = _ |- _ => apply drop_Some in H as (_ & _ & ->) end);
    (split; [|first [by apply Hsame|by (eapply Hlog; [|reflexivity])|idtac]]); cbn in *; try done.
  all: try (match goal with H : stack _ = _ :: _ |- _ => rewrite H in * end).
  all: try (destruct (Forall2_cons_inv_r _ _ _ _ Hf) as (u0 & S0 & Hf1 & Hf2 & Hst0); rewrite Hst0).
  all: try (constructor; [|done]; intros Hu; specialize (Hf1 Hu); cbn in Hf1; done || by apply Hf1).
  - constructor; [|done]. intros Ho. destruct (Hc o Ho) as (_ & d' & a' & Ha' & Hm').
    match goal with H : promise o s = _ |- _ => apply promise_Some in H as [_ H] end.
    unfold at_addr in Ha'. by simplify_eq.
  - clear Hf1 Hf2. apply Forall2_cons in Hf as [Hf1 Hf2].
    rewrite <- Hst0. constructor; [|exact Hf2]. intros Hu. specialize (Hf1 Hu). cbn in Hf1. destruct Hf1 as [Hw|Hw]; [exfalso|done].
    match goal with H : promise w s = _ |- _ => pose proof (live_cached s w d wa I H) as Hcw end.
    rewrite (proj1 (Hc w Hw)) in Hcw.
    match goal with H : (∃ e, _) ∨ _ |- _ => destruct H as [(e & He & _)|(e & t & _ & Ht)] end.
    + rewrite He in Hcw. done.
    + by eapply (Hhd w e t).
  - by apply Forall2_cons in Hf as [_ ?].
  - by apply Forall2_cons in Hf as [_ ?].
  - apply (Hlog (EFailed u e)); [|done]. apply Forall2_cons in Hf as [Hf1 _]. intros w e' Hw [= -> _]. by apply Hf1.
Qed.

Lemma cycle_get n h o s r s' :
  Inv s → stack s = [] → (∀ w, C w → cached s w = None ∧ ∃ d a, at_addr s w d a ∧ must_resolve C (bd_body d)) →
  C o → step E n (OGet h o) s = Done r s' → False.
Proof.
  intros I Hst Hc Ho Hs. pose proof Hs as Hg. cbn [step] in Hg.
  destruct (get E n h o s) as [rv s1|k s1| |] eqn:Hq; [|done..].
  injection Hg as <- ->.
  pose proof (proj1 (get_ms E n h o s s' I) _ Hq) as M.
  assert (cyc s [] s') as (Hc' & _ & l & Hl & Hn & _).
  { refine (msteps_ind_inv E (cyc s) [] s [] s' I _ M _).
    - intros f1 s1 f2 s2 I1 Hm. by apply cyc_step.
    - split; [done|]. rewrite Hst. split; [constructor|]. exists []. split_and!; [done| |done]. intros ? ? _ ?. set_solver. }
  destruct rv as [b|v|e].
  - destruct (get_ok_cached E n h o s _ s' I Hs) as (b' & Hb & _); [done|]. destruct (Hc' o Ho). congruence.
  - destruct (get_ok_cached E n h o s _ s' I Hs) as (b' & Hb & _); [done|]. destruct (Hc' o Ho). congruence.
  - destruct (get_error E n h o s e s' I Hst Hs) as (_ & (t & Ht) & Hcalls & _).
    rewrite Hl in Ht. destruct l as [|x l].
    + cbn in Hl. unfold calls in Hcalls. rewrite Hl in Hcalls. lia.
    + injection Ht as -> _. apply (Hn o e Ho). set_solver.
Qed.
End Cycle.
