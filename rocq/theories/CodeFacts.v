(** The log follows the code. *)
From Verif Require Export CodeSpec Machine RankFacts.
From stdpp Require Import relations.

Section CodeFacts.
Context (E : env).
Local Notation prim := (Prims.prim E).
Local Notation prims := (rtc prim).
Local Notation mstep := (Machine.mstep E).

Definition frames (fs : list prog) (s : st) : Prop :=
  Forall2 (λ u p, codes s u (λ d, reaches d p)) (stack s) fs.

Lemma codes_mono s s' o (P : bdef → Prop) : Inv s → prims s s' → codes s o P → codes s' o P.
Proof. intros I Hp (d & a & Hat & Hd). exists d, a. split; [by eapply (prims_at E)|done]. Qed.
Lemma codes_impl s o (P Q : bdef → Prop) : (∀ d, P d → Q d) → codes s o P → codes s o Q.
Proof. intros H (d & a & ? & ?). exists d, a. auto. Qed.
Lemma codes_objs s s' o (P : bdef → Prop) : objs s' = objs s → codes s o P → codes s' o P.
Proof. intros H (d & a & Hat & ?). exists d, a. unfold at_addr. by rewrite H. Qed.
Lemma allowed_mono s s' e : Inv s → prims s s' → allowed s e → allowed s' e.
Proof. intros I Hp. destruct e; cbn; try done; by apply codes_mono. Qed.
Lemma allowed_objs s s' e : objs s' = objs s → allowed s e → allowed s' e.
Proof. intros H. destruct e; cbn; try done; by apply codes_objs. Qed.

Lemma frames_step fs s fs' s' : Inv s → mstep (fs, s) (fs', s') → frames fs s → frames fs' s'.
Proof.
  intros I Hm HF.
  assert (∀ l gs, Forall2 (λ u p, codes s u (λ d, reaches d p)) l gs → Forall2 (λ u p, codes s' u (λ d, reaches d p)) l gs) as Hmono.
  { intros l gs H. eapply Forall2_impl; [exact H|]. intros u p. cbn. apply codes_mono; [done|]. by eapply mstep_prims. }
  assert (∀ p q gs, stack s' = stack s → frames (p :: gs) s → leads p q → frames (q :: gs) s') as Htop.
  { intros p q gs Hs Hf Hl. unfold frames in *. rewrite Hs. inversion Hf as [|u ? S ? H1 H2 Hs']; subst.
    constructor; [|by apply Hmono]. eapply codes_impl; [|eapply codes_mono; [done|by eapply mstep_prims|exact H1]].
    intros d Hr. eapply rtc_r; [exact Hr|done]. }
  inversion Hm; subst.
  - by apply Hmono.
  - by apply Hmono.
  - constructor; [|by apply Hmono]. match goal with H : promise _ _ = _ |- _ => apply promise_Some in H as [_ Ho] end. exists d, a. split; [done|]. constructor.
  - by apply Hmono.
  - eapply Htop; [done..|]. match goal with H : _ ∨ _ |- _ => destruct H as [(e & _ & ->)|(e & t & -> & _)]; constructor end.
  - eapply Htop; [done..|]. constructor.
  - eapply Htop; [done..|]. constructor.
  - eapply Htop; [done..|]. constructor.
  - eapply Htop; [done..|]. constructor.
  - eapply Htop; [|done|constructor].
    match goal with H : alloc _ _ _ = _ |- _ => by apply alloc_Some in H as (_ & -> & _) end.
  - eapply Htop; [|done|constructor].
    match goal with H : drop_obj _ _ = _ |- _ => by apply drop_Some in H as (_ & _ & ->) end.
  - unfold frames in *. cbn. match goal with H : stack s = _ |- _ => rewrite H in HF end. apply Forall2_cons in HF as [_ H2']. by apply Hmono.
  - unfold frames in *. cbn. match goal with H : stack s = _ |- _ => rewrite H in HF end. apply Forall2_cons in HF as [_ H2']. by apply Hmono.
Qed.

Lemma allowed_step fs s fs' s' :
  Inv s → mstep (fs, s) (fs', s') → frames fs s → (∀ e, e ∈ trace s → allowed s e) → ∀ e, e ∈ trace s' → allowed s' e.
Proof.
  intros I Hm HF HA. pose proof (mstep_prims E _ _ _ _ Hm) as Hp.
  assert (∀ e, e ∈ trace s → allowed s' e) as Hold by (intros e He; eapply allowed_mono; eauto).
  assert (∀ u S p gs, stack s = u :: S → fs = p :: gs → codes s' u (λ d, reaches d p)) as Htop.
  { intros u S p gs Hs ->. unfold frames in HF. rewrite Hs in HF. apply Forall2_cons in HF as [H1 _]. by eapply codes_mono. }
  inversion Hm; subst; try exact Hold; cbn [trace log set_ch set_stack set_reent set_nbin tock];
    try (intros e' [->|He]%elem_of_cons; [|by apply Hold]); cbn [allowed].
  - match goal with H : promise _ _ = _ |- _ => apply promise_Some in H as [_ Ho] end. by exists d, a.
  - eapply codes_impl; [|by eapply Htop]. intros d' Hd. exists h, k. done.
  - eapply codes_impl; [|by eapply Htop]. intros d' Hd. exists h, k. split; [done|].
    match goal with H : _ ∨ _ |- _ => destruct H as [(e & _ & ->)|(e & t & -> & _)]; eauto end.
  - match goal with H : alloc _ _ _ = _ |- _ => apply alloc_Some in H as (_ & -> & _) end. exact Hold.
  - match goal with H : drop_obj _ _ = _ |- _ => apply drop_Some in H as (_ & _ & ->) end. exact Hold.
  - by eapply Htop.
  - by eapply Htop.
Qed.

Lemma step_objs_eq n x s s' :
  Inv s → stack s = [] → runless x → (∀ d, x ≠ OAlloc d) → goes (step E n x s) s' → objs s' = objs s.
Proof. intros I Hst Hr Hna Hg. eapply (step_objs E n x s s'); done. Qed.

(** The log of a runless call: only invalidations. *)
Lemma runless_trace n x s s' :
  Inv s → stack s = [] → runless x → goes (step E n x s) s' →
  ∃ l, trace s' = l ++ trace s ∧ ∀ e, e ∈ l → e = EClear ∨ ∃ o, e = EInvalidate o.
Proof.
  intros I Hst Hr Hg. pose proof (step_effect E n x s s' I Hst Hg) as He.
  destruct x as [d|o|h o|o f|h o|o f|o|o f|o|o|o| | | |o| ]; cbn [effect_of] in He; try done.
  - unfold goes in Hg. cbn [step] in Hg. destruct (alloc E d s) as [[o s1]|] eqn:Ha; [|by gd].
    destruct Hg as [[? [= _ <-]]|(? & ? & ?)]; [|done]. apply alloc_Some in Ha as (-> & -> & _). exists []. split; [done|]. intros e He'. by apply elem_of_nil in He'.
  - unfold goes in Hg. cbn [step] in Hg. destruct (drop_obj o s) as [s1|] eqn:Ha; [|by gd].
    destruct Hg as [[? [= _ <-]]|(? & ? & ?)]; [|done]. apply drop_Some in Ha as (_ & _ & ->). exists []. split; [done|]. intros e He'. by apply elem_of_nil in He'.
  - subst. exists []. split; [done|]. intros e He'. by apply elem_of_nil in He'.
  - destruct He as (_ & _ & [Ht _] & _). exists []. split; [done|]. intros e He'. by apply elem_of_nil in He'.
  - destruct He as (_ & [->|(_ & _ & [Ht _])]); exists []; (split; [done|]; intros e He'; by apply elem_of_nil in He').
  - destruct He as (_ & s1 & _ & [Ht _] & _). exists [EInvalidate o]. split; [done|]. intros e ->%elem_of_list_singleton. eauto.
  - subst. exists []. split; [done|]. intros e He'. by apply elem_of_nil in He'.
  - destruct He as (_ & _ & [Ht _]). exists [EInvalidate o]. split; [done|]. intros e ->%elem_of_list_singleton. eauto.
  - destruct He as (_ & _ & [Ht _]). exists [EInvalidate o]. split; [done|]. intros e ->%elem_of_list_singleton. eauto.
  - destruct He as (_ & [Ht _]). exists []. split; [done|]. intros e He'. by apply elem_of_nil in He'.
  - destruct He as (_ & [Ht _]). exists [EClear]. split; [done|]. intros e ->%elem_of_list_singleton. eauto.
  - destruct He as [(_ & [Ht _])| ->]; exists []; (split; [done|]; intros e He'; by apply elem_of_nil in He').
  - subst. exists []. split; [done|]. intros e He'. by apply elem_of_nil in He'.
  - subst. exists []. split; [done|]. intros e He'. by apply elem_of_nil in He'.
Qed.

Lemma reach_allowed (P : st → op → Prop) s : reach_by E P s → ∀ e, e ∈ trace s → allowed s e.
Proof.
  intros [l Hr].
  assert (frames [] s ∧ ∀ e, e ∈ trace s → allowed s e) as [_ H]; [|exact H].
  refine (mach_reach E P (λ fs s, frames fs s ∧ ∀ e, e ∈ trace s → allowed s e) init_st l s Inv_init eq_refl _ _ _ _ _ _ Hr).
  - split; [constructor|]. intros e He. by apply elem_of_nil in He.
  - intros fs s1 fs' s2 I1 I2 Hm [H1 H2]. split; [exact (frames_step fs s1 fs' s2 I1 Hm H1)|exact (allowed_step fs s1 fs' s2 I1 Hm H1 H2)].
  - intros fs s1 [_ H] _. split; [constructor|]. intros e He. by apply (allowed_objs s1), H.
  - intros n x s1 s2 I1 Hst1 HP Hx Hg [_ H]. split; [constructor|].
    destruct (runless_trace n x s1 s2 I1 Hst1 Hx Hg) as (l' & Ht & Hl').
    intros e He. apply (allowed_objs s2); [done|]. cbn in He. rewrite Ht in He.
    apply elem_of_app in He as [He|He]; [by destruct (Hl' e He) as [->|[? ->]]|].
    specialize (H e He). destruct x as [d| | | | | | | | | | | | | | | ];
      try (eapply allowed_objs; [|exact H]; by eapply step_objs_eq); [].
    pose proof (step_effect E n (OAlloc d) s1 s2 I1 Hst1 Hg) as Hp. by eapply allowed_mono.
  - intros s1 o f s2 I1 I2 Hst Hst2 [Ht _] Hsf _ [H1 H2]. split; [unfold frames; by rewrite Hst2|].
    intros e He. rewrite Ht in He. eapply allowed_objs; [|by apply H2].
    destruct Hsf as [Hf|Hf]; apply (fg_objs _ _ _ _ Hf).
  - intros s0 s1 o f s2 I1 Hst Hst2 _ [Ht _] Hw [H1 H2]. split; [unfold frames; by rewrite Hst2|].
    intros e He. rewrite Ht in He. eapply allowed_objs; [|by apply H2]. apply (wr_objs _ _ _ _ Hw).
Qed.
End CodeFacts.
