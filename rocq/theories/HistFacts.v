(** Consequences for single steps and for histories. *)
From Verif Require Export StepFacts.
From stdpp Require Import relations.

Section HistFacts.
Context (E : env).
Notation prim := (prim E).
Notation prims := (rtc prim).

(** ** Generic induction over runs *)
Lemma goes_Inv n x s s' : Inv s → stack s = [] → goes (step E n x s) s' → Inv (unwound s').
Proof.
  intros I Hst [[r Hd]|(k & Hp & Hr)].
  - destruct (step_Inv E n x s r s' I Hst Hd) as [I' _]. by apply Inv_unwound.
  - destruct (step_panic E n x s k s' I Hst Hp) as [[-> I']|[(-> & -> & -> & _)|[_ ->]]]; [done| |done].
    by apply Inv_unwound, Inv_tock.
Qed.

Lemma runs_inv (P : st → op → Prop) (Q : st → Prop) s0 l s :
  Inv s0 → stack s0 = [] → Q s0 →
  (∀ n x s s', Inv s → stack s = [] → Q s → P s x → goes (step E n x s) s' → Q (unwound s')) →
  runs E P s0 l s → Q s.
Proof.
  intros I Hst HQ Hstep Hr. induction Hr as [|l s n x r s' Hr IH HP Hs|l s n x k s' Hr IH HP Hs Hk]; [done| |].
  - destruct (runs_Inv E P s0 l s Hr I Hst) as [I1 Hst1].
    destruct (step_Inv E n x s r s' I1 Hst1 Hs) as [_ Hst2].
    assert (unwound s' = s') as Heq by (destruct s'; cbn in *; by subst).
    rewrite <- Heq. eapply Hstep; [done..|exact HP|]. left. eauto.
  - destruct (runs_Inv E P s0 l s Hr I Hst) as [I1 Hst1].
    eapply Hstep; [done..|exact HP|]. right. eauto.
Qed.

Lemma runs_mono (P P' : st → op → Prop) s0 l s : (∀ s x, P s x → P' s x) → runs E P s0 l s → runs E P' s0 l s.
Proof. intros HP. induction 1; [constructor|econstructor; eauto|econstructor; eauto]. Qed.

(** ** Artifacts are kept by operations that do not invalidate *)
Lemma writes_other s o f s' w : writes s o f s' → w ≠ o → cached s' w = cached s w.
Proof. intros H Hne. by apply (wr_others _ _ _ _ H). Qed.


Lemma keeps_step n x o s s' :
  Inv s → stack s = [] → keeps o s x → goes (step E n x s) s' →
  (∃ l, cached s' o = cached s o ∧ adds l s s' ∧ count (is_call o) l = 0 ∧ count (is_built o) l = 0) ∨
  (∃ s1 s2, Inv s1 ∧ stack s1 = [] ∧ cached s1 o = cached s o ∧ adds [] s s1 ∧
     prims s1 s2 ∧ cached s' o = cached s2 o ∧ adds [] s2 s').
Proof.
  intros I Hst Hk Hg. apply step_effect in Hg as He; [|done..].
  assert (∀ s', cached s' o = cached s o → (adds [] s s' ∨ ∃ w, adds [EInvalidate w] s s') →
    ∃ l, cached s' o = cached s o ∧ adds l s s' ∧ count (is_call o) l = 0 ∧ count (is_built o) l = 0) as Hq.
  { intros s1 Hc [Ha|[w Ha]]; [by exists []|]. by exists [EInvalidate w]. }
  destruct x as [d|w|h w|w f|h w|w f|w|w f|w|w|w| | | |w| ]; cbn [keeps effect_of] in *.
  - right. exists s, s'. done.
  - right. exists s, s'. done.
  - right. exists s, s'. done.
  - destruct He as (Hl & Hno & [[Ha Hw]|(s1 & s2 & I1 & Hst1 & Ha1 & _ & _ & Hs1 & Hp & Hend)]).
    + left. apply Hq; [|auto]. by apply (wr_others _ _ _ _ Hw).
    + right. exists s1, s2. split_and!; try done.
      * destruct Hs1 as [[_ Hs]|[_ Hf]]; [apply (fg_kept _ _ _ _ Hs); tauto|by apply (fg_kept _ _ _ _ Hf)].
      * destruct Hend as [->|[_ Hw]]; [done|]. by apply (wr_others _ _ _ _ Hw).
      * destruct Hend as [->|[? Hw]]; done.
  - subst s'. left. apply Hq; [done|]. by left.
  - destruct He as (Hl & Hno & Ha & [[_ Hw]|[_ Hf]]); left; (apply Hq; [|auto]).
    + by apply (wr_others _ _ _ _ Hw).
    + by apply (fg_kept _ _ _ _ Hf).
  - left. destruct He as [_ [->|(_ & Hs & Ha)]]; (apply Hq; [|by left]); [done|].
    by apply (ss_cached _ _ _ _ Hs).
  - left. destruct He as (_ & s1 & Hf & Ha & Hs). apply Hq; [|eauto].
    rewrite (ss_cached _ _ _ _ Hs). by apply (fg_kept _ _ _ _ Hf).
  - subst s'. left. apply Hq; [done|]. by left.
  - left. destruct He as (_ & Hf & Ha). apply Hq; [|eauto]. by apply (fg_kept _ _ _ _ Hf).
  - left. destruct He as (_ & Hf & Ha). apply Hq; [|eauto]. by apply (fg_kept _ _ _ _ Hf).
  - done.
  - done.
  - left. destruct He as [[Hf Ha]| ->]; (apply Hq; [|by left]); [|done].
    apply (fg_kept _ _ _ _ Hf). unfold collected. intros (_ & Hd & Hno).
    destruct Hk as [?|[u Hu]]; [done|by eapply Hno].
  - subst s'. left. apply Hq; [done|]. by left.
  - subst s'. left. apply Hq; [done|]. by left.
Qed.

Lemma adds_nil_calls s s' o : adds [] s s' → calls s' o = calls s o.
Proof. intros H. by rewrite (adds_calls _ _ _ _ H). Qed.
Lemma adds_nil_builds s s' o : adds [] s s' → builds s' o = builds s o.
Proof. intros H. by rewrite (adds_builds _ _ _ _ H). Qed.

Lemma keeps_cached n x o s s' b :
  Inv s → stack s = [] → keeps o s x → goes (step E n x s) s' → cached s o = Some b →
  cached s' o = Some b ∧ calls s' o = calls s o.
Proof.
  intros I Hst Hk Hg Hb. destruct (keeps_step n x o s s' I Hst Hk Hg)
    as [(l & Hc & Ha & H1 & H2)|(s1 & s2 & I1 & Hst1 & Hc1 & Ha1 & Hp & Hc2 & Ha2)].
  - rewrite (adds_calls _ _ _ _ Ha), H1. split; [congruence|done].
  - rewrite (adds_nil_calls _ _ _ Ha2), <- (adds_nil_calls _ _ o Ha1), Hc2.
    destruct (prims_cached E s1 s2 o b I1 Hp) as (? & _ & ?); [rewrite Hst1; set_solver|congruence|]. done.
Qed.

Lemma cached_unwound s o : cached (unwound s) o = cached s o.
Proof. done. Qed.

Lemma keeps_runs o s l s' b :
  Inv s → stack s = [] → runs E (keeps o) s l s' → cached s o = Some b →
  cached s' o = Some b ∧ calls s' o = calls s o.
Proof.
  intros I Hst Hr Hb.
  refine (runs_inv (keeps o) (λ x, cached x o = Some b ∧ calls x o = calls s o) s l s' I Hst _ _ Hr); [done|].
  intros n x s1 s2 I1 Hst1 [H1 H2] Hk Hg.
  destruct (keeps_cached n x o s1 s2 b I1 Hst1 Hk Hg H1) as [H3 H4]. split; [exact H3|].
  change (calls (unwound s2) o) with (calls s2 o). congruence.
Qed.

(** ** Without re-entrancy a builder on the stack has no artifact *)
Definition nr (s : st) : Prop :=
  reent s = false → NoDup (stack s) ∧ ∀ o, o ∈ stack s → cached s o = None.

Lemma nr_empty s : stack s = [] → nr s.
Proof. intros Hs _. rewrite Hs. split; [constructor|]. intros o Ho. by apply elem_of_nil in Ho. Qed.

Lemma prim_reent s s' : prim s s' → reent s' = false → reent s = false.
Proof.
  intros Hp. destruct Hp; cbn; try done.
  - by intros [? _]%orb_false_iff.
  - by apply alloc_Some in H as (-> & -> & _).
  - by apply drop_Some in H as (_ & _ & ->).
Qed.
Lemma prims_reent s s' : prims s s' → reent s' = false → reent s = false.
Proof. induction 1 as [|x y z H _ IH]; [done|]. intros Hr. eapply prim_reent; [exact H|]. auto. Qed.

Lemma stack_none s o : Inv s → o ∈ stack s → cached s o = None →
  ∃ d a, at_addr s o d a ∧ known (ch s) !! a = Some o ∧ artifacts (ch s) !! a = None.
Proof.
  intros I Hin Hc. destruct (i_stack _ I o Hin) as (_ & d & a & Ho & Hk & _). exists d, a.
  rewrite (cached_at s o d a Ho Hk) in Hc. split_and!; [done..|]. by destruct (artifacts (ch s) !! a).
Qed.

Lemma prim_nr s s' : Inv s → prim s s' → nr s → nr s'.
Proof.
  intros I Hp Hnr Hre. assert (reent s = false) as Hre0 by (by eapply prim_reent).
  destruct (Hnr Hre0) as [Hnd Hno].
  assert (∀ o, o ∈ stack s → (∀ d a, at_addr s o d a → known (ch s) !! a = Some o →
     artifacts (ch s) !! a = None → artifacts (ch s') !! a = None) → cached s' o = None) as Hkeep.
  { intros o Ho Ha. destruct (stack_none s o I Ho (Hno o Ho)) as (d & a & Hoa & Hk & Hn).
    rewrite (cached_at s' o d a); [|by eapply prim_at|by eapply prim_known].
    by rewrite (Ha d a Hoa Hk Hn). }
  destruct Hp.
  - split; [done|]. intros o' Ho'. apply (Hkeep o' Ho'). intros d' a' _ _ Hn. cbn.
    by rewrite (proj1 (make_known_fields _ _ _)).
  - split; [done|]. intros o' Ho'. apply (Hkeep o' Ho'). done.
  - cbn in Hre |- *. apply orb_false_iff in Hre as [_ Hre]. apply bool_decide_eq_false_1 in Hre.
    split; [by constructor|]. intros o' [->|Ho']%elem_of_cons; [|apply (Hkeep o' Ho'); done].
    apply promise_Some in H as [_ H]. unfold cached. cbn. rewrite H, H2. by destruct (decide _).
  - split; [done|]. intros o' Ho'. apply (Hkeep o' Ho'). done.
  - split; [done|]. intros o' Ho'. apply (Hkeep o' Ho'). done.
  - split; [done|]. intros o' Ho'. apply (Hkeep o' Ho'). done.
  - split; [done|]. intros o' Ho'. apply (Hkeep o' Ho'). done.
  - split; [done|]. intros o' Ho'. apply (Hkeep o' Ho'). done.
  - assert (stack s' = stack s ∧ ch s' = ch s) as [Hs Hc] by (by apply alloc_Some in H as (-> & -> & _)).
    rewrite Hs. split; [done|]. intros o' Ho'. apply (Hkeep o' Ho'). by rewrite Hc.
  - assert (stack s' = stack s ∧ ch s' = ch s) as [Hs Hc] by (by apply drop_Some in H as (_ & _ & ->)).
    rewrite Hs. split; [done|]. intros o' Ho'. apply (Hkeep o' Ho'). by rewrite Hc.
  - cbn. rewrite H in Hnd. apply NoDup_cons in Hnd as [HuS Hnd]. split; [done|].
    intros o' Ho'. apply Hkeep; [rewrite H; by right|]. intros d' a' Ho'' Hk Hn. cbn.
    rewrite lookup_insert_ne; [done|]. intros <-. apply HuS.
    by rewrite <- (stack_addr s u S d ua o' d' I H H0 Ho'' Hk).
  - cbn. rewrite H in Hnd. apply NoDup_cons in Hnd as [HuS Hnd]. split; [done|].
    intros o' Ho'. apply (Hkeep o'); [rewrite H; by right|done].
Qed.
Lemma prims_nr s s' : Inv s → prims s s' → nr s → nr s'.
Proof. intros I Hp Hn. refine (prims_ind_inv E nr s s' I Hn _ Hp). intros s1 s2 I1 _ _ H1 H2. exact (prim_nr s1 s2 I1 H2 H1). Qed.

(** ** Where artifacts come from *)
Lemma prim_cached_new s s' o b :
  Inv s → prim s s' → cached s' o = Some b →
  cached s o = Some b ∨ (trace s' = EBuilt o b :: trace s ∧ o ∈ stack s).
Proof.
  intros I Hp Hc.
  assert (∀ c', ch s' = c' → objs s' = objs s → artifacts c' = artifacts (ch s) →
    (∀ a, known c' !! a = Some o → known (ch s) !! a = Some o ∨ artifacts (ch s) !! a = None) →
    cached s o = Some b) as Hsame.
  { intros c' <- Ho Ha Hk. unfold cached in Hc |- *. rewrite Ho, Ha in Hc.
    destruct (objs s !! o) as [[d a]|]; [|done].
    destruct (decide (known (ch s') !! a = Some o)) as [Hk'|]; [|done].
    destruct (Hk a Hk') as [Hka|Hna]; [by rewrite decide_True|by rewrite Hna in Hc]. }
  destruct Hp; try (left; eapply Hsame; [done|done|done|auto]; fail).
  - left. eapply Hsame; [done|done|apply make_known_fields|]. intros a' Hk. cbn in Hk. unfold make_known in Hk.
    destruct (known (ch s) !! a) eqn:Ha; [auto|]. cbn in Hk.
    apply lookup_insert_Some in Hk as [[<- <-]|[_ ?]]; [|auto]. right.
    destruct (artifacts (ch s) !! a) eqn:Hx; [|done]. exfalso.
    destruct (ci_dyn_known _ _ (i_c _ I) a) as [z Hz]; [apply (ci_art_dyn _ _ (i_c _ I)); eauto|congruence].
  - left. apply alloc_Some in H as (-> & -> & _ & Hkn). unfold cached in Hc |- *. cbn in Hc.
    destruct (decide (o = nobj s)) as [->|Hne].
    + rewrite lookup_insert in Hc. rewrite Hkn in Hc. by destruct (decide _).
    + by rewrite lookup_insert_ne in Hc.
  - left. apply drop_Some in H as (_ & _ & ->). done.
  - cbn. destruct (decide (o = u)) as [->|Hne].
    + right. split; [|rewrite H; left]. unfold cached in Hc. cbn in Hc. rewrite H0 in Hc. destruct (decide _); [|done].
      rewrite lookup_insert in Hc. by injection Hc as ->.
    + left. unfold cached in Hc |- *. cbn in Hc. destruct (objs s !! o) as [[d' a']|] eqn:Ho; [|done].
      destruct (decide _) as [Hk|]; [|done]. rewrite lookup_insert_ne in Hc; [done|]. intros <-.
      apply Hne. by eapply (stack_addr s u S d ua o d').
Qed.

(** ** At most one successful build *)
Definition budget (s : st) (o : obj) : nat := builds s o + match cached s o with Some _ => 0 | None => 1 end.

Lemma prim_builds s s' o :
  prim s s' → builds s' o = builds s o ∨
    (∃ b, builds s' o = S (builds s o) ∧ o ∈ stack s ∧ trace s' = EBuilt o b :: trace s).
Proof.
  intros Hp. destruct Hp; try (left; done).
  - apply alloc_Some in H as (-> & -> & _). by left.
  - apply drop_Some in H as (_ & _ & ->). by left.
  - match goal with |- builds ?x o = _ ∨ _ => change (builds x o) with (builds (log (EBuilt u b) s) o) end.
    rewrite builds_EBuilt. destruct (decide (u = o)) as [->|]; [|auto]. right. exists b. rewrite H. split_and!; [done|left|done].
Qed.

Lemma prim_ok_cached s s' o b : Inv s → prim s s' → trace s' = EBuilt o b :: trace s → cached s' o = Some b.
Proof.
  intros I Hp Ht. destruct Hp; cbn in Ht; try (by apply (f_equal length) in Ht; cbn in Ht; lia); try congruence.
  - apply alloc_Some in H as (-> & -> & _). cbn in Ht. apply (f_equal length) in Ht; cbn in Ht; lia.
  - apply drop_Some in H as (_ & _ & ->). cbn in Ht. apply (f_equal length) in Ht; cbn in Ht; lia.
  - injection Ht as -> ->. destruct (i_stack _ I o) as (_ & d' & a' & Ho & Hk & _); [rewrite H; left|].
    rewrite (cached_at _ o d ua); cbn; [by rewrite lookup_insert|done|]. congruence.
Qed.

Lemma prim_budget s s' o : Inv s → Inv s' → nr s → prim s s' → reent s' = false → budget s' o ≤ budget s o.
Proof.
  intros I I' Hnr Hp Hre. assert (reent s = false) as Hre0 by (by eapply prim_reent).
  destruct (Hnr Hre0) as [_ Hno]. unfold budget.
  destruct (prim_builds s s' o Hp) as [->|(b & -> & Hin & Ht)].
  - destruct (cached s o) as [b|] eqn:Hc.
    + destruct (decide (o ∈ stack s)) as [Hin|Hin]; [by rewrite (Hno o Hin) in Hc|].
      destruct (prim_cached E s s' o b I Hp Hin Hc) as (-> & _). done.
    + destruct (cached s' o); lia.
  - rewrite (Hno o Hin). rewrite (prim_ok_cached s s' o b I Hp Ht). lia.
Qed.
Lemma prims_budget s s' o : Inv s → nr s → prims s s' → reent s' = false → budget s' o ≤ budget s o.
Proof.
  intros I Hnr Hp. 
  refine (proj2 (prims_ind_inv E (λ x, nr x ∧ (reent x = false → budget x o ≤ budget s o)) s s' I _ _ Hp)); [done|].
  intros s1 s2 I1 I2 _ [H1 H2] H. split; [exact (prim_nr s1 s2 I1 H H1)|]. intros Hre.
  assert (reent s1 = false) as Hre1 by (by eapply prim_reent).
  etrans; [exact (prim_budget s1 s2 o I1 I2 H1 H Hre)|auto].
Qed.

Lemma goes_reent n x s s' : Inv s → stack s = [] → goes (step E n x s) s' → reent s' = false → reent s = false.
Proof.
  intros I Hst Hg Hre. apply step_effect in Hg; [|done..].
  destruct x; cbn [effect_of] in Hg; unfold adds in *; try (by eapply prims_reent); try (by subst);
    try (destruct_and?; congruence).
  - destruct Hg as (_ & _ & [[[_ ?] _]|(s1 & s2 & _ & _ & [_ ?] & _ & _ & _ & Hp & Hend)]); [congruence|].
    apply prims_reent in Hp; [congruence|]. destruct Hend as [->|[[_ ?] _]]; [done|congruence].
  - destruct Hg as (_ & [->|(_ & _ & _ & ?)]); congruence.
  - destruct Hg as (_ & s1 & _ & [_ ?] & _). congruence.
  - destruct Hg as [[_ [_ ?]]| ->]; [congruence|done].
Qed.
Lemma runs_reent P s l s' : Inv s → stack s = [] → runs E P s l s' → reent s' = false → reent s = false.
Proof.
  intros I Hst Hr. refine (runs_inv P (λ x, reent x = false → reent s = false) s l s' I Hst _ _ Hr); [done|].
  intros n x s1 s2 I1 Hst1 H1 _ Hg H2. apply H1. by eapply goes_reent.
Qed.

Lemma keeps_budget n x o s s' :
  Inv s → stack s = [] → keeps o s x → goes (step E n x s) s' → reent s' = false → budget s' o ≤ budget s o.
Proof.
  intros I Hst Hk Hg Hre. destruct (keeps_step n x o s s' I Hst Hk Hg)
    as [(l & Hc & Ha & H1 & H2)|(s1 & s2 & I1 & Hst1 & Hc1 & Ha1 & Hp & Hc2 & Ha2)].
  - unfold budget. rewrite (adds_builds _ _ _ _ Ha), H2, Hc. done.
  - etrans; [|etrans; [eapply (prims_budget s1 s2 o I1); [by apply nr_empty|done|]|]]; unfold budget.
    + rewrite Hc2, (adds_nil_builds _ _ _ Ha2). done.
    + destruct Ha2 as [_ Hr]. congruence.
    + rewrite Hc1, (adds_nil_builds _ _ _ Ha1). done.
Qed.
Lemma keeps_runs_builds o s l s' :
  Inv s → stack s = [] → runs E (keeps o) s l s' → reent s' = false → budget s' o ≤ budget s o.
Proof.
  intros I Hst Hr.
  refine (runs_inv (keeps o) (λ x, reent x = false → budget x o ≤ budget s o) s l s' I Hst _ _ Hr); [done|].
  intros n x s1 s2 I1 Hst1 H1 Hk Hg Hre.
  assert (reent s1 = false) as Hre1 by (by eapply (goes_reent n x s1 s2)).
  etrans; [exact (keeps_budget n x o s1 s2 I1 Hst1 Hk Hg Hre)|auto].
Qed.
End HistFacts.
