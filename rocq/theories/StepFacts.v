(** Summary of what one step does, and its consequences for the observables. *)
From Verif Require Export MutOps.
From stdpp Require Import relations.

Ltac gd := match goal with
  | H : (∃ r, _ = Done r _) ∨ (∃ k, _ ∧ _) |- _ =>
    destruct H as [[? H]|(? & H & ?)]; [try discriminate H|try discriminate H]; simplify_eq
  end.

Section StepFacts.
Context (E : env).
Notation prims := (rtc (prim E)).

(** The builders a garbage collection removes. *)
Definition collected (s : st) (w : obj) : Prop := knows s w ∧ ¬ live s w ∧ ∀ u, ¬ depends s u w.

Definition effect_of (x : op) (s s' : st) : Prop :=
  match x with
  | OAlloc _ | ODrop _ | OGet _ _ => prims s s'
  | OLookup _ _ | OGetDynState _ | OIsKnown _ | ONumKnown => s' = s
  | ODynState o => live s o ∧
      (s' = s ∨ (state_of s o = None ∧ sets_state s o (initial s o) s' ∧ adds [] s s'))
  | ODynStateMut o f => live s o ∧ ∃ s1, forgets s (affected s o) (λ _, False) s1 ∧
      adds [EInvalidate o] s s' ∧
      sets_state s1 o (f <$> match state_of s o with Some v => Some v | None => initial s o end) s'
  | OInvalidate o => live s o ∧ forgets s (affected s o) (λ _, False) s' ∧ adds [EInvalidate o] s s'
  | OPurge o => live s o ∧ forgets s (affected s o) (eq o) s' ∧ adds [EInvalidate o] s s'
  | OClearArtifacts => forgets s (λ _, True) (λ _, False) s' ∧ adds [] s s'
  | OClearAll => forgets s (λ _, True) (λ _, True) s' ∧ adds [EClear] s s'
  | OGc => (forgets s (collected s) (collected s) s' ∧ adds [] s s') ∨ s' = tock s
  | OLookupMut o f => live s o ∧ (∀ u, depends s u o → u = o) ∧ adds [] s s' ∧
      ((¬ depends s o o ∧ writes s o f s') ∨ (depends s o o ∧ forgets s (eq o) (λ _, False) s'))
  | OGetMut o f => live s o ∧ (∀ u, depends s u o → u = o) ∧
      ((adds [] s s' ∧ writes s o f s') ∨
       ∃ s1 s2, Inv s1 ∧ stack s1 = [] ∧ adds [] s s1 ∧ alive s1 = alive s ∧ cached s1 o = None ∧
         ((¬ depends s o o ∧ same s s1) ∨ (depends s o o ∧ forgets s (eq o) (λ _, False) s1)) ∧
         prims s1 s2 ∧ (s' = s2 ∨ (adds [] s2 s' ∧ writes s2 o f s')))
  end.

Lemma promise_live o s d a : promise o s = Some (d, a) → live s o.
Proof. by intros [? _]%promise_Some. Qed.

Lemma step_effect n x s s' :
  Inv s → stack s = [] → goes (step E n x s) s' → effect_of x s s'.
Proof.
  intros I Hst Hg. destruct x as [d|o|h o|o f|h o|o f|o|o f|o|o|o| | | |o| ]; unfold goes in Hg; cbn [effect_of].
  - cbn [step] in Hg. destruct (alloc E d s) as [[o s1]|] eqn:Ha; [|by gd].
    destruct Hg as [[r [= _ <-]]|(? & ? & ?)]; [|done]. apply rtc_once. by eapply pm_alloc.
  - cbn [step] in Hg. destruct (drop_obj o s) as [s1|] eqn:Ha; [|by gd].
    destruct Hg as [[r [= _ <-]]|(? & ? & ?)]; [|done]. apply rtc_once. by eapply pm_drop.
  - cbn [step] in Hg. eapply get_prims; [apply (i_wf _ I)|].
    destruct (get E n h o s) as [r s1|k s1| |] eqn:Hq; [| |by gd..].
    + left. exists r. rewrite Hq. by gd.
    + right. exists k. rewrite Hq. by gd.
  - destruct (e_kind E) eqn:Hk; [cbn [step] in Hg; unfold op_get_mut in Hg; rewrite Hk in Hg; by gd|].
    destruct (promise o s) as [[d a]|] eqn:Hp;
      [|cbn [step] in Hg; unfold op_get_mut in Hg; rewrite Hk, Hp in Hg; by gd].
    apply promise_live in Hp as Hl. split; [done|].
    destruct (op_get_mut_effect E n o f s I Hst Hl Hk) as (H1 & H2 & H3).
    assert (∀ u, depends s u o → u = o) as Hno.
    { intros u Hu. destruct (decide (u = o)) as [|Hne]; [done|].
      destruct H1 as [s1 Heq]; [by exists u|]. rewrite Heq in Hg. by gd. }
    split; [done|].
    assert (depends s o o ∨ ¬ depends s o o) as Hdec.
    { pose proof (self_dependent s o d a I Hp). destruct (decide (dep_rel (ch s) a a)); tauto. }
    assert (cached s o = None ∨ depends s o o ∨ (∃ b, cached s o = Some b ∧ ∀ u, ¬ depends s u o)) as Hcase.
    { destruct (cached s o) as [b|]; [|auto]. right. destruct Hdec; [auto|]. right. exists b. split; [done|].
      intros u Hu. assert (u = o) as -> by auto. done. }
    assert (cached s o = None ∨ depends s o o → ∃ s1 s2, Inv s1 ∧ stack s1 = [] ∧ adds [] s s1 ∧ alive s1 = alive s ∧
         cached s1 o = None ∧
         ((¬ depends s o o ∧ same s s1) ∨ (depends s o o ∧ forgets s (eq o) (λ _, False) s1)) ∧
         prims s1 s2 ∧ (s' = s2 ∨ (adds [] s2 s' ∧ writes s2 o f s'))) as Hmiss.
    { intros Hor. destruct (H3 Hno Hor) as (s1 & I1 & Hst1 & Htr & Hal & Hc1 & Hm). 
      assert (∀ s2, (∃ r, get E n HRef o s1 = r ∧ ends r s2) → prims s1 s2) as Hpr.
      { intros s2 (r & <- & He). by eapply get_prims; [apply (i_wf _ I1)|]. }
      cbn [step] in Hm, Hg. destruct (get E n HRef o s1) as [r s2|k s2| |] eqn:Hq;
        [| |rewrite Hm in Hg; gd..].
      - exists s1, s2. do 4 (split; [done|]). split.
        { destruct Hc1 as [[Hd Hs]|[Hd Hf]].
          - rewrite (fg_kept _ _ _ _ Hs) by tauto. tauto.
          - by apply (fg_gone _ _ _ _ Hf). }
        split; [done|]. split; [apply Hpr; eexists; split; [done|left; eauto]|].
        destruct r as [b|v|e].
        + left. rewrite Hm in Hg. by gd.
        + destruct Hm as (s3 & Heq & Hw & Ht). rewrite Heq in Hg.
          destruct Hg as [[r [= _ <-]]|(? & ? & ?)]; [|done]. auto.
        + left. rewrite Hm in Hg. by gd.
      - exists s1, s2. do 4 (split; [done|]). split.
        { destruct Hc1 as [[Hd Hs]|[Hd Hf]].
          - rewrite (fg_kept _ _ _ _ Hs) by tauto. tauto.
          - by apply (fg_gone _ _ _ _ Hf). }
        split; [done|]. split; [apply Hpr; eexists; split; [done|right; eauto]|].
        left. rewrite Hm in Hg. by gd. }
    destruct Hcase as [?|[?|(b & Hb & Hnd)]]; [right; auto..|].
    left. destruct (H2 b Hnd Hb) as (s1 & Heq & Hw & Ht). rewrite Heq in Hg.
    destruct Hg as [[r [= _ <-]]|(? & ? & ?)]; [|done]. done.
  - cbn [step] in Hg. destruct (promise o s) as [[d a]|] eqn:Hp; [|by gd].
    destruct (how_legal E h); [|by gd]. rewrite (lookup_art_ok _ o s d a I Hp) in Hg.
    destruct (artifacts (ch s) !! a); by gd.
  - destruct (e_kind E) eqn:Hk; [cbn [step] in Hg; unfold op_lookup_mut in Hg; rewrite Hk in Hg; by gd|].
    destruct (promise o s) as [[d a]|] eqn:Hp;
      [|cbn [step] in Hg; unfold op_lookup_mut in Hg; rewrite Hk, Hp in Hg; by gd].
    apply promise_live in Hp as Hl. split; [done|].
    destruct (op_lookup_mut_effect E n o f s I Hst Hl Hk) as (H1 & H2 & H3).
    assert (∀ u, depends s u o → u = o) as Hno.
    { intros u Hu. destruct (decide (u = o)) as [|Hne]; [done|].
      destruct H1 as [s1 Heq]; [by exists u|]. rewrite Heq in Hg. by gd. }
    split; [done|]. split.
    { cbn [step] in Hg. unfold op_lookup_mut in Hg. rewrite Hk, Hp in Hg.
      destruct (lookup_mut _ _ _ _ _) as [[c|k c|] [k'| |b]]; destruct Hg as [[r [= _ <-]]|(? & [= _ <-] & ?)]; done. }
    assert (depends s o o ∨ ¬ depends s o o) as [Hd|Hd].
    { pose proof (self_dependent s o d a I Hp). destruct (decide (dep_rel (ch s) a a)); tauto. }
    + right. split; [done|]. destruct H3 as (s1 & Heq & Hf); [intros u; split; [auto|by intros ->]|].
      rewrite Heq in Hg. destruct Hg as [[r [= _ <-]]|(? & ? & ?)]; [|done]. done.
    + left. split; [done|]. destruct H2 as (s1 & Heq & Hf); [intros u Hu; assert (u = o) as -> by auto; done|].
      rewrite Heq in Hg. destruct Hg as [[r [= _ <-]]|(? & ? & ?)]; [|done]. done.
  - destruct (promise o s) as [[d a]|] eqn:Hp; [|cbn [step] in Hg; rewrite Hp in Hg; by gd].
    apply promise_live in Hp as Hl. split; [done|].
    assert (adds [] s s') as Ht.
    { cbn [step] in Hg. rewrite Hp in Hg.
      destruct (ensure_dyn_state _ _ _ _ _) as [c [k|v]]; destruct Hg as [[r [= _ <-]]|(? & [= _ <-] & ?)]; done. }
    pose proof (dyn_state_effect E n o s I Hl) as He.
    destruct (state_of s o) as [v|] eqn:Hv.
    + rewrite He in Hg. gd. auto.
    + right. split; [done|]. destruct (initial s o); destruct He as (s1 & Heq & Hss); rewrite Heq in Hg; by gd.
  - destruct (promise o s) as [[d a]|] eqn:Hp; [|cbn [step] in Hg; rewrite Hp in Hg; by gd].
    apply promise_live in Hp as Hl. split; [done|].
    assert (adds [EInvalidate o] s s') as Ht.
    { cbn [step] in Hg. rewrite Hp in Hg.
      destruct (invalidate_ok (e_dbg E) (prio E s 0) a (ch s) (ci_sync _ _ (i_c _ I))) as (C & c' & Heq & _).
      rewrite Heq in Hg.
      destruct (ensure_dyn_state _ _ _ _ _) as [c [k|v]]; destruct Hg as [[r [= _ <-]]|(? & [= _ <-] & ?)]; done. }
    destruct (dyn_state_mut_effect E n o f s I Hst Hl) as (s1 & s2 & Hf & Hm). exists s1.
    split; [done|]. split; [done|].
    destruct (match state_of s o with Some v => Some v | None => initial s o end) as [v|];
      destruct Hm as [Heq Hss]; rewrite Heq in Hg; by gd.
  - cbn [step] in Hg. destruct (promise o s) as [[d a]|] eqn:Hp; [|by gd].
    apply promise_live in Hp as Hl. pose proof (get_dyn_state_effect E n o s I Hl) as He.
    cbn [step] in He. rewrite Hp in He. rewrite He in Hg. gd. auto.
  - destruct (promise o s) as [[d a]|] eqn:Hp; [|cbn [step] in Hg; rewrite Hp in Hg; by gd].
    apply promise_live in Hp as Hl. split; [done|].
    destruct (invalidate_effect E n o s I Hl) as (s1 & Heq & Hf). rewrite Heq in Hg.
    assert (s1 = s') as -> by (by gd). split; [done|].
    cbn [step] in Heq. rewrite Hp in Heq. destruct (invalidate_by_id _ _ _ _); cbn in Heq; try done.
    injection Heq as <-. done.
  - destruct (promise o s) as [[d a]|] eqn:Hp; [|cbn [step] in Hg; rewrite Hp in Hg; by gd].
    apply promise_live in Hp as Hl. split; [done|].
    destruct (purge_effect E n o s I Hl) as (s1 & Heq & Hf). rewrite Heq in Hg.
    assert (s1 = s') as -> by (by gd). split; [done|].
    cbn [step] in Heq. rewrite Hp in Heq. destruct (purge _ _ _ _); cbn in Heq; try done.
    injection Heq as <-. done.
  - destruct (clear_artifacts_effect E n s) as [Heq Hf]. rewrite Heq in Hg.
    destruct Hg as [[r [= _ <-]]|(? & ? & ?)]; done.
  - destruct (clear_all_effect E n s) as [Heq Hf]. rewrite Heq in Hg.
    destruct Hg as [[r [= _ <-]]|(? & ? & ?)]; done.
  - destruct Hg as [[r Heq]|(k & Heq & Hk)].
    + left. destruct (gc_done_effect E n s r s' I Heq) as [_ Hf]. split; [exact Hf|].
      cbn [step] in Heq. destruct (garbage_collection _ _ _ _); cbn in Heq; try done. by injection Heq as _ <-.
    + right. destruct (step_panic E n OGc s k s' I Hst Heq) as [[-> _]|[(_ & _ & -> & _)|[(? & ? & ? & ? & [?|?] & _) _]]]; try done.
      exfalso. destruct (gc_ok (e_dbg E) (prio E s) (alive s) (objs s) (ch s) (i_c _ I)) as [Hok Hno].
      cbn [step] in Heq. destruct (decide (leafs (ch s) ⊆ dom (known (ch s)))) as [Hsub|Hsub].
      * destruct (Hok Hsub) as (D & c' & Heq' & _). rewrite Heq' in Heq. done.
      * rewrite (Hno Hsub) in Heq. done.
  - cbn [step] in Hg. destruct (promise o s) as [[d a]|] eqn:Hp; by gd.
  - cbn [step] in Hg. by gd.
Qed.
End StepFacts.
