(** Lemmas behind Props2.v. *)
From Verif Require Export LogFacts.
From stdpp Require Import relations.

Section Facts2.
Context (E : env).
Notation prim := (prim E).
Notation prims := (rtc prim).

(** ** Panics *)
Lemma panic_cases s n x k s' :
  Inv s → stack s = [] → step E n x s = Panic k s' →
  k = PkUser ∨ (x = OGc ∧ k = PkGcIndex) ∨
  (∃ o f, (x = OGetMut o f ∨ x = OLookupMut o f) ∧ k = PkCounterpart ∧ ∃ u, u ≠ o ∧ depends s u o).
Proof.
  intros I Hst Hs.
  destruct (step_panic E n x s k s' I Hst Hs) as [[-> _]|[(-> & -> & _)|[(o & f & d & a & Hx & Hp & Hy) ->]]]; [auto..|].
  right. right. exists o, f. split_and!; [done..|]. by apply (other_dependent s o d a I Hp).
Qed.

Definition calm_st (s : st) : Prop := ∀ o d a, objs s !! o = Some (d, a) → calm_bdef d.
Definition calm_out {A} (x : outcome A) : Prop :=
  match x with Done _ s => calm_st s | Panic k _ => k ≠ PkUser | _ => True end.

Lemma alloc_calm d s o s' : alloc E d s = Some (o, s') → calm_bdef d → calm_st s → calm_st s'.
Proof.
  intros (-> & -> & _)%alloc_Some Hd Hs o' d' a'; cbn. rewrite lookup_insert_Some.
  intros [[_ [= <- _]]|[_ H]]; [done|by eapply Hs].
Qed.

Section bld.
Context (bld : obj → st → outcome bres) (Hb : ∀ o s, calm_st s → calm_out (bld o s)).
Lemma get_with_calm h o s : calm_st s → calm_out (get_with E bld h o s).
Proof.
  intros Hs. unfold get_with. destruct (promise o s) as [[d a]|]; [|done]. destruct (how_legal E h); [|done].
  unfold lookup_art. destruct (artifacts _ !! a).
  - destruct (_ && _); [done|]. by destruct (_ =? _)%N.
  - specialize (Hb o s Hs). destruct (bld o s) as [[e|e] s1|k s1| |]; cbn in *; try done.
    by destruct (_ =? _)%N.
Qed.
Lemma resolve_with_calm u ua h w s : calm_st s → calm_out (resolve_with E bld u ua h w s).
Proof.
  intros Hs. unfold resolve_with. destruct (promise w s) as [[d a]|]; [|done].
  unfold track_dependency. destruct (_ && _); [done|].
  set (s1 := log _ _). pose proof (get_with_calm h w s1 Hs) as H. by destruct (get_with E bld h w s1).
Qed.
Lemma my_state_calm dbg ua t c k : my_state dbg ua t c = inl k → k ≠ PkUser.
Proof. unfold my_state. destruct (_ && _); [by intros [= <-]|]. destruct (dyn_states c !! ua); [destruct (_ =? _)%N|]; by intros [= <-]. Qed.
Lemma exec_calm u ua t p : ∀ s, calm_prog p → calm_st s → calm_out (exec E bld u ua t p s).
Proof.
  induction p as [r| |h w k IH|k IH|v p IH|k IH|v k IH|d k IH|w p IH] using prog_ind;
    intros s Hp Hs; cbn [exec calm_prog] in *; try done.
  - pose proof (resolve_with_calm u ua h w s Hs) as H. destruct (resolve_with E bld u ua h w s); try done.
    by apply IH.
  - destruct (my_state _ _ _ _) eqn:Hm; [by apply my_state_calm in Hm|by apply IH].
  - destruct (my_state _ _ _ _) eqn:Hm; [by apply my_state_calm in Hm|by apply IH].
  - by apply IH.
  - by apply IH.
  - destruct Hp as [Hd Hp]. destruct (alloc E d s) as [[o s']|] eqn:Ha; [|done]. apply IH; [done|].
    by eapply alloc_calm.
  - destruct (drop_obj w s) as [s'|] eqn:Hd; [|done]. apply drop_Some in Hd as (_ & _ & ->). by apply IH.
Qed.
End bld.
Lemma build_calm n : ∀ o s, calm_st s → calm_out (build E n o s).
Proof.
  induction n as [|n IH]; intros o s Hs; cbn [build]; [done|].
  destruct (promise o s) as [[[aty sty init body] a]|] eqn:Hp; [|done].
  apply promise_Some in Hp as [_ Ho]. destruct (Hs _ _ _ Ho) as [Hi Hbody].
  destruct (_ && _); [done|].
  destruct (ensure_dyn_state a o sty init (make_known a o (ch s))) as [c2 [k|v]] eqn:He.
  - unfold ensure_dyn_state in He. destruct (dyn_states _ !! a); [destruct (_ =? _)%N|destruct init]; try done.
    injection He as <- <-. done.
  - set (s1 := log _ _). pose proof (exec_calm (build E n) IH o a sty body s1 Hbody Hs) as H.
    destruct (exec E (build E n) o a sty body s1) as [[b|e] s2|k s2| |]; try done.
    cbn [artifacts set_artifacts]. by rewrite lookup_insert.
Qed.

Lemma ensure_calm a o t i c c' k : i ≠ None → ensure_dyn_state a o t i c = (c', inl k) → k ≠ PkUser.
Proof.
  unfold ensure_dyn_state. intros Hi. destruct (dyn_states _ !! a); [destruct (_ =? _)%N|destruct i]; try done.
  by intros [= _ <-].
Qed.
Lemma invalidate_calm dbg pr a c k c' : sync c → invalidate_by_id dbg pr a c = CPanic k c' → False.
Proof. intros Hs Heq. destruct (invalidate_ok dbg pr a c Hs) as (C & c1 & Heq1 & _). congruence. Qed.
Lemma step_calm n x s : Inv s → stack s = [] → calm_op s x → calm_st s → calm_out (step E n x s).
Proof.
  intros I Hst Hx Hs. destruct (step E n x s) as [r s'|k s'| |] eqn:Heq; try done; cbn.
  - pose proof (step_effect E n x s s' I Hst) as He. unfold goes in He. rewrite Heq in He. specialize (He ltac:(eauto)).
    destruct x as [d|o|h o|o f|h o|o f|o|o f|o|o|o| | | |o| ]; cbn [effect_of step] in *;
      try (intros o' d' a' Ho'; eapply Hs; destruct_and?;
           repeat match goal with H : _ ∨ _ |- _ => destruct H end; destruct_and?; subst;
           match goal with H : forgets _ _ _ _ |- _ => by rewrite <- (fg_objs _ _ _ _ H) | H : sets_state _ _ _ _ |- _ => by rewrite <- (ss_objs _ _ _ _ H)
             | H : writes _ _ _ _ |- _ => by rewrite <- (wr_objs _ _ _ _ H) | _ => done end).
    + destruct (alloc E d s) as [[o s1]|] eqn:Ha; [|done]. injection Heq as _ <-. by eapply alloc_calm.
    + destruct (drop_obj o s) as [s1|] eqn:Ha; [|done]. injection Heq as _ <-. apply drop_Some in Ha as (_ & _ & ->). done.
    + pose proof (get_with_calm (build E n) (build_calm n) h o s Hs) as H. unfold get in Heq.
      destruct (get_with E (build E n) h o s); try done. by injection Heq as _ <-.
    + unfold op_get_mut in Heq. destruct (e_kind E); [done|]. destruct (promise o s) as [[d a]|]; [|done].
      destruct (lookup_mut _ _ _ _ _) as [[c|k c|] lr]; [|done..]. destruct lr as [k| |b]; [done| |].
      * pose proof (build_calm n o (tock (set_ch c s)) Hs) as H.
        destruct (build E n o (tock (set_ch c s))) as [[e|e] s2|k s2| |]; try done.
        -- destruct (_ =? _)%N; [|done]. injection Heq as _ <-. exact H.
        -- injection Heq as _ <-. exact H.
      * destruct (lookup_mut _ _ _ _ _) as [[c1|k c1|] lr]; [|done..]. destruct lr as [k| |b']; [done..|].
        injection Heq as _ <-. exact Hs.
    + destruct He as (_ & s1 & Hf & _ & Hss). intros o' d' a'. rewrite (ss_objs _ _ _ _ Hss), (fg_objs _ _ _ _ Hf). apply Hs.
  - destruct (step_panic E n x s k s' I Hst Heq) as [[-> _]|[(-> & -> & _)|[_ ->]]]; [|done..]. exfalso.
    destruct x as [d|o|h o|o f|h o|o f|o|o f|o|o|o| | | |o| ]; cbn [step] in Heq; try done.
    + by destruct (alloc E d s) as [[o s1]|].
    + by destruct (drop_obj o s) as [s1|].
    + pose proof (get_with_calm (build E n) (build_calm n) h o s Hs) as H. unfold get in Heq.
      destruct (get_with E (build E n) h o s); try done. injection Heq as -> ->. done.
    + unfold op_get_mut in Heq. destruct (e_kind E); [done|]. destruct (promise o s) as [[d a]|] eqn:Hp; [|done].
      destruct (lookup_mut_ok (e_dbg E) (prio E s) o s d a I Hp) as [H1 H2].
      destruct (other_dependent_dec (ch s) a) as [Hex|Hno]; [destruct (H1 Hex) as [c' Hc']; rewrite Hc' in Heq; done|].
      destruct (H2 Hno) as (c & Hid & HC & Hkn & Hlm). rewrite Hlm in Heq.
      destruct (artifacts c !! a) as [e|] eqn:Hae.
      * assert (Inv (tock (set_ch c s))) as I1.
        { apply Inv_tock, Inv_set_ch; [done..|]. intros a' o'. rewrite Hkn. intros Hk. right. by exists a'. }
        destruct (lookup_mut_ok (e_dbg E) (prio E (tock (set_ch c s))) o _ d a I1 Hp) as [H3 H4].
        destruct (other_dependent_dec (ch (tock (set_ch c s))) a) as [Hex|Hno1];
          [destruct (H3 Hex) as [c' Hc']; rewrite Hc' in Heq; done|].
        destruct (H4 Hno1) as (c1 & _ & _ & _ & Hlm1). rewrite Hlm1 in Heq. by destruct (artifacts c1 !! a).
      * pose proof (build_calm n o (tock (set_ch c s)) Hs) as H.
        destruct (build E n o (tock (set_ch c s))) as [[e|e] s2|k s2| |]; try done.
        -- by destruct (_ =? _)%N.
        -- injection Heq as -> ->. done.
    + destruct (promise o s) as [[d a]|]; [|done]. destruct (how_legal E h); [|done].
      unfold lookup_art in Heq. destruct (artifacts _ !! a); [|done]. destruct (_ && _); [done|]. by destruct (_ =? _)%N.
    + unfold op_lookup_mut in Heq. destruct (e_kind E); [done|]. destruct (promise o s) as [[d a]|] eqn:Hp; [|done].
      destruct (lookup_mut_ok (e_dbg E) (prio E s) o s d a I Hp) as [H1 H2].
      destruct (other_dependent_dec (ch s) a) as [Hex|Hno]; [destruct (H1 Hex) as [c' Hc']; rewrite Hc' in Heq; done|].
      destruct (H2 Hno) as (c & Hid & HC & Hkn & Hlm). rewrite Hlm in Heq. by destruct (artifacts c !! a).
    + destruct (promise o s) as [[d a]|] eqn:Hp; [|done]. apply promise_Some in Hp as [_ Ho].
      destruct (ensure_dyn_state a o (bd_sty d) (bd_init d) (ch s)) as [c [k|v]] eqn:He; [|done].
      apply ensure_calm in He; [by injection Heq|]. destruct d. apply (Hs _ _ _ Ho).
    + destruct (promise o s) as [[d a]|] eqn:Hp; [|done]. apply promise_Some in Hp as [_ Ho].
      destruct (invalidate_by_id _ _ _ _) as [c|k c|] eqn:Hi; [|by apply invalidate_calm in Hi; [|apply I]|done].
      destruct (ensure_dyn_state _ _ _ _ _) as [c1 [k|v]] eqn:He; [|done].
      apply ensure_calm in He; [by injection Heq|]. destruct d. apply (Hs _ _ _ Ho).
    + destruct (promise o s) as [[d a]|]; [|done]. unfold get_dyn_state in Heq.
      destruct (dyn_states _ !! a); [|done]. destruct (_ && _); [done|]. by destruct (_ =? _)%N.
    + destruct (promise o s) as [[d a]|]; [|done].
      destruct (invalidate_by_id _ _ _ _) as [c|k c|] eqn:Hi; [done|by apply invalidate_calm in Hi; [|apply I]|done].
    + destruct (promise o s) as [[d a]|] eqn:Hp; [|done].
      destruct (purge_ok (e_dbg E) (prio E s 0) a (ch s) (ci_sync _ _ (i_c _ I))) as (C & c' & Heq' & _).
      by rewrite Heq' in Heq.
    + destruct (gc_ok (e_dbg E) (prio E s) (alive s) (objs s) (ch s) (i_c _ I)) as [Hok Hno].
      destruct (decide (leafs (ch s) ⊆ dom (known (ch s)))) as [Hsub|Hsub].
      * destruct (Hok Hsub) as (D & c' & Heq' & _). by rewrite Heq' in Heq.
      * by rewrite (Hno Hsub) in Heq.
    + by destruct (promise o s) as [[d a]|].
Qed.
Lemma calm_reach s : reach_by E calm_op s → calm_st s.
Proof.
  intros [l Hr]. refine (runs_inv E calm_op calm_st init_st l s Inv_init eq_refl _ _ Hr); [done|].
  intros n x s1 s2 I1 Hst1 H1 Hf Hg. pose proof (step_calm n x s1 I1 Hst1 Hf H1) as H.
  destruct Hg as [[r Heq]|(k & Hk & Hres)]; [rewrite Heq in H; exact H|]. rewrite Hk in H.
  destruct (step_panic E n x s1 k s2 I1 Hst1 Hk) as [[-> _]|[(_ & _ & -> & _)|[_ ->]]]; [done|done|done].
Qed.

(** ** Getting known *)
Section kn.
Definition learns (s s' : st) (W : obj → Prop) : Prop :=
  ∃ l, trace s' = l ++ trace s ∧
    ∀ a w, known (ch s') !! a = Some w → known (ch s) !! a = Some w ∨ W w ∨ ∃ u, EResolve u w ∈ l.
Definition learns_out {A} (s : st) (x : outcome A) (W : obj → Prop) : Prop :=
  match x with Done _ s' => learns s s' W | Panic PkUser s' => learns s s' W | _ => True end.

Lemma learns_same s s' W : trace s' = trace s → known (ch s') = known (ch s) → learns s s' W.
Proof. intros Ht Hk. exists []. split; [done|]. rewrite Hk. auto. Qed.
Lemma learns_log s s' e W : learns s s' W → learns s (log e s') W.
Proof.
  intros (l & Hl & H). exists (e :: l). split; [cbn; by rewrite Hl|]. intros a w Hk.
  destruct (H a w Hk) as [?|[?|[u ?]]]; [auto..|]. right. right. exists u. by right.
Qed.
Lemma learns_trans s s1 s2 W W' : learns s s1 W → learns s1 s2 W' → (∀ w, W' w → W w ∨ ∃ u l, trace s1 = l ++ trace s ∧ EResolve u w ∈ l) → learns s s2 W.
Proof.
  intros (l & Hl & H) (l' & Hl' & H') HW. exists (l' ++ l). split; [by rewrite Hl', Hl, app_assoc|].
  intros a w Hk. destruct (H' a w Hk) as [Hk1|[Hw|[u Hu]]].
  - destruct (H a w Hk1) as [?|[?|[u ?]]]; [auto..|]. right. right. exists u. set_solver.
  - destruct (HW w Hw) as [?|(u & l2 & Hl2 & Hin)]; [auto|]. right. right. exists u.
    assert (l2 = l) as -> by (rewrite Hl in Hl2; by apply app_inv_tail in Hl2). set_solver.
  - right. right. exists u. set_solver.
Qed.
Lemma learns_id s W : learns s s W.
Proof. by apply learns_same. Qed.

Context (bld : obj → st → outcome bres) (Hb : ∀ o s, learns_out s (bld o s) (eq o)).
Lemma get_with_learns h o s : learns_out s (get_with E bld h o s) (eq o).
Proof.
  unfold get_with. destruct (promise o s) as [[d a]|]; [|done]. destruct (how_legal E h); [|done].
  unfold lookup_art. destruct (artifacts _ !! a).
  - destruct (_ && _); [done|]. destruct (_ =? _)%N; [apply learns_id|done].
  - specialize (Hb o s). destruct (bld o s) as [[e|e] s1|k s1| |]; cbn in *; try done.
    by destruct (_ =? _)%N.
Qed.
Lemma resolve_with_learns u ua h w s : learns_out s (resolve_with E bld u ua h w s) (λ _, False).
Proof.
  unfold resolve_with. destruct (promise w s) as [[d a]|]; [|done].
  unfold track_dependency. destruct (_ && _); [done|].
  set (s1 := log _ _).
  assert (learns s s1 (λ _, False)) as H01.
  { exists [EResolve u w]. split; [done|]. intros a' w'. cbn. unfold make_known.
    destruct (known (ch s) !! a); cbn; [auto|]. rewrite lookup_insert_Some.
    intros [[_ <-]|[_ ?]]; [|auto]. right. right. exists u. left. }
  assert (∀ s2, learns s1 s2 (eq w) → learns s s2 (λ _, False)) as Htr.
  { intros s2 H. eapply learns_trans; [exact H01|exact H|]. intros w' <-. right. exists u, [EResolve u w]. split; [done|left]. }
  pose proof (get_with_learns h w s1) as H.
  destruct (get_with E bld h w s1) as [r s2|[] s2| |]; try done; cbn in *.
  - apply learns_log. by apply Htr.
  - by apply Htr.
Qed.
Lemma exec_learns u ua t p : ∀ s, learns_out s (exec E bld u ua t p s) (λ _, False).
Proof.
  assert (∀ s s1 (x : outcome result), learns s s1 (λ _, False) → learns_out s1 x (λ _, False) → learns_out s x (λ _, False)) as Htr.
  { intros s s1 [r s2|[] s2| |] H H'; cbn in *; try done; (eapply learns_trans; [exact H|exact H'|done]). }
  induction p as [r| |h w k IH|k IH|v p IH|k IH|v k IH|d k IH|w p IH] using prog_ind;
    intros s; cbn [exec] in *; try (by apply learns_id).
  - pose proof (resolve_with_learns u ua h w s) as H. destruct (resolve_with E bld u ua h w s) as [r s1|k' s1| |]; try done.
    cbn in H. eapply Htr; [exact H|]. apply IH.
  - destruct (my_state _ _ _ _) as [k'|v] eqn:Hm; [|by apply IH]. cbn. destruct k'; try done. by apply my_state_calm in Hm.
  - destruct (my_state _ _ _ _) as [k'|v'] eqn:Hm; [cbn; destruct k'; try done; by apply my_state_calm in Hm|].
    eapply Htr; [|apply IH]. by apply learns_same.
  - eapply Htr; [|apply IH]. by apply learns_same.
  - eapply Htr; [|apply IH]. by apply learns_same.
  - destruct (alloc E d s) as [[o s']|] eqn:Ha; [|done]. apply alloc_Some in Ha as (-> & -> & _).
    eapply Htr; [|apply IH]. by apply learns_same.
  - destruct (drop_obj w s) as [s'|] eqn:Hd; [|done]. apply drop_Some in Hd as (_ & _ & ->).
    eapply Htr; [|apply IH]. by apply learns_same.
Qed.
End kn.
Lemma make_known_learn a o c a' w : known (make_known a o c) !! a' = Some w → known c !! a' = Some w ∨ o = w.
Proof.
  unfold make_known. destruct (known c !! a); [auto|]. cbn. rewrite lookup_insert_Some.
  intros [[_ <-]|[_ ?]]; auto.
Qed.
Lemma ensure_learn a o t i c c' r a' w : ensure_dyn_state a o t i c = (c', r) →
  known c' !! a' = Some w → known c !! a' = Some w ∨ o = w.
Proof.
  unfold ensure_dyn_state.
  destruct (dyn_states _ !! a); [destruct (_ =? _)%N|destruct i]; intros [= <- <-]; apply make_known_learn.
Qed.
Lemma build_learns n : ∀ o s, learns_out s (build E n o s) (eq o).
Proof.
  induction n as [|n IH]; intros o s; cbn [build]; [done|].
  destruct (promise o s) as [[[aty sty init body] a]|] eqn:Hp; [|done].
  destruct (_ && _); [done|].
  destruct (ensure_dyn_state a o sty init (make_known a o (ch s))) as [c2 r] eqn:He.
  assert (∀ a' w, known c2 !! a' = Some w → known (ch s) !! a' = Some w ∨ o = w) as Hk.
  { intros a' w H. eapply ensure_learn in H as [H|H]; [|by right|exact He]. by apply make_known_learn in H. }
  destruct r as [k|v].
  { assert (learns s (set_ch c2 s) (eq o)); [|by destruct k]. exists []. split; [done|].
    intros a' w' H. destruct (Hk a' w' H); auto. }
  set (s1 := log _ _).
  assert (learns s s1 (eq o)) as H01.
  { exists [ECall o]. split; [done|]. intros a' w' H. destruct (Hk a' w' H); auto. }
  assert (∀ s2, learns s1 s2 (λ _, False) → learns s s2 (eq o)) as Htr.
  { intros s2 H. eapply learns_trans; [exact H01|exact H|]. done. }
  pose proof (exec_learns (build E n) IH o a sty body s1) as H.
  destruct (exec E (build E n) o a sty body s1) as [[b|e] s2|k s2| |]; try done; cbn in H.
  - apply Htr in H. cbn [artifacts set_artifacts]. rewrite lookup_insert. cbn.
    apply (learns_log s s2 (EBuilt o b)) in H. exact H.
  - apply Htr in H. apply (learns_log s s2 (EFailed o e)) in H. exact H.
  - destruct k; try done. by apply Htr.
Qed.

Lemma get_learns n h o s s' l :
  Inv s → stack s = [] → goes (step E n (OGet h o) s) s' → trace s' = l ++ trace s →
  ∀ w, knows s' w ↔ knows s w ∨ w = o ∨ ∃ u, EResolve u w ∈ l.
Proof.
  intros I Hst Hg Hl w.
  pose proof (step_effect E n _ s s' I Hst Hg) as Hpr. cbn [effect_of] in Hpr.
  assert (Inv s') as I' by (by eapply prims_Inv).
  split.
  - intros (d & a & Ho & Hk).
    assert (learns s s' (eq o)) as (l' & Hl' & H).
    { unfold goes in Hg. cbn [step] in Hg. unfold get in Hg.
      pose proof (get_with_learns (build E n) (build_learns n) h o s) as H.
      destruct (get_with E (build E n) h o s) as [r s1|k s1| |] eqn:Hgw; [gd; exact H| |by gd..].
      + destruct Hg as [[? ?]|(k' & [= <- <-] & Hres)]; [done|].
        assert (k = PkUser) as -> by (by eapply (get_user E n h o s I)). exact H. }
    assert (l' = l) as -> by (rewrite Hl in Hl'; by apply app_inv_tail in Hl').
    destruct (H a w Hk) as [Hk0|[<-|?]]; [|auto..]. left.
    destruct (knows_known s a w I Hk0) as (? & _ & ?). done.
  - intros [Hk|[->|[u Hu]]].
    + eapply prims_knows; [exact I|exact Hpr|done].
    + unfold goes in Hg. cbn [step] in Hg. unfold get, get_with in Hg.
      destruct (promise o s) as [[d a]|] eqn:Hp; [|by gd]. destruct (how_legal E h); [|by gd].
      rewrite (lookup_art_ok _ o s d a I Hp) in Hg. 
      destruct (artifacts (ch s) !! a) as [e|] eqn:Hae.
      * gd. apply (live_knows _ o d a I Hp). apply (ci_dyn_known _ _ (i_c _ I)), (ci_art_dyn _ _ (i_c _ I)). eauto.
      * assert (∃ x, ends x s' ∧ x = build E n o s) as (x & Hx & ->).
        { destruct (build E n o s) as [[e|e] s1|k s1| |]; try (by gd).
          - destruct (_ =? _)%N; gd. exists (Done (BOk e) s'). split; [left; eauto|done].
          - gd. eexists. split; [left; eauto|done].
          - destruct Hg as [[? ?]|(k' & [= <- <-] & Hres)]; [done|]. eexists. split; [right; eauto|done]. }
        clear Hg. destruct n as [|n]; cbn [build] in Hx; [by destruct Hx as [[? ?]|[? ?]]|].
        rewrite Hp in Hx. destruct d as [aty sty init body].
        destruct (_ && _) eqn:Hdb.
        { unfold contains_artifact in Hdb. rewrite Hae, andb_true_iff, bool_decide_eq_true in Hdb.
          destruct Hdb as [_ [? ?]]. done. }
        destruct (ensure_dyn_state a o sty init (make_known a o (ch s))) as [c2 r] eqn:He.
        destruct (ensure_prims E o s (BDef aty sty init body) a c2 r Hp He) as (P1 & Pa & [o' Pk] & Pd).
        assert (Inv (set_ch c2 s)) as I2 by (by eapply prims_Inv).
        assert (o' = o) as -> by (exact (Inv_known_is (set_ch c2 s) o _ a o' I2 Hp Pk)).
        apply promise_Some in Hp as Hp'. destruct Hp' as [_ Ho].
        destruct r as [k|v].
        { destruct Hx as [[? ?]|[? [= <- <-]]]; [done|]. eexists _, a. split; [exact Ho|done]. }
        set (s1 := log _ _) in Hx.
        assert (prims s s1) as P01.
        { eapply rtc_r; [exact P1|]. eapply (pm_push E (set_ch c2 s)); eauto. cbn. congruence. }
        assert (Inv s1) as I1 by (by eapply prims_Inv).
        assert (knows s1 o) as Hk1 by (eexists _, a; split; [exact Ho|done]).
        pose proof (exec_prims E (build E n) o (BDef aty sty init body) a (stack s) (build_bld_ok E n) body s1
          (i_wf _ I1) eq_refl Ho) as [X1 _]. cbn [bd_sty] in X1.
        assert (∀ s2, ends (exec E (build E n) o a sty body s1) s2 → knows s2 o) as Hk2.
        { intros s2 Hs2. eapply prims_knows; [exact I1|by apply X1|done]. }
        destruct (exec E (build E n) o a sty body s1) as [[b|e] s2|k s2| |]; 
          [|..|by destruct Hx as [[? ?]|[? ?]]|by destruct Hx as [[? ?]|[? ?]]].
        -- assert (knows s2 o) as Hk' by (apply Hk2; left; eauto).
           cbn [artifacts set_artifacts] in Hx. rewrite lookup_insert in Hx.
           destruct Hx as [[? [= <- <-]]|[? ?]]; [|done]. exact Hk'.
        -- assert (knows s2 o) as Hk' by (apply Hk2; left; eauto).
           destruct Hx as [[? [= <- <-]]|[? ?]]; [|done]. exact Hk'.
        -- destruct Hx as [[? ?]|[? [= <- <-]]]; [done|]. apply Hk2; right; eauto.
    + assert (depends s' u w) as Hd by (apply (prims_depends E s s' l u w I Hpr Hl); by right).
      by apply depends_knows in Hd as [_ ?].
Qed.

End Facts2.
