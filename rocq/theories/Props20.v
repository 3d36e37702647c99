(** Properties: all adversities at once (C53): other threads, a doctor that panics,
    [init_dyn_state] that answers as it likes or panics, builders that catch panics,
    [Drop] code that panics.  Vocabulary: Spec.v; the calls, and the histories
    [stormy]: Storm.v. *)
From Verif Require Import StormStep Props15 Facts3 Demo.
From stdpp Require Import relations.

(** ** The model *)

(** With just a doctor it is the model of Watched.v, and in calm weather that of
    System.v. *)
Definition doctored (J : list event → bool) : weather := Weather nobody J (λ _ _ d, bd_init d) (λ _ _ _, None).

Lemma meanwhile_nobody {R} E B s (k : st → outcome R) : meanwhile E nobody B s k = k s.
Proof. reflexivity. Qed.
Lemma get_doctored J E b1 b2 h o s :
  (∀ o s, b1 o s = b2 o s) → get_s (doctored J) E b1 h o s = get_with E b2 h o s.
Proof.
  intros Hb. unfold get_s, get_with. destruct (promise o s) as [[d a]|]; [|done]. destruct (how_legal E h); [|done].
  cbn [w_others doctored]. rewrite meanwhile_nobody. by rewrite Hb.
Qed.
Lemma exec_doctored J E b1 b2 u ua t :
  (∀ o s, b1 o s = b2 o s) → ∀ p s, exec_s (doctored J) E b1 u ua t p s = exec_d J E b2 u ua t p s.
Proof.
  intros Hb p. induction p as [r| |h w k IH|k IH|v p IH|k IH|v k IH|d k IH|w p IH]; intros s; cbn [exec_s exec_d w_others doctored];
    rewrite meanwhile_nobody; try done.
  - unfold resolve_s, resolve_d. destruct (promise w s) as [[d wa]|]; [|done].
    destruct (track_dependency _ _ _ _ _) as [c|k0 c|]; [|done..]. cbv zeta. unfold jinx. cbn [w_doctor doctored].
    change (trace (log (EResolve u w) (set_ch c s))) with (EResolve u w :: trace (set_ch c s)).
    destruct (J (EResolve u w :: trace (set_ch c s))); [done|].
    rewrite (get_doctored J E b1 b2) by done. destruct (get_with _ _ _ _ _) as [r s1|k1 s1| |]; try done.
  - destruct (my_state _ _ _ _); [done|]. apply IH.
  - destruct (my_state _ _ _ _); [done|]. apply IH.
  - destruct (alloc E d s) as [[o s1]|]; [|done]. apply IH.
  - destruct (drop_obj w s); [|done]. apply IH.
Qed.
Lemma build_doctored J E n : ∀ o s, build_s (doctored J) E n o s = build_d J E n o s.
Proof.
  induction n as [|n IH]; intros o s; cbn [build_s build_d w_others doctored]; [done|].
  destruct (promise o s) as [[[aty sty init body] a]|]; [|done]. rewrite meanwhile_nobody. cbn [bd_aty bd_sty bd_init bd_body w_init].
  destruct (_ && _); [done|]. cbv zeta. destruct (ensure_dyn_state _ _ _ _ _) as [c2 [k|v]]; [done|].
  rewrite (exec_doctored J E _ _ o a sty IH). reflexivity.
Qed.
Theorem C53_doctor J E n x s : step_s (doctored J) E n x s = step_d J E n x s.
Proof.
  unfold step_s. cbn [w_others doctored]. rewrite meanwhile_nobody.
  destruct x as [d|o|h o|o f|h o|o f|o|o f|o|o|o| | | |o| ]; cbn [call_s step_d]; try reflexivity.
  - rewrite (get_doctored J E _ _ h o s (build_doctored J E n)). reflexivity.
  - unfold get_mut_s, get_mut_d. destruct (e_kind E); [done|]. destruct (promise o s) as [[d a]|]; [|done].
    destruct (lookup_mut _ _ _ _ _) as [[c|k c|] [k'| |b]]; try done. by rewrite build_doctored.
  - cbn [w_others doctored]. pose proof (C48_sequential E n OGc s) as H. exact H.
Qed.
Print Assumptions C53_doctor.
Theorem C53_model E n x s : stormy E s → step_s calm E n x s = step E n x s.
Proof.
  intros (I & _)%stormy_good. change calm with (doctored (λ _, false)). rewrite C53_doctor. apply step_d_none; [done|by apply i_wf].
Qed.
Print Assumptions C53_model.

(** ** A turn of the others changes nothing in the cache *)
Lemma turned_obs E B s s1 :
  Inv s → turned E B s s1 →
  (∀ o, cached s1 o = cached s o) ∧ (∀ o, state_of s1 o = state_of s o) ∧ (∀ o, knows s1 o ↔ knows s o) ∧
  (∀ u w, depends s1 u w ↔ depends s u w) ∧ trace s1 = trace s.
Proof.
  intros I T1. assert (∀ o, knows s1 o ↔ knows s o) as Hk by (intros o; exact (turned_knows E B s s1 o I T1)).
  split_and!; [| |done|intros u w; exact (turned_depends E B s s1 u w I T1)|apply T1].
  - intros o. destruct (knows_dec s o) as [(d & a & Ho & Hko)|Hn].
    + rewrite (cached_at s o d a Ho Hko), (cached_at s1 o d a), (tu_ch _ _ _ _ T1); [done| |by rewrite (tu_ch _ _ _ _ T1)].
      exact (tu_objs _ _ _ _ T1 _ _ Ho).
    + rewrite !cached_unknown; [done|done|by rewrite Hk].
  - intros o. destruct (knows_dec s o) as [(d & a & Ho & Hko)|Hn].
    + rewrite (state_at s o d a Ho Hko), (state_at s1 o d a), (tu_ch _ _ _ _ T1); [done| |by rewrite (tu_ch _ _ _ _ T1)].
      exact (tu_objs _ _ _ _ T1 _ _ Ho).
    + rewrite !state_unknown; [done|done|by rewrite Hk].
Qed.
Lemma affected_same s s1 o w : (∀ u w, depends s1 u w ↔ depends s u w) → affected s1 o w ↔ affected s o w.
Proof. intros H. unfold affected. split; intros Ha; (eapply rtc_subrel; [|exact Ha]); intros x y Hd; by apply H. Qed.

(** ** The calls *)

(** The panics: user code's ([PkUser]), and those of calm weather. *)
Theorem C53_panics W E s n x k s' :
  stormy E s → step_s W E n x s = Panic k s' →
  k = PkUser ∨ (x = OGc ∧ k = PkGcIndex) ∨
  (∃ o f, (x = OGetMut o f ∨ x = OLookupMut o f) ∧ k = PkCounterpart ∧ ∃ u, u ≠ o ∧ depends s u o).
Proof.
  intros (I & Hst & _)%stormy_good Hs. destruct (step_s_turn E W n x s _ I Hst Hs) as (s1 & T1 & I1 & Hst1 & Hc); [done|].
  destruct (turned_obs E _ _ _ I T1) as (_ & _ & _ & Hd & _).
  assert (step E n x s1 = Panic k s' → k = PkUser ∨ (x = OGc ∧ k = PkGcIndex) ∨
    (∃ o f, (x = OGetMut o f ∨ x = OLookupMut o f) ∧ k = PkCounterpart ∧ ∃ u, u ≠ o ∧ depends s u o)) as Hstep.
  { intros Hp. destruct (panic_cases E s1 n x k s' I1 Hst1 Hp) as [?|[?|(o & f & H1 & H2 & u & H3 & H4)]]; [auto..|].
    right. right. exists o, f. split_and!; [done..|]. exists u. split; [done|]. by apply Hd. }
  assert (ends (call_s W E n x s1) s') as He by (right; eauto).
  pose proof (call_storms W E n x s1 s' I1 Hst1 He) as Hx. rewrite Hc in Hx.
  destruct x as [d|o|h o|o f|h o|o f|o|o f|o|o|o| | | |o| ]; cbn [storms] in Hx; try (by apply Hstep).
  - left. destruct Hx as (_ & Hk & _). by eapply Hk.
  - destruct Hx as [Hx|(s2 & _ & Hk & _)]; [by apply Hstep|left; by eapply Hk].
  - left. destruct Hx as (_ & Hk & _). by eapply Hk.
  - left. destruct Hx as (? & ? & _ & Hk & _). by eapply Hk.
  - destruct Hx as [Hx|[[= ->] _]]; [by apply Hstep|by left].
  - destruct Hx as [Hx|[[= ->] _]]; [by apply Hstep|by left].
  - destruct Hx as [Hx|[[= ->] _]]; [by apply Hstep|by left].
  - right. left. split; [done|]. symmetry in Hx. by destruct (gc_t_panic E _ s1 k s' I1 Hst1 Hx) as [-> _].
Qed.
Print Assumptions C53_panics.

(** [get*], whether it returns or panics: no artifact is lost or replaced, what is
    new was built in this call, the dependencies are those there were and those
    resolved now (also those whose panic was caught); builders not called keep
    their artifact and state. *)
Theorem C53_get W E s n h o s' l :
  stormy E s → ends (step_s W E n (OGet h o) s) s' → trace s' = l ++ trace s →
  (∀ w b, cached s w = Some b → cached s' w = Some b ∧ calls s' w = calls s w) ∧
  (∀ w b, cached s' w = Some b → cached s w = Some b ∨ EBuilt w b ∈ l) ∧
  (∀ u w, depends s' u w ↔ depends s u w ∨ EResolve u w ∈ l) ∧
  (∀ w, calls s' w = calls s w → cached s' w = cached s w) ∧
  (∀ w v, state_of s w = Some v → calls s' w = calls s w → state_of s' w = Some v).
Proof.
  intros (I & Hst & _)%stormy_good He Hl.
  assert (rtc (sprim E) s s') as P.
  { assert (∃ y, step_s W E n (OGet h o) s = y ∧ y ≠ Illegal ∧ ends y s') as (y & Hs & Hy & He').
    { exists (step_s W E n (OGet h o) s). split; [done|]. split; [|done]. by destruct He as [[? ->]|[? ->]]. }
    destruct (step_s_turn E W n _ s y I Hst Hs Hy) as (s1 & T1 & I1 & Hst1 & Hc).
    etrans; [apply prims_sprims, T1|]. rewrite <- Hc in He'. by destruct (call_storms W E n (OGet h o) s1 s' I1 Hst1 He') as (P & _). }
  exact (sprims_leaves E s s' l I Hst P Hl).
Qed.
Print Assumptions C53_get.

(** If it returns, it returns the artifact that is cached now, or the error the
    builder just returned. *)
Theorem C53_get_answer W E s n h o r s' :
  stormy E s → step_s W E n (OGet h o) s = Done (OutRes r) s' →
  live s' o ∧ ((∃ b, cached s' o = Some b ∧ r = conv h b) ∨ (∃ e t, r = RvErr e ∧ trace s' = EFailed o e :: t)).
Proof.
  intros (I & Hst & _)%stormy_good Hs. destruct (step_s_turn E W n _ s _ I Hst Hs) as (s1 & T1 & I1 & Hst1 & Hc); [done|].
  cbn [call_s] in Hc. destruct (get_s_ok E W (build_s W E n) h o s1 (build_s_ok E W n) I1) as [(G1 & _ & _) G4].
  destruct (get_s W E (build_s W E n) h o s1) as [r1 s2|k s2| |] eqn:Hg; try done. injection Hc as <- <-.
  destruct (G4 _ _ eq_refl) as (d & a & Hp & Hor). split; [by eapply promise_live|].
  destruct (G1 s2) as [P _]; [left; eauto|]. pose proof (sprims_Inv E _ _ P I1) as I2.
  destruct Hor as [(e & He & ->)|?]; [left|by right]. exists (ar_bin e). split; [|done].
  by rewrite (live_cached s2 o d a I2 Hp), He.
Qed.
Print Assumptions C53_get_answer.

(** [get*] of an artifact in the cache returns it, and changes nothing. *)
Theorem C53_hit W E s n h o b :
  stormy E s → cached s o = Some b →
  (∀ r s', step_s W E n (OGet h o) s = Done r s' →
     r = OutRes (conv h b) ∧ (∀ o, cached s' o = cached s o) ∧ (∀ o, state_of s' o = state_of s o) ∧ (∀ o, knows s' o ↔ knows s o) ∧
     (∀ u w, depends s' u w ↔ depends s u w) ∧ trace s' = trace s) ∧
  (∀ k s', step_s W E n (OGet h o) s ≠ Panic k s') ∧ step_s W E n (OGet h o) s ≠ NoFuel.
Proof.
  intros (I & Hst & _)%stormy_good Hb.
  assert (step_s W E n (OGet h o) s = Illegal ∨ ∃ s', step_s W E n (OGet h o) s = Done (OutRes (conv h b)) s' ∧
    (∀ o, cached s' o = cached s o) ∧ (∀ o, state_of s' o = state_of s o) ∧ (∀ o, knows s' o ↔ knows s o) ∧
    (∀ u w, depends s' u w ↔ depends s u w) ∧ trace s' = trace s) as [Hs|(s' & Hs & Hx)]; [|rewrite Hs..].
  2: { split_and!; done. }
  2: { split_and!; [|done..]. intros r s'' [= <- <-]. done. }
  unfold step_s, meanwhile. destruct (performs E (borrows (OGet h o)) _ s) as [s1|] eqn:Hp1; [|by left].
  pose proof (performs_turned _ _ _ _ _ I Hp1) as T1. pose proof (prims_Inv E _ _ (tu_prims _ _ _ _ T1) I) as I1.
  destruct (turned_obs E _ _ _ I T1) as (O1 & O2 & O3 & O4 & O5).
  cbn [call_s]. unfold get_s. destruct (promise o s1) as [[d a]|] eqn:Hp; [|by left]. destruct (how_legal E h); [|by left].
  unfold meanwhile. destruct (performs E [o] _ s1) as [s2|] eqn:Hp2; [|by left]. right.
  pose proof (performs_turned _ _ _ _ _ I1 Hp2) as T2. pose proof (prims_Inv E _ _ (tu_prims _ _ _ _ T2) I1) as I2.
  destruct (turned_obs E _ _ _ I1 T2) as (Q1 & Q2 & Q3 & Q4 & Q5).
  pose proof (turned_promise _ _ _ _ _ _ _ T2 Hp (elem_of_list_here _ _)) as Hp'.
  rewrite (lookup_art_ok _ o s2 d a I2 Hp').
  assert (cached s2 o = Some b) as Hb2 by (by rewrite Q1, O1). rewrite (live_cached s2 o d a I2 Hp') in Hb2.
  destruct (artifacts (ch s2) !! a) as [e|] eqn:He; [|done]. injection Hb2 as <-. exists s2. split; [done|].
  split_and!; [intros w; by rewrite Q1|intros w; by rewrite Q2|intros w; by rewrite Q3|intros u w; by rewrite Q4|by rewrite Q5].
Qed.
Print Assumptions C53_hit.

(** [invalidate], whether it returns or panics (the doctor may): exactly the builder
    and what depends on it lose their artifacts. *)
Theorem C53_invalidate W E s n o s' :
  stormy E s → ends (step_s W E n (OInvalidate o) s) s' →
  (∀ w, affected s o w → cached s' w = None) ∧
  (∀ w, ¬ affected s o w → cached s' w = cached s w) ∧
  (∀ w, state_of s' w = state_of s w) ∧ (∀ w, knows s' w ↔ knows s w) ∧
  (∀ u w, depends s' u w ↔ depends s u w ∧ ¬ affected s o u ∧ ¬ affected s o w) ∧
  trace s' = EInvalidate o :: trace s.
Proof.
  intros (I & Hst & _)%stormy_good He.
  assert (∃ s1, turned E [o] s s1 ∧ Inv s1 ∧ stack s1 = [] ∧ ends (call_s W E n (OInvalidate o) s1) s') as (s1 & T1 & I1 & Hst1 & He1).
  { destruct He as [[r Hs]|[k Hs]]; (destruct (step_s_turn E W n _ s _ I Hst Hs) as (s1 & ? & ? & ? & Hc); [done|]); exists s1;
      (split_and!; [done..|]); rewrite Hc; [left; eauto|right; eauto]. }
  destruct (turned_obs E _ _ _ I T1) as (O1 & O2 & O3 & O4 & O5).
  assert (step E n (OInvalidate o) s1 = Done OutUnit s') as Hs.
  { assert (step E n (OInvalidate o) s1 = Illegal ∨ ∃ s2, step E n (OInvalidate o) s1 = Done OutUnit s2) as Hor.
    { destruct (promise o s1) as [[d a]|] eqn:Hp; [right|left; cbn [step]; by rewrite Hp].
      destruct (invalidate_exact E s1 n o I1) as (s2 & ? & _); [by eapply promise_live|by exists s2]. }
    destruct (call_storms W E n (OInvalidate o) s1 s' I1 Hst1 He1) as [Heq|[_ ?]]; [|done].
    rewrite Heq in He1. destruct Hor as [Hor|[s2 Hor]]; rewrite Hor in He1; destruct He1 as [[? ?]|[? ?]]; try done. congruence. }
  assert (live s1 o) as Hl by (revert Hs; cbn [step]; destruct (promise o s1) as [[d a]|] eqn:Hp; [intros _; by eapply promise_live|done]).
  destruct (invalidate_effect E n o s1 I1 Hl) as (s2 & Hs2 & [F1 F2 _ F4 F5 F6 _ _ _]). rewrite Hs in Hs2. injection Hs2 as <-.
  setoid_rewrite (affected_same s s1 o) in F1; [|done]. setoid_rewrite (affected_same s s1 o) in F2; [|done].
  split_and!.
  - done.
  - intros w Hw. by rewrite F2, O1.
  - intros w. rewrite F4, O2; [done|tauto].
  - intros w. rewrite F5, O3. tauto.
  - intros u w. rewrite F6, O4, !(affected_same s s1 o) by done. done.
  - revert Hs. cbn [step]. destruct (promise o s1) as [[d a]|]; [|done]. destruct (invalidate_by_id _ _ _ _); cbn [lift]; [|done..].
    intros [= <-]. cbn. by rewrite O5.
Qed.
Print Assumptions C53_invalidate.

(** [dyn_state]: returns the state; asks [init_dyn_state] only if there is none. *)
Theorem C53_dyn_state W E s n o s' :
  stormy E s → ends (step_s W E n (ODynState o) s) s' →
  (∀ w, cached s' w = cached s w) ∧ (∀ u w, depends s' u w ↔ depends s u w) ∧ trace s' = trace s ∧
  (∀ w, w ≠ o → state_of s' w = state_of s w) ∧
  (∀ v, state_of s o = Some v → step_s W E n (ODynState o) s = Done (OutVal v) s' ∧ state_of s' o = Some v) ∧
  (state_of s o = None →
    (∃ t d v, w_init W t o d = Some v ∧ step_s W E n (ODynState o) s = Done (OutVal v) s' ∧ state_of s' o = Some v) ∨
    (∃ t d, w_init W t o d = None ∧ step_s W E n (ODynState o) s = Panic PkUser s' ∧ state_of s' o = None)).
Proof.
  intros (I & Hst & _)%stormy_good He.
  assert (∃ s1, turned E [o] s s1 ∧ Inv s1 ∧ step_s W E n (ODynState o) s = call_s W E n (ODynState o) s1) as (s1 & T1 & I1 & Heq).
  { destruct He as [[r Hs]|[k Hs]]; (destruct (step_s_turn E W n _ s _ I Hst Hs) as (s1 & ? & ? & ? & Hc); [done|]); exists s1;
      (split_and!; [done..|]); congruence. }
  destruct (turned_obs E _ _ _ I T1) as (O1 & O2 & O3 & O4 & O5). rewrite Heq in *. clear Heq. cbn [call_s] in *.
  destruct (promise o s1) as [[d a]|] eqn:Hp; [|by destruct He as [[? ?]|[? ?]]].
  destruct (ensure_dyn_state a o (bd_sty d) (w_init W (tick s1) o d) (ch s1)) as [c r] eqn:Hen.
  pose proof (ensure_s_sets E o s1 d a _ c r I1 Hp Hen) as Hx. rewrite O2 in Hx.
  assert (∃ z, sets_state s1 o z (set_ch c s1)) as [z [_ S2 _ S4 S5 _ _ _]].
  { destruct (state_of s o) as [v|]; [by destruct Hx as [_ ?]; eauto|]. destruct (w_init W (tick s1) o d); destruct Hx as [_ ?]; eauto. }
  assert (s' = set_ch c s1) as ->.
  { destruct r as [k|v]; destruct He as [[? He]|[? He]]; congruence. }
  split_and!.
  - intros w. by rewrite S4, O1.
  - intros u w. by rewrite S5, O4.
  - cbn. by rewrite O5.
  - intros w Hw. by rewrite S2, O2.
  - intros v Hv. rewrite Hv in Hx. destruct Hx as [-> Hx]. split; [done|]. apply Hx.
  - intros Hn. rewrite Hn in Hx. destruct (w_init W (tick s1) o d) as [v|] eqn:Hi; destruct Hx as [-> Hx]; [left|right].
    + exists (tick s1), d, v. split_and!; [done..|apply Hx].
    + exists (tick s1), d. split_and!; [done..|apply Hx].
Qed.
Print Assumptions C53_dyn_state.

(** [dyn_state_mut], whether it returns or panics: an [invalidate]; if it returns,
    the state is changed by [f], the state being what it was or new. *)
Theorem C53_dyn_state_mut W E s n o f s' :
  stormy E s → ends (step_s W E n (ODynStateMut o f) s) s' →
  (∀ w, affected s o w → cached s' w = None) ∧
  (∀ w, ¬ affected s o w → cached s' w = cached s w) ∧
  (∀ u w, depends s' u w ↔ depends s u w ∧ ¬ affected s o u ∧ ¬ affected s o w) ∧
  (∀ w, w ≠ o → state_of s' w = state_of s w) ∧
  ((∃ v, step_s W E n (ODynStateMut o f) s = Done (OutVal v) s' ∧ state_of s' o = Some (f v) ∧
      (state_of s o = Some v ∨ state_of s o = None ∧ ∃ t d, w_init W t o d = Some v)) ∨
   (step_s W E n (ODynStateMut o f) s = Panic PkUser s' ∧ state_of s' o = state_of s o)).
Proof.
  intros (I & Hst & _)%stormy_good He.
  assert (∃ s1, turned E [o] s s1 ∧ Inv s1 ∧ stack s1 = [] ∧ step_s W E n (ODynStateMut o f) s = call_s W E n (ODynStateMut o f) s1) as (s1 & T1 & I1 & Hst1 & Heq).
  { destruct He as [[r Hs]|[k Hs]]; (destruct (step_s_turn E W n _ s _ I Hst Hs) as (s1 & ? & ? & ? & Hc); [done|]); exists s1;
      (split_and!; [done..|]); congruence. }
  destruct (turned_obs E _ _ _ I T1) as (O1 & O2 & O3 & O4 & O5). rewrite Heq in *. clear Heq. cbn [call_s] in *.
  destruct (promise o s1) as [[d a]|] eqn:Hp; [|by destruct He as [[? ?]|[? ?]]].
  assert (live s1 o) as Hlv by (by eapply promise_live).
  destruct (invalidate_effect E n o s1 I1 Hlv) as (s2 & Hs2 & [F1 F2 _ F4 F5 F6 _ _ _]). pose proof Hs2 as Hs2'.
  cbn [step] in Hs2. rewrite Hp in Hs2. destruct (invalidate_by_id _ _ _ _) as [c|k c|] eqn:Hinv; cbn [lift] in *; try done.
  injection Hs2 as Hs2. rewrite Hs2 in *.
  destruct (step_Inv E n (OInvalidate o) s1 OutUnit s2 I1 Hst1 Hs2') as [I2 Hst2].
  setoid_rewrite (affected_same s s1 o) in F1; [|done]. setoid_rewrite (affected_same s s1 o) in F2; [|done].
  assert (promise o s2 = Some (d, a)) as Hp2 by (by rewrite <- Hs2).
  assert (∀ s3 z, sets_state s2 o z s3 →
    (∀ w, affected s o w → cached s3 w = None) ∧ (∀ w, ¬ affected s o w → cached s3 w = cached s w) ∧
    (∀ u w, depends s3 u w ↔ depends s u w ∧ ¬ affected s o u ∧ ¬ affected s o w) ∧
    (∀ w, w ≠ o → state_of s3 w = state_of s w)) as Hsets.
  { intros s3 z S. split_and!.
    - intros w Hw. rewrite (ss_cached _ _ _ _ S). by apply F1.
    - intros w Hw. rewrite (ss_cached _ _ _ _ S), F2, O1; done.
    - intros u w. rewrite (ss_depends _ _ _ _ S), F6, O4, !(affected_same s s1 o) by done. done.
    - intros w Hw. rewrite (ss_others _ _ _ _ S) by done. rewrite F4, O2; [done|tauto]. }
  assert (state_of s2 o = state_of s o) as Hso by (rewrite F4, O2; [done|tauto]).
  cbv zeta in *. destruct (w_doctor W (trace s2)).
  { destruct He as [[? ?]|[? [= <- <-]]]; [done|].
    split_and!; [done|intros w Hw; by rewrite F2, O1| | |right; done].
    - intros u w. rewrite F6, O4, !(affected_same s s1 o) by done. done.
    - intros w _. rewrite F4, O2; [done|tauto]. }
  destruct (ensure_dyn_state a o (bd_sty d) (w_init W (tick s2) o d) (ch s2)) as [c2 r] eqn:Hen.
  pose proof (ensure_s_sets E o s2 d a _ c2 r I2 Hp2 Hen) as Hx. rewrite Hso in Hx.
  destruct (ensure_s E o s2 d a (w_init W (tick s2) o d) I2 Hp2) as (c3 & r3 & Hen3 & P & _ & Hk2 & _).
  rewrite Hen in Hen3. injection Hen3 as <- <-. pose proof (sprims_Inv E _ _ P I2) as I3.
  assert (∀ v, sets_state s2 o (Some v) (set_ch c2 s2) → sets_state s2 o (Some (f v)) (set_ch (set_dyn_states <[a := Dst (bd_sty d) (f v)]> c2) s2)) as Hset.
  { intros v S. eapply sets_state_trans; [exact S|]. exact (set_dyn_effect (set_ch c2 s2) o d a (bd_sty d) (f v) I3 Hp2 Hk2). }
  destruct (state_of s o) as [v|].
  { destruct Hx as [-> S]. destruct He as [[? [= <- <-]]|[? ?]]; [|done]. specialize (Hset v S).
    destruct (Hsets _ _ Hset) as (? & ? & ? & ?). split_and!; try done. left. exists v. split_and!; [done|apply Hset|by left]. }
  destruct (w_init W (tick s2) o d) as [v|] eqn:Hi; destruct Hx as [-> S].
  - destruct He as [[? [= <- <-]]|[? ?]]; [|done]. specialize (Hset v S).
    destruct (Hsets _ _ Hset) as (? & ? & ? & ?). split_and!; try done. left. exists v. split_and!; [done|apply Hset|right]. eauto.
  - destruct He as [[? ?]|[? [= <- <-]]]; [done|]. destruct (Hsets _ _ S) as (? & ? & ? & ?). split_and!; try done. right. split; [done|]. apply S.
Qed.
Print Assumptions C53_dyn_state_mut.

(** [garbage_collection]: removes what nobody held and nothing depended on when it
    was called, and nothing that anybody still holds or that something depends on. *)
Theorem C53_gc W E s n r s' :
  stormy E s → step_s W E n OGc s = Done r s' →
  ∃ F : obj → Prop,
    (∀ w, F w → knows s w ∧ ¬ live s' w ∧ ∀ u, ¬ depends s u w) ∧
    (∀ w, knows s w → ¬ live s w → (∀ u, ¬ depends s u w) → F w) ∧
    (∀ w, F w → cached s' w = None ∧ state_of s' w = None ∧ ¬ knows s' w) ∧
    (∀ w, ¬ F w → cached s' w = cached s w ∧ state_of s' w = state_of s w ∧ (knows s' w ↔ knows s w)) ∧
    (∀ u w, depends s' u w ↔ depends s u w ∧ ¬ F u ∧ ¬ F w) ∧ trace s' = trace s.
Proof.
  intros (I & Hst & _)%stormy_good Hs. destruct (step_s_turn E W n _ s _ I Hst Hs) as (s1 & T1 & I1 & Hst1 & Hc); [done|].
  destruct (turned_obs E _ _ _ I T1) as (O1 & O2 & O3 & O4 & O5). cbn [call_s] in Hc.
  destruct (gc_t_effect E _ s1 r s' I1 Hst1 Hc) as (_ & _ & _ & F & F1 & F2 & F3 & F4 & F5 & F6). exists F. split_and!.
  - intros w Hw. destruct (F1 w Hw) as (X1 & X2 & X3). split_and!; [by apply O3|done|]. intros u Hu. by apply (X3 u), O4.
  - intros w Hk Hl Hd. apply F2; [by apply O3| |intros u Hu; by apply (Hd u), O4].
    intros Hl1. destruct Hk as (d & a & Ho & _). apply (tu_dead _ _ _ _ T1 w); [by eexists|exact Hl|exact Hl1].
  - done.
  - intros w Hw. rewrite <- O1, <- O2. rewrite <- O3. by apply F4.
  - intros u w. rewrite F5, O4. done.
  - congruence.
Qed.
Print Assumptions C53_gc.

(** ** The states *)

(** The artifacts a builder was given when it was last built are still the ones in
    the cache, and the dependency is recorded. *)
Theorem C53_coherent E s u b l w rv :
  stormy E s → reent s = false →
  cached s u = Some b → since_call s u l → EGot u w rv ∈ l →
  depends s u w ∧
  match rv with
  | RvBin bw => cached s w = Some bw
  | RvVal v => ∃ bw, cached s w = Some bw ∧ bin_val bw = v
  | RvErr e => True
  end.
Proof.
  intros (_ & _ & _ & Hcoh)%stormy_good Hre Hb (l2 & Ht & Hc) Hin. apply elem_of_list_split in Hin as (l1 & l3 & ->).
  destruct (Hcoh Hre u w rv l1 (l3 ++ ECall u :: l2)) as [Hd Hcase].
  - left. eauto.
  - rewrite Ht. by rewrite <- (assoc_L (++)).
  - unfold since. unfold count in *. rewrite filter_app, app_length in Hc. lia.
  - split; [done|]. destruct Hcase as [[e ->]|(h & bw & Hw & ->)]; [done|]. destruct h; cbn; eauto.
Qed.
Print Assumptions C53_coherent.

Lemma count_In f l e : count f l = 0 → e ∈ l → f e = true → False.
Proof.
  unfold count. intros Hc%nil_length_inv Hin Hf. assert (e ∈ filter (λ e, f e = true) l) as H by (by apply elem_of_list_filter).
  rewrite Hc in H. by apply elem_of_nil in H.
Qed.
(** What is cached is what the last build of it returned. *)
Theorem C53_built E s o b :
  stormy E s → cached s o = Some b →
  ∃ l1 b' l2, trace s = l1 ++ EBuilt o b' :: l2 ∧ (∀ b'', EBuilt o b'' ∉ l1) ∧ ECall o ∉ l1 ∧
    bin_ptr b' = bin_ptr b ∧ (e_kind E = Shared → b' = b).
Proof.
  intros (_ & _ & Hb & _)%stormy_good Ho. destruct (Hb o b Ho) as (l1 & b' & l2 & Ht & H1 & H2 & H3 & H4).
  exists l1, b', l2. split_and!; try done.
  - intros b'' Hin. eapply (count_In (is_built o)); [exact H1|exact Hin|]. cbn. apply N.eqb_refl.
  - intros Hin. eapply (count_In (is_call o)); [exact H2|exact Hin|]. cbn. apply N.eqb_refl.
Qed.
Print Assumptions C53_built.

(** ** An example *)
Lemma run_s_stormy W E fuel l : ∀ s rs s', stormy E s → run_s W E fuel l s = Some (rs, s') → stormy E s'.
Proof.
  induction l as [|x l IH]; intros s rs s' Hw; cbn [run_s]; [by intros [= <- <-]|].
  destruct (step_s W E fuel x s) as [r s1|k s1| |] eqn:Hs; [..|done|done].
  - destruct (run_s W E fuel l s1) as [[rs1 s2]|] eqn:Hr; [|done]. intros [= <- <-].
    eapply IH; [|exact Hr]. by eapply stormy_done.
  - destruct (resumable k) eqn:Hk; [|done]. destruct (run_s W E fuel l (unwound s1)) as [[rs1 s2]|] eqn:Hr; [|done]. intros [= <- <-].
    eapply IH; [|exact Hr]. by eapply stormy_panic.
Qed.
Definition after_s (W : weather) (E : env) (l : list op) : st :=
  match run_s W E 10 l init_st with Some (_, s) => s | None => init_st end.
Lemma after_s_stormy W E l : stormy E (after_s W E l).
Proof.
  unfold after_s. destruct (run_s W E 10 l init_st) as [[rs s]|] eqn:Hr; [|constructor].
  eapply run_s_stormy; [|exact Hr]. constructor.
Qed.

(** Resolves 1, and if that panics makes do with what it has. *)
Definition d_brave : bdef := BDef 3 0 (Some VUnit)
  (PResolve HRef 1%N (λ r, match r with
    | RvVal v => PNewBin (VSome v) (λ b, PRet (Ok b))
    | RvErr e => PNewBin e (λ b, PRet (Ok b))
    | RvBin b => PRet (Ok b) end)).
(** The weather: [init_dyn_state] returns the time, the doctor panics when told that
    1 resolved 0, and that 1 was invalidated; 2 catches panics; another thread makes
    a builder now and then. *)
Definition rough : weather := Weather
  (λ t, if (t =? 6)%nat then [ANew (d_leaf (VNum 5))] else if (t =? 7)%nat then [ADrop 3%N] else [ASleep])
  (λ l, match l with EResolve u _ :: t => (u =? 1)%N && (count (is_call 1%N) t =? 1)%nat | EInvalidate _ :: _ => true | _ => false end)
  (λ t o d, if (o =? 0)%N then Some (VNum (N.of_nat t)) else bd_init d)
  (λ t u w, if (u =? 2)%N then Some (VNum 99) else None).
Definition rough_ops : list op := [OAlloc (d_leaf (VNum 7)); OAlloc (d_mid 0); OAlloc d_brave].
(** The first [get] of 2 calls 1, which resolves 0: the doctor panics; 2 catches
    that and returns 99; the dependency of 2 on 1 is recorded, so that when 1 is
    invalidated (and the doctor panics again), 2 is rebuilt.  The state of 0 is
    what [init_dyn_state] returned when it was first asked. *)
Theorem C53_applies :
  (∀ n, stormy env_s (after_s rough env_s (rough_ops ++ take n [OGet HRef 2; OGet HRef 1; OInvalidate 1; OGet HRef 2; ODynState 0; OGc]%N))) ∧
  option_map fst (run_s rough env_s 10 (rough_ops ++ [OGet HRef 2; OGet HRef 1; OGet HRef 2; OInvalidate 1; OGet HRef 2; ODynState 0; OGc]%N) init_st) =
    Some [Returned (OutObj 0); Returned (OutObj 1); Returned (OutObj 2); Returned (OutRes (RvVal (VNum 99)));
          Returned (OutRes (RvVal (VSome (VNum 22)))); Returned (OutRes (RvVal (VNum 99))); Panicked PkUser;
          Returned (OutRes (RvVal (VSome (VSome (VNum 22))))); Returned (OutVal (VNum 22)); Returned OutUnit]%N ∧
  (let s := after_s rough env_s (rough_ops ++ [OGet HRef 2%N]) in
   depends_b s 2 1 && depends_b s 1 0 && negb (live_b s 3) = true ∧
   cached s 1%N = None ∧ cached s 2%N = Some (Bin 0 (VNum 99)) ∧ nobj s = 4%N ∧ reent s = false) ∧
  (let s := after_s rough env_s (rough_ops ++ [OGet HRef 2; OGet HRef 1; OInvalidate 1]%N) in
   cached s 1%N = None ∧ cached s 2%N = None ∧ is_Some (cached s 0%N)).
Proof.
  split; [intros n; apply after_s_stormy|]. split_and!; vm_compute; eauto.
Qed.
Print Assumptions C53_applies.
