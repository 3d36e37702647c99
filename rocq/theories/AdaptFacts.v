(** Adaptors (C68): proofs. *)
From Verif Require Export AdaptSpec ColdFacts.
From stdpp Require Import relations.

(** An adaptor has a dynamic state: [()], until the user sets it. *)
Lemma adaptor_config s o d : defs s o = Some d → bd_init d = Some VUnit → ∃ v, config s o = Some v.
Proof.
  unfold defs, config, initial. destruct (objs s !! o) as [[d' a]|]; cbn; [|done]. intros [= ->] Hi.
  destruct (state_of s o) as [v|]; [by exists v|]. rewrite Hi. by exists VUnit.
Qed.

(** Taking an adaptor off. *)
Lemma peel s o w n p x p' :
  wraps s o w → eval (defs s) (config s) n o p = Some (x, p') →
  ∃ m y q, n = S m ∧ eval (defs s) (config s) m w p = Some (y, q) ∧ strip_eres x = strip_eres y.
Proof.
  intros (aty & sty & Hd) He. destruct n as [|n]; [done|]. cbn [eval] in He.
  assert (∀ m y q, eval (defs s) (config s) m w p = Some (y, q) → never_fails (defs s) (config s) w → ∀ e, y ≠ EvRet (Err e)) as Hnf.
  { intros m y q Hy Hn e ->. by apply eval_sound, Hn in Hy. }
  destruct Hd as [Hd|[Hd|[Hd Hn]]]; rewrite Hd in He; destruct (adaptor_config s o _ Hd eq_refl) as (v & Hv); rewrite Hv in He; cbn in He;
    destruct (eval (defs s) (config s) n w p) as [[[r|] q]|] eqn:Hw; try done.
  - destruct r as [b|e]; cbn in He; injection He as <- <-; eauto 10.
  - injection He as <- <-. eauto 10.
  - destruct r as [b|e]; cbn in He; injection He as <- <-; eexists _, _, _; (split_and!; [done|exact Hw|]); done.
  - injection He as <- <-. eauto 10.
  - destruct r as [b|e]; cbn in He; injection He as <- <-; [eauto 10|]. by destruct (Hnf n _ _ Hw Hn e).
  - injection He as <- <-. eauto 10.
Qed.
(** Putting one on. *)
Lemma wrap s o w y :
  wraps s o w → evals (defs s) (config s) w y → ∃ x, evals (defs s) (config s) o x ∧ strip_eres x = strip_eres y.
Proof.
  intros (aty & sty & Hd) Hy.
  assert (∀ d, defs s o = Some d → bd_init d = Some VUnit → (∀ v, ∃ x, evals_body (defs s) (config s) v (bd_body d) x ∧ strip_eres x = strip_eres y) →
    ∃ x, evals (defs s) (config s) o x ∧ strip_eres x = strip_eres y) as Hgo.
  { intros d Ho Hi Hb. destruct (adaptor_config s o d Ho Hi) as (v & Hv). destruct (Hb v) as (x & Hx & Heq).
    exists x. split; [|done]. by eapply ev_body. }
  destruct Hd as [Hd|[Hd|[Hd Hn]]]; apply (Hgo _ Hd eq_refl); intros v; cbn [bd_body forwarding cloned feigning];
    (destruct y as [[b|e]|]; [..|exists EvPanic; split; [by eapply eb_resolve_panic|done]]).
  - exists (EvRet (Ok b)). split; [|done]. eapply eb_resolve; [exact Hy|]. constructor.
  - exists (EvRet (Err e)). split; [|done]. eapply eb_resolve; [exact Hy|]. constructor.
  - exists (EvRet (Ok (Bin 0 (bin_val b)))). split; [|done]. eapply eb_resolve; [exact Hy|]. cbn. eapply (eb_newbin _ _ _ _ _ 0%N). constructor.
  - exists (EvRet (Err e)). split; [|done]. eapply eb_resolve; [exact Hy|]. constructor.
  - exists (EvRet (Ok b)). split; [|done]. eapply eb_resolve; [exact Hy|]. constructor.
  - by destruct (Hn e).
Qed.
Lemma wrap_all s o w y :
  rtc (wraps s) o w → evals (defs s) (config s) w y → ∃ x, evals (defs s) (config s) o x ∧ strip_eres x = strip_eres y.
Proof.
  intros Hw Hy. induction Hw as [o|o o1 w Ho _ IH]; [eauto|]. destruct (IH Hy) as (x1 & H1 & E1).
  destruct (wrap s o o1 x1 Ho H1) as (x & Hx & E2). exists x. split; [done|congruence].
Qed.

Section Sim.
Context (s s' : st) (C : obj → obj → Prop).
Context (Hob : ∀ o d, defs s o = Some d → oblivious (bd_body d)).
Context (Hob' : ∀ o d, defs s' o = Some d → oblivious (bd_body d)).
Context (HC : same_but_adaptors s s' C).

Lemma sim_body n :
  (∀ o p x p', eval (defs s) (config s) n o p = Some (x, p') → ∀ o', wrapped s s' C o o' →
     ∃ x', evals (defs s') (config s') o' x' ∧ strip_eres x = strip_eres x') →
  ∀ v c p x p', eval_body (eval (defs s) (config s) n) v c p = Some (x, p') →
  ∀ c1 c', alike c c1 → rewired (wrapped s s' C) c1 c' →
  ∃ x', evals_body (defs s') (config s') v c' x' ∧ strip_eres x = strip_eres x'.
Proof.
  intros IHo v c. induction c as [r| |h w k IH|k IH|v' c IH|k IH|v' k IH|d k IH|w c IH]; intros p x p' He c1 c' Ha Hr; cbn [eval_body] in He; try done.
  - injection He as <- <-. inversion Ha; subst. inversion Hr; subst. eexists. split; [constructor|]. cbn. by f_equal.
  - injection He as <- <-. inversion Ha; subst. inversion Hr; subst. eexists. split; [constructor|done].
  - inversion Ha as [| |? ? ? k1 Hkk| |]; subst. inversion Hr as [| |? ? w' ? k' HR Hk'| |]; subst.
    destruct (eval (defs s) (config s) n w p) as [[y q]|] eqn:Hw; [|done].
    destruct (IHo w p y q Hw w' HR) as (y' & Hy' & Heq). destruct y as [y|]; cbn in Heq.
    + destruct y' as [y'|]; [|done]. injection Heq as Heq.
      destruct (IH (handed h y) q x p' He (k1 (handed h y')) (k' (handed h y'))) as (x' & Hx' & Hs).
      * by apply Hkk, strip_handed.
      * apply Hk'.
      * exists x'. split; [|done]. by eapply eb_resolve.
    + destruct y' as [y'|]; [done|]. injection He as <- <-. exists EvPanic. split; [|done]. by eapply eb_resolve_panic.
  - inversion Ha; subst. inversion Hr; subst.
    match goal with H : ∀ v, alike (k v) (?k1 v), H2 : ∀ v, rewired _ (?k1 v) _ |- _ => destruct (IH v p x p' He _ _ (H v) (H2 v)) as (x' & Hx' & Hs) end.
    exists x'. split; [by constructor|done].
  - inversion Ha as [| | | |? y ? k1 _ Hkk]; subst. inversion Hr as [| | | |? ? k' Hk']; subst.
    destruct (IH (Bin p v') (N.succ p) x p' He _ _ (Hkk p 0%N) (Hk' (Bin 0 y))) as (x' & Hx' & Hs).
    exists x'. split; [by eapply (eb_newbin _ _ _ _ _ 0%N)|done].
Qed.

Lemma sim n : ∀ o p x p', eval (defs s) (config s) n o p = Some (x, p') → ∀ o', wrapped s s' C o o' →
  ∃ x', evals (defs s') (config s') o' x' ∧ strip_eres x = strip_eres x'.
Proof using Hob HC.
  induction n as [|n IH]; intros o p x p' He o' (w & w' & Ho & Ho' & Hw); [done|].
  inversion Ho as [?|? o1 ? Ho1 Hr]; subst.
  - destruct (HC w w' Hw) as (Hcfg & d & d' & Hd & Hd' & Hb). cbn [eval] in He. rewrite Hd in He.
    destruct (config s w) as [v|] eqn:Hv.
    + destruct (sim_body n IH v _ _ _ _ He _ _ (Hob w d Hd) Hb) as (y & Hy & Heq).
      destruct (wrap_all s' o' w' y Ho') as (x' & Hx' & Heq'); [by eapply ev_body|]. exists x'. split; [done|congruence].
    + injection He as <- <-. destruct (wrap_all s' o' w' EvPanic Ho') as (x' & Hx' & Heq'); [by eapply ev_noinit|]. eauto.
  - destruct (peel s o o1 (S n) p x p' Ho1 He) as (m & y & q & [= <-] & Hy & Heq).
    destruct (IH o1 p y q Hy o') as (x' & Hx' & Heq'); [by exists w, w'|]. exists x'. split; [done|congruence].
Qed.
Lemma sim_evals o o' x :
  wrapped s s' C o o' → evals (defs s) (config s) o x → ∃ x', evals (defs s') (config s') o' x' ∧ strip_eres x = strip_eres x'.
Proof using Hob HC.
  intros Hw Hx. destruct (proj1 (eval_complete _ _ Hob) o x Hx 0%N) as (n & r & p & He & Heq).
  destruct (sim n o 0%N r p He o' Hw) as (x' & Hx' & Heq'). exists x'. split; [done|congruence].
Qed.
End Sim.

Lemma wrapped_sym s s' C o o' : wrapped s s' C o o' → wrapped s' s (λ x y, C y x) o' o.
Proof. intros (w & w' & ? & ? & ?). by exists w', w. Qed.
Lemma rewired_sym R c c' : rewired R c c' → rewired (λ x y, R y x) c' c.
Proof. induction 1; by constructor. Qed.
Lemma rewired_mono (R R' : obj → obj → Prop) c c' : (∀ x y, R x y → R' x y) → rewired R c c' → rewired R' c c'.
Proof. intros HR. induction 1; constructor; auto. Qed.
Lemma same_sym s s' C : same_but_adaptors s s' C → same_but_adaptors s' s (λ x y, C y x).
Proof.
  intros H w w' Hw. destruct (H w' w Hw) as (Hc & d & d' & Hd & Hd' & Hb). split; [done|]. exists d', d. split_and!; [done..|].
  apply rewired_sym in Hb. eapply rewired_mono; [|exact Hb]. intros x y. apply wrapped_sym.
Qed.
(** The same builders in the same state. *)
Lemma rewired_refl c : ∀ R : obj → obj → Prop, pure_prog c → (∀ w, R w w) → rewired R c c.
Proof. induction c; intros R Hp HR; cbn in Hp; try done; constructor; auto. Qed.

(** A builder whose code returns no error never fails. *)
Lemma infallible_never s w d : defs s w = Some d → infallible d → never_fails (defs s) (config s) w.
Proof.
  intros Hd Hi e He. inversion He as [|o d' v r Hd' Hv Hb]; subst. rewrite Hd' in Hd. injection Hd as ->.
  assert (∀ v c x, evals_body (defs s) (config s) v c x → ∀ r, x = EvRet r → rtc leads c (PRet r)) as Hgo.
  { clear. intros v c x H. induction H as [v r|v|v h w k x r _ _ IH|v h w k _|v k r _ IH|v x k p r _ IH]; intros r0 Hr0.
    - injection Hr0 as ->. constructor.
    - done.
    - eapply rtc_l; [|by apply IH]. destruct x; constructor.
    - done.
    - eapply rtc_l; [constructor|by apply IH].
    - eapply rtc_l; [constructor|by apply IH]. }
  apply (Hi e). by eapply Hgo.
Qed.
(** Adaptors are functions of what they resolve. *)
Lemma adaptors_pure aty sty w :
  (pure_prog (bd_body (forwarding aty sty w)) ∧ oblivious (bd_body (forwarding aty sty w))) ∧
  (pure_prog (bd_body (cloned aty sty w)) ∧ oblivious (bd_body (cloned aty sty w))) ∧
  (pure_prog (bd_body (feigning aty sty w)) ∧ oblivious (bd_body (feigning aty sty w))).
Proof.
  split_and!; try (by intros [] || (by intros [])); try (cbn; intros []; cbn; done);
    constructor; intros x x' Hx; destruct x as [b|v|e], x' as [b'|v'|e']; try done; try (by constructor); cbn in Hx;
    injection Hx as Hx; constructor; cbn; unfold strip_bin in *; try congruence.
  intros p p'. constructor. cbn. unfold strip_bin. cbn. congruence.
Qed.
Lemma peel_all s o w : rtc (wraps s) o w → ∀ n p x p', eval (defs s) (config s) n o p = Some (x, p') →
  ∃ m y q, eval (defs s) (config s) m w p = Some (y, q) ∧ strip_eres x = strip_eres y.
Proof.
  intros Hw. induction Hw as [o|o o1 w Ho _ IH]; intros n p x p' He; [eauto 10|].
  destruct (peel s o o1 n p x p' Ho He) as (m & y & q & -> & Hy & Heq).
  destruct (IH m p y q Hy) as (m' & y' & q' & Hy' & Heq'). eexists _, _, _. split; [exact Hy'|congruence].
Qed.
