(** C67: history independence.  Vocabulary: EvalSpec.v ([defs], [config], [strip_rval],
    [pure_oblivious_op]). *)
From Verif Require Import ColdFacts Facts1 Demo.
From Verif Require Props4.
From stdpp Require Import relations.

(** Two outcomes of a getter that ended, the same up to the addresses of bins. *)
Definition same_outcome (x y : outcome out) : Prop :=
  match x, y with
  | Done (OutRes v) _, Done (OutRes v') _ => strip_rval v = strip_rval v'
  | Panic _ _, Panic _ _ => True
  | _, _ => False
  end.
(** It ended: it was given enough fuel, and was legal (see C58). *)
Definition ended (x : outcome out) : Prop := match x with Done _ _ | Panic _ _ => True | _ => False end.
(** The same builders, with the same dynamic states (but possibly not in the cache). *)
Definition same_setup (s s' : st) : Prop := (∀ o, defs s o = defs s' o) ∧ (∀ o, config s o = config s' o).

Lemma ended_evals E n h o s :
  reach_by E pure_oblivious_op s → ended (step E n (OGet h o) s) →
  ∃ x, evals (defs s) (config s) o x ∧
    match step E n (OGet h o) s with
    | Done r _ => ∃ y, x = EvRet y ∧ r = OutRes (handed h y)
    | _ => x = EvPanic
    end.
Proof.
  intros Hr He. pose proof (pure_oblivious_pure E s Hr) as Hp. destruct (step E n (OGet h o) s) as [r s'|k s'| |] eqn:Hs; try done.
  - destruct (Props4.C01_get E n h o s r s' Hp Hs) as (x & Hx & ->). eauto.
  - pose proof (Props4.C01_get_panics E n h o s k s' Hp Hs). eauto.
Qed.

(** ** The answer depends on the builders and their dynamic states only: not on what is in
    the cache, how it got there, or the kind of cache *)
Theorem C67_answer E E' n n' h o s s' :
  reach_by E pure_oblivious_op s → reach_by E' pure_oblivious_op s' → same_setup s s' →
  ended (step E n (OGet h o) s) → ended (step E' n' (OGet h o) s') →
  same_outcome (step E n (OGet h o) s) (step E' n' (OGet h o) s').
Proof.
  intros Hr Hr' [Hd Hc] He He'. destruct (ended_evals E n h o s Hr He) as (x & Hx & Ha).
  destruct (ended_evals E' n' h o s' Hr' He') as (y & Hy & Hb). pose proof (evals_ext _ _ _ _ o x Hd Hc Hx) as Hx'.
  pose proof (proj1 (evals_det _ _ (reach_oblivious E' s' Hr')) o _ Hx' _ Hy) as Heq.
  destruct (step E n (OGet h o) s) as [r t|k t| |]; try done; destruct (step E' n' (OGet h o) s') as [r' t'|k' t'| |]; try done; cbn.
  - destruct Ha as (z & -> & ->), Hb as (z' & -> & ->). cbn in Heq. apply strip_handed. congruence.
  - destruct Ha as (z & -> & ->). by subst y.
  - destruct Hb as (z & -> & ->). by subst x.
Qed.
Print Assumptions C67_answer.

(** Nor does it depend on these whether a getter ends. *)
Theorem C67_ends E E' n h h' o s s' :
  reach_by E pure_oblivious_op s → reach_by E' pure_oblivious_op s' → same_setup s s' →
  ended (step E n (OGet h o) s) → ∃ N, ∀ m, N ≤ m → step E' m (OGet h' o) s' ≠ NoFuel.
Proof.
  intros Hr Hr' [Hd Hc] He. destruct (ended_evals E n h o s Hr He) as (x & Hx & _).
  apply (cold_ends E' h' o s' x Hr'). by eapply evals_ext.
Qed.
Print Assumptions C67_ends.

(** ** Forgetting artifacts never shows *)
(** Calls that change no dynamic state: gets, looks, invalidations, clearing artifacts,
    dropping builders. *)
Definition stateless (s : st) (x : op) : Prop :=
  match x with
  | OGet _ _ | OLookup _ _ | ODynState _ | OGetDynState _ | OInvalidate _ | OClearArtifacts | ODrop _ | OIsKnown _ | ONumKnown => True
  | _ => False
  end.
Lemma stateless_pure s x : stateless s x → pure_oblivious_op s x.
Proof. by destruct x. Qed.
Lemma stateless_step E n x s s' :
  Inv s → stack s = [] → pureinv s → stateless s x → goes (step E n x s) s' → same_setup s (unwound s').
Proof.
  intros I Hst HP Hx Hg. pose proof (step_effect E n x s s' I Hst Hg) as He.
  assert (same_setup s s' → same_setup s (unwound s')) as Hun by done. apply Hun. clear Hun.
  assert (∀ F G, forgets s F G s' → (∀ o, ¬ G o) → same_setup s s') as Hforget.
  { intros F G Hf HG. split; intros o; [unfold defs; by rewrite (fg_objs _ _ _ _ Hf)|]. symmetry.
    apply config_ext; [apply (fg_objs _ _ _ _ Hf)|]. by apply (fg_state_kept _ _ _ _ Hf). }
  destruct x as [d|o|h o|o f|h o|o f|o|o f|o|o|o| | | |o| ]; try done; cbn [effect_of] in He; try (by subst).
  - unfold goes in Hg. cbn [step] in Hg. destruct (drop_obj o s) as [s1|] eqn:Ha; [|by gd].
    destruct Hg as [[? [= _ <-]]|(? & ? & ?)]; [|done]. apply drop_Some in Ha as (_ & _ & ->). done.
  - pose proof (get_pure E n h o s I HP) as [H1 H2]. unfold goes in Hg. cbn [step] in Hg.
    assert (pgrow s s' → same_setup s s') as Hgr.
    { intros (G1 & G2 & _). split; [intros w; unfold defs; by rewrite G1|done]. }
    destruct (get E n h o s) as [rv s1|k s1| |]; [..|by gd|by gd].
    + destruct Hg as [[? [= _ <-]]|(? & ? & ?)]; [|done]. by apply Hgr, (H1 _ _ eq_refl).
    + destruct Hg as [[? ?]|(? & [= _ <-] & ?)]; [done|]. by apply Hgr, (H2 _ _ eq_refl).
  - destruct He as (Hl & [->|(Hnone & Hs & Ha)]); [done|].
    split; [intros w; unfold defs; by rewrite (ss_objs _ _ _ _ Hs)|]. intros w. symmetry. destruct (decide (w = o)) as [->|Hne].
    + unfold config. rewrite (ss_state _ _ _ _ Hs), Hnone. destruct (initial s o) eqn:Hi; [done|].
      unfold initial in *. by rewrite (ss_objs _ _ _ _ Hs).
    + apply config_ext; [apply (ss_objs _ _ _ _ Hs)|by apply (ss_others _ _ _ _ Hs)].
  - destruct He as (_ & Hf & _). eapply Hforget; [exact Hf|]; by intros ? [].
  - destruct He as (Hf & _). eapply Hforget; [exact Hf|]; by intros ? [].
Qed.
Lemma stateless_runs E s l s' :
  reach_by E pure_oblivious_op s → runs E stateless s l s' → reach_by E pure_oblivious_op s' ∧ same_setup s s'.
Proof.
  intros Hr Hl. induction Hl as [|l s1 n x r s2 Hl IH Hx Hs|l s1 n x k s2 Hl IH Hx Hs Hk]; [done|..];
    destruct IH as [Hr1 Hs1]; pose proof (pure_oblivious_pure E s1 Hr1) as Hp1;
    pose proof (reach_pure E s1 Hp1) as HP1; pose proof (reach_Inv E _ s1 Hp1) as [I1 Hst1].
  - assert (same_setup s1 (unwound s2)) as Hs2 by (eapply stateless_step; [done..|left; eauto]).
    split.
    + destruct Hr1 as [h Hh]. eexists. eapply runs_done; [exact Hh| |exact Hs]. by apply stateless_pure.
    + destruct Hs1 as [A1 A2], Hs2 as [B1 B2]. split; intros o; [rewrite A1; apply B1|rewrite A2; apply B2].
  - assert (same_setup s1 (unwound s2)) as Hs2 by (eapply stateless_step; [done..|right; eauto]).
    split.
    + destruct Hr1 as [h Hh]. eexists. eapply runs_panic; [exact Hh| |exact Hs|exact Hk]. by apply stateless_pure.
    + destruct Hs1 as [A1 A2], Hs2 as [B1 B2]. split; intros o; [rewrite A1; apply B1|rewrite A2; apply B2].
Qed.
(** Whatever such calls are made in between, the answer stays the same... *)
Theorem C67_forgetting E n n' h o s l s' :
  reach_by E pure_oblivious_op s → runs E stateless s l s' →
  ended (step E n (OGet h o) s) → ended (step E n' (OGet h o) s') →
  same_outcome (step E n (OGet h o) s) (step E n' (OGet h o) s').
Proof.
  intros Hr Hl. destruct (stateless_runs E s l s' Hr Hl) as [Hr' Hs]. by apply C67_answer.
Qed.
Print Assumptions C67_forgetting.
(** ...and a getter that would have ended still does. *)
Theorem C67_forgetting_ends E n h o s l s' :
  reach_by E pure_oblivious_op s → runs E stateless s l s' → ended (step E n (OGet h o) s) →
  ∃ N, ∀ m, N ≤ m → step E m (OGet h o) s' ≠ NoFuel.
Proof.
  intros Hr Hl. destruct (stateless_runs E s l s' Hr Hl) as [Hr' Hs]. by apply C67_ends.
Qed.
Print Assumptions C67_forgetting_ends.

(** ** Example: the diamond of C01 (its bottom reconfigured, then collected), asked before
    and after everything that was built has been cleared. *)
Definition built_st : st := match run env_s 10 [OGet HRef 3%N] Props4.s_later with Some (_, s) => s | None => init_st end.
Definition quiet_ops : list op := [OInvalidate 1; OGet HRef 2; OClearArtifacts; OLookup HRef 0]%N.
Definition cleared_st : st := match run env_s 10 quiet_ops built_st with Some (_, s) => s | None => built_st end.
Lemma run_stateless E fuel l s rs s' s0 l0 :
  runs E stateless s0 l0 s → Forall (λ x, ∀ s, stateless s x) l → run E fuel l s = Some (rs, s') → ∃ h, runs E stateless s0 h s'.
Proof.
  revert s l0 rs. induction l as [|x l IH]; intros s l0 rs Hr Hf; cbn [run]; [intros [= _ <-]; by exists l0|].
  apply Forall_cons in Hf as [Hx Hf]. destruct (step E fuel x s) as [r s1|k s1| |] eqn:Hs; try done.
  - destruct (run E fuel l s1) as [[rs1 s2]|] eqn:Hrun; [|done]. intros [= _ ->].
    eapply (IH s1); [eapply runs_done; [exact Hr|apply Hx|exact Hs]|done|exact Hrun].
  - destruct (resumable k) eqn:Hk; [|done].
    destruct (run E fuel l (unwound s1)) as [[rs1 s2]|] eqn:Hrun; [|done]. intros [= _ ->].
    eapply (IH (unwound s1)); [eapply runs_panic; [exact Hr|apply Hx|exact Hs|exact Hk]|done|exact Hrun].
Qed.
Lemma stateless_any E fuel l s : Forall (λ x, ∀ s, stateless s x) l →
  ∃ h, runs E stateless s h (match run E fuel l s with Some (_, s1) => s1 | None => s end).
Proof.
  intros Hf. destruct (run E fuel l s) as [[rs s1]|] eqn:Hr; [|exists []; constructor].
  eapply (run_stateless E fuel l s rs s1 s []); [constructor|done|done].
Qed.
Definition has_all (s : st) : list bool := (λ o, if cached s o then true else false) <$> [0; 1; 2; 3]%N.
Example C67_applies :
  reach_by env_s pure_oblivious_op Props4.s_later ∧
  (∃ l, runs env_s stateless built_st l cleared_st) ∧
  has_all built_st = [true; true; true; true] ∧ has_all cleared_st = [false; false; false; false] ∧
  ended (step env_s 10 (OGet HRef 3%N) built_st) ∧ ended (step env_s 10 (OGet HRef 3%N) cleared_st).
Proof.
  split; [apply Props4.later_oblivious|]. split; [|split_and!; vm_compute; done].
  apply (stateless_any env_s 10 quiet_ops built_st). unfold quiet_ops. do 4 (constructor; [intros s; exact Logic.I|]). constructor.
Qed.
