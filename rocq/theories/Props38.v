(** C71: builders can be rewritten.  Vocabulary: EvalSpec.v, SameSpec.v; [ended],
    [same_outcome] in Props34.v. *)
From Verif Require Import SameFacts ColdFacts Facts1 Demo Props34.
From Verif Require Props4.
From stdpp Require Import relations.

(** Two caches, whatever is in them, with builders that compute the same: getters answer
    the same. *)
Theorem C71_answer E E' n n' h o s s' :
  reach_by E pure_oblivious_op s → reach_by E' pure_oblivious_op s' → same_but_code s s' →
  ended (step E n (OGet h o) s) → ended (step E' n' (OGet h o) s') →
  same_outcome (step E n (OGet h o) s) (step E' n' (OGet h o) s').
Proof.
  intros Hr Hr' [Hc Hd] He He'. destruct (ended_evals E n h o s Hr He) as (x & Hx & Ha).
  destruct (ended_evals E' n' h o s' Hr' He') as (y & Hy & Hb).
  pose proof (same_evals _ _ _ _ (reach_oblivious E s Hr) (reach_oblivious E' s' Hr') Hc Hd o x y Hx Hy) as Heq.
  destruct (step E n (OGet h o) s) as [r t|k t| |]; try done; destruct (step E' n' (OGet h o) s') as [r' t'|k' t'| |]; try done; cbn.
  - destruct Ha as (z & -> & ->), Hb as (z' & -> & ->). cbn in Heq. apply strip_handed. congruence.
  - destruct Ha as (z & -> & ->). by subst y.
  - destruct Hb as (z & -> & ->). by subst x.
Qed.
Print Assumptions C71_answer.

(** If the rewritten code resolves nothing else, its getters end if the others do. *)
Theorem C71_ends E E' n h h' o s s' :
  reach_by E pure_oblivious_op s → reach_by E' pure_oblivious_op s' → same_but_code s s' → no_more_needed s s' →
  ended (step E n (OGet h o) s) → ∃ N, ∀ m, N ≤ m → step E' m (OGet h' o) s' ≠ NoFuel.
Proof.
  intros Hr Hr' [Hc Hd] Hm He. destruct (ended_evals E n h o s Hr He) as (x & Hx & _).
  destruct (same_ends _ _ _ _ (reach_oblivious E s Hr) (reach_oblivious E' s' Hr') Hc Hd Hm o x Hx) as (y & Hy).
  by eapply (cold_ends E' h' o s').
Qed.
Print Assumptions C71_ends.

(** ** Rewritings *)
Lemma yields_resolve ρ v h w k r :
  yields ρ v (PResolve h w k) r ↔
  (∃ x, ρ w = Some (EvRet x) ∧ yields ρ v (k (handed h x)) r) ∨ ρ w = Some EvPanic ∧ r = EvPanic.
Proof.
  split.
  - intros H. inversion H; subst; [left; eauto|by right].
  - intros [(x & Hw & Hk)|[Hw ->]]; [by eapply y_resolve|by apply y_resolve_panic].
Qed.
(** Equal up to what comes of running them. *)
Definition runs_same (c c' : prog) : Prop := ∀ ρ v r, yields ρ v c r ↔ yields ρ v c' r.
Lemma yields_det ρ v c r : yields ρ v c r → ∀ c' r', alike c c' → yields ρ v c' r' → strip_eres r = strip_eres r'.
Proof.
  induction 1 as [r| |h w k x r Hw _ IH|h w k Hw|k r _ IH|x k p r _ IH]; intros c' r' Ha Hr'.
  - inversion Ha; subst. inversion Hr'; subst. cbn. by f_equal.
  - inversion Ha; subst. inversion Hr'; subst. done.
  - inversion Ha as [| |? ? ? k' Hkk| |]; subst. inversion Hr'; subst; [|congruence]. simplify_eq. eapply IH; [by apply Hkk|done].
  - inversion Ha as [| |? ? ? k' Hkk| |]; subst. inversion Hr'; subst; [congruence|done].
  - inversion Ha as [| | |k0 k' Hkk|]; subst. inversion Hr'; subst. by eapply IH.
  - inversion Ha as [| | | |? x' ? k' Hx Hkk]; subst. inversion Hr'; subst. eapply IH; [|done]. apply Hkk.
Qed.
Theorem C71_rewrites c c' : oblivious c → runs_same c c' → computes_same c c' ∧ needs_no_more c c' ∧ needs_no_more c' c.
Proof.
  intros Hob H. split; [|split].
  - intros ρ v r r' Hr Hr'. apply H in Hr'. by eapply yields_det.
  - intros ρ v r Hr. exists r. by apply H.
  - intros ρ v r Hr. exists r. by apply H.
Qed.
Print Assumptions C71_rewrites.
(** Resolving the same builder twice is resolving it once. *)
Theorem C71_once h w k : runs_same (PResolve h w (λ x, PResolve h w (k x))) (PResolve h w (λ x, k x x)).
Proof.
  intros ρ v r. rewrite !yields_resolve. setoid_rewrite yields_resolve. split.
  - intros [(x & Hx & [(y & Hy & Hk)|[Hp ->]])|?]; [|congruence|by right]. left. exists x. split; [done|]. by simplify_eq.
  - intros [(x & Hx & Hk)|?]; [|by right]. left. exists x. split; [done|]. left. eauto.
Qed.
Print Assumptions C71_once.
(** The order of two resolves does not matter. *)
Theorem C71_swap h w h' w' k :
  oblivious (PResolve h w (λ x, PResolve h' w' (λ y, k x y))) →
  computes_same (PResolve h w (λ x, PResolve h' w' (λ y, k x y))) (PResolve h' w' (λ y, PResolve h w (λ x, k x y))).
Proof.
  intros Hob ρ v r r' Hr Hr'. apply yields_resolve in Hr' as [(y & Hy & Hr')|[Hp ->]].
  - apply yields_resolve in Hr' as [(x & Hx & Hr')|[Hp ->]].
    + eapply yields_det; [exact Hr|exact Hob|]. eapply y_resolve; [exact Hx|]. by eapply y_resolve.
    + apply yields_resolve in Hr as [(x & Hx & Hr)|[_ ->]]; [congruence|done].
  - apply yields_resolve in Hr as [(x & Hx & Hr)|[_ ->]]; [|done].
    apply yields_resolve in Hr as [(y & Hy & Hr)|[_ ->]]; [congruence|done].
Qed.
Print Assumptions C71_swap.

Theorem C71_itself c : oblivious c → computes_same c c ∧ needs_no_more c c.
Proof. intros H. split; [intros ρ v r r' Hr; by eapply yields_det|]. intros ρ v r Hr. eauto. Qed.
Print Assumptions C71_itself.

(** Rewriting by steps, and rewriting a part of the code. *)
Definition rewrites (c c' : prog) : Prop := computes_same c c' ∧ needs_no_more c c'.
Lemma yields_alike ρ v c r : yields ρ v c r → ∀ c', alike c c' → ∃ r', yields ρ v c' r'.
Proof.
  induction 1 as [r| |h w k x r Hw _ IH|h w k Hw|k r _ IH|x k p r _ IH]; intros c' Ha.
  - inversion Ha; subst. eexists. apply y_ret.
  - inversion Ha; subst. eexists. apply y_panic.
  - inversion Ha as [| |? ? ? k' Hkk| |]; subst. destruct (IH (k' (handed h x))) as (r' & Hr'); [by apply Hkk|].
    exists r'. by eapply y_resolve.
  - inversion Ha as [| |? ? ? k' Hkk| |]; subst. eexists. by apply y_resolve_panic.
  - inversion Ha as [| | |k0 k' Hkk|]; subst. destruct (IH (k' v)) as (r' & Hr'); [by apply Hkk|]. exists r'. by apply y_state.
  - inversion Ha as [| | | |? x' ? k' Hx Hkk]; subst. destruct (IH (k' (Bin p x'))) as (r' & Hr'); [by apply Hkk|].
    exists r'. by eapply y_newbin.
Qed.
Theorem C71_steps c c' c'' : rewrites c c' → rewrites c' c'' → rewrites c c''.
Proof.
  intros [H1 N1] [H2 N2]. split.
  - intros ρ v r r'' Hr Hr''. destruct (N1 _ _ _ Hr) as (r' & Hr'). etrans; [by eapply H1|by eapply H2].
  - intros ρ v r Hr. destruct (N1 _ _ _ Hr) as (r' & Hr'). by eapply N2.
Qed.
Print Assumptions C71_steps.
Theorem C71_after_resolve h w k k' : (∀ x, rewrites (k x) (k' x)) → rewrites (PResolve h w k) (PResolve h w k').
Proof.
  intros H. split.
  - intros ρ v r r' Hr Hr'. apply yields_resolve in Hr as [(x & Hx & Hr)|[Hp ->]], Hr' as [(x' & Hx' & Hr')|[Hp' ->]]; try congruence.
    simplify_eq. by eapply (H _).
  - intros ρ v r Hr. apply yields_resolve in Hr as [(x & Hx & Hr)|[Hp ->]].
    + destruct (proj2 (H _) _ _ _ Hr) as (r' & Hr'). exists r'. by eapply y_resolve.
    + exists EvPanic. by apply y_resolve_panic.
Qed.
Print Assumptions C71_after_resolve.
Theorem C71_after_state k k' : (∀ x, rewrites (k x) (k' x)) → rewrites (PState k) (PState k').
Proof.
  intros H. split.
  - intros ρ v r r' Hr Hr'. inversion Hr; subst. inversion Hr'; subst. by eapply (H _).
  - intros ρ v r Hr. inversion Hr as [| | | |k0 r0 Hk|]; subst. destruct (proj2 (H _) _ _ _ Hk) as (r' & Hr'). exists r'. by apply y_state.
Qed.
Print Assumptions C71_after_state.
Theorem C71_after_new x k k' :
  oblivious (PNewBin x k) → (∀ b, rewrites (k b) (k' b)) → rewrites (PNewBin x k) (PNewBin x k').
Proof.
  intros Hob H. split.
  - intros ρ v r r' Hr Hr'. inversion Hr as [| | | | |x0 k0 p r0 Hk]; subst. inversion Hr' as [| | | | |x0 k0 p' r0 Hk']; subst.
    inversion Hob as [| | | |? ? ? ? ? Hkk]; subst.
    destruct (yields_alike _ _ _ _ Hk (k (Bin p' x))) as (r1 & Hr1); [by apply Hkk|].
    transitivity (strip_eres r1); [eapply yields_det; [exact Hk| |exact Hr1]; by apply Hkk|by eapply (H _)].
  - intros ρ v r Hr. inversion Hr as [| | | | |x0 k0 p r0 Hk]; subst. destruct (proj2 (H _) _ _ _ Hk) as (r' & Hr'). exists r'. by eapply y_newbin.
Qed.
Print Assumptions C71_after_new.
(** A resolve whose result is not used can go (but not come: it may panic or not end). *)
Theorem C71_unused h w c ρ v r r' : oblivious c →
  yields ρ v (PResolve h w (λ _, c)) r → r ≠ EvPanic → yields ρ v c r' → strip_eres r = strip_eres r'.
Proof.
  intros Hob Hr Hn Hr'. apply yields_resolve in Hr as [(x & _ & Hr)|[_ ->]]; [by eapply yields_det|done].
Qed.
Print Assumptions C71_unused.

(** ** Example: resolving in the other order; one cache is new, the other was used. *)
Definition d_pot (w1 w2 : obj) : bdef := BDef 2 0 (Some VUnit)
  (PResolve HRef w2 (λ r2, PResolve HRef w1 (λ r1, match r1, r2 with
    | RvVal v1, RvVal v2 => PNewBin (VPair v1 v2) (λ b, PRet (Ok b))
    | _, _ => PRet (Err VUnit) end))).
Definition one_ops : list op := [OAlloc (d_leaf (VNum 7)); OAlloc (d_mid 0); OAlloc (d_top 0 1)]%N.
Definition two_ops : list op := [OAlloc (d_leaf (VNum 7)); OAlloc (d_mid 0); OAlloc (d_pot 0 1); OGet HRef 2; OInvalidate 1]%N.
Definition one_st := after env_s 10 one_ops.
Definition two_st := after env_s 10 two_ops.
Lemma d_pot_oblivious w1 w2 : pure_prog (bd_body (d_pot w1 w2)) ∧ oblivious (bd_body (d_pot w1 w2)).
Proof.
  split; [by intros [] []|]. constructor. intros x x' Hx. constructor. intros y y' Hy.
  destruct y as [c|w|f], y' as [c'|w'|f']; try done; try (by constructor);
    destruct x as [b|v|e], x' as [b'|v'|e']; try done; try (by constructor).
  injection Hx as Hx. injection Hy as Hy. constructor; [cbn; congruence|]. intros. constructor. cbn. unfold strip_bin. cbn. congruence.
Qed.
Lemma one_reach : reach_by env_s pure_oblivious_op one_st.
Proof.
  apply after_by. unfold one_ops. repeat (apply List.Forall_cons; [intros s|]); [..|apply List.Forall_nil]; try exact Logic.I;
    first [apply Props4.d_leaf_oblivious|apply Props4.d_mid_oblivious|apply Props4.d_top_oblivious].
Qed.
Lemma two_reach : reach_by env_s pure_oblivious_op two_st.
Proof.
  apply after_by. unfold two_ops. repeat (apply List.Forall_cons; [intros s|]); [..|apply List.Forall_nil]; try exact Logic.I;
    first [apply Props4.d_leaf_oblivious|apply Props4.d_mid_oblivious|apply d_pot_oblivious].
Qed.
Lemma beyond E l o : (3 ≤ o)%N → nobj (after E 10 l) = 3%N → objs (after E 10 l) !! o = None.
Proof.
  intros Ho Hn. destruct (objs (after E 10 l) !! o) as [[d a]|] eqn:H; [|done].
  destruct (reach_Inv E any_op _ (after_reachable E 10 l)) as [I _]. pose proof (i_num _ I o _ H) as Hlt. rewrite Hn in Hlt. lia.
Qed.
Lemma one_two_defs :
  defs one_st 0 = Some (d_leaf (VNum 7)) ∧ defs one_st 1 = Some (d_mid 0) ∧ defs one_st 2 = Some (d_top 0 1) ∧
  defs two_st 0 = Some (d_leaf (VNum 7)) ∧ defs two_st 1 = Some (d_mid 0) ∧ defs two_st 2 = Some (d_pot 0 1) ∧
  nobj one_st = 3%N ∧ nobj two_st = 3%N.
Proof. split_and!; vm_compute; reflexivity. Qed.
Lemma one_two_config :
  config one_st 0 = config two_st 0 ∧ config one_st 1 = config two_st 1 ∧ config one_st 2 = config two_st 2.
Proof. split_and!; vm_compute; reflexivity. Qed.
Example C71_applies :
  reach_by env_s pure_oblivious_op one_st ∧ reach_by env_s pure_oblivious_op two_st ∧
  same_but_code one_st two_st ∧
  answer_to env_s 10 one_ops (OGet HRef 2%N) = Some (Returned (OutRes (RvVal (VPair (VNum 7) (VSome (VNum 7)))))) ∧
  answer_to env_s 10 two_ops (OGet HRef 2%N) = Some (Returned (OutRes (RvVal (VPair (VNum 7) (VSome (VNum 7)))))).
Proof.
  destruct one_two_defs as (A0 & A1 & A2 & B0 & B1 & B2 & N1 & N2). destruct one_two_config as (C0 & C1 & C2).
  split; [apply one_reach|]. split; [apply two_reach|]. split; [|split; vm_compute; reflexivity].
  assert (∀ o, o = 0 ∨ o = 1 ∨ o = 2 ∨ 3 ≤ o)%N as Ho by lia. split.
  - intros o. destruct (Ho o) as [->|[->|[->|H]]]; [exact C0|exact C1|exact C2|].
    assert (objs one_st !! o = None) as Hn by (apply (beyond env_s one_ops); [exact H|exact N1]). assert (objs two_st !! o = None) as Hn' by (apply (beyond env_s two_ops); [exact H|exact N2]). unfold config, state_of, initial. rewrite Hn, Hn'. reflexivity.
  - intros o d d' Hd Hd'. destruct (Ho o) as [->|[->|[->|H]]].
    + rewrite A0 in Hd. rewrite B0 in Hd'. injection Hd as <-. injection Hd' as <-. apply C71_itself, Props4.d_leaf_oblivious.
    + rewrite A1 in Hd. rewrite B1 in Hd'. injection Hd as <-. injection Hd' as <-. apply C71_itself, Props4.d_mid_oblivious.
    + rewrite A2 in Hd. rewrite B2 in Hd'. injection Hd as <-. injection Hd' as <-. apply C71_swap. apply (Props4.d_top_oblivious 0 1).
    + assert (objs one_st !! o = None) as Hn by (apply (beyond env_s one_ops); [exact H|exact N1]). unfold defs in Hd. rewrite Hn in Hd. discriminate Hd.
Qed.
Print Assumptions C71_applies.
