(** C68: adaptors.  Vocabulary: EvalSpec.v, AdaptSpec.v; [same_outcome], [ended]: Props34.v. *)
From Verif Require Import AdaptFacts UtilFacts Facts1 Demo Props34.
From Verif Require Props4.
From stdpp Require Import relations.

Lemma same_outcome_evals E E' n n' h o o' s s' x x' :
  reach_by E pure_oblivious_op s → reach_by E' pure_oblivious_op s' →
  evals (defs s) (config s) o x → evals (defs s') (config s') o' x' → strip_eres x = strip_eres x' →
  ended (step E n (OGet h o) s) → ended (step E' n' (OGet h o') s') →
  same_outcome (step E n (OGet h o) s) (step E' n' (OGet h o') s').
Proof.
  intros Hr Hr' Hx Hx' Heq He He'.
  destruct (ended_evals E n h o s Hr He) as (y & Hy & Ha). destruct (ended_evals E' n' h o' s' Hr' He') as (y' & Hy' & Hb).
  assert (strip_eres y = strip_eres y') as Hyy.
  { rewrite (proj1 (evals_det _ _ (reach_oblivious E s Hr)) o _ Hy _ Hx), Heq. symmetry.
    apply (proj1 (evals_det _ _ (reach_oblivious E' s' Hr')) o' _ Hy' _ Hx'). }
  destruct (step E n (OGet h o) s) as [r t|k t| |]; try done; destruct (step E' n' (OGet h o') s') as [r' t'|k' t'| |]; try done; cbn.
  - destruct Ha as (z & -> & ->), Hb as (z' & -> & ->). cbn in Hyy. apply strip_handed. congruence.
  - destruct Ha as (z & -> & ->). by subst y'.
  - destruct Hb as (z & -> & ->). by subst y.
Qed.

(** ** Any number of adaptors around a builder *)
(** Through a tower of adaptors, a getter answers what it answers for the builder inside:
    artifact, error or panic. *)
Theorem C68_tower E n n' h o w s :
  reach_by E pure_oblivious_op s → rtc (wraps s) o w →
  ended (step E n (OGet h o) s) → ended (step E n' (OGet h w) s) →
  same_outcome (step E n (OGet h o) s) (step E n' (OGet h w) s).
Proof.
  intros Hr Hw He He'. destruct (ended_evals E n' h w s Hr He') as (y & Hy & _).
  destruct (wrap_all s o w y Hw Hy) as (x & Hx & Heq). by eapply same_outcome_evals.
Qed.
Print Assumptions C68_tower.
(** It ends if that ends, and conversely. *)
Theorem C68_tower_ends E n h h' o w s :
  reach_by E pure_oblivious_op s → rtc (wraps s) o w →
  (ended (step E n (OGet h w) s) → ∃ N, ∀ m, N ≤ m → step E m (OGet h' o) s ≠ NoFuel) ∧
  (ended (step E n (OGet h o) s) → ∃ N, ∀ m, N ≤ m → step E m (OGet h' w) s ≠ NoFuel).
Proof.
  intros Hr Hw. split; intros He.
  - destruct (ended_evals E n h w s Hr He) as (y & Hy & _). destruct (wrap_all s o w y Hw Hy) as (x & Hx & _). by eapply cold_ends.
  - destruct (ended_evals E n h o s Hr He) as (x & Hx & _).
    destruct (proj1 (eval_complete _ _ (reach_oblivious E s Hr)) o x Hx 0%N) as (m & r & p & Hm & _).
    destruct (peel_all s o w Hw m 0%N r p Hm) as (m' & y & q & Hy & _). eapply cold_ends; [done|]. by eapply eval_sound.
Qed.
Print Assumptions C68_tower_ends.

(** ** Adaptors anywhere *)
(** Two caches, with builders that are the same but for adaptors put between them, or taken
    out, anywhere: getters answer the same. *)
Theorem C68_answer E E' n n' h o o' s s' C :
  reach_by E pure_oblivious_op s → reach_by E' pure_oblivious_op s' →
  same_but_adaptors s s' C → wrapped s s' C o o' →
  ended (step E n (OGet h o) s) → ended (step E' n' (OGet h o') s') →
  same_outcome (step E n (OGet h o) s) (step E' n' (OGet h o') s').
Proof.
  intros Hr Hr' HC Hw He He'. destruct (ended_evals E n h o s Hr He) as (x & Hx & _).
  destruct (sim_evals s s' C (reach_oblivious E s Hr) HC o o' x Hw Hx) as (x' & Hx' & Heq). by eapply same_outcome_evals.
Qed.
Print Assumptions C68_answer.
(** And one ends if the other does. *)
Theorem C68_ends E E' n h h' o o' s s' C :
  reach_by E pure_oblivious_op s → reach_by E' pure_oblivious_op s' →
  same_but_adaptors s s' C → wrapped s s' C o o' →
  (ended (step E n (OGet h o) s) → ∃ N, ∀ m, N ≤ m → step E' m (OGet h' o') s' ≠ NoFuel) ∧
  (ended (step E' n (OGet h o') s') → ∃ N, ∀ m, N ≤ m → step E m (OGet h' o) s ≠ NoFuel).
Proof.
  intros Hr Hr' HC Hw. split; intros He.
  - destruct (ended_evals E n h o s Hr He) as (x & Hx & _).
    destruct (sim_evals s s' C (reach_oblivious E s Hr) HC o o' x Hw Hx) as (x' & Hx' & _). by eapply cold_ends.
  - destruct (ended_evals E' n h o' s' Hr' He) as (x & Hx & _).
    destruct (sim_evals s' s _ (reach_oblivious E' s' Hr') (same_sym s s' C HC) o' o x (wrapped_sym s s' C o o' Hw) Hx) as (x' & Hx' & _).
    by eapply cold_ends.
Qed.
Print Assumptions C68_ends.

(** Adaptors are builders as the theorems want them; and a builder whose code returns no
    error can be put into a FeigningBuilder. *)
Theorem C68_adaptors s aty sty o w d :
  (∀ s, pure_oblivious_op s (OAlloc (forwarding aty sty w)) ∧ pure_oblivious_op s (OAlloc (cloned aty sty w)) ∧
     pure_oblivious_op s (OAlloc (feigning aty sty w))) ∧
  (defs s o = Some (forwarding aty sty w) ∨ defs s o = Some (cloned aty sty w) → wraps s o w) ∧
  (defs s o = Some (feigning aty sty w) → defs s w = Some d → infallible d → wraps s o w).
Proof.
  split_and!; [intros t; apply adaptors_pure| |].
  - intros H. exists aty, sty. tauto.
  - intros H Hd Hi. exists aty, sty. right; right. split; [done|]. by eapply infallible_never.
Qed.
Print Assumptions C68_adaptors.

(** ** Example: a builder that uses another one twice; the same, once through a clone of a
    forwarded one, and once through a FeigningBuilder. *)
Definition direct_ops : list op := [OAlloc (configurable 0 0 (VNum 7)); OAlloc (d_top 0 0); ODynStateMut 0 (λ _, VNum 5)]%N.
Definition adapted_ops : list op :=
  [OAlloc (configurable 0 0 (VNum 5)); OAlloc (forwarding 0 0 0); OAlloc (cloned 0 0 1); OAlloc (feigning 0 0 0); OAlloc (d_top 2 3);
   OAlloc (forwarding 0 0 4); OGet HRef 2]%N.
Definition direct_st : st := after env_s 10 direct_ops.
Definition adapted_st : st := after env_s 10 adapted_ops.
Definition twins (x y : obj) : Prop := (x = 0 ∧ y = 0 ∨ x = 1 ∧ y = 4)%N.
Lemma direct_reach : reach_by env_s pure_oblivious_op direct_st.
Proof.
  apply after_by. unfold direct_ops. constructor; [intros s|constructor; [intros s; apply Props4.d_top_oblivious|constructor; [done|constructor]]].
  split; [done|]. constructor. intros v. constructor; [done|]. intros p p'. by constructor.
Qed.
Lemma adapted_reach : reach_by env_s pure_oblivious_op adapted_st.
Proof.
  apply after_by. unfold adapted_ops. constructor; [intros s|constructor; [|constructor; [|constructor; [|constructor; [|constructor; [|constructor; [done|constructor]]]]]]].
  - split; [done|]. constructor. intros v. constructor; [done|]. intros p p'. by constructor.
  - intros s. apply (adaptors_pure 0 0 0).
  - intros s. apply (adaptors_pure 0 0 1).
  - intros s. apply (adaptors_pure 0 0 0).
  - intros s. apply Props4.d_top_oblivious.
  - intros s. apply (adaptors_pure 0 0 4).
Qed.
Lemma direct_defs :
  defs direct_st 0 = Some (configurable 0 0 (VNum 7)) ∧ defs direct_st 1 = Some (d_top 0 0).
Proof. split; vm_compute; reflexivity. Qed.
Lemma adapted_defs :
  defs adapted_st 0 = Some (configurable 0 0 (VNum 5)) ∧ defs adapted_st 1 = Some (forwarding 0 0 0) ∧
  defs adapted_st 2 = Some (cloned 0 0 1) ∧ defs adapted_st 3 = Some (feigning 0 0 0) ∧
  defs adapted_st 4 = Some (d_top 2 3) ∧ defs adapted_st 5 = Some (forwarding 0 0 4).
Proof. split_and!; vm_compute; reflexivity. Qed.
Lemma adapted_wraps :
  wraps adapted_st 1 0 ∧ wraps adapted_st 2 1 ∧ wraps adapted_st 3 0 ∧ wraps adapted_st 5 4.
Proof.
  destruct adapted_defs as (H0 & H1 & H2 & H3 & H4 & H5). split_and!; exists 0%N, 0%N.
  - by left.
  - by right; left.
  - right; right. split; [done|]. eapply infallible_never; [exact H0|]. apply configurable_infallible.
  - by left.
Qed.
Lemma twins_0 : twins 0%N 0%N.
Proof. left. split; reflexivity. Qed.
Lemma twins_1 : twins 1%N 4%N.
Proof. right. split; reflexivity. Qed.
Lemma top_rewired (R : obj → obj → Prop) w1 w2 w3 w4 :
  R w1 w3 → R w2 w4 → rewired R (bd_body (d_top w1 w2)) (bd_body (d_top w3 w4)).
Proof.
  intros H1 H2. constructor; [exact H1|]. intros r. constructor; [exact H2|]. intros r'. destruct r, r'; repeat constructor.
Qed.
Lemma twins_same : same_but_adaptors direct_st adapted_st twins.
Proof.
  destruct adapted_defs as (H0 & H1 & H2 & H3 & H4 & H5). destruct direct_defs as [D0 D1].
  destruct adapted_wraps as (W1 & W2 & W3 & W5).
  intros w w' [[-> ->]|[-> ->]]; (split; [vm_compute; reflexivity|]).
  - eexists _, _. split_and!; [exact D0|exact H0|]. constructor. intros v. constructor. intros b. constructor.
  - eexists _, _. split_and!; [exact D1|exact H4|].
    apply top_rewired; exists 0%N, 0%N; (split; [constructor|split; [|exact twins_0]]).
    + eapply rtc_l; [exact W2|]. eapply rtc_l; [exact W1|constructor].
    + eapply rtc_l; [exact W3|constructor].
Qed.
Example C68_applies :
  reach_by env_s pure_oblivious_op direct_st ∧ reach_by env_s pure_oblivious_op adapted_st ∧
  same_but_adaptors direct_st adapted_st twins ∧ wrapped direct_st adapted_st twins 1%N 5%N ∧
  rtc (wraps adapted_st) 2%N 0%N ∧
  answer_to env_s 10 direct_ops (OGet HRef 1%N) = Some (Returned (OutRes (RvVal (VPair (VNum 5) (VNum 5))))) ∧
  answer_to env_s 10 adapted_ops (OGet HRef 5%N) = Some (Returned (OutRes (RvVal (VPair (VNum 5) (VNum 5))))).
Proof.
  destruct adapted_wraps as (W1 & W2 & W3 & W5).
  split_and!; [apply direct_reach|apply adapted_reach|apply twins_same| | |vm_compute; reflexivity|vm_compute; reflexivity].
  - exists 1%N, 4%N. split; [constructor|split; [|exact twins_1]]. eapply rtc_l; [exact W5|constructor].
  - eapply rtc_l; [exact W2|]. eapply rtc_l; [exact W1|constructor].
Qed.
Print Assumptions C68_applies.
