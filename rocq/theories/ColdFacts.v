(** History independence (C67): proofs.  Evaluation as a program is complete, so a getter
    that ends with one cache ends with every other. *)
From Verif Require Export EvalTotal.
From stdpp Require Import relations.

Lemma eval_body_mono (rec rec' : obj → N → option (eres * N)) v c p x :
  (∀ o p x, rec o p = Some x → rec' o p = Some x) → eval_body rec v c p = Some x → eval_body rec' v c p = Some x.
Proof.
  intros Hm. revert p x. induction c as [r| |h w k IH|k IH|v' c IH|k IH|v' k IH|d k IH|w c IH]; intros p x; cbn [eval_body]; try done; eauto.
  destruct (rec w p) as [[[y|] p1]|] eqn:Hw; [| |done]; rewrite (Hm _ _ _ Hw); eauto.
Qed.
Lemma eval_mono B σ n m o p x : n ≤ m → eval B σ n o p = Some x → eval B σ m o p = Some x.
Proof.
  revert m o p x. induction n as [|n IH]; intros m o p x Hle; [done|]. destruct m as [|m]; [lia|]. cbn [eval].
  destruct (B o) as [d|]; [|done]. destruct (σ o) as [v|]; [|done]. apply eval_body_mono. intros o' p' x'. apply IH. lia.
Qed.

Lemma eval_complete B σ :
  (∀ o d, B o = Some d → oblivious (bd_body d)) →
  (∀ o r, evals B σ o r → ∀ p, ∃ n r' p', eval B σ n o p = Some (r', p') ∧ strip_eres r' = strip_eres r) ∧
  (∀ v c r, evals_body B σ v c r → ∀ c' p, alike c c' →
     ∃ n r' p', eval_body (eval B σ n) v c' p = Some (r', p') ∧ strip_eres r' = strip_eres r).
Proof.
  intros HB.
  apply (evals_both B σ (λ o r _, ∀ p, ∃ n r' p', eval B σ n o p = Some (r', p') ∧ strip_eres r' = strip_eres r)
    (λ v c r _, ∀ c' p, alike c c' → ∃ n r' p', eval_body (eval B σ n) v c' p = Some (r', p') ∧ strip_eres r' = strip_eres r)).
  - intros o d Hd Hs p. exists 1, EvPanic, p. cbn. by rewrite Hd, Hs.
  - intros o d v r Hd Hs _ IH p. destruct (IH (bd_body d) p (HB o d Hd)) as (n & r' & p' & He & Hr).
    exists (S n), r', p'. cbn. by rewrite Hd, Hs.
  - intros v r c' p Ha. inversion Ha; subst. exists 0. eexists _, _. split; [done|]. cbn. by f_equal.
  - intros v c' p Ha. inversion Ha; subst. exists 0. by eexists _, _.
  - intros v h w k x r _ IHw _ IHk c' p Ha. inversion Ha as [| |? ? ? k' Hkk| |]; subst.
    destruct (IHw p) as (n1 & rw & p1 & Hw & Hrw). destruct rw as [y|]; [|done]. cbn in Hrw. injection Hrw as Hrw.
    destruct (IHk (k' (handed h y)) p1) as (n2 & r' & p2 & He & Hr).
    { apply Hkk, strip_handed. done. }
    exists (n1 `max` n2), r', p2. split; [|done]. cbn [eval_body].
    rewrite (eval_mono B σ n1 (n1 `max` n2) w p _ ltac:(lia) Hw).
    eapply eval_body_mono; [|exact He]. intros o' p' x'. apply eval_mono. lia.
  - intros v h w k _ IHw c' p Ha. inversion Ha as [| |? ? ? k' Hkk| |]; subst.
    destruct (IHw p) as (n1 & rw & p1 & Hw & Hrw). destruct rw as [y|]; [done|].
    exists n1, EvPanic, p1. cbn [eval_body]. by rewrite Hw.
  - intros v k r _ IH c' p Ha. inversion Ha; subst. cbn [eval_body]. eauto.
  - intros v x k q r _ IH c' p Ha. inversion Ha; subst. cbn [eval_body]. eauto.
Qed.

(** More fuel does no harm. *)
Lemma cold_ends E h o s x :
  reach_by E pure_oblivious_op s → evals (defs s) (config s) o x →
  ∃ N, ∀ m, N ≤ m → step E m (OGet h o) s ≠ NoFuel.
Proof using.
  intros Hr Hx. destruct (proj1 (eval_complete _ _ (reach_oblivious E s Hr)) o x Hx 0%N) as (N & r & p & He & _).
  exists N. intros m Hm. eapply (get_total E m h o s); [exact Hr|]. by eapply eval_mono.
Qed.

Lemma evals_ext B B' σ σ' o r :
  (∀ o, B o = B' o) → (∀ o, σ o = σ' o) → evals B σ o r → evals B' σ' o r.
Proof.
  intros HB Hs.
  enough ((∀ o r, evals B σ o r → evals B' σ' o r) ∧ (∀ v c r, evals_body B σ v c r → evals_body B' σ' v c r)) as [H _] by apply H.
  apply (evals_both B σ (λ o r _, evals B' σ' o r) (λ v c r _, evals_body B' σ' v c r)); intros; try (by econstructor; eauto).
  - eapply ev_noinit; [by rewrite <- HB|by rewrite <- Hs].
  - eapply ev_body; [by rewrite <- HB|by rewrite <- Hs|done].
Qed.
