(** Code that computes the same (C71): proofs. *)
From Verif Require Export SameSpec EvalTotal.
From stdpp Require Import relations.

Lemma strip_strip v : strip (strip v) = strip v.
Proof. induction v; cbn; congruence. Qed.
Lemma strip_eres_twice r : strip_eres (strip_eres r) = strip_eres r.
Proof. destruct r as [[b|e]|]; cbn; unfold strip_bin; cbn; by rewrite ?strip_strip. Qed.

Section Collect.
Context (B : obj → option bdef) (σ : obj → option val) (HB : ∀ o d, B o = Some d → oblivious (bd_body d)).
Context (Q : obj → eres → Prop).

(** A run of [c] is one with finitely many answers, each of them what the evaluation of
    that builder gives. *)
Definition collects (v : val) (c : prog) (r : eres) : Prop :=
  ∃ m : gmap obj eres, (∀ w y, m !! w = Some y → ∃ y0, evals B σ w y0 ∧ y = strip_eres y0 ∧ Q w y0) ∧
    ∀ c' ρ, alike c c' → (∀ w y, m !! w = Some y → ρ w = Some y) → ∃ r', yields ρ v c' r' ∧ strip_eres r' = strip_eres r.

Lemma collect :
  (∀ o d v r, B o = Some d → σ o = Some v → evals_body B σ v (bd_body d) r → collects v (bd_body d) r → Q o r) →
  (∀ o d, B o = Some d → σ o = None → Q o EvPanic) →
  (∀ o r, evals B σ o r → Q o r) ∧ (∀ v c r, evals_body B σ v c r → collects v c r).
Proof using HB.
  intros HQ HQ0. apply (evals_both B σ (λ o r _, Q o r) (λ v c r _, collects v c r)).
  - eauto.
  - eauto.
  - intros v r. exists ∅. split; [done|]. intros c' ρ Ha _. inversion Ha; subst. eexists. split; [constructor|]. cbn. by f_equal.
  - intros v. exists ∅. split; [done|]. intros c' ρ Ha _. inversion Ha; subst. eexists. split; [constructor|done].
  - intros v h w k x r Hw Qw _ (m & Hm & Hc). exists (<[w := strip_eres (EvRet x)]> m). split.
    + intros u y. destruct (decide (u = w)) as [->|Hne]; [rewrite lookup_insert|rewrite lookup_insert_ne by done; apply Hm].
      intros [= <-]. by exists (EvRet x).
    + intros c' ρ Ha Hρ. inversion Ha as [| |? ? ? k' Hkk| |]; subst.
      assert (ρ w = Some (EvRet (strip_res x))) as Hw'. { apply Hρ. by rewrite lookup_insert. }
      destruct (Hc (k' (handed h (strip_res x))) ρ) as (r' & Hy & Hr).
      * apply Hkk, strip_handed. pose proof (strip_eres_twice (EvRet x)) as Ht. cbn in Ht. congruence.
      * intros u y Hu. destruct (decide (u = w)) as [->|Hne]; [|apply Hρ; by rewrite lookup_insert_ne].
        destruct (Hm w y Hu) as (y0 & Hy0 & -> & _). rewrite (proj1 (evals_det B σ HB) w _ Hy0 _ Hw). exact Hw'.
      * exists r'. split; [by eapply y_resolve|done].
  - intros v h w k Hw Qw. exists {[w := EvPanic]}. split.
    + intros u y [<- <-]%lookup_singleton_Some. by exists EvPanic.
    + intros c' ρ Ha Hρ. inversion Ha as [| |? ? ? k' Hkk| |]; subst. exists EvPanic. split; [|done].
      apply y_resolve_panic, Hρ. by rewrite lookup_singleton.
  - intros v k r _ (m & Hm & Hc). exists m. split; [done|]. intros c' ρ Ha Hρ. inversion Ha as [| | |k0 k' Hkk|]; subst.
    destruct (Hc (k' v) ρ (Hkk v) Hρ) as (r' & ? & ?). exists r'. split; [by constructor|done].
  - intros v x k p r _ (m & Hm & Hc). exists m. split; [done|]. intros c' ρ Ha Hρ. inversion Ha as [| | | |? x' ? k' Hx Hkk]; subst.
    destruct (Hc (k' (Bin p x')) ρ (Hkk p p) Hρ) as (r' & ? & ?). exists r'. split; [by eapply y_newbin|done].
Qed.
End Collect.

Lemma same_evals B B' σ σ' :
  (∀ o d, B o = Some d → oblivious (bd_body d)) → (∀ o d, B' o = Some d → oblivious (bd_body d)) →
  (∀ o, σ o = σ' o) → (∀ o d d', B o = Some d → B' o = Some d' → computes_same (bd_body d) (bd_body d')) →
  ∀ o r r', evals B σ o r → evals B' σ' o r' → strip_eres r = strip_eres r'.
Proof.
  intros HB HB' Hσ Hsame.
  enough (∀ o r, evals B σ o r → ∀ r', evals B' σ' o r' → strip_eres r = strip_eres r') as H by eauto.
  apply (collect B σ HB (λ o r, ∀ r', evals B' σ' o r' → strip_eres r = strip_eres r')).
  - intros o d v r Hd Hv _ (m & Hm & Hc) r' Hr'.
    inversion Hr' as [? d' Hd' Hv'|? d' v' ? Hd' Hv' Hb']; subst; [rewrite Hσ in Hv; congruence|].
    assert (v' = v) as -> by (rewrite Hσ in Hv; congruence).
    destruct (proj2 (collect B' σ' HB' (λ _ _, True) ltac:(done) ltac:(done)) v _ _ Hb') as (m' & Hm' & Hc').
    set (ρ := λ w, (m ∪ m') !! w).
    destruct (Hc (bd_body d) ρ (HB o d Hd)) as (x & Hx & Hxr). { intros w y Hy. by apply lookup_union_Some_l. }
    destruct (Hc' (bd_body d') ρ (HB' o d' Hd')) as (x' & Hx' & Hxr').
    { intros w y Hy. unfold ρ. rewrite lookup_union. rewrite Hy. destruct (m !! w) as [z|] eqn:Hz; rewrite ?Hz; [|done].
      cbn. f_equal. destruct (Hm w z Hz) as (z0 & _ & -> & Hq). destruct (Hm' w y Hy) as (y0 & Hy0 & -> & _). by apply Hq. }
    rewrite <- Hxr, <- Hxr'. by eapply Hsame.
  - intros o d Hd Hn r' Hr'. inversion Hr' as [|? d' v' ? Hd' Hv' Hb']; subst; [done|]. rewrite Hσ in Hn. congruence.
Qed.

Lemma yields_evals B σ ρ v c r :
  (∀ w y, ρ w = Some y → ∃ y', evals B σ w y' ∧ strip_eres y' = y) →
  yields ρ v c r → ∀ c', alike c c' → ∃ r', evals_body B σ v c' r'.
Proof.
  intros Hρ. induction 1 as [r| |h w k x r Hw _ IH|h w k Hw|k r _ IH|x k p r _ IH]; intros c' Ha.
  - inversion Ha; subst. eexists. constructor.
  - inversion Ha; subst. eexists. constructor.
  - inversion Ha as [| |? ? ? k' Hkk| |]; subst. destruct (Hρ w _ Hw) as ([y|] & Hy & He); [|done]. cbn in He. injection He as He.
    destruct (IH (k' (handed h y))) as [r' Hr'].
    { apply Hkk, strip_handed. pose proof (strip_eres_twice (EvRet y)) as Ht. cbn in Ht. congruence. }
    exists r'. by eapply eb_resolve.
  - inversion Ha as [| |? ? ? k' Hkk| |]; subst. destruct (Hρ w _ Hw) as ([y|] & Hy & He); [done|]. eexists. by eapply eb_resolve_panic.
  - inversion Ha as [| | |k0 k' Hkk|]; subst. destruct (IH (k' v) (Hkk v)) as [r' Hr']. exists r'. by constructor.
  - inversion Ha as [| | | |? x' ? k' Hx Hkk]; subst. destruct (IH (k' (Bin p x')) (Hkk p p)) as [r' Hr']. exists r'. by eapply eb_newbin.
Qed.

Lemma same_ends B B' σ σ' :
  (∀ o d, B o = Some d → oblivious (bd_body d)) → (∀ o d, B' o = Some d → oblivious (bd_body d)) →
  (∀ o, σ o = σ' o) → (∀ o d d', B o = Some d → B' o = Some d' → computes_same (bd_body d) (bd_body d')) →
  (∀ o d, B o = Some d → ∃ d', B' o = Some d' ∧ needs_no_more (bd_body d) (bd_body d')) →
  ∀ o r, evals B σ o r → ∃ r', evals B' σ' o r'.
Proof.
  intros HB HB' Hσ Hsame Hmore.
  apply (collect B σ HB (λ o r, ∃ r', evals B' σ' o r')).
  - intros o d v r Hd Hv Hb (m & Hm & Hc). destruct (Hmore o d Hd) as (d' & Hd' & Hn).
    destruct (Hc (bd_body d) (λ w, m !! w) (HB o d Hd) (λ w y Hy, Hy)) as (x & Hx & _).
    destruct (Hn _ v x Hx) as (x' & Hx').
    assert (∀ w y, m !! w = Some y → ∃ y', evals B' σ' w y' ∧ strip_eres y' = y) as Hw.
    { intros w y Hy. destruct (Hm w y Hy) as (y0 & Hy0 & -> & y' & Hy'). exists y'. split; [done|].
      symmetry. eapply (same_evals B B' σ σ'); eauto. }
    destruct (yields_evals B' σ' (λ w, m !! w) v (bd_body d') x' Hw Hx' (bd_body d') (HB' o d' Hd')) as (r' & Hr').
    exists r'. eapply ev_body; [exact Hd'|by rewrite <- Hσ|done].
  - intros o d Hd Hn. destruct (Hmore o d Hd) as (d' & Hd' & _). exists EvPanic. eapply ev_noinit; [exact Hd'|by rewrite <- Hσ].
Qed.
