(** Incremental rebuilding: recorded dependencies are what builders ask for now (proofs
    for C64). *)
From Verif Require Export MinOrder.
From stdpp Require Import relations.

(** ** Only what is below a builder matters for it *)
Section Local.
Context (B B' : obj → option bdef) (σ σ' : obj → option val).
Definition agree (y : obj) : Prop := B' y = B y ∧ σ' y = σ y.
Definition agree_below (u : obj) : Prop := ∀ y, rtc (asks B σ) u y → agree y.
Definition agree_body (v : val) (p : prog) : Prop := ∀ z, asks_body B σ v p z → agree_below z.

Lemma below_self u : agree_below u → agree u.
Proof. intros H. apply H, rtc_refl. Qed.
Lemma below_sub u z : agree_below u → asks B σ u z → agree_below z.
Proof. intros H Ha y Hy. apply H. by eapply rtc_l. Qed.
Lemma below_body u d v : agree_below u → B u = Some d → σ u = Some v → agree_body v (bd_body d).
Proof. intros H Hd Hv z Hz. eapply below_sub; [exact H|]. by exists d, v. Qed.

Lemma evals_local :
  (∀ o r, evals B σ o r → agree_below o → evals B' σ' o r) ∧
  (∀ v p r, evals_body B σ v p r → agree_body v p → evals_body B' σ' v p r).
Proof.
  apply (evals_both B σ (λ o r _, agree_below o → evals B' σ' o r) (λ v p r _, agree_body v p → evals_body B' σ' v p r)).
  - intros o d Hd Hs Ha. destruct (below_self o Ha) as [H1 H2]. apply (ev_noinit _ _ o d); congruence.
  - intros o d v r Hd Hs _ IH Ha. destruct (below_self o Ha) as [H1 H2]. apply (ev_body _ _ o d v); [congruence..|].
    apply IH. by eapply below_body.
  - intros. constructor.
  - intros. constructor.
  - intros v h w k x r Hw IHw _ IHk Ha. econstructor; [apply IHw; apply Ha; constructor|].
    apply IHk. intros z Hz. apply Ha. by eapply ab_later.
  - intros v h w k Hw IHw Ha. apply eb_resolve_panic. apply IHw. apply Ha. constructor.
  - intros v k r _ IH Ha. constructor. apply IH. intros z Hz. apply Ha. by constructor.
  - intros v x k p r _ IH Ha. econstructor. apply IH. intros z Hz. apply Ha. by econstructor.
Qed.
Lemma evals_local_back :
  (∀ o r, evals B' σ' o r → agree_below o → evals B σ o r) ∧
  (∀ v p r, evals_body B' σ' v p r → agree_body v p → evals_body B σ v p r).
Proof.
  apply (evals_both B' σ' (λ o r _, agree_below o → evals B σ o r) (λ v p r _, agree_body v p → evals_body B σ v p r)).
  - intros o d Hd Hs Ha. destruct (below_self o Ha) as [H1 H2]. apply (ev_noinit _ _ o d); congruence.
  - intros o d v r Hd Hs _ IH Ha. destruct (below_self o Ha) as [H1 H2]. apply (ev_body _ _ o d v); [congruence..|].
    apply IH. apply (below_body o d v); [done|congruence..].
  - intros. constructor.
  - intros. constructor.
  - intros v h w k x r Hw IHw _ IHk Ha.
    assert (evals B σ w (EvRet x)) as Hw' by (apply IHw; apply Ha; constructor).
    econstructor; [exact Hw'|]. apply IHk. intros z Hz. apply Ha. by eapply ab_later.
  - intros v h w k Hw IHw Ha. apply eb_resolve_panic. apply IHw. apply Ha. constructor.
  - intros v k r _ IH Ha. constructor. apply IH. intros z Hz. apply Ha. by constructor.
  - intros v x k p r _ IH Ha. econstructor. apply IH. intros z Hz. apply Ha. by econstructor.
Qed.
Lemma asks_body_local v p z : asks_body B σ v p z → agree_body v p → asks_body B' σ' v p z.
Proof.
  induction 1 as [v h w k|v h w k x z Hx _ IH|v k z _ IH|v x k p z _ IH]; intros Ha.
  - constructor.
  - eapply ab_later; [eapply (proj1 evals_local); [exact Hx|apply Ha; constructor]|].
    apply IH. intros y Hy. apply Ha. by eapply ab_later.
  - constructor. apply IH. intros y Hy. apply Ha. by constructor.
  - econstructor. apply IH. intros y Hy. apply Ha. by econstructor.
Qed.
Lemma asks_body_back v p z : asks_body B' σ' v p z → agree_body v p → asks_body B σ v p z.
Proof.
  induction 1 as [v h w k|v h w k x z Hx _ IH|v k z _ IH|v x k p z _ IH]; intros Ha.
  - constructor.
  - assert (evals B σ w (EvRet x)) as Hx' by (eapply (proj1 evals_local_back); [exact Hx|apply Ha; constructor]).
    eapply ab_later; [exact Hx'|]. apply IH. intros y Hy. apply Ha. by eapply ab_later.
  - constructor. apply IH. intros y Hy. apply Ha. by constructor.
  - econstructor. apply IH. intros y Hy. apply Ha. by econstructor.
Qed.
Lemma asks_local u z : agree_below u → asks B' σ' u z ↔ asks B σ u z.
Proof.
  intros Ha. destruct (below_self u Ha) as [H1 H2]. split; intros (d & v & Hd & Hv & Hz).
  - exists d, v. split_and!; [congruence..|]. apply asks_body_back; [done|]. apply (below_body u d v); [done|congruence..].
  - exists d, v. split_and!; [congruence..|]. apply asks_body_local; [done|]. by eapply below_body.
Qed.
End Local.

(** ** The invariant *)
Local Notation asks_in s := (asks (defs s) (config s)).
(** [u] has run and has not been forgotten since. *)
Definition touched (s : st) (u : obj) : Prop := has s u ∨ (∃ z, depends s u z) ∨ ∃ z, depends s z u.
Record exact_deps (s : st) : Prop := {
  xd_true : ∀ u z, depends s u z → asks_in s u z;
  xd_full : ∀ u z, touched s u → asks_in s u z → depends s u z;
  xd_has : ∀ u z b, depends s u z → evals (defs s) (config s) z (EvRet (Ok b)) → has s z;
}.
Lemma touched_below s u y : exact_deps s → touched s u → rtc (asks_in s) u y → touched s y ∧ rtc (depends s) u y.
Proof.
  intros [_ H2 _] Ht. induction 1 as [u|u z y Ha _ IH] ; [by split; [|apply rtc_refl]|].
  assert (depends s u z) as Hd by auto. destruct IH as [A1 A2]; [right; right; eauto|]. split; [done|]. by eapply rtc_l.
Qed.
Lemma touched_def s u : touched s u → is_Some (objs s !! u).
Proof.
  intros [H|[(z & du & ua & dw & wa & X & H1 & _)|(z & du & ua & dw & wa & X & _ & _ & H1 & _)]]; [|eauto..].
  unfold has, cached in H. destruct (objs s !! u); [eauto|done].
Qed.

(** Forgetting, and changing the configuration of what is forgotten. *)
Lemma exact_change s s' (F : obj → Prop) :
  exact_deps s → (∀ u, ¬ F u → is_Some (objs s !! u) → defs s' u = defs s u ∧ config s' u = config s u) →
  (∀ u w, depends s u w → F w → F u) →
  (∀ u, has s' u ↔ has s u ∧ ¬ F u) → (∀ u w, depends s' u w ↔ depends s u w ∧ ¬ F u ∧ ¬ F w) → exact_deps s'.
Proof.
  intros X Hag Hcl Hh Hd.
  assert (∀ u, touched s' u → touched s u ∧ ¬ F u) as Ht.
  { intros u [H|[(z & H)|(z & H)]].
    - apply Hh in H as [? ?]. split; [by left|done].
    - apply Hd in H as (H1 & H2 & H3). split; [right; left; eauto|done].
    - apply Hd in H as (H1 & H2 & H3). split; [right; right; eauto|done]. }
  assert (∀ u, touched s u → ¬ F u → agree_below (defs s) (defs s') (config s) (config s') u) as Hab.
  { intros u Hu HF y Hy. destruct (touched_below s u y X Hu Hy) as [Hty Hp].
    apply Hag; [|by apply touched_def]. clear - Hp HF Hcl. induction Hp; [done|]. apply IHHp. intros HF'. eauto. }
  split.
  - intros u z Hu. apply Hd in Hu as (H1 & H2 & H3). assert (touched s u) as Htu by (right; left; eauto).
    apply (asks_local _ _ _ _ u z (Hab u Htu H2)). by apply (xd_true s X).
  - intros u z [Hu HF]%Ht Ha. apply (asks_local _ _ _ _ u z (Hab u Hu HF)) in Ha. apply Hd.
    assert (depends s u z) as Hdz by (by apply (xd_full s X)). split_and!; [done..|]. intros ?. by eapply HF, Hcl.
  - intros u z b Hu Hb. apply Hd in Hu as (H1 & H2 & H3). apply Hh. split; [|done].
    assert (touched s z) as Htz by (right; right; eauto).
    apply (xd_has s X u z b H1). exact (proj1 (evals_local_back _ _ _ _) z _ Hb (Hab z Htz H3)).
Qed.

Lemma forgets_has s F G s' : forgets s F G s' → ∀ u, has s' u ↔ has s u ∧ ¬ F u.
Proof.
  intros Hf u. unfold has. split.
  - intros Hu. assert (¬ F u) as HF by (intros HF; apply Hu; by apply (fg_gone _ _ _ _ Hf)).
    split; [|done]. by rewrite <- (fg_kept _ _ _ _ Hf u HF).
  - intros [Hu HF]. by rewrite (fg_kept _ _ _ _ Hf u HF).
Qed.

Section Runs.
Context (E : env).
Lemma exact_get n h o s s' :
  Inv s → pureinv s → (∀ o d, defs s o = Some d → oblivious (bd_body d)) → ends (get E n h o s) s' →
  exact_deps s → exact_deps s'.
Proof.
  intros I HP Hob He X.
  destruct (get_went E (defs s) (config s) Hob n h o s s' I HP (λ o, conj eq_refl eq_refl) He) as (l & Hl & N).
  assert (rtc (Prims.prim E) s s') as Hps by (eapply get_prims; [by apply i_wf|done]).
  assert (pgrow s s') as (G1 & G2 & G3).
  { pose proof (get_pure E n h o s I HP) as [H1 H2]. destruct He as [[rv Hr]|[k Hr]]; [apply (H1 _ _ Hr)|apply (H2 _ _ Hr)]. }
  assert (∀ u, agree_below (defs s) (defs s') (config s) (config s') u) as Hab.
  { intros u y _. split; [unfold defs; by rewrite G1|apply G2]. }
  assert (∀ u z, depends s' u z ↔ depends s u z ∨ (ECall u ∈ l ∧ asks_in s u z)) as Hd.
  { intros u z. rewrite (prims_depends E s s' l u z I Hps Hl), (nt_resolved _ _ _ _ _ _ (wt_noted _ _ _ _ _ _ _ N)). tauto. }
  split.
  - intros u z Hu. apply (asks_local _ _ _ _ u z (Hab u)). apply Hd in Hu as [Hu|[_ ?]]; [|done]. by apply (xd_true s X).
  - intros u z Ht Ha. apply (asks_local _ _ _ _ u z (Hab u)) in Ha. apply Hd.
    assert (touched s u ∨ ECall u ∈ l ∨ config s u = None) as [?|[?|Hn]].
    { destruct Ht as [H|[(y & H)|(y & H)]].
      - destruct (wt_new _ _ _ _ _ _ _ N u H); [left; by left|auto].
      - apply Hd in H as [H|[H _]]; [left; right; left; eauto|auto].
      - apply Hd in H as [H|[H1 H2]]; [left; right; right; eauto|].
        destruct (wt_closed _ _ _ _ _ _ _ N y u H1 H2) as [?|[?|?]]; [left; by left|auto..]. }
    + left. by apply (xd_full s X).
    + by right.
    + destruct Ha as (d & v & _ & Hv & _). congruence.
  - intros u z b Hu Hb. pose proof (proj1 (evals_local_back _ _ _ _) z _ Hb (Hab z)) as Hb'. clear Hb. rename Hb' into Hb.
    apply Hd in Hu as [Hu|[Hu Ha]].
    + apply (has_mono E s s' z I Hps). by eapply (xd_has s X).
    + destruct (wt_closed _ _ _ _ _ _ _ N u z Hu Ha) as [?|[?|?]].
      * by apply (has_mono E s s' z I Hps).
      * by eapply (wt_has _ _ _ _ _ _ _ N).
      * inversion Hb; congruence.
Qed.

Lemma exact_step n x s s' :
  Inv s → stack s = [] → pureinv s → (∀ o d, defs s o = Some d → oblivious (bd_body d)) → pure_op s x →
  goes (step E n x s) s' → exact_deps s → exact_deps s'.
Proof.
  intros I Hst HP Hob Hop Hg X. pose proof (step_effect E n x s s' I Hst Hg) as He.
  assert (∀ o, ∀ u w, depends s u w → affected s o w → affected s o u) as Hcl.
  { intros o u w Hd Ha. by eapply rtc_r. }
  assert (∀ F G s', forgets s F G s' → (∀ u w, depends s u w → F w → F u) → (∀ o, G o → F o) → exact_deps s') as Hfg.
  { intros F G s1 Hf Hc HGF. apply (exact_change s s1 F); [done| |done| |apply (fg_depends _ _ _ _ Hf)].
    - intros u HF _. split; [unfold defs; by rewrite (fg_objs _ _ _ _ Hf)|].
      apply config_ext; [apply (fg_objs _ _ _ _ Hf)|]. apply (fg_state_kept _ _ _ _ Hf). auto.
    - by eapply forgets_has. }
  destruct x as [d|o|h o|o f|h o|o f|o|o f|o|o|o| | | |o| ]; cbn [effect_of] in He; try (by subst); try done.
  - unfold goes in Hg. cbn [step] in Hg. destruct (alloc E d s) as [[o s1]|] eqn:Ha; [|by gd].
    destruct Hg as [[? [= _ <-]]|(? & ? & ?)]; [|done].
    assert (Prims.prim E s s1) as Hp by (by eapply pm_alloc).
    apply alloc_Some in Ha as (-> & -> & _). set (s' := St _ _ _ _ _ _ _ _ _) in *.
    apply (exact_change s s' (λ _, False)); [done| |done| |].
    + intros u _ Hu. assert (u ≠ nobj s) as Hne by (intros ->; destruct Hu as [? Hu]; apply (i_num _ I) in Hu; lia).
      unfold defs, config, state_of, initial. cbn. by rewrite lookup_insert_ne by done.
    + intros u. unfold has. rewrite (prim_cached_exact E s s' [] u I Hp eq_refl). tauto.
    + intros u w. rewrite (prims_depends E s s' [] u w I He eq_refl). 
      split; [intros [?|?%elem_of_nil]; tauto|tauto].
  - unfold goes in Hg. cbn [step] in Hg. destruct (drop_obj o s) as [s1|] eqn:Ha; [|by gd].
    destruct Hg as [[? [= _ <-]]|(? & ? & ?)]; [|done]. apply drop_Some in Ha as (_ & _ & ->).
    by apply (exact_change s _ (λ _, False)); [|done|done| |]; [|naive_solver..].
  - apply (exact_get n h o s s'); try done. unfold goes in Hg. cbn [step] in Hg.
    destruct (get E n h o s) as [r s1|k s1| |]; [| |by gd..].
    + destruct Hg as [[? [= _ <-]]|(? & ? & ?)]; [|done]. left. eauto.
    + destruct Hg as [[? ?]|(? & [= _ <-] & ?)]; [done|]. right. eauto.
  - destruct He as (Hl & [->|(Hnone & Hs & Ha)]); [done|].
    apply (exact_change s s' (λ _, False)); [done| |done| |].
    + intros w _ _. split; [unfold defs; by rewrite (ss_objs _ _ _ _ Hs)|].
      destruct (decide (w = o)) as [->|Hne].
      * unfold config. rewrite (ss_state _ _ _ _ Hs), Hnone. destruct (initial s o) eqn:Hi; [done|].
        unfold initial in *. by rewrite (ss_objs _ _ _ _ Hs).
      * apply config_ext; [apply (ss_objs _ _ _ _ Hs)|by apply (ss_others _ _ _ _ Hs)].
    + intros u. unfold has. rewrite (ss_cached _ _ _ _ Hs). tauto.
    + intros u w. rewrite (ss_depends _ _ _ _ Hs). tauto.
  - destruct He as (Hl & s1 & Hf & Ha & Hs).
    apply (exact_change s s' (affected s o)); [done| |apply Hcl| |].
    + intros w HF _. assert (objs s' = objs s) as Ho by (rewrite (ss_objs _ _ _ _ Hs); apply (fg_objs _ _ _ _ Hf)).
      split; [unfold defs; by rewrite Ho|]. apply config_ext; [done|].
      rewrite (ss_others _ _ _ _ Hs), (fg_state_kept _ _ _ _ Hf); [done|tauto|]. intros ->. apply HF, rtc_refl.
    + intros u. rewrite <- (forgets_has _ _ _ _ Hf). unfold has. by rewrite (ss_cached _ _ _ _ Hs).
    + intros u w. rewrite (ss_depends _ _ _ _ Hs). apply (fg_depends _ _ _ _ Hf).
  - destruct He as (_ & Hf & _). eapply Hfg; [exact Hf|apply Hcl|done].
  - destruct He as (_ & Hf & _). eapply Hfg; [exact Hf|apply Hcl|]. intros ? <-. apply rtc_refl.
  - destruct He as (Hf & _). eapply Hfg; [exact Hf|done|done].
  - destruct He as (Hf & _). eapply Hfg; [exact Hf|done|done].
  - destruct He as [(Hf & _)| ->].
    + eapply Hfg; [exact Hf| |done]. intros u w Hd (_ & _ & Hn). by apply Hn in Hd.
    + by apply (exact_change s _ (λ _, False)); [|done|done| |]; [|naive_solver..].
Qed.
Lemma exact_unwound s : exact_deps s → exact_deps (unwound s).
Proof. intros [H1 H2 H3]. split; [exact H1|exact H2|exact H3]. Qed.
Lemma reach_exact s : reach_by E pure_oblivious_op s → exact_deps s.
Proof.
  intros [l Hr]. induction Hr as [|l s n x r s' Hr IH Hx Hs|l s n x k s' Hr IH Hx Hs Hk].
  - split; intros u z; intros; exfalso.
    + by destruct H as (? & ? & ? & ? & ? & ? & Hk & _).
    + destruct H as [H|[(y & ? & ? & ? & ? & ? & ? & Hk & _)|(y & ? & ? & ? & ? & ? & ? & Hk & _)]]; done.
    + by destruct H as (? & ? & ? & ? & ? & ? & Hk & _).
  - assert (reach_by E pure_oblivious_op s) as Hre by (by exists l).
    pose proof (reach_oblivious E s Hre) as Hob. apply pure_oblivious_pure in Hre. pose proof (reach_pure E s Hre) as HP.
    apply reach_Inv in Hre as [I Hst]. eapply (exact_step n x s s'); try done; [by destruct x; try apply Hx|left; eauto].
  - assert (reach_by E pure_oblivious_op s) as Hre by (by exists l).
    pose proof (reach_oblivious E s Hre) as Hob. apply pure_oblivious_pure in Hre. pose proof (reach_pure E s Hre) as HP.
    apply reach_Inv in Hre as [I Hst]. apply exact_unwound.
    eapply (exact_step n x s s'); try done; [by destruct x; try apply Hx|right; eauto].
Qed.
End Runs.
