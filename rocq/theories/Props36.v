(** C69: bystanders.  Vocabulary: Spec.v, FrameSpec.v; for C69_get also EvalSpec.v, Props34.v. *)
From Verif Require Import FrameFacts AdaptFacts Facts1 Demo Props34 Props2.
From Verif Require Props4 PlayFacts.
From stdpp Require Import relations.

Lemma bystanders_rby s A X : Inv s → shows s A → bystanders s X → rby X A.
Proof.
  intros I H [He Ha Hd]. split.
  - intros w Hw. destruct (He w Hw) as (d & a & Hat). rewrite (sh_nobj _ _ H), (sh_who _ _ H). split; [|by exists (d, a)]. eapply (i_num _ I). exact Hat.
  - intros u d Hu. unfold r_def in Hu. rewrite (sh_who _ _ H) in Hu. destruct (objs s !! u) as [[d' a]|] eqn:Hat; [|done]. injection Hu as ->. by eapply Ha.
  - intros u w Huw. apply Hd. by apply (sh_deps _ _ H).
Qed.
Lemma rby_bystanders s A X : Inv s → shows s A → rby X A → bystanders s X.
Proof.
  intros I H [He Ha Hd]. split.
  - intros w Hw. destruct (He w Hw) as [_ [[d a] Hat]]. rewrite (sh_who _ _ H) in Hat. by exists d, a.
  - intros u d a Hu. apply Ha. unfold r_def. rewrite (sh_who _ _ H). unfold at_addr in Hu. by rewrite Hu.
  - intros u w Huw. apply Hd. by apply (sh_deps _ _ H).
Qed.
Lemma rkeeps_untouched s A s' A' X : shows s A → shows s' A' → rkeeps X A A' → untouched X s s'.
Proof.
  intros H H' K w Hw. split_and!.
  - intros d a. unfold at_addr. rewrite <- (sh_who _ _ H'), <- (sh_who _ _ H). by rewrite (rk_who _ _ _ K w Hw).
  - rewrite <- (sh_art _ _ H'), <- (sh_art _ _ H). by apply K.
  - rewrite <- (sh_state _ _ H'), <- (sh_state _ _ H). by apply K.
  - rewrite <- (sh_known _ _ H'), <- (sh_known _ _ H). by apply K.
  - pose proof (rk_calls _ _ _ K w Hw) as Hc. unfold r_calls in Hc. unfold calls. by rewrite <- (sh_log _ _ H'), <- (sh_log _ _ H).
  - intros x. rewrite <- (sh_deps _ _ H'), <- (sh_deps _ _ H). apply K. by left.
  - intros x. rewrite <- (sh_deps _ _ H'), <- (sh_deps _ _ H). apply K. by right.
Qed.
Lemma away_raway s A X x : shows s A → away X s x → raway X A x.
Proof. intros H. destruct x; try done. cbn. intros Hx w Hw. rewrite (sh_live _ _ H). by apply Hx. Qed.

(** Whatever is done with other builders, nothing happens to the bystanders, and they stay
    bystanders. *)
Theorem C69_history E X s l s' :
  reachable E s → bystanders s X → runs E (away X) s l s' → untouched X s s' ∧ bystanders s' X.
Proof.
  intros Hr Hb Hl.
  assert (∃ A, shows s A) as (A & H).
  { destruct Hr as [l0 Hr]. destruct (history_sound E l0 s Hr) as (A & _ & H). eauto. }
  assert (rby X A) as HA. { eapply bystanders_rby; [|done..]. apply (reach_Inv E any_op s Hr). }
  enough (reachable E s' ∧ ∃ A', shows s' A' ∧ rby X A' ∧ rkeeps X A A') as (Hr' & A' & H' & HA' & K).
  { split; [by eapply rkeeps_untouched|]. eapply rby_bystanders; [|done..]. apply (reach_Inv E any_op s' Hr'). }
  induction Hl as [|l s1 n x r s2 _ IH Hx Hs|l s1 n x k s2 _ IH Hx Hs Hk].
  - split; [done|]. exists A. split_and!; [done..|]. by split.
  - destruct IH as (Hr1 & A1 & H1 & HA1 & K1). destruct (reach_Inv E any_op s1 Hr1) as [I1 Hst1].
    destruct (call_sound E x A1 s1 n (Returned r) s2 I1 Hst1 H1 Hs) as (A2 & Hc & H2).
    split; [destruct Hr1 as [l1 Hr1]; eexists; by eapply runs_done|]. exists A2. split; [by apply H2|].
    apply (FrameFacts.fine_trans X A A1 A2); [intros _; by split|by eapply frame_call, away_raway|done].
  - destruct IH as (Hr1 & A1 & H1 & HA1 & K1). destruct (reach_Inv E any_op s1 Hr1) as [I1 Hst1].
    destruct (call_sound E x A1 s1 n (Panicked k) s2 I1 Hst1 H1 Hs) as (A2 & Hc & H2).
    assert (k ≠ PkCounterpart) as Hne by (intros ->; done).
    split; [destruct Hr1 as [l1 Hr1]; eexists; by eapply runs_panic|]. exists A2. split; [apply shows_stack, H2; congruence|].
    apply (FrameFacts.fine_trans X A A1 A2); [intros _; by split|by eapply frame_call, away_raway|done].
Qed.
Print Assumptions C69_history.

(** In particular: what is looked up is the same, also through the whole history; and what
    a bystander's builder has been called for is its own. *)
Theorem C69_looks E X s l s' n h w :
  reachable E s → bystanders s X → runs E (away X) s l s' → X w → live s' w → how_legal E h = true →
  step E n (OLookup h w) s' = Done (OutOpt (conv h <$> cached s w)) s' ∧ calls s' w = calls s w.
Proof.
  intros Hr Hb Hl Hw Hlive Hh. destruct (C69_history E X s l s' Hr Hb Hl) as [Hu _].
  assert (reachable E s') as Hr'.
  { destruct Hr as [l0 Hr]. eexists. eapply (runs_trans E); [exact Hr|]. eapply runs_mono; [|exact Hl]. done. }
  apply reach_Inv in Hr' as [I _]. destruct (Hu w Hw) as (_ & Hc & _ & _ & Hn & _). split; [|done].
  rewrite <- Hc. by apply lookup_effect.
Qed.
Print Assumptions C69_looks.

(** ** Getters of bystanders answer the same before and after *)
(** The builders in [X] make do with one another. *)
Definition enclosed (s : st) (X : obj → Prop) : Prop :=
  ∀ w d a, X w → at_addr s w d a → avoids (λ o, ¬ X o) (bd_body d).

Lemma evals_within B B' σ σ' (X : obj → Prop) :
  (∀ o, X o ∨ ¬ X o) →
  (∀ o, X o → B o = B' o) → (∀ o, X o → σ o = σ' o) →
  (∀ o d, X o → B o = Some d → avoids (λ o, ¬ X o) (bd_body d)) →
  ∀ o r, evals B σ o r → X o → evals B' σ' o r.
Proof.
  intros Hor HB Hs Ha.
  enough ((∀ o r, evals B σ o r → X o → evals B' σ' o r) ∧
    (∀ v c r, evals_body B σ v c r → avoids (λ o, ¬ X o) c → evals_body B' σ' v c r)) as [H _] by exact H.
  apply (evals_both B σ (λ o r _, X o → evals B' σ' o r) (λ v c r _, avoids (λ o, ¬ X o) c → evals_body B' σ' v c r)).
  - intros o d Hd Hn Ho. eapply ev_noinit; [by rewrite <- HB|by rewrite <- Hs].
  - intros o d v r Hd Hv _ IH Ho. eapply ev_body; [by rewrite <- HB|by rewrite <- Hs|]. apply IH. by eapply Ha.
  - intros v r _. constructor.
  - intros v _. constructor.
  - intros v h w k x r _ IHw _ IHk Hp. inversion Hp as [| |? ? ? Hw Hk| | | | | |]; subst.
    econstructor; [apply IHw; by destruct (Hor w)|]. apply IHk, Hk.
  - intros v h w k _ IHw Hp. inversion Hp as [| |? ? ? Hw Hk| | | | | |]; subst. apply eb_resolve_panic, IHw. by destruct (Hor w).
  - intros v k r _ IH Hp. inversion Hp; subst. constructor. auto.
  - intros v x k p r _ IH Hp. inversion Hp; subst. econstructor. auto.
Qed.

Theorem C69_get E X n n' h w s l s' :
  reach_by E pure_oblivious_op s → bystanders s X → enclosed s X → (∀ o, X o ∨ ¬ X o) →
  runs E (λ t x, away X t x ∧ pure_oblivious_op t x) s l s' → X w →
  ended (step E n (OGet h w) s) → ended (step E n' (OGet h w) s') →
  same_outcome (step E n (OGet h w) s) (step E n' (OGet h w) s').
Proof.
  intros Hr Hb Hen Hor Hl Hw He He'.
  assert (reachable E s) as Hr0. { destruct Hr as [l0 Hr]. exists l0. eapply runs_mono; [|exact Hr]. done. }
  assert (runs E (away X) s l s') as Hl0. { eapply runs_mono; [|exact Hl]. by intros ?? []. }
  assert (reach_by E pure_oblivious_op s') as Hr'.
  { destruct Hr as [l0 Hr]. eexists. eapply (runs_trans E); [exact Hr|]. eapply runs_mono; [|exact Hl]. by intros ?? []. }
  destruct (C69_history E X s l s' Hr0 Hb Hl0) as [Hu _].
  assert (∀ o, X o → objs s' !! o = objs s !! o) as Ho.
  { intros o HX. destruct (by_exist _ _ Hb o HX) as (d & a & Hat). destruct (Hu o HX) as [Hi _]. unfold at_addr in *. rewrite Hat. by apply Hi. }
  assert (∀ o, X o → defs s o = defs s' o) as Hd by (intros o HX; unfold defs; by rewrite Ho).
  assert (∀ o, X o → config s o = config s' o) as Hc.
  { intros o HX. destruct (Hu o HX) as (_ & _ & Hst & _). unfold config. rewrite Hst. unfold initial. by rewrite Ho. }
  destruct (ended_evals E n h w s Hr He) as (x & Hx & Ha). destruct (ended_evals E n' h w s' Hr' He') as (y & Hy & Hb').
  assert (evals (defs s') (config s') w x) as Hx'.
  { eapply (evals_within (defs s) _ (config s) _ X); [done..| |exact Hx|exact Hw].
    intros o d HX. unfold defs. destruct (objs s !! o) as [[d' a]|] eqn:Hat; [|done]. intros [= <-]. by eapply Hen. }
  pose proof (proj1 (evals_det _ _ (reach_oblivious E s' Hr')) w _ Hx' _ Hy) as Heq.
  destruct (step E n (OGet h w) s) as [r t|k t| |]; try done; destruct (step E n' (OGet h w) s') as [r' t'|k' t'| |]; try done; cbn.
  - destruct Ha as (z & -> & ->), Hb' as (z' & -> & ->). cbn in Heq. apply strip_handed. congruence.
  - destruct Ha as (z & -> & ->). by subst y.
  - destruct Hb' as (z & -> & ->). by subst x.
Qed.
Print Assumptions C69_get.

(** ** Example: two families in one cache, the one reconfigured, extended, invalidated and
    purged. *)
Definition family_ops : list op :=
  [OAlloc (d_leaf (VNum 5)); OAlloc (d_mid 0); OGet HRef 1;
   OAlloc (d_leaf (VNum 7)); OAlloc (d_mid 2); OAlloc (d_top 2 3); OGet HRef 4]%N.
Definition others_ops : list op :=
  [ODynStateMut 2 (λ _, VNum 9); OGet HRef 4; OAlloc (d_mid 3); OGet HRef 5; OInvalidate 2; OGet HRef 3; OPurge 4]%N.
Definition family_st : st := after env_s 10 family_ops.
Definition others_st : st := match run env_s 10 others_ops family_st with Some (_, s) => s | None => init_st end.
Definition family (w : obj) : Prop := (w < 2)%N.

Lemma run_any_by E (P : st → op → Prop) fuel l s rs s' s0 l0 :
  runs E P s0 l0 s → Forall (λ x, ∀ s, P s x) l → run E fuel l s = Some (rs, s') → ∃ h, runs E P s0 h s'.
Proof.
  revert s l0 rs. induction l as [|x l IH]; intros s l0 rs Hr Hf; cbn [run]; [intros [= _ <-]; by exists l0|].
  apply Forall_cons in Hf as [Hx Hf]. destruct (step E fuel x s) as [r s1|k s1| |] eqn:Hs; try done.
  - destruct (run E fuel l s1) as [[rs1 s2]|] eqn:Hrun; [|done]. intros [= _ ->].
    eapply (IH s1); [eapply runs_done; [exact Hr|apply Hx|exact Hs]|done|exact Hrun].
  - destruct (resumable k) eqn:Hk; [|done].
    destruct (run E fuel l (unwound s1)) as [[rs1 s2]|] eqn:Hrun; [|done]. intros [= _ ->].
    eapply (IH (unwound s1)); [eapply runs_panic; [exact Hr|apply Hx|exact Hs|exact Hk]|done|exact Hrun].
Qed.
Lemma family_reach : reach_by env_s pure_oblivious_op family_st.
Proof.
  apply after_by. unfold family_ops. repeat (apply List.Forall_cons; [intros s|]); [..|apply List.Forall_nil]; try exact Logic.I.
  - apply Props4.d_leaf_oblivious.
  - apply Props4.d_mid_oblivious.
  - apply Props4.d_leaf_oblivious.
  - apply Props4.d_mid_oblivious.
  - apply Props4.d_top_oblivious.
Qed.
Lemma avoids_leaf (X : obj → Prop) v : avoids X (bd_body (d_leaf v)).
Proof. repeat (constructor; intros). Qed.
Lemma avoids_mid (X : obj → Prop) w : ¬ X w → avoids X (bd_body (d_mid w)).
Proof. intros H. constructor; [exact H|]. intros []; repeat (constructor; intros). Qed.
Lemma avoids_top (X : obj → Prop) w1 w2 : ¬ X w1 → ¬ X w2 → avoids X (bd_body (d_top w1 w2)).
Proof. intros H1 H2. constructor; [exact H1|]. intros r1. constructor; [exact H2|]. intros r2. destruct r1, r2; repeat (constructor; intros). Qed.
Lemma family_defs :
  objs family_st !! 0%N = Some (d_leaf (VNum 5), 100%N) ∧ objs family_st !! 1%N = Some (d_mid 0, 101%N) ∧
  objs family_st !! 2%N = Some (d_leaf (VNum 7), 102%N) ∧ objs family_st !! 3%N = Some (d_mid 2, 103%N) ∧
  objs family_st !! 4%N = Some (d_top 2 3, 104%N) ∧ nobj family_st = 5%N.
Proof. split_and!; vm_compute; reflexivity. Qed.
Lemma family_only u d a : at_addr family_st u d a →
  u = 0%N ∧ d = d_leaf (VNum 5) ∨ u = 1%N ∧ d = d_mid 0 ∨ u = 2%N ∧ d = d_leaf (VNum 7) ∨ u = 3%N ∧ d = d_mid 2 ∨ u = 4%N ∧ d = d_top 2 3.
Proof.
  intros H. destruct family_defs as (H0 & H1 & H2 & H3 & H4 & Hn).
  assert (u < 5)%N as Hu. { rewrite <- Hn. eapply (i_num family_st); [|exact H]. apply (reach_Inv env_s any_op). apply after_reachable. }
  unfold at_addr in H. assert (u = 0 ∨ u = 1 ∨ u = 2 ∨ u = 3 ∨ u = 4)%N as [->|[->|[->|[->| ->]]]] by lia;
    rewrite ?H0, ?H1, ?H2, ?H3, ?H4 in H; injection H as <- _; auto 10.
Qed.
Lemma family_bystanders : bystanders family_st family.
Proof.
  destruct family_defs as (H0 & H1 & H2 & H3 & H4 & Hn). unfold family. split.
  - intros w Hw. assert (w = 0 ∨ w = 1)%N as [->| ->] by lia; eexists _, _; [exact H0|exact H1].
  - intros u d a Hu Hf. apply family_only in Hu as [[-> ->]|[[-> ->]|[[-> ->]|[[-> ->]|[-> ->]]]]]; try lia.
    + apply avoids_leaf.
    + apply avoids_mid. lia.
    + apply avoids_top; lia.
  - intros u w Hd. assert (EResolve u w ∈ trace family_st) as He.
    { apply (depends_history env_s any_op) in Hd as (s0 & n & x & s1 & l0 & l1 & Hr0 & _ & Hg & Ht & Hin & Hrs); [|apply after_reachable].
      destruct (reach_Inv env_s any_op s0 Hr0) as [I0 Hst0].
      destruct (PlayFacts.runs_trace _ _ _ _ _ (goes_Inv env_s n x s0 s1 I0 Hst0 Hg) eq_refl Hrs) as [l2 Hl2]. rewrite Hl2. cbn. rewrite Ht.
      apply elem_of_app. right. apply elem_of_app. by left. }
    assert (Forall (λ e, match e with EResolve u w => (u <? 2)%N = (w <? 2)%N | _ => True end) (trace family_st)) as Hall.
    { vm_compute. repeat constructor. }
    rewrite Forall_forall in Hall. specialize (Hall _ He). cbn in Hall.
    rewrite <- (N.ltb_lt u 2), <- (N.ltb_lt w 2), Hall. reflexivity.
Qed.
Definition both_same (w : obj) : bool :=
  match cached family_st w, cached others_st w with Some b, Some b' => bool_decide (b = b') | _, _ => false end.
Example C69_applies :
  reach_by env_s pure_oblivious_op family_st ∧ bystanders family_st family ∧ enclosed family_st family ∧
  (∃ l, runs env_s (λ t x, away family t x ∧ pure_oblivious_op t x) family_st l others_st) ∧
  both_same 1 = true ∧ both_same 3 = false ∧
  ended (step env_s 10 (OGet HRef 1%N) family_st) ∧ ended (step env_s 10 (OGet HRef 1%N) others_st).
Proof.
  split; [apply family_reach|]. split; [apply family_bystanders|]. split; [|split].
  - intros w d a Hw Hat. apply family_only in Hat as [[-> ->]|[[-> ->]|[[-> ->]|[[-> ->]|[-> ->]]]]]; unfold family in *; try lia.
    + apply avoids_leaf.
    + apply avoids_mid. lia.
  - unfold others_st. destruct (run env_s 10 others_ops family_st) as [[rs t]|] eqn:Hrun.
    + eapply (run_any_by env_s _ 10 others_ops family_st rs t family_st []); [constructor| |exact Hrun].
      assert (∀ x, (∀ s, away family s x) → (∀ s, pure_oblivious_op s x) → ∀ s, away family s x ∧ pure_oblivious_op s x) as Hx by auto.
      unfold others_ops. repeat (apply List.Forall_cons; [apply Hx; intros s; unfold away, family; try exact Logic.I; try lia|]); [..|apply List.Forall_nil].
      * apply avoids_mid. lia.
      * apply Props4.d_mid_oblivious.
    + exfalso. assert (match run env_s 10 others_ops family_st with None => true | _ => false end = false) as Hf by (vm_compute; reflexivity).
      by rewrite Hrun in Hf.
  - split_and!; vm_compute; done.
Qed.
Print Assumptions C69_applies.
