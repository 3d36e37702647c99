(** Properties: rebuilding after a change is exact (C64).  Vocabulary: Spec.v ([depends]:
    what the cache has recorded; [affected]); EvalSpec.v; MinSpec.v ([asks]: evaluated from
    scratch under the present dynamic states, a builder resolves another one; [has]). *)
From Verif Require Import IncFacts Facts1 MoreFacts Demo.
From Verif Require Props4 Props18.
From stdpp Require Import relations.

(** Who needs whom now: directly; [needs s u w]: [u] is [w] or needs it indirectly. *)
Definition asks_now (s : st) : obj → obj → Prop := asks (defs s) (config s).
Definition needs (s : st) : obj → obj → Prop := rtc (asks_now s).
(** Calls that invalidate [w]. *)
Definition invalidates (w : obj) (x : op) : Prop := x = OInvalidate w ∨ x = OPurge w ∨ ∃ f, x = ODynStateMut w f.

(** ** What is recorded is what is needed *)
(** No recorded dependency is out of date... *)
Theorem C64_recorded E s u w : reach_by E pure_oblivious_op s → depends s u w → asks_now s u w.
Proof. intros Hr. apply (xd_true s (reach_exact E s Hr)). Qed.
Print Assumptions C64_recorded.
(** ...and none of an artifact in the cache is missing. *)
Theorem C64_recorded_all E s u w : reach_by E pure_oblivious_op s → has s u → depends s u w ↔ asks_now s u w.
Proof. intros Hr Hu. pose proof (reach_exact E s Hr) as X. split; [apply (xd_true s X)|]. apply (xd_full s X). by left. Qed.
Print Assumptions C64_recorded_all.
(** Whatever an artifact in the cache was built from is there as well, unless it fails. *)
Theorem C64_closed E s u w b :
  reach_by E pure_oblivious_op s → has s u → asks_now s u w → evals (defs s) (config s) w (EvRet (Ok b)) → has s w.
Proof.
  intros Hr Hu Ha Hb. pose proof (reach_exact E s Hr) as X. apply (xd_has s X u w b); [|done].
  apply (xd_full s X); [by left|done].
Qed.
Print Assumptions C64_closed.

Lemma affected_needs s w u : exact_deps s → has s u → affected s w u ↔ needs s u w.
Proof.
  intros X Hu. split.
  - intros Ha. assert (rtc (depends s) u w) as Hp.
    { clear - Ha. induction Ha as [|x y z H _ IH]; [apply rtc_refl|]. by eapply rtc_r. }
    clear - X Hp. induction Hp as [|x y z H _ IH]; [apply rtc_refl|]. eapply rtc_l; [|exact IH]. by apply (xd_true s X).
  - intros Hn. destruct (touched_below s u w X (or_introl Hu) Hn) as [_ Hp].
    clear - Hp. unfold affected. induction Hp as [|x y z H _ IH]; [apply rtc_refl|]. by eapply rtc_r.
Qed.
(** Invalidating a builder is felt exactly by who needs it. *)
Theorem C64_affected E s w u : reach_by E pure_oblivious_op s → has s u → affected s w u ↔ needs s u w.
Proof. intros Hr. apply affected_needs. by eapply reach_exact. Qed.
Print Assumptions C64_affected.

Lemma invalidates_has E n x w s r s1 :
  Inv s → stack s = [] → invalidates w x → step E n x s = Done r s1 →
  objs s1 = objs s ∧ (∀ u, calls s1 u = calls s u) ∧ (∀ u, cached s1 u = None ∨ cached s1 u = cached s u) ∧
  ∀ u, has s1 u ↔ has s u ∧ ¬ affected s w u.
Proof.
  intros I Hst Hx Hs. assert (goes (step E n x s) s1) as Hg by (left; eauto).
  pose proof (step_effect E n x s s1 I Hst Hg) as He.
  assert (∀ F G s', forgets s F G s' → ∀ u, cached s' u = None ∨ cached s' u = cached s u) as Hfc.
  { intros F G s' Hf u. destruct (cached s' u) eqn:Hc; [|by left]. right. rewrite <- Hc. apply (fg_kept _ _ _ _ Hf).
    intros HF. rewrite (fg_gone _ _ _ _ Hf u HF) in Hc. done. }
  destruct Hx as [->|[->|[f ->]]]; cbn [effect_of] in He.
  - destruct He as (_ & Hf & _). split_and!; [apply (fg_objs _ _ _ _ Hf)|apply (fg_calls _ _ _ _ Hf)|by eapply Hfc|by eapply forgets_has].
  - destruct He as (_ & Hf & _). split_and!; [apply (fg_objs _ _ _ _ Hf)|apply (fg_calls _ _ _ _ Hf)|by eapply Hfc|by eapply forgets_has].
  - destruct He as (_ & s2 & Hf & _ & Hst2). split_and!.
    + rewrite (ss_objs _ _ _ _ Hst2). apply (fg_objs _ _ _ _ Hf).
    + intros u. rewrite (ss_calls _ _ _ _ Hst2). apply (fg_calls _ _ _ _ Hf).
    + intros u. rewrite (ss_cached _ _ _ _ Hst2). by eapply Hfc.
    + intros u. rewrite <- (forgets_has _ _ _ _ Hf). unfold has. by rewrite (ss_cached _ _ _ _ Hst2).
Qed.
Lemma invalidates_reach E n x w s r s1 :
  reach_by E pure_oblivious_op s → invalidates w x → step E n x s = Done r s1 → reach_by E pure_oblivious_op s1.
Proof.
  intros [l Hr] Hx Hs. eexists. eapply runs_done; [exact Hr| |exact Hs]. by destruct Hx as [->|[->|[f ->]]].
Qed.

(** ** What is forgotten when [w] is invalidated, purged or reconfigured: the artifacts
    of all that need it, and no others. *)
Theorem C64_forgotten E n x w s r s1 u :
  reach_by E pure_oblivious_op s → invalidates w x → step E n x s = Done r s1 →
  (has s u ∧ needs s u w → cached s1 u = None) ∧ (¬ needs s u w → cached s1 u = cached s u).
Proof.
  intros Hr Hx Hs. pose proof (reach_exact E s Hr) as X. pose proof (reach_Inv E _ s Hr) as [I Hst].
  destruct (invalidates_has E n x w s r s1 I Hst Hx Hs) as (_ & _ & Hc & Hh). split.
  - intros [Hu Hn]. destruct (cached s1 u) eqn:Hcu; [|done]. exfalso. assert (has s1 u) as H by (unfold has; congruence).
    apply Hh in H as [_ H]. apply H. by apply affected_needs.
  - intros Hn. destruct (cached s u) as [b|] eqn:Hb.
    + assert (has s1 u) as H.
      { apply Hh. assert (has s u) as Hu by (unfold has; congruence). split; [done|]. intros Ha. by apply Hn, affected_needs. }
      destruct (Hc u) as [Hcn|Hcu]; [by destruct H|congruence].
    + destruct (Hc u); congruence.
Qed.
Print Assumptions C64_forgotten.

Lemma affected_dec s w u : Inv s → live s w → has s u → affected s w u ∨ ¬ affected s w u.
Proof.
  intros I Hl Hu. destruct (live_promise s w I Hl) as (d & a & Hp).
  destruct (cached s u) as [b|] eqn:Hb; [|by destruct Hu]. destruct (cached_knows s u b Hb) as (du & ua & Hua & Hku).
  rewrite (affected_rtc s w d a u du ua I Hp Hua Hku).
  destruct (invalidate_by_id_spec false (λ _ x, x) a (ch s) (ci_sync _ _ (i_c _ I))) as (C & _ & _ & _ & HC).
  rewrite <- HC. destruct (decide (ua ∈ C)); auto.
Qed.
Lemma invalidates_live E n x w s r s1 : invalidates w x → step E n x s = Done r s1 → live s w.
Proof.
  intros Hx Hs. destruct Hx as [->|[->|[f ->]]]; cbn [step] in Hs; destruct (promise w s) as [[d a]|] eqn:Hp; try done;
    by apply promise_Some in Hp as [? _].
Qed.

(** ** What is built again: who is needed, and needs [w] or was not there before. *)
Theorem C64_only E n x w s r s1 m h o r' s2 u :
  reach_by E pure_oblivious_op s → invalidates w x → step E n x s = Done r s1 → step E m (OGet h o) s1 = Done r' s2 →
  calls s1 u < calls s2 u → needs s1 o u ∧ (needs s u w ∨ ¬ has s u).
Proof.
  intros Hr Hx Hs Hg Hu. pose proof (invalidates_reach E n x w s r s1 Hr Hx Hs) as Hr1.
  pose proof (reach_exact E s Hr) as X. pose proof (reach_Inv E _ s Hr) as [I Hst].
  destruct (invalidates_has E n x w s r s1 I Hst Hx Hs) as (_ & _ & _ & Hh).
  apply (Props18.C51_called E s1 m h o r' s2 u Hr1 Hg) in Hu. split; [by eapply wanted_path|].
  apply wanted_not in Hu. rewrite Hh in Hu. destruct (cached s u) as [b|] eqn:Hb; [|right; intros H; by apply H].
  left. assert (has s u) as Hhu by (unfold has; congruence).
  destruct (affected_dec s w u I (invalidates_live E n x w s r s1 Hx Hs) Hhu) as [Ha|Ha]; [by apply affected_needs|].
  by destruct Hu.
Qed.
Print Assumptions C64_only.

(** ** If everything below [o] was there and builders resolve the same ones as before (as
    they do after [invalidate], or if what they resolve is fixed), then exactly those are
    built again that lie between [o] and [w]. *)
Theorem C64_between E n x w s r s1 m h o r' s2 u :
  reach_by E pure_oblivious_op s → (∀ u, needs s o u → has s u) →
  invalidates w x → step E n x s = Done r s1 → (∀ u z, needs s o u → asks_now s1 u z ↔ asks_now s u z) →
  step E m (OGet h o) s1 = Done r' s2 →
  calls s1 u < calls s2 u ↔ needs s o u ∧ needs s u w.
Proof.
  intros Hr Hall Hx Hs Heq Hg. pose proof (invalidates_reach E n x w s r s1 Hr Hx Hs) as Hr1.
  pose proof (reach_exact E s Hr) as X. pose proof (reach_Inv E _ s Hr) as [I Hst].
  destruct (invalidates_has E n x w s r s1 I Hst Hx Hs) as (_ & _ & _ & Hh).
  assert (∀ u, needs s1 o u → needs s o u) as Hback.
  { intros z Hz. refine (rtc_ind_r (λ z, needs s o z) o _ _ z Hz); [apply rtc_refl|].
    clear z Hz. intros y z _ Hyz Hy. eapply rtc_r; [exact Hy|]. by apply Heq. }
  split.
  - intros Hu. destruct (C64_only E n x w s r s1 m h o r' s2 u Hr Hx Hs Hg Hu) as [H1 H2]. apply Hback in H1.
    split; [done|]. destruct H2 as [?|H2]; [done|]. by destruct H2; apply Hall.
  - intros [H1 H2]. apply (Props18.C51_called E s1 m h o r' s2 u Hr1 Hg).
    assert (∀ z, needs s o z → needs s z w → ¬ has s1 z) as Hgone.
    { intros z Hz Hzw [Hhz Hn]%Hh. apply Hn. by apply affected_needs. }
    revert H2. refine (rtc_ind_r (λ u, needs s u w → wanted (defs s1) (config s1) (has s1) o u) o _ _ u H1).
    + intros Hw. apply wanted_top. apply Hgone; [apply rtc_refl|done].
    + clear u H1. intros y z Hy Hyz IH Hzw. assert (needs s y w) as Hyw by (by eapply rtc_l).
      apply (wanted_sub _ _ _ _ y); [by apply IH|by apply Heq|]. apply Hgone; [by eapply rtc_r|done].
Qed.
Print Assumptions C64_between.
Theorem C64_between_invalidate E n w s r s1 m h o r' s2 u :
  reach_by E pure_oblivious_op s → (∀ u, needs s o u → has s u) →
  step E n (OInvalidate w) s = Done r s1 → step E m (OGet h o) s1 = Done r' s2 →
  calls s1 u < calls s2 u ↔ needs s o u ∧ needs s u w.
Proof.
  intros Hr Hall Hs. apply (C64_between E n (OInvalidate w) w s r); try done; [by left|].
  pose proof (reach_Inv E _ s Hr) as [I Hst]. assert (goes (step E n (OInvalidate w) s) s1) as Hg by (left; eauto).
  destruct (step_effect E n _ s s1 I Hst Hg) as (_ & Hf & _).
  intros v z _. unfold asks_now. apply asks_local. intros y _. split.
  - unfold defs. by rewrite (fg_objs _ _ _ _ Hf).
  - apply config_ext; [apply (fg_objs _ _ _ _ Hf)|]. apply (fg_state_kept _ _ _ _ Hf). tauto.
Qed.
Print Assumptions C64_between_invalidate.

(** Each of them once, if it does not fail. *)
Theorem C64_once E n x w s r s1 m h o r' s2 u b :
  reach_by E pure_oblivious_op s → invalidates w x → step E n x s = Done r s1 → step E m (OGet h o) s1 = Done r' s2 →
  calls s1 u < calls s2 u → evals (defs s1) (config s1) u (EvRet (Ok b)) → calls s2 u = S (calls s1 u).
Proof.
  intros Hr Hx Hs Hg Hu Hb. pose proof (invalidates_reach E n x w s r s1 Hr Hx Hs) as Hr1.
  eapply (Props18.C51_once E s1 m h o r' s2 u b Hr1 Hg); [|done]. by apply (Props18.C51_called E s1 m h o r' s2 u Hr1 Hg).
Qed.
Print Assumptions C64_once.

(** Everything below [o] is there after it was got, if nothing below it fails. *)
Theorem C64_all E m h o s r s' :
  reach_by E pure_oblivious_op s → step E m (OGet h o) s = Done r s' →
  (∀ u, needs s o u → ∃ b, evals (defs s) (config s) u (EvRet (Ok b))) → ∀ u, needs s' o u → has s' u.
Proof.
  intros Hr Hg Hok. assert (reach_by E pure_oblivious_op s') as Hr'.
  { destruct Hr as [l Hr]. eexists. eapply runs_done; [exact Hr| |exact Hg]; done. }
  pose proof (reach_Inv E _ s Hr) as [I Hst]. pose proof (reach_pure E s (pure_oblivious_pure E s Hr)) as HP.
  assert (pgrow s s') as (G1 & G2 & _).
  { cbn [step] in Hg. destruct (get E m h o s) as [rv s1|k s1| |] eqn:Hq; try done. injection Hg as _ <-.
    by apply (proj1 (get_pure E m h o s I HP) _ _ Hq). }
  assert (∀ u, IncFacts.agree (defs s) (defs s') (config s) (config s') u) as Hag.
  { intros u. split; [unfold defs; by rewrite G1|apply G2]. }
  assert (∀ u z, asks_now s' u z ↔ asks_now s u z) as Ha by (intros u z; apply asks_local; intros y _; apply Hag).
  intros u Hu.
  assert (needs s o u ∧ has s' u) as [_ ?]; [|done].
  refine (rtc_ind_r (λ u, needs s o u ∧ has s' u) o _ _ u Hu).
  - split; [apply rtc_refl|]. destruct (Hok o (rtc_refl _ _)) as [b Hb].
    destruct (Props4.C01_get_unique E m h o s r s' _ Hr Hg Hb) as (y & rv & [= <-] & -> & Hv).
    destruct (get_ok_cached E m h o s rv s' I Hg) as (b' & Hc & _); [intros e ->; by destruct h|]. unfold has. congruence.
  - clear u Hu. intros y z _ Hyz [IH1 IH2]. assert (needs s o z) as Hz by (eapply rtc_r; [exact IH1|by apply Ha]).
    split; [done|]. destruct (Hok z Hz) as [b Hb]. apply (C64_closed E s' y z b Hr' IH2 Hyz).
    apply (proj1 (evals_local _ _ _ _) z _ Hb). intros v _. apply Hag.
Qed.
Print Assumptions C64_all.

(** ** An example: the diamond of Demo.v *)
Lemma dia_oblivious : reach_by env_s pure_oblivious_op s_diamond.
Proof.
  apply after_by. repeat (apply List.Forall_cons; [intros s|]); [..|apply List.Forall_nil]; try done;
    first [apply Props4.d_leaf_oblivious|apply Props4.d_mid_oblivious|apply Props4.d_top_oblivious].
Qed.
Definition dia_all_has : bool := forallb (λ o, bool_decide (is_Some (cached s_diamond o))) [0; 1; 2; 3; 4]%N.
Lemma dia_has u : touched s_diamond u → has s_diamond u.
Proof.
  intros Ht. apply touched_def in Ht as [x Hx]. pose proof (reach_Inv _ _ _ dia_oblivious) as [I _].
  apply (i_num _ I) in Hx. change (nobj s_diamond) with 5%N in Hx.
  assert (dia_all_has = true) as H by (vm_compute; reflexivity). unfold dia_all_has in H. rewrite forallb_forall in H.
  assert (List.In u [0; 1; 2; 3; 4]%N) as Hin.
  { assert (u = 0 ∨ u = 1 ∨ u = 2 ∨ u = 3 ∨ u = 4)%N as Hu by lia. cbn. intuition congruence. }
  specialize (H u Hin). apply bool_decide_eq_true in H as [b Hb]. unfold has. congruence.
Qed.
Definition dia_calls (l : list op) : list nat := map (calls (after env_s 10 (dia_ops ++ l))) [0; 1; 2; 3; 4]%N.
Example C64_applies :
  reach_by env_s pure_oblivious_op s_diamond ∧ (∀ u, needs s_diamond 3 u → has s_diamond u) ∧
  needs s_diamond 3 0 ∧ ¬ needs s_diamond 2 1 ∧
  (** invalidating a builder in the middle: it and the top are built again; and changing the leaf: all below the top *)
  answer_to env_s 10 dia_ops (OInvalidate 1) = Some (Returned OutUnit) ∧
  answer_to env_s 10 (dia_ops ++ [OInvalidate 1]) (OGet HRef 3) = Some (Returned (OutRes (RvVal (VPair (VSome (VNum 7)) (VSome (VNum 7)))))) ∧
  dia_calls [OInvalidate 1] = [1; 1; 1; 1; 1] ∧ dia_calls [OInvalidate 1; OGet HRef 3] = [1; 2; 1; 2; 1] ∧
  dia_calls [ODynStateMut 0 (λ _, VNum 5); OGet HRef 3] = [2; 2; 2; 2; 1].
Proof.
  pose proof (reach_exact _ _ dia_oblivious) as X. split; [apply dia_oblivious|].
  assert (has s_diamond 3) as H3 by (apply dia_has; right; left; exists 1%N; apply depends_b_spec; vm_compute; reflexivity).
  assert (has s_diamond 2) as H2 by (apply dia_has; right; left; exists 0%N; apply depends_b_spec; vm_compute; reflexivity).
  split_and!.
  - intros u Hu. apply dia_has. by apply (touched_below _ _ _ X (or_introl H3) Hu).
  - eapply rtc_l; [apply (xd_true _ X); instantiate (1 := 1%N)|apply rtc_once, (xd_true _ X)]; apply depends_b_spec; vm_compute; reflexivity.
  - intros Hn. destruct (touched_below _ _ _ X (or_introl H2) Hn) as [_ Hp].
    assert (∀ z, rtc (depends s_diamond) 2%N z → z = 2%N ∨ z = 0%N) as Hd; [|by destruct (Hd _ Hp)].
    intros z Hz. refine (rtc_ind_r (λ z, z = 2%N ∨ z = 0%N) 2%N _ _ z Hz); [by left|].
    clear. intros y z _ Hyz Hy. right. assert (touched s_diamond z) as Ht by (right; right; eauto).
    apply touched_def in Ht as [x Hx]. pose proof (reach_Inv _ _ _ dia_oblivious) as [I _].
    apply (i_num _ I) in Hx. change (nobj s_diamond) with 5%N in Hx. apply depends_b_spec in Hyz.
    assert (z = 0 ∨ z = 1 ∨ z = 2 ∨ z = 3 ∨ z = 4)%N as Hz by lia.
    destruct Hy as [->| ->]; destruct Hz as [->|[->|[->|[->| ->]]]]; vm_compute in Hyz; congruence.
  - vm_compute. reflexivity.
  - vm_compute. reflexivity.
  - vm_compute. reflexivity.
  - vm_compute. reflexivity.
  - vm_compute. reflexivity.
Qed.
