(** Properties: transparency with artifacts changed in place (C63).  Vocabulary: Spec.v
    ([cached], [keeps], [affected], [goes]), EvalSpec.v ([evals], [config], [handed]),
    MinSpec.v ([wanted], [has]); histories with [get_mut] and [lookup_mut], and what there
    is to be computed then ([edited], [edits], [edited_defs]): EditSpec.v. *)
From Verif Require Import EditFacts Facts1 Demo.
From Verif Require Props4 Props18.
From stdpp Require Import relations.

(** ** Every history of the cache is meant, and [P] says who has been changed *)
Theorem C63_histories E s : (∃ P, edited E P s) ↔ reach_by E (λ _ x, pure_alloc x) s.
Proof.
  split.
  - intros [P H]. induction H as [|P s n x s' He [l IH] Hx Hg]; [exists []; constructor|].
    pose proof (edited_inv E P s He) as EI. destruct Hg as [[r Hr]|(k & Hk & Hres)].
    + eexists. destruct (step_Inv E n x s r s' (ed_inv _ _ EI) (ed_stack _ _ EI) Hr) as [_ Hst].
      assert (unwound s' = s') as -> by (destruct s'; cbn in *; by subst). by eapply runs_done.
    + eexists. by eapply runs_panic.
  - intros [l H]. induction H as [|l s n x r s' _ [P IH] Hx Hs|l s n x k s' _ [P IH] Hx Hs Hk].
    + exists ∅. constructor.
    + pose proof (edited_inv E P s IH) as EI.
      destruct (step_Inv E n x s r s' (ed_inv _ _ EI) (ed_stack _ _ EI) Hs) as [_ Hst].
      assert (s' = unwound s') as -> by (destruct s'; cbn in *; by subst).
      eexists. eapply (edited_call E P s n x s'); [done|done|left]. eauto.
    + eexists. eapply (edited_call E P s n x s'); [done|done|right]. eauto.
Qed.
Print Assumptions C63_histories.

(** Without [get_mut] and [lookup_mut] it is nobody, and nothing else is to be computed
    than what C01 says. *)
Theorem C63_none E s :
  reach_by E pure_oblivious_op s → edited E ∅ s ∧ ∀ o, edited_defs s ∅ o = defs s o.
Proof.
  intros [l H]. split.
  - induction H as [|l s n x r s' Hl IH Hx Hs|l s n x k s' Hl IH Hx Hs Hk]; [constructor|..].
    + assert (edits ∅ x s s' = ∅) as <-.
      { apply set_eq. intros o. rewrite in_edits. split; [|by intros ?%elem_of_empty].
        intros [(? & _)|(_ & f & [->| ->])%in_changed]; [done..]. }
      pose proof (edited_inv E ∅ s IH) as EI.
      destruct (step_Inv E n x s r s' (ed_inv _ _ EI) (ed_stack _ _ EI) Hs) as [_ Hst].
      assert (s' = unwound s') as Heq by (destruct s'; cbn in *; by subst). rewrite Heq at 2.
      eapply edited_call; [done| |left; eauto]. destruct x; done.
    + assert (edits ∅ x s s' = ∅) as <-.
      { apply set_eq. intros o. rewrite in_edits. split; [|by intros ?%elem_of_empty].
        intros [(? & _)|(_ & f & [->| ->])%in_changed]; [done..]. }
      eapply edited_call; [done| |right; eauto]. destruct x; done.
  - intros o. unfold edited_defs. destruct (defs s o) as [[]|]; [|done]. cbn. do 2 f_equal.
Qed.
Print Assumptions C63_none.

(** A change lasts until the artifact is to be forgotten, or is changed again. *)
Theorem C63_kept E P s n x s' o :
  edited E P s → o ∈ P → keeps o s x → goes (step E n x s) s' → o ∈ edits P x s s' ∧ cached s' o = cached s o.
Proof.
  intros He Ho Hk Hg. pose proof (edited_inv E P s He) as EI. pose proof EI as [I Hst Hp Hh HP].
  assert (cached s' o = cached s o ∧ calls s' o = calls s o) as [Hc Hcl].
  { destruct (Hh o Ho) as [b Hb].
    destruct (keeps_step E n x o s s' I Hst Hk Hg) as [(l & H1 & H2 & H3 & _)|(s1 & s2 & I1 & Hst1 & H1 & H2 & H3 & H4 & H5)].
    - split; [done|]. rewrite (adds_calls _ _ _ _ H2). lia.
    - rewrite Hb in H1. destruct (prims_cached E s1 s2 o b I1 H3) as (A1 & _ & A2); [rewrite Hst1; apply not_elem_of_nil|done|].
      split; [congruence|]. rewrite (adds_calls _ _ _ _ H5), A2, (adds_calls _ _ _ _ H2). done. }
  split; [|done]. apply in_edits. left. split_and!; [done| |done]. rewrite Hc. auto.
Qed.
Print Assumptions C63_kept.

(** It is lost with the artifact: whoever depends on an invalidated or reconfigured
    builder is no longer changed. *)
Theorem C63_lost E P s n x s' w u f :
  edited E P s → x = OInvalidate w ∨ x = OPurge w ∨ x = ODynStateMut w f → goes (step E n x s) s' → affected s w u →
  u ∉ edits P x s s'.
Proof.
  intros He Hx Hg Ha Hin. pose proof (edited_inv E P s He) as EI. pose proof EI as [I Hst Hp Hh HP].
  assert (cached s' u = None) as Hc.
  { pose proof (step_effect E n x s s' I Hst Hg) as Hef. destruct Hx as [->|[->| ->]]; cbn [effect_of] in Hef.
    - destruct Hef as (_ & Hf & _). by apply (fg_gone _ _ _ _ Hf).
    - destruct Hef as (_ & Hf & _). by apply (fg_gone _ _ _ _ Hf).
    - destruct Hef as (_ & s1 & Hf & _ & Hs). rewrite (ss_cached _ _ _ _ Hs). by apply (fg_gone _ _ _ _ Hf). }
  apply in_edits in Hin as [(_ & [? ?] & _)|([? ?] & _)%in_changed]; congruence.
Qed.
Print Assumptions C63_lost.
(** Clearing loses all. *)
Theorem C63_cleared E P s n x s' :
  edited E P s → x = OClearArtifacts ∨ x = OClearAll → goes (step E n x s) s' → edits P x s s' = ∅.
Proof.
  intros He Hx Hg. pose proof (edited_inv E P s He) as EI. pose proof EI as [I Hst Hp Hh HP].
  assert (∀ u, cached s' u = None) as Hc.
  { intros u. pose proof (step_effect E n x s s' I Hst Hg) as Hef.
    destruct Hx as [->| ->]; destruct Hef as (Hf & _); by apply (fg_gone _ _ _ _ Hf). }
  apply set_eq. intros u. split; [|by intros ?%elem_of_empty].
  intros [(_ & [? ?] & _)|([? ?] & _)%in_changed]%in_edits; by rewrite Hc in *.
Qed.
Print Assumptions C63_cleared.

(** ** Answers are what evaluation from scratch gives, with the changed artifacts *)
Lemma edited_get E P n h o s :
  edited E P s →
  (∀ rv s', get E n h o s = Done rv s' → ∃ x, evals (edited_defs s P) (config s) o (EvRet x) ∧ rv = handed h x) ∧
  (∀ k s', get E n h o s = Panic k s' → evals (edited_defs s P) (config s) o EvPanic).
Proof.
  intros He. pose proof (edited_inv E P s He) as [I Hst Hp Hh HP].
  destruct (get_edit E _ n h o s (artifacts_here s P I Hh) Hp HP) as [H1 H2]. split.
  - intros rv s' Hg. destruct (H1 _ _ Hg) as (G & x & Hx & ->). exists x. split; [|done].
    eapply fits_eval; [by eapply edited_fits_got|done].
  - intros k s' Hg. destruct (H2 _ _ Hg) as (G & Hx). eapply fits_eval; [by eapply edited_fits_got|done].
Qed.
Theorem C63_get E P n h o s r s' :
  edited E P s → step E n (OGet h o) s = Done r s' →
  ∃ x, evals (edited_defs s P) (config s) o (EvRet x) ∧ r = OutRes (handed h x).
Proof.
  intros He Hs. cbn [step] in Hs. destruct (get E n h o s) as [rv s1|k s1| |] eqn:Hg; try done. injection Hs as <- _.
  destruct (proj1 (edited_get E P n h o s He) _ _ Hg) as (x & Hx & ->). eauto.
Qed.
Print Assumptions C63_get.
Theorem C63_get_panics E P n h o s k s' :
  edited E P s → step E n (OGet h o) s = Panic k s' → evals (edited_defs s P) (config s) o EvPanic.
Proof.
  intros He Hs. cbn [step] in Hs. destruct (get E n h o s) as [rv s1|k1 s1| |] eqn:Hg; try done.
  exact (proj2 (edited_get E P n h o s He) _ _ Hg).
Qed.
Print Assumptions C63_get_panics.

Lemma edited_cached E P s o b :
  edited E P s → cached s o = Some b → evals (edited_defs s P) (config s) o (EvRet (Ok b)).
Proof.
  intros He Hc. pose proof (edited_inv E P s He) as [I Hst Hp Hh HP].
  rewrite <- (pin_cached (artifacts_of s P)) in Hc. apply (proj2 HP) in Hc. eapply fits_eval; [apply edited_fits|done].
Qed.
Theorem C63_lookup E P n h o s v s' :
  edited E P s → step E n (OLookup h o) s = Done (OutOpt (Some v)) s' →
  ∃ b, evals (edited_defs s P) (config s) o (EvRet (Ok b)) ∧ v = conv h b.
Proof.
  intros He Hs. pose proof (edited_inv E P s He) as [I Hst Hp Hh HP].
  assert (live s o ∧ how_legal E h = true) as [Hl Hhl].
  { cbn [step] in Hs. destruct (promise o s) as [[d a]|] eqn:Hpr; [|done].
    destruct (how_legal E h); [|done]. split; [|done]. by apply promise_Some in Hpr as [? _]. }
  rewrite (lookup_effect E n h o s I Hl Hhl) in Hs. injection Hs as Hs _.
  destruct (cached s o) as [b|] eqn:Hc; [|done]. cbn in Hs. injection Hs as <-. exists b. split; [|done].
  by eapply edited_cached.
Qed.
Print Assumptions C63_lookup.

(** *** What [get_mut] and [lookup_mut] hand out, and what is there afterwards *)
Lemma edited_get_mut E P n o f s s' :
  edited E P s → goes (step E n (OGetMut o f) s) s' →
  (∃ b, evals (edited_defs s P) (config s) o (EvRet (Ok b)) ∧ step E n (OGetMut o f) s = Done (OutRes (RvVal (bin_val b))) s' ∧
     cached s' o = Some (Bin (bin_ptr b) (f (bin_val b)))) ∨
  (∃ e, evals (edited_defs s P) (config s) o (EvRet (Err e)) ∧ step E n (OGetMut o f) s = Done (OutRes (RvErr e)) s') ∨
  (∃ k, evals (edited_defs s P) (config s) o EvPanic ∧ step E n (OGetMut o f) s = Panic k s').
Proof.
  intros He Hg. pose proof (edited_inv E P s He) as EI. pose proof (edited_self E P s He o) as Hself. pose proof EI as [I Hst Hp Hh HP].
  destruct (get_mut_start E n o f s s' P EI Hg) as (_ & [(_ & Hw & b & Hb & Hs)|(s1 & Hor & EI1 & Hc1 & Hnd1 & Hk1 & Hcl1 & Ho1 & Hst1 & Hd1 & Hl1 & s2 & Hm)]).
  { left. exists b. split_and!; [by eapply edited_cached|done|]. by rewrite (wr_cached _ _ _ _ Hw), Hb. }
  assert (cached s o = None) as Hcn by tauto.
  assert (o ∉ P) as HoP by (intros Ho; destruct (Hh o Ho); congruence).
  pose proof EI1 as [I1 Hst1' Hp1 Hh1 HP1].
  assert (∀ w, artifacts_of s1 (P ∖ {[o]}) w = artifacts_of s P w) as HM.
  { intros w. unfold artifacts_of. destruct (decide (w = o)) as [->|Hne].
    - by rewrite !decide_False by set_solver.
    - rewrite Hk1 by done. assert (w ∈ P ∖ {[o]} ↔ w ∈ P) as Hiff by (rewrite elem_of_difference, elem_of_singleton; tauto).
      destruct (decide (w ∈ P)), (decide (w ∈ P ∖ {[o]})); tauto. }
  destruct (get_edit E _ n HRef o s1 (artifacts_here s1 _ I1 Hh1) Hp1 HP1) as [H1 H2].
  assert (∀ s2 r, got E (artifacts_of s1 (P ∖ {[o]})) s1 o s2 → ev_at (pin (artifacts_of s1 (P ∖ {[o]})) s2) o r →
    evals (edited_defs s P) (config s) o r) as Hev.
  { intros s3 r G Hr. refine (fits_eval _ _ (pin (artifacts_of s P) s3) o r _ _).
    - intros w. rewrite pin_def, pin_config, (gt_config _ _ _ _ _ G). split.
      + unfold edited_defs, defs. by rewrite (gt_objs _ _ _ _ _ G), Ho1.
      + by apply config_ext.
    - by rewrite (pin_ext _ _ s3 HM) in Hr. }
  destruct (get E n HRef o s1) as [[b|v|e] s3|k s3| |] eqn:Hq; [..|done|done].
  - destruct (H1 _ _ eq_refl) as (_ & [x|e] & _ & ?); done.
  - left. destruct Hm as (-> & Hs & Hw). destruct (H1 _ _ eq_refl) as (G & _).
    destruct (get_ok_cached E n HRef o s1 (RvVal v) s2 I1) as (b & Hb & Hv & _); [cbn [step]; by rewrite Hq|done|].
    injection Hv as ->. exists b. split_and!; [|done|by rewrite (wr_cached _ _ _ _ Hw), Hb].
    apply (Hev s2); [done|]. apply (proj2 (gt_pure _ _ _ _ _ G)). by rewrite pin_cached.
  - right. left. destruct Hm as (-> & Heq & Hs). destruct (H1 _ _ eq_refl) as (G & [x|e'] & Hx & Hv); [done|].
    injection Hv as <-. exists e. split; [by eapply Hev|done].
  - right. right. destruct Hm as (-> & Heq & Hs). destruct (H2 _ _ eq_refl) as (G & Hx). exists k. split; [by eapply Hev|done].
Qed.
Theorem C63_get_mut E P n o f s v s' :
  edited E P s → step E n (OGetMut o f) s = Done (OutRes (RvVal v)) s' →
  (∃ b, evals (edited_defs s P) (config s) o (EvRet (Ok b)) ∧ v = bin_val b) ∧
  o ∈ edits P (OGetMut o f) s s' ∧ ∃ p, cached s' o = Some (Bin p (f v)).
Proof.
  intros He Hs. assert (goes (step E n (OGetMut o f) s) s') as Hg by (left; eauto).
  destruct (edited_get_mut E P n o f s s' He Hg) as [(b & Hb & Hs' & Hc)|[(e & _ & Hs')|(k & _ & Hs')]]; rewrite Hs in Hs'; [|done..].
  injection Hs' as ->. split_and!; [by eauto| |by eauto]. apply in_edits. right. apply in_changed. rewrite Hc. eauto.
Qed.
Print Assumptions C63_get_mut.
Theorem C63_get_mut_fails E P n o f s e s' :
  edited E P s → step E n (OGetMut o f) s = Done (OutRes (RvErr e)) s' → evals (edited_defs s P) (config s) o (EvRet (Err e)).
Proof.
  intros He Hs. assert (goes (step E n (OGetMut o f) s) s') as Hg by (left; eauto).
  destruct (edited_get_mut E P n o f s s' He Hg) as [(b & Hb & Hs' & Hc)|[(e' & ? & Hs')|(k & _ & Hs')]]; rewrite Hs in Hs'; [done| |done].
  by injection Hs' as ->.
Qed.
Print Assumptions C63_get_mut_fails.
(** (Other panics of [get_mut] are those of C14: somebody depends on [o].) *)
Theorem C63_get_mut_panics E P n o f s s' :
  edited E P s → step E n (OGetMut o f) s = Panic PkUser s' → evals (edited_defs s P) (config s) o EvPanic.
Proof.
  intros He Hs. assert (goes (step E n (OGetMut o f) s) s') as Hg by (right; eauto).
  destruct (edited_get_mut E P n o f s s' He Hg) as [(b & Hb & Hs' & Hc)|[(e' & ? & Hs')|(k & ? & Hs')]]; by rewrite Hs in Hs'.
Qed.
Print Assumptions C63_get_mut_panics.
Theorem C63_lookup_mut E P n o f s v s' :
  edited E P s → step E n (OLookupMut o f) s = Done (OutOpt (Some v)) s' →
  ∃ b, evals (edited_defs s P) (config s) o (EvRet (Ok b)) ∧ v = RvVal (bin_val b) ∧
    o ∈ edits P (OLookupMut o f) s s' ∧ ∃ p, cached s' o = Some (Bin p (f (bin_val b))).
Proof.
  intros He Hs. pose proof (edited_inv E P s He) as EI. pose proof EI as [I Hst Hp Hh HP].
  assert (goes (step E n (OLookupMut o f) s) s') as Hg by (left; eauto).
  assert (Hk : e_kind E = Boxed).
  { destruct (e_kind E) eqn:Hk; [|done]. cbn [step] in Hs. unfold op_lookup_mut in Hs. by rewrite Hk in Hs. }
  destruct (step_effect E n _ s s' I Hst Hg) as (Hl & Hno & _).
  destruct (op_lookup_mut_effect E n o f s I Hst Hl Hk) as (_ & H2 & _).
  destruct H2 as (s1 & Heq & Hw).
  { intros u Hu. assert (u = o) as -> by auto. by apply (edited_self E P s He o). }
  rewrite Heq in Hs. injection Hs as Hv ->. destruct (cached s o) as [b|] eqn:Hc; [|done]. injection Hv as <-.
  exists b. rewrite (wr_cached _ _ _ _ Hw), Hc. split_and!; [by eapply edited_cached|done| |by eauto].
  apply in_edits. right. apply in_changed. rewrite (wr_cached _ _ _ _ Hw), Hc. eauto.
Qed.
Print Assumptions C63_lookup_mut.

(** *** There is only one answer, up to addresses of bins *)
Theorem C63_unique E P s o x y :
  edited E P s → evals (edited_defs s P) (config s) o x → evals (edited_defs s P) (config s) o y → strip_eres x = strip_eres y.
Proof.
  intros He Hx Hy. pose proof (edited_inv E P s He) as [I Hst Hp Hh HP].
  exact (proj1 (evals_det _ _ (λ o d, edited_defs_oblivious s P o d Hp)) o _ Hx _ Hy).
Qed.
Print Assumptions C63_unique.

(** And a getter finds it, if evaluation does. *)
Theorem C63_total E P n h o s p x p' :
  edited E P s → eval (edited_defs s P) (config s) n o p = Some (x, p') →
  match step E n (OGet h o) s with
  | Done r _ => ∃ y rv, x = EvRet y ∧ r = OutRes rv ∧ strip_rval rv = strip_rval (handed h y)
  | Panic _ _ => x = EvPanic
  | NoFuel => False
  | Illegal => True
  end.
Proof.
  intros He Hev. pose proof (edited_inv E P s He) as [I Hst Hp Hh HP]. pose proof Hev as Hx. apply eval_sound in Hx.
  assert (step E n (OGet h o) s ≠ NoFuel) as Hnf.
  { pose proof (get_with_total E (edited_defs s P) (config s) n (build E n) h o (pin (artifacts_of s P) s) p _
      (build_total E _ _ (λ o d, edited_defs_oblivious s P o d Hp) n) (pin_Inv _ s I) HP (edited_fits s P) Hev) as H.
    fold (get E n h o (pin (artifacts_of s P) s)) in H.
    rewrite (get_same E _ n h o s (artifacts_here s P I Hh)) in H. cbn [step]. by destruct (get E n h o s). }
  destruct (step E n (OGet h o) s) as [r s'|k s'| |] eqn:Hs; try done.
  - destruct (C63_get E P n h o s r s' He Hs) as (y & Hy & ->).
    pose proof (C63_unique E P s o _ _ He Hy Hx) as Heq. destruct x as [z|]; [|done]. cbn in Heq. injection Heq as Heq.
    exists z, (handed h y). split_and!; [done..|]. by apply strip_handed.
  - pose proof (C63_get_panics E P n h o s k s' He Hs) as Hy. pose proof (C63_unique E P s o _ _ He Hy Hx) as Heq. by destruct x.
Qed.
Print Assumptions C63_total.

(** ** What is built: as for C51, and changed artifacts are not built again *)
Theorem C63_called E P n h o s r s' w :
  edited E P s → step E n (OGet h o) s = Done r s' →
  calls s w < calls s' w ↔ wanted (edited_defs s P) (config s) (has s) o w.
Proof.
  intros He Hs. pose proof (edited_inv E P s He) as [I Hst Hp Hh HP]. set (M := artifacts_of s P) in *.
  pose proof (get_ran E (edited_defs s P) (config s) (λ o d, edited_defs_oblivious s P o d Hp) n h o (pin M s)
    (pin_Inv _ s I) HP (edited_fits s P)) as [H1 _].
  rewrite (get_same E M n h o s (artifacts_here s P I Hh)) in H1. cbn [step] in Hs.
  destruct (get E n h o s) as [rv s1|k s1| |] eqn:Hg; try done. injection Hs as _ ->.
  destruct (H1 _ _ eq_refl) as (l & Hl & N). cbn [trace pin] in Hl. rewrite (Props18.called_in s s' l w Hl).
  assert (∀ z, has (pin M s) z ↔ has s z) as Hhas by (intros z; unfold has; by rewrite pin_cached).
  split.
  - intros Hw. destruct (rn_called _ _ _ _ _ _ N w Hw) as (z & -> & Hx). eapply wanted_mono; [|exact Hx]. apply Hhas.
  - induction 1 as [Hn|u w _ IH Ha Hn].
    + destruct (rn_all _ _ _ _ _ _ N o eq_refl) as [?%Hhas|?]; done.
    + destruct (rn_closed _ _ _ _ _ _ N u w IH Ha) as [?%Hhas|?]; done.
Qed.
Print Assumptions C63_called.

(** ** An example: the diamond of Demo.v, in a boxed cache; the leaf is made 50, and
    then its first user is changed as well. *)
Fixpoint follow (E : env) (n : nat) (l : list op) (P : gset obj) (s : st) : option (list answer * gset obj * st) :=
  match l with
  | [] => Some ([], P, s)
  | x :: l' =>
    match step E n x s with
    | Done r s' => match follow E n l' (edits P x s s') s' with Some (rs, P', s'') => Some (Returned r :: rs, P', s'') | None => None end
    | Panic k s' =>
      if resumable k then match follow E n l' (edits P x s s') (unwound s') with Some (rs, P', s'') => Some (Panicked k :: rs, P', s'') | None => None end
      else None
    | _ => None
    end
  end.
Lemma follow_edited E n l P s rs P' s' :
  edited E P s → Forall pure_alloc l → follow E n l P s = Some (rs, P', s') → edited E P' s'.
Proof.
  revert P s rs. induction l as [|x l IH]; intros P s rs He Hl; cbn [follow].
  { by intros [= _ <- <-]. }
  apply Forall_cons in Hl as [Hx Hl]. pose proof (edited_inv E P s He) as EI.
  destruct (step E n x s) as [r s1|k s1| |] eqn:Hs; try done.
  - destruct (step_Inv E n x s r s1 (ed_inv _ _ EI) (ed_stack _ _ EI) Hs) as [_ Hst].
    destruct (follow E n l _ s1) as [[[rs1 P1] s2]|] eqn:Hf; [|done]. intros [= _ <- <-].
    assert (s1 = unwound s1) as Heq by (destruct s1; cbn in *; by subst).
    eapply (IH _ s1); [|done|exact Hf]. rewrite Heq at 2. eapply edited_call; [done|done|left; eauto].
  - destruct (resumable k) eqn:Hk; [|done].
    destruct (follow E n l _ (unwound s1)) as [[[rs1 P1] s2]|] eqn:Hf; [|done]. intros [= _ <- <-].
    eapply (IH _ (unwound s1)); [|done|exact Hf]. eapply edited_call; [done|done|right; eauto].
Qed.
Definition ed_ops : list op :=
  [OAlloc (d_leaf (VNum 7)); OAlloc (d_mid 0); OAlloc (d_mid 0); OAlloc (d_top 1 2);
   OGetMut 0 (λ _, VNum 50); OGetMut 1 (λ v, VPair v VUnit); OGet HRef 3]%N.
Definition ed_after (l : list op) : gset obj * st :=
  match follow env_b 10 (ed_ops ++ l) ∅ init_st with Some (_, P, s) => (P, s) | None => (∅, init_st) end.
Definition ed_answers (l : list op) : option (list answer) :=
  match follow env_b 10 (ed_ops ++ l) ∅ init_st with Some (rs, _, _) => Some (drop 4 rs) | None => None end.
Lemma ed_edited l : Forall pure_alloc l → edited env_b (ed_after l).1 (ed_after l).2.
Proof.
  intros Hl. unfold ed_after. destruct (follow _ _ _ _ _) as [[[rs P] s]|] eqn:Hf; [|constructor].
  eapply follow_edited; [constructor| |exact Hf]. apply Forall_app. split; [|done].
  apply List.Forall_cons; [apply Props4.d_leaf_oblivious|]. apply List.Forall_cons; [apply Props4.d_mid_oblivious|].
  apply List.Forall_cons; [apply Props4.d_mid_oblivious|]. apply List.Forall_cons; [apply Props4.d_top_oblivious|].
  repeat (apply List.Forall_cons; [exact Logic.I|]). apply List.Forall_nil.
Qed.
Example C63_applies :
  edited env_b (ed_after []).1 (ed_after []).2 ∧ elements (ed_after []).1 = [0; 1]%N ∧
  ed_answers [] = Some [Returned (OutRes (RvVal (VNum 7))); Returned (OutRes (RvVal (VSome (VNum 50))));
    Returned (OutRes (RvVal (VPair (VPair (VSome (VNum 50)) VUnit) (VSome (VNum 50)))))] ∧
  (∃ p', eval (edited_defs (ed_after []).2 (ed_after []).1) (config (ed_after []).2) 10 3 90 =
     Some (EvRet (Ok (Bin 91 (VPair (VPair (VSome (VNum 50)) VUnit) (VSome (VNum 50))))), p')).
Proof. split; [by apply ed_edited|]. split_and!; [..|eexists]; vm_compute; reflexivity. Qed.
(** Invalidating the first user only loses the change made to it; invalidating the leaf
    loses both. *)
Example C63_lost_applies :
  elements (ed_after [OInvalidate 1; OGet HRef 3]).1 = [0]%N ∧ elements (ed_after [OInvalidate 0; OGet HRef 3]).1 = [] ∧
  drop 3 <$> ed_answers [OInvalidate 1; OGet HRef 3] =
    Some [Returned OutUnit; Returned (OutRes (RvVal (VPair (VSome (VNum 50)) (VSome (VNum 50)))))] ∧
  drop 3 <$> ed_answers [OInvalidate 0; OGet HRef 3] =
    Some [Returned OutUnit; Returned (OutRes (RvVal (VPair (VSome (VNum 7)) (VSome (VNum 7)))))].
Proof. split_and!; vm_compute; reflexivity. Qed.
