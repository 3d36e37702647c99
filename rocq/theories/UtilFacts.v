(** How the configuration of a builder changes over a history, and what the
    builders of Utils.v do. *)
From Verif Require Export Utils PlayFacts.
From stdpp Require Import relations.

Section Config.
Context (E : env) (o : obj).
Local Notation prim := (Prims.prim E).
Local Notation prims := (rtc prim).
Local Notation mstep := (Machine.mstep E).

Lemma mstep_prim fs s fs' s' : mstep (fs, s) (fs', s') → s' = s ∨ prim s s'.
Proof.
  intros H. inversion H; subst; try (by left); right;
    [by eapply pm_know|by eapply pm_dyn|by eapply pm_push|by eapply pm_edge|by eapply pm_got|by eapply pm_set|
     apply pm_tick|apply pm_newbin|by eapply pm_alloc|by eapply pm_drop|by eapply pm_ok|by eapply pm_fail].
Qed.

Lemma stack_state s : Inv s → o ∈ stack s → is_Some (state_of s o).
Proof.
  intros I Hin. destruct (i_stack _ I o Hin) as (Hal & d & a & Ho & Hk & Hd).
  rewrite (state_at s o d a Ho Hk). destruct Hd as [x ->]. eauto.
Qed.

Lemma mstep_config fs s fs' s' y :
  Inv s → Inv s' → objs s !! o = Some y → mstep (fs, s) (fs', s') →
  config s' o = config s o ∨
  (∃ S x p gs, stack s = o :: S ∧ fs = PSetState x p :: gs ∧ fs' = p :: gs ∧ config s' o = Some x).
Proof.
  intros I I' Ho Hm. destruct y as [d a].
  assert (objs s' !! o = Some (d, a)) as Ho' by (eapply (prims_at E); [exact I|by eapply mstep_prims|exact Ho]).
  destruct (state_of s o) as [v|] eqn:Hv.
  - destruct (mstep_state E o fs s fs' s' v I Hm Hv) as [H|(S & x & p & gs & H1 & H2 & H3 & H4)]; unfold config.
    + left. by rewrite H, Hv.
    + right. exists S, x, p, gs. by rewrite H4.
  - left. destruct (mstep_prim fs s fs' s' Hm) as [->|Hp]; [done|]. unfold config. rewrite Hv.
    assert (initial s o = initial s' o) as -> by (unfold initial; by rewrite Ho, Ho').
    destruct (state_of s' o) as [v|] eqn:Hv'; [|done]. symmetry. eapply (prim_state_new E s s'); [done..| |done|done].
    intros Hin. destruct (stack_state s I Hin) as [? ?]. congruence.
Qed.

Lemma count_0 (f : event → bool) l : (∀ e, e ∈ l → f e = false) → count f l = 0.
Proof.
  unfold count. induction l as [|e l IH]; intros H; [done|]. rewrite filter_cons, decide_False.
  - apply IH. intros e' He. apply H. by right.
  - rewrite H; [done|left].
Qed.

(** Calls that run no builder keep it, unless they are meant to change it. *)
Lemma runless_config n x s s' y :
  Inv s → stack s = [] → state_keeps o s x → runless x → objs s !! o = Some y → goes (step E n x s) s' → config s' o = config s o.
Proof.
  intros I Hst Hk Hx Ho Hg. destruct (runless_trace E n x s s' I Hst Hx Hg) as (l & Ht & Hl).
  assert (calls s' o = calls s o) as Hc.
  { unfold calls. rewrite Ht. unfold count. rewrite filter_app, app_length. fold (count (is_call o) l).
    rewrite count_0; [done|]. intros e He. by destruct (Hl e He) as [->|[? ->]]. }
  assert (objs s' !! o = Some y) as Ho' by (by eapply (objs_mono E n x)).
  assert (initial s' o = initial s o) as Hi by (unfold initial; by rewrite Ho, Ho').
  unfold config. rewrite Hi. destruct (state_step E n x o s s' I Hst Hk Hg Hc) as [->|[-> ->]]; [done|]. rewrite Hi. by destruct (initial s o).
Qed.

(** Histories from a state in which [o] exists: [T] holds of what was logged
    since, the configuration, and the programs being run. *)
Lemma config_hist s0 l s y (T : list prog → st → list event → option val → Prop) :
  Inv s0 → stack s0 = [] → objs s0 !! o = Some y → T [] s0 [] (config s0 o) →
  (∀ fs s fs' s' t t', Inv s → Inv s' → objs s !! o = Some y → objs s' !! o = Some y → mstep (fs, s) (fs', s') → frames fs s →
     trace s = t ++ trace s0 → trace s' = t' ++ trace s0 → T fs s t (config s o) → T fs' s' t' (config s' o)) →
  (∀ fs s t v, T fs s t v → stuck fs → T [] (unwound s) t v) →
  (∀ s s' t l v, (∀ e, e ∈ l → e = EClear ∨ ∃ w, e = EInvalidate w) → T [] s t v → T [] s' (l ++ t) v) →
  runs E (state_keeps o) s0 l s → ∃ t, trace s = t ++ trace s0 ∧ T [] s t (config s o).
Proof.
  intros I0 Hst0 Ho0 T0 Hms Hst Hkeep Hr.
  set (K := λ fs s, frames fs s ∧ objs s !! o = Some y ∧ ∃ t, trace s = t ++ trace s0 ∧ T fs s t (config s o)).
  assert (K [] s) as (_ & _ & H); [|exact H].
  assert (∀ t s' l v, T [] s' t v → (∀ e, e ∈ l → e = EClear ∨ ∃ w, e = EInvalidate w) → ∀ s'', T [] s'' (l ++ t) v) as Hk2 by eauto.
  refine (mach_reach E (state_keeps o) K s0 l s I0 Hst0 _ _ _ _ _ _ Hr); unfold K.
  - split; [unfold frames; by rewrite Hst0|]. split; [done|]. by exists [].
  - intros fs s1 fs' s2 I1 I2 Hm (HF & Ho & t & Ht & HT).
    assert (objs s2 !! o = Some y) as Ho2 by (destruct y; eapply (prims_at E); [exact I1|by eapply mstep_prims|exact Ho]).
    destruct (prims_trace E s1 s2 (mstep_prims E _ _ _ _ Hm)) as [l' Hl'].
    split; [exact (frames_step E fs s1 fs' s2 I1 Hm HF)|]. split; [done|]. exists (l' ++ t).
    assert (trace s2 = (l' ++ t) ++ trace s0) as Ht2 by (rewrite Hl', Ht; by rewrite (assoc_L (++))).
    split; [done|]. exact (Hms fs s1 fs' s2 t _ I1 I2 Ho Ho2 Hm HF Ht Ht2 HT).
  - intros fs s1 (HF & Ho & t & Ht & HT) Hstk. split; [constructor|]. split; [done|]. exists t. split; [done|].
    by apply (Hst fs s1 t).
  - intros n x s1 s2 I1 Hst1 HP Hx Hg (HF & Ho & t & Ht & HT).
    destruct (runless_trace E n x s1 s2 I1 Hst1 Hx Hg) as (l' & Ht2 & Hl').
    split; [constructor|]. split; [exact (objs_mono E n x o y s1 s2 I1 Hst1 Hg Ho)|]. exists (l' ++ t).
    split; [cbn; rewrite Ht2, Ht; by rewrite (assoc_L (++))|]. 
    change (config (unwound s2) o) with (config s2 o). rewrite (runless_config n x s1 s2 y I1 Hst1 HP Hx Ho Hg). eauto.
  - intros s1 w f s2 I1 I2 Hst1 Hst2 [Ht2 _] Hsf _ (HF & Ho & t & Ht & HT).
    split; [unfold frames; by rewrite Hst2|].
    assert (objs s2 = objs s1) as Heq by (destruct Hsf as [Hf|Hf]; apply (fg_objs _ _ _ _ Hf)). split; [by rewrite Heq|].
    exists ([] ++ t). split; [by rewrite Ht2, Ht|].
    assert (config s2 o = config s1 o) as ->.
    { unfold config, initial. rewrite Heq. destruct Hsf as [Hf|Hf]; by rewrite (fg_state_kept _ _ _ _ Hf) by tauto. }
    eapply Hk2; [exact HT|]. by intros e ?%elem_of_nil.
  - intros s1' s1 w f s2 I1 Hst1 Hst2 _ [Ht2 _] Hw (HF & Ho & t & Ht & HT).
    split; [unfold frames; by rewrite Hst2|]. split; [by rewrite (wr_objs _ _ _ _ Hw)|].
    exists ([] ++ t). split; [by rewrite Ht2, Ht|].
    assert (config s2 o = config s1 o) as ->.
    { unfold config, initial. by rewrite (wr_objs _ _ _ _ Hw), (wr_state _ _ _ _ Hw). }
    eapply Hk2; [exact HT|]. by intros e ?%elem_of_nil.
Qed.

(** A builder whose code never sets its state keeps its configuration. *)
Lemma config_kept s0 l s d a :
  Inv s0 → stack s0 = [] → at_addr s0 o d a → (∀ v, ¬ can_set d v) →
  runs E (state_keeps o) s0 l s → config s o = config s0 o.
Proof.
  intros I0 Hst0 Ho Hn Hr.
  destruct (config_hist s0 l s (d, a) (λ _ _ _ v, v = config s0 o) I0 Hst0 Ho) as (t & _ & H); [done| | |done|exact Hr|exact H].
  - intros fs s1 fs' s2 t t' I1 I2 H1 H2 Hm HF _ _ Hc.
    destruct (mstep_config fs s1 fs' s2 _ I1 I2 H1 Hm) as [->|(S & x & p & gs & Hs & -> & -> & _)]; [done|].
    exfalso. unfold frames in HF. rewrite Hs in HF. apply Forall2_cons in HF as [(d' & a' & Hat & Hd) _].
    unfold at_addr in Hat. rewrite H1 in Hat. injection Hat as <- <-. apply (Hn x). by exists p.
  - done.
Qed.

(** Only the newest builder does something; the others wait for what they
    resolve. *)
Definition lower (fs : list prog) : Prop := ∀ i p, fs !! S i = Some p → ∃ h w k, p = PResolve h w k.
Lemma lower_step fs s fs' s' : mstep (fs, s) (fs', s') → lower fs → lower fs'.
Proof.
  intros Hm Hr. inversion Hm; subst; try exact Hr; try (intros i p Hp; apply (Hr i); exact Hp);
      try (intros i p Hp; apply (Hr (Datatypes.S i)); exact Hp).
  intros [|i] p Hp; cbn in Hp; [|by apply (Hr i)].
  destruct fs as [|q fs]; [done|]. injection Hp as ->.
  match goal with H : callable _ _ |- _ => destruct H as (h & k & ->) end. eauto.
Qed.

(** A RedeemingBuilder's state is the newest success of the inner builder. *)
Lemma config_redeeming s0 l s aty sty w dflt a :
  Inv s0 → stack s0 = [] → at_addr s0 o (redeeming aty sty w dflt) a →
  runs E (state_keeps o) s0 l s →
  ∃ t, trace s = t ++ trace s0 ∧
    config s o = match last_given o w t with Some b => Some (VSome (of_bin b)) | None => config s0 o end.
Proof.
  intros I0 Hst0 Ho Hr. set (d := redeeming aty sty w dflt) in *.
  set (exp := λ t, match last_given o w t with Some b => Some (VSome (of_bin b)) | None => config s0 o end).
  assert (∀ p, reaches d p →
    p = bd_body d ∨ (∃ b, p = PSetState (VSome (of_bin b)) (PRet (Ok b))) ∨ (∃ r, p = PRet r) ∨ p = PPanic ∨ (∃ k, p = PState k ∧ ∀ v, k v = PPanic ∨ ∃ r, k v = PRet r)) as Hreach.
  { unfold reaches. apply rtc_ind_r; [by left|]. intros p p' _ Hl IH.
    assert (∃ k, (PState (λ st, match st with VSome (VBin p x) => PRet (Ok (Bin p x)) | _ => PPanic end)) = PState k ∧ ∀ v, k v = PPanic ∨ ∃ r, k v = PRet r) as Hk0.
    { eexists. split; [done|]. intros v. destruct v as [| | | | |v|]; try (by left). destruct v; try (by left). right. eauto. }
    destruct IH as [->|[(b & ->)|[(r & ->)|[->|(k & -> & Hk)]]]]; inversion Hl; subst; cbn.
    - right. left. eauto.
    - right. right. right. right. done.
    - right. right. left. eauto.
    - match goal with v : val |- _ => destruct (Hk v) as [->|[r ->]] end; eauto 10. }
  destruct (config_hist s0 l s (d, a) (λ fs s t v, lower fs ∧ (
     (∃ S b gs, stack s = o :: S ∧ fs = PSetState (VSome (of_bin b)) (PRet (Ok b)) :: gs ∧ last_given o w t = Some b) ∨
     (v = exp t ∧ ∀ S x p gs, stack s = o :: S → fs ≠ PSetState x p :: gs))) I0 Hst0 Ho)
    as (t & Ht & _ & [(? & ? & ? & _ & [=] & _)|[H _]]); [by split; [done|right]| | | |exact Hr|by exists t].
  - intros fs s1 fs' s2 t t' I1 I2 H1 H2 Hm HF Ht Ht' [Hlow HT].
    split; [by eapply lower_step|].
    assert (∀ p gs S, fs = p :: gs → stack s1 = o :: S → reaches d p) as Htop.
    { intros p gs S -> Hs. unfold frames in HF. rewrite Hs in HF. apply Forall2_cons in HF as [(d' & a' & Hat & Hd) _].
      unfold at_addr in Hat. rewrite H1 in Hat. by injection Hat as <- <-. }
    pose proof (mstep_config fs s1 fs' s2 _ I1 I2 H1 Hm) as Hc.
    destruct HT as [(S & b & gs & Hs & -> & Hg)|[HT Hnp]].
    + (* pending *)
      inversion Hm; subst.
      * left. exists S, b, gs. cbn. split_and!; [done..|]. cbn in Ht'. rewrite Ht in Ht'. by apply app_inv_tail in Ht' as <-.
      * left. exists S, b, gs. cbn. split_and!; [done..|]. cbn in Ht'. rewrite Ht in Ht'. by apply app_inv_tail in Ht' as <-.
      * exfalso. match goal with H : callable _ _ |- _ => by destruct H as (? & ? & [=]) end.
      * right. cbn in Ht'. rewrite Ht in Ht'. apply app_inv_tail in Ht' as <-. split; [|done]. unfold exp. rewrite Hg.
        assert (u = o) as -> by congruence. assert (du = d ∧ ua = a) as [-> ->] by (split; congruence).
        destruct (i_stack _ I1 o) as (_ & d1 & a1 & Hu1 & Hk1 & _); [rewrite Hs; left|].
        assert (a1 = a) as -> by congruence. unfold config.
        rewrite (state_at (set_ch _ s1) o d a); [|done|done]. cbn. by rewrite lookup_insert.
    + (* settled *)
      destruct Hc as [Hc|(S & x & p & gs & Hs & -> & _ & _)]; [|by edestruct Hnp].
      inversion Hm; subst; cbn in Ht';
        try match goal with H : alloc _ _ _ = _ |- _ => apply alloc_Some in H as (_ & Hs2 & _); rewrite Hs2 in Ht'; cbn in Ht' end;
        try match goal with H : drop_obj _ _ = _ |- _ => apply drop_Some in H as (_ & _ & Hs2); rewrite Hs2 in Ht'; cbn in Ht' end;
        rewrite Ht in Ht'; rewrite ?app_comm_cons in Ht'; apply app_inv_tail in Ht' as <-.
      * right. split; [exact (eq_trans Hc HT)|done].
      * right. split; [exact (eq_trans Hc HT)|done].
      * right. split; [exact (eq_trans Hc HT)|]. intros S x p gs Hs. cbn in Hs. injection Hs as -> _.
        match goal with H : promise o s1 = _ |- _ => apply promise_Some in H as [_ Hx]; rewrite H1 in Hx; by injection Hx as <- <- end.
      * right. split; [exact (eq_trans Hc HT)|done].
      * match goal with H : stack s1 = _ |- _ => rename H into Hs end.
        destruct (decide (u = o)) as [->|Hne].
        -- destruct (Hreach _ (Htop _ _ _ eq_refl Hs)) as [Hb|[(b & [=])|[(r & [=])|[[=]|(k' & [=] & _)]]]].
           injection Hb as -> -> ->. destruct rv as [b|v|e].
           ++ left. exists S, b, fs0. cbn. rewrite decide_True by done. done.
           ++ right. unfold exp. cbn [last_given]. by rewrite Hc, HT.
           ++ right. unfold exp. cbn [last_given]. by rewrite Hc, HT.
        -- right. split; [|intros S' x p gs Hs'; cbn in Hs'; congruence].
           rewrite Hc, HT. unfold exp. cbn [last_given]. destruct rv; try done. rewrite decide_False; [done|by intros [? _]].
      * right. split; [exact (eq_trans Hc HT)|]. intros S' x p gs Hs'.
        destruct (Hreach _ (Htop _ _ _ eq_refl Hs')) as [[=]|[(b & [=])|[(r & [=])|[[=]|(k' & [= ->] & Hk')]]]].
        destruct (Hk' (ds_val v)) as [->|[r ->]]; done.
      * right. split; [exact (eq_trans Hc HT)|]. intros S' x p' gs Hs'. cbn in Hs'. by edestruct Hnp.
      * right. split; [exact (eq_trans Hc HT)|]. intros S' x p' gs Hs'. cbn in Hs'.
        destruct (Hreach _ (Htop _ _ _ eq_refl Hs')) as [[=]|[(b & [=])|[(r & [=])|[[=]|(k' & [=] & Hk')]]]].
      * right. split; [exact (eq_trans Hc HT)|]. intros S' x p' gs Hs'. cbn in Hs'.
        destruct (Hreach _ (Htop _ _ _ eq_refl Hs')) as [[=]|[(b & [=])|[(r & [=])|[[=]|(k' & [=] & Hk')]]]].
      * right. split; [exact (eq_trans Hc HT)|]. intros S' x p' gs Hs'. rewrite Hs2 in Hs'. cbn in Hs'.
        destruct (Hreach _ (Htop _ _ _ eq_refl Hs')) as [[=]|[(b & [=])|[(r & [=])|[[=]|(k' & [=] & Hk')]]]].
      * right. split; [exact (eq_trans Hc HT)|]. intros S' x p' gs Hs'. rewrite Hs2 in Hs'. cbn in Hs'.
        destruct (Hreach _ (Htop _ _ _ eq_refl Hs')) as [[=]|[(b & [=])|[(r & [=])|[[=]|(k' & [=] & Hk')]]]].
      * right. split; [exact (eq_trans Hc HT)|]. intros S' x p' gs Hs' ->. destruct (Hlow 0 (PSetState x p')) as (? & ? & ? & [=]). done.
      * right. split; [exact (eq_trans Hc HT)|]. intros S' x p' gs Hs' ->. destruct (Hlow 0 (PSetState x p')) as (? & ? & ? & [=]). done.
  - intros fs s1 t v [_ [(S & b & gs & _ & -> & _)|[-> _]]] Hstk; [destruct Hstk as [[=]|(? & ? & ? & [=])]|by split; [done|right]].
  - intros s1 s2 t l' v Hl' [_ [(? & ? & ? & _ & [=] & _)|[-> _]]]. split; [done|right]. split; [|done]. unfold exp.
    assert (last_given o w (l' ++ t) = last_given o w t) as ->; [|done].
    clear -Hl'. induction l' as [|e l' IH]; [done|]. cbn. destruct (Hl' e) as [->|[? ->]]; [left|..]; apply IH; intros e' He'; apply Hl'; by right.
Qed.
End Config.

(** ** Builders that do nothing but compute *)
(** No resolving, no creating or dropping of builders. *)
Fixpoint local_prog (p : prog) : Prop :=
  match p with
  | PRet _ | PPanic => True
  | PResolve _ _ _ | PNew _ _ | PDrop _ _ => False
  | PState k => ∀ v, local_prog (k v)
  | PSetState _ p => local_prog p
  | PAsk k => ∀ n, local_prog (k n)
  | PNewBin _ k => ∀ b, local_prog (k b)
  end.
Lemma local_leads p q : leads p q → local_prog p → local_prog q.
Proof. destruct 1; cbn; auto; done. Qed.
Lemma local_no_resolve d w : local_prog (bd_body d) → ¬ can_resolve d w.
Proof.
  intros Hl (h & k & Hr). assert (local_prog (PResolve h w k)) as H; [|done].
  revert Hr Hl. generalize (PResolve h w k) as q. unfold reaches. induction 1; [done|]. intros. by eapply IHHr, local_leads.
Qed.
Lemma exec_local E bld u ua t p : local_prog p → ∀ s,
  (∃ r s', exec E bld u ua t p s = Done r s') ∨ (∃ k s', exec E bld u ua t p s = Panic k s').
Proof.
  induction p as [r| |h w k IH|k IH|v p IH|k IH|v k IH|d k IH|w p IH]; cbn [local_prog exec]; intros Hl s; try done; eauto.
  - destruct (my_state _ _ _ _); eauto.
  - destruct (my_state _ _ _ _); eauto.
Qed.

Lemma get_local E n h o s d a :
  Inv s → stack s = [] → live s o → how_legal E h = true → at_addr s o d a → local_prog (bd_body d) →
  config s o ≠ None → (∀ v0 l v, ¬ plays (bd_body d) v0 l PPanic v) →
  ∃ r s', step E (S n) (OGet h o) s = Done (OutRes r) s'.
Proof.
  intros I Hst Hl Hh Hat Hlo Hc Hnp.
  destruct (step E (S n) (OGet h o) s) as [r s'|k s'| |] eqn:Hs.
  - cbn [step] in Hs. destruct (get E (S n) h o s); try done. injection Hs as <- <-. eauto.
  - exfalso. assert (k = PkUser) as ->.
    { destruct (step_panic E _ _ _ _ _ I Hst Hs) as [[-> _]|[(? & _)|[(? & ? & ? & ? & [?|?] & _) _]]]; done. }
    assert (Hsg : single o s').
    { right. intros d' a' w Hat'. assert (at_addr s' o d a) as H2.
      { unfold at_addr. eapply (objs_mono E (S n) (OGet h o)); [done|done|right; exists PkUser; split; [exact Hs|done]|done]. }
      unfold at_addr in *. assert (d' = d) as -> by congruence. by apply local_no_resolve. }
    destruct (get_plays_panic E (S n) h o s s' I Hst Hs Hsg) as (d' & a' & Hat' & H).
    assert (d' = d) as -> by (unfold at_addr in *; congruence).
    destruct H as [H|(v0 & v & l & p & _ & Hp & _ & [->|(h' & w & k & ->)])]; [done|by eapply Hnp|].
    exfalso. assert (local_prog (PResolve h' w k)) as H; [|done].
    clear -Hlo Hp. revert Hp. generalize (PResolve h' w k) as q. intros q Hp. induction Hp; cbn in *; auto; done.
  - exfalso. cbn [step] in Hs. unfold get, get_with in Hs.
    assert (promise o s = Some (d, a)) as Hp by (apply promise_Some; done). rewrite Hp, Hh in Hs.
    rewrite (lookup_art_ok _ o s d a I Hp) in Hs. destruct (artifacts (ch s) !! a); [done|].
    cbn [build] in Hs. rewrite Hp in Hs. destruct d as [aty sty init body]. destruct (e_dbg E && _); [done|].
    destruct (ensure_dyn_state _ _ _ _ _) as [c2 [k|v]]; [done|].
    destruct (exec_local E (build E n) o a sty body Hlo (log (ECall o) (set_reent (reent s || bool_decide (o ∈ stack s)) (set_stack (o :: stack s) (set_ch c2 s)))))
      as [([b|e] & s' & Hx)|(k & s' & Hx)]; rewrite Hx in Hs; [|done|done].
    cbn [artifacts set_artifacts] in Hs. rewrite lookup_insert in Hs. by destruct (_ =? _)%N.
  - exfalso. cbn [step] in Hs. unfold get, get_with in Hs.
    assert (promise o s = Some (d, a)) as Hp by (apply promise_Some; done). rewrite Hp, Hh in Hs.
    rewrite (lookup_art_ok _ o s d a I Hp) in Hs. destruct (artifacts (ch s) !! a); [done|].
    cbn [build] in Hs. rewrite Hp in Hs. destruct d as [aty sty init body]. destruct (e_dbg E && _); [done|].
    destruct (ensure_dyn_state _ _ _ _ _) as [c2 [k|v]]; [done|].
    destruct (exec_local E (build E n) o a sty body Hlo (log (ECall o) (set_reent (reent s || bool_decide (o ∈ stack s)) (set_stack (o :: stack s) (set_ch c2 s)))))
      as [([b|e] & s' & Hx)|(k & s' & Hx)]; rewrite Hx in Hs; [|done|done].
    cbn [artifacts set_artifacts] in Hs. rewrite lookup_insert in Hs. by destruct (_ =? _)%N.
Qed.

(** ** Runs of the builders of src/utils.rs *)
Ltac plays_ind H := induction H as [|l h w' k v b H IH|l h w' k v e H IH|l k v H IH|l x p v H IH|l k n v H IH|l x k i v H IH|l d k o v H IH|l w' p v H IH].

Lemma redeeming_plays aty sty w dflt v0 l p v :
  plays (bd_body (redeeming aty sty w dflt)) v0 l p v →
  (l = [] ∧ p = bd_body (redeeming aty sty w dflt) ∧ v = v0) ∨
  (∃ b, l = [(w, RvBin b)] ∧ ((p = PSetState (VSome (of_bin b)) (PRet (Ok b)) ∧ v = v0) ∨ (p = PRet (Ok b) ∧ v = VSome (of_bin b)))) ∨
  (∃ e, l = [(w, RvErr e)] ∧ v = v0 ∧
    (p = PState (λ st, match st with VSome (VBin p x) => PRet (Ok (Bin p x)) | _ => PPanic end) ∨
     (∃ b, v0 = VSome (of_bin b) ∧ p = PRet (Ok b)) ∨ ((∀ b, v0 ≠ VSome (of_bin b)) ∧ p = PPanic))).
Proof.
  intros H. plays_ind H; [by left|..];
    (destruct IH as [(-> & Hb & ->)|[(b0 & -> & [[Hb ->]|[Hb ->]])|(e0 & -> & -> & [Hb|[(b0 & -> & Hb)|[Hn Hb]]])]]); try done.
  - injection Hb as -> -> ->. cbn. right. left. exists b. auto.
  - injection Hb as -> -> ->. cbn. right. right. exists e. auto.
  - injection Hb as ->. right. right. exists e0. split_and!; [done..|]. right.
    destruct v0 as [| | | | |v0|]; try (right; by split). destruct v0 as [| | |q x| | |]; try (right; by split).
    left. by exists (Bin q x).
  - injection Hb as -> ->. right. left. exists b0. auto.
Qed.

Lemma functional_plays aty sty ini f v0 l p v :
  plays (bd_body (functional aty sty ini f)) v0 l p v →
  l = [] ∧ ((p = bd_body (functional aty sty ini f) ∧ v = v0) ∨ ∃ f', p = apply_closure f' ∧ closure_runs f v0 f' v).
Proof.
  intros H. plays_ind H; [auto|..]; (destruct IH as (-> & [[Hb ->]|(f' & Hb & Hf)]); [|destruct f'; cbn in Hb]); try done.
  all: try (injection Hb as Hk; subst; split; [done|]; right; eexists; split; [done|]; eapply rtc_r; [exact Hf|constructor]).
  injection Hb as ->. split; [done|]. right. exists f. split; [done|]. apply rtc_refl.
Qed.
Lemma functional_reaches aty sty ini f w : ¬ can_resolve (functional aty sty ini f) w.
Proof.
  intros (h & k & Hr).
  assert (∀ p, reaches (functional aty sty ini f) p → p = bd_body (functional aty sty ini f) ∨ ∃ f', p = apply_closure f') as H.
  { unfold reaches. apply rtc_ind_r; [by left|]. intros p p' _ Hl IH.
    destruct IH as [->|(f' & ->)]; [inversion Hl; subst; eauto|]. destruct f'; inversion Hl; subst; eauto. }
  destruct (H _ Hr) as [[=]|([] & [=])].
Qed.

Lemma constant_plays kd aty sty c v0 l p v :
  plays (bd_body (constant kd aty sty c)) v0 l p v → l = [] ∧ v = v0 ∧
  (p = bd_body (constant kd aty sty c) ∨ ∃ b', p = PRet (Ok b') ∧ match kd with Shared => b' = c | Boxed => bin_val b' = bin_val c end).
Proof.
  intros H. plays_ind H; [auto|..]; (destruct IH as (-> & -> & [Hb|(b' & Hb & Hb')])); destruct kd; try done.
  injection Hb as -> ->. split_and!; [done..|]. right. eauto.
Qed.

Lemma configurable_plays aty sty ini v0 l p v :
  plays (bd_body (configurable aty sty ini)) v0 l p v → l = [] ∧ v = v0 ∧
  (p = bd_body (configurable aty sty ini) ∨ p = PNewBin v0 (λ b, PRet (Ok b)) ∨ ∃ b, p = PRet (Ok b) ∧ bin_val b = v0).
Proof.
  intros H. plays_ind H; [auto|..]; (destruct IH as (-> & -> & [Hb|[Hb|(b' & Hb & Hb')]])); try done.
  - injection Hb as ->. split_and!; auto.
  - injection Hb as -> ->. split_and!; [done..|]. right. right. eauto.
Qed.

Lemma cloned_plays aty sty w v0 l p v :
  plays (bd_body (cloned aty sty w)) v0 l p v → v = v0 ∧
  ((l = [] ∧ p = bd_body (cloned aty sty w)) ∨
   (∃ b, l = [(w, RvVal (bin_val b))] ∧ (p = PNewBin (bin_val b) (λ b, PRet (Ok b)) ∨ ∃ b', p = PRet (Ok b') ∧ bin_val b' = bin_val b)) ∨
   ∃ e, l = [(w, RvErr e)] ∧ p = PRet (Err e)).
Proof.
  intros H. plays_ind H; [auto|..]; (destruct IH as (-> & [[-> Hb]|[(b0 & -> & [Hb|(b' & Hb & Hb')])|(e0 & -> & Hb)]])); try done.
  - injection Hb as -> -> ->. split; [done|]. right. left. exists b. auto.
  - injection Hb as -> -> ->. split; [done|]. right. right. eauto.
  - injection Hb as -> ->. split; [done|]. right. left. exists b0. eauto.
Qed.

Lemma forwarding_plays aty sty w v0 l p v :
  plays (bd_body (forwarding aty sty w)) v0 l p v → v = v0 ∧
  ((l = [] ∧ p = bd_body (forwarding aty sty w)) ∨
   (∃ b, l = [(w, RvBin b)] ∧ p = PRet (Ok b)) ∨ ∃ e, l = [(w, RvErr e)] ∧ p = PRet (Err e)).
Proof.
  intros H. plays_ind H; [auto|..]; (destruct IH as (-> & [[-> Hb]|[(b0 & -> & Hb)|(e0 & -> & Hb)]])); try done.
  - injection Hb as -> -> ->. split; [done|]. right. left. exists b. auto.
  - injection Hb as -> -> ->. split; [done|]. right. right. eauto.
Qed.

Lemma feigning_plays aty sty w v0 l p v :
  plays (bd_body (feigning aty sty w)) v0 l p v → v = v0 ∧
  ((l = [] ∧ p = bd_body (feigning aty sty w)) ∨
   (∃ b, l = [(w, RvBin b)] ∧ p = PRet (Ok b)) ∨ ∃ e, l = [(w, RvErr e)] ∧ p = PPanic).
Proof.
  intros H. plays_ind H; [auto|..]; (destruct IH as (-> & [[-> Hb]|[(b0 & -> & Hb)|(e0 & -> & Hb)]])); try done.
  - injection Hb as -> -> ->. split; [done|]. right. left. exists b. auto.
  - injection Hb as -> -> ->. split; [done|]. right. right. eauto.
Qed.

Lemma simple_plays aty sty f v0 l p v :
  plays (bd_body (simple aty sty f)) v0 l p v → v = v0 ∧
  ((∃ f', p = simple_build f' ∧ splays f l f') ∨ ∃ b, p = PRet (Ok b) ∧ splays f l (SRet (bin_val b))).
Proof.
  intros H. plays_ind H; [split; [done|left]; exists f; split; [done|constructor]|..];
    (destruct IH as (-> & [(f' & Hb & Hf)|(b' & Hb & Hf)]); [destruct f'; cbn in Hb; try done|done]); (split; [done|]).
  - injection Hb as -> -> ->. left. eexists. split; [done|]. by constructor.
  - injection Hb as -> -> ->. left. eexists. split; [done|]. by econstructor.
  - injection Hb as ->. left. eexists. split; [done|]. by constructor.
  - injection Hb as -> ->. right. eexists. split; [done|]. done.
  - injection Hb as -> ->. left. eexists. split; [done|]. by constructor.
  - injection Hb as -> ->. left. eexists. split; [done|]. by econstructor.
  - injection Hb as -> ->. left. eexists. split; [done|]. by econstructor.
Qed.

(** ** No errors *)
Lemma simple_infallible aty sty f : infallible (simple aty sty f).
Proof.
  intros e Hr.
  assert (∀ p, reaches (simple aty sty f) p → (∃ f', p = simple_build f') ∨ ∃ b, p = PRet (Ok b)) as H.
  { unfold reaches. apply rtc_ind_r; [left; by exists f|]. intros p p' _ Hl [[f' ->]|[b ->]]; [|inversion Hl].
    destruct f'; inversion Hl; subst; eauto. }
  destruct (H _ Hr) as [([] & [=])|[? [=]]].
Qed.
Lemma redeeming_infallible aty sty w dflt : infallible (redeeming aty sty w dflt).
Proof.
  intros e Hr.
  assert (∀ p, reaches (redeeming aty sty w dflt) p → p = bd_body (redeeming aty sty w dflt) ∨
    (∃ b, p = PSetState (VSome (of_bin b)) (PRet (Ok b))) ∨
    p = PState (λ st, match st with VSome (VBin p x) => PRet (Ok (Bin p x)) | _ => PPanic end) ∨ (∃ b, p = PRet (Ok b)) ∨ p = PPanic) as H.
  { unfold reaches. apply rtc_ind_r; [by left|]. intros p p' _ Hl [->|[(b & ->)|[->|[(b & ->)| ->]]]]; inversion Hl; subst; cbn; eauto 10.
    match goal with v : val |- _ => destruct v as [| | | | |v|]; eauto 10; destruct v; eauto 10 end. }
  destruct (H _ Hr) as [[=]|[(? & [=])|[[=]|[(? & [=])|[=]]]]].
Qed.
Lemma constant_infallible kd aty sty c : infallible (constant kd aty sty c).
Proof.
  intros e Hr.
  assert (∀ p, reaches (constant kd aty sty c) p → p = bd_body (constant kd aty sty c) ∨ ∃ b, p = PRet (Ok b)) as H.
  { unfold reaches. apply rtc_ind_r; [by left|]. intros p p' _ Hl [->|[b ->]]; [|inversion Hl]. destruct kd; inversion Hl; subst; eauto. }
  destruct (H _ Hr) as [Hx|[? [=]]]. by destruct kd.
Qed.
Lemma configurable_infallible aty sty ini : infallible (configurable aty sty ini).
Proof.
  intros e Hr.
  assert (∀ p, reaches (configurable aty sty ini) p → p = bd_body (configurable aty sty ini) ∨ (∃ v, p = PNewBin v (λ b, PRet (Ok b))) ∨ ∃ b, p = PRet (Ok b)) as H.
  { unfold reaches. apply rtc_ind_r; [by left|]. intros p p' _ Hl [->|[[v ->]|[b ->]]]; inversion Hl; subst; eauto. }
  destruct (H _ Hr) as [[=]|[[? [=]]|[? [=]]]].
Qed.
Lemma feigning_infallible aty sty w : infallible (feigning aty sty w).
Proof.
  intros e Hr.
  assert (∀ p, reaches (feigning aty sty w) p → p = bd_body (feigning aty sty w) ∨ p = PPanic ∨ ∃ b, p = PRet (Ok b)) as H.
  { unfold reaches. apply rtc_ind_r; [by left|]. intros p p' _ Hl [->|[->|[b ->]]]; inversion Hl; subst; cbn; eauto 10.
    }
  destruct (H _ Hr) as [[=]|[[=]|[? [=]]]].
Qed.

(** ** What can be resolved, and set *)
Lemma inner_resolve d w x : (∃ h k, bd_body d = PResolve h w k ∧ ∀ r, local_prog (k r)) → can_resolve d x → x = w.
Proof.
  intros (h & k & Hb & Hk) (h' & k' & Hr). unfold reaches in Hr. rewrite Hb in Hr.
  assert (∀ p, rtc leads (PResolve h w k) p → p = PResolve h w k ∨ local_prog p) as H.
  { apply rtc_ind_r; [by left|]. intros p p' _ Hl [->|Hp]; right; [|by eapply local_leads]. inversion Hl; subst; auto. }
  destruct (H _ Hr) as [[=]|[]]. done.
Qed.
Lemma redeeming_resolves aty sty w dflt x : can_resolve (redeeming aty sty w dflt) x → x = w.
Proof.
  apply inner_resolve. eexists _, _. split; [done|]. intros [b|v|e]; cbn; try done; intros v'; destruct v' as [| | | | |v'|]; try done; by destruct v'.
Qed.
Lemma cloned_resolves aty sty w x : can_resolve (cloned aty sty w) x → x = w.
Proof. apply inner_resolve. eexists _, _. split; [done|]. by intros [b|v|e]. Qed.
Lemma forwarding_resolves aty sty w x : can_resolve (forwarding aty sty w) x → x = w.
Proof. apply inner_resolve. eexists _, _. split; [done|]. by intros [b|v|e]. Qed.
Lemma feigning_resolves aty sty w x : can_resolve (feigning aty sty w) x → x = w.
Proof. apply inner_resolve. eexists _, _. split; [done|]. by intros [b|v|e]. Qed.
Lemma configurable_local aty sty ini : local_prog (bd_body (configurable aty sty ini)).
Proof. done. Qed.
Lemma constant_local kd aty sty c : local_prog (bd_body (constant kd aty sty c)).
Proof. by destruct kd. Qed.
Lemma configurable_set aty sty ini v : ¬ can_set (configurable aty sty ini) v.
Proof.
  intros (p & Hr).
  assert (∀ p, reaches (configurable aty sty ini) p → p = bd_body (configurable aty sty ini) ∨ (∃ v, p = PNewBin v (λ b, PRet (Ok b))) ∨ ∃ b, p = PRet (Ok b)) as H.
  { unfold reaches. apply rtc_ind_r; [by left|]. intros p1 p' _ Hl [->|[[v' ->]|[b ->]]]; inversion Hl; subst; eauto. }
  destruct (H _ Hr) as [[=]|[[? [=]]|[? [=]]]].
Qed.
