(** Lemmas behind Props25.v: whole calls and histories. *)
From Verif Require Export OwnedFacts.
From stdpp Require Import relations.

Section OwnedCalls.
Context (E : env) (fields : bdef → gset obj) (keep : prog → gset obj → gset obj).
Notation prim := (prim E).
Notation prims := (rtc prim).
Notation r_others := (r_others (e_ask E)).
Notation tget := (tget (e_ask E) (e_kind E)).
Notation tbuild := (tbuild (e_ask E) (e_kind E)).
Notation trun := (trun (e_ask E) (e_kind E)).
Notation tcall := (tcall (e_ask E) (e_kind E)).
Notation parts := (parts fields).
Notation unheld := (unheld fields).
Notation settle := (settle fields).
Notation settled_down := (settled_down fields).
Notation locals := (locals keep).
Notation owns := (owns E fields keep).
Notation fair := (fair E fields keep).
Notation exec_o := (exec_o E fields keep).
Notation build_o := (build_o E fields keep).
Notation step_o := (step_o E fields keep).
Notation may := (may E fields keep).
Notation oruns := (oruns E fields keep).
Notation r_part := (r_part fields).
Notation firm := (firm fields).
Notation all_fair := (all_fair E fields keep).
Notation tight := (tight fields).

(** ** The other calls *)
Definition mentions_ans (y : answer) : gset obj := match y with Returned r => mentions_out r | Panicked _ => ∅ end.

Lemma rcall_tcall B x A0 A y A' :
  (∀ o, o ∈ borrows x → o ∈ B) → (∀ h o, x ≠ OGet h o) → r_others B A0 A → kept_by A0 A → rcall (e_ask E) (e_kind E) x A y A' → tcall x A0 y A'.
Proof.
  intros Hb Hx R K Hc. assert (r_others (borrows x) A0 A) as R' by (eapply others_mono; [|exact R]; exact Hb).
  destruct x as [d|o|h o|o f|h o|o f|o|o f|o|o|o| | | |o| ]; try (eapply tc_call; [done|done|exact R'|exact Hc]).
  inversion Hc as [| | | | |x' o u A1 Hm| | | | | | | | | | | | | | | |A1 F Hs HF|A1 Hs| | ]; subst.
  - by destruct Hm as [[f ?]|[f ?]].
  - eapply tc_gc; [by rewrite <- (kb_stray _ _ K)|exact R'| |apply rtc_refl]. split; [intros w; apply HF|].
    intros w H1 H2 H3. apply HF. rewrite (kb_known _ _ K), (kb_deps _ _ K). split_and!; [done| |done]. intros Hw. by apply H2, (kb_live _ _ K).
  - eapply tc_gc_panic; [by rewrite <- (kb_stray _ _ K)|exact R'].
Qed.

Lemma simple_legal U x A s n :
  Inv s → shows s A → firm U A → may U x → (∀ h o, x ≠ OGet h o) → (∀ o f, x ≠ OGetMut o f) → (∀ d, x ≠ OAlloc d) → step E n x s ≠ Illegal.
Proof.
  intros I H Hf Hm Hx1 Hx2 Hx3.
  assert (∀ o, o ∈ U → ∃ d a, promise o s = Some (d, a)) as Hp.
  { intros o Ho. by apply (firm_live_who s A o I H), (fm_held _ _ _ Hf). }
  assert (∀ r s, lift r s ≠ Illegal) as Hlift by (by intros []).
  destruct x as [d|o|h o|o f|h o|o f|o|o f|o|o|o| | | |o| ]; cbn [Owned.may] in Hm; cbn [step]; try done.
  - by destruct (Hx3 d).
  - by destruct (Hx1 h o).
  - by destruct (Hx2 o f).
  - destruct Hm as [Ho ->]. destruct (Hp o Ho) as (d & a & ->). by destruct (lookup_art _ _ _ _).
  - destruct Hm as (Ho & Hk & _). unfold op_lookup_mut. rewrite Hk. destruct (Hp o Ho) as (d & a & ->). destruct (lookup_mut _ _ _ _ _) as [[] []]; done.
  - destruct (Hp o Hm) as (d & a & ->). by destruct (ensure_dyn_state _ _ _ _ _) as [? []].
  - destruct Hm as [Ho _]. destruct (Hp o Ho) as (d & a & ->). destruct (invalidate_by_id _ _ _ _); try done. cbn zeta. by destruct (ensure_dyn_state _ _ _ _ _) as [? []].
  - destruct (Hp o Hm) as (d & a & ->). by destruct (get_dyn_state _ _ _ _).
  - destruct (Hp o Hm) as (d & a & ->). destruct (lift _ _) eqn:He; try done. by apply Hlift in He.
  - destruct (Hp o Hm) as (d & a & ->). destruct (lift _ _) eqn:He; try done. by apply Hlift in He.
  - destruct (Hp o Hm) as (d & a & ->). done.
Qed.

(** What a call that does not build returns and leaves behind. *)
Lemma simple_firm U x s A y A' :
  Inv s → shows s A → firm U A → all_fair A → may U x → (∀ h o, x ≠ OGet h o) → (∀ o f, x ≠ OGetMut o f) →
  rcall (e_ask E) (e_kind E) x A y A' → firm (U ∪ mentions_ans y) A' ∧ all_fair A'.
Proof.
  intros I H Hf Hg Hm Hx1 Hx2 Hc.
  assert (∀ o b, r_art A !! o = Some b → ∀ w, w ∈ mentions (bin_val b) → w ∈ r_live A) as Hart.
  { intros o b Hb w Hw. apply (fm_stored _ _ _ Hf). left. eauto. }
  assert (∀ o v, r_state A !! o = Some v → ∀ w, w ∈ mentions v → w ∈ r_live A) as Hsta.
  { intros o b Hb w Hw. apply (fm_stored _ _ _ Hf). right. eauto. }
  assert (∀ o d v, o ∈ r_live A → r_def A o = Some d → bd_init d = Some v → ∀ w, w ∈ mentions v → w ∈ r_live A) as Hini.
  { intros o d v Ho Hd Hi w Hw. unfold r_def in Hd. destruct (r_who A !! o) as [[d' a]|] eqn:Hwho; [|done]. cbn in Hd. injection Hd as ->.
    apply (fm_part _ _ _ Hf o); [done|]. exists d, a. split; [done|]. apply (fair_init _ _ _ o d a A w Hg Hwho). by rewrite Hi. }
  assert (∀ w, w ∈ (∅ : gset obj) → w ∈ r_live A) as Hnone by (intros w Hw; by apply elem_of_empty in Hw).
  inversion Hc; subst; cbn [mentions_ans mentions_out mentions_opt]; cbn [Owned.may] in Hm;
    try (exfalso; exact Hm); try (exfalso; eapply Hx1; reflexivity); try (exfalso; eapply Hx2; reflexivity).
  - destruct Hm as [Hd Hfd]. split; [|by eapply (fair_alloc _ _ _ s A _ _ U); [done..|apply Hf|done|done]]. by eapply (firm_alloc _ U s A _ _ U); [done..|apply Hf|done].
  - split; [|done]. apply firm_more; [done|]. destruct (r_art A' !! o) as [b|] eqn:Hb; [|done]. cbn. rewrite conv_mentions. by eapply Hart.
  - split; [|done]. by apply firm_more.
  - destruct Hm as (Ho & _ & Hfm). split; [|unfold r_prepare; by destruct (decide _)]. apply firm_tock, firm_spoil. eapply firm_more.
    + eapply firm_write; [by apply firm_prepare|reflexivity|done].
    + intros w Hw. assert (w ∈ r_live A) as Hl; [|unfold r_prepare; by destruct (decide _)].
      destruct (r_art (r_prepare o A) !! o) as [b|] eqn:Hb; [|by apply Hnone]. apply prepare_art in Hb. by eapply Hart.
  - split; [|done]. apply firm_more; [done|]. destruct (r_state A' !! o) as [v|] eqn:Hv; [|done]. by eapply Hsta.
  - split; [|done]. apply firm_more; [done|]. by eapply Hsta.
  - split; [|done]. eapply firm_more; [apply firm_put; [by apply firm_meet|]|]; by eapply Hini.
  - split; [|done]. apply firm_more; [by apply firm_meet|done].
  - destruct Hm as [Ho Hfm]. split; [|done].
    assert (∀ w, w ∈ mentions v → w ∈ r_live A) as Hv.
    { match goal with HH : _ ∨ _ |- _ => destruct HH as [HH|[_ HH]] end; [by eapply Hsta|by eapply Hini]. }
    eapply firm_more; [apply firm_put; [by apply firm_meet, (firm_note _ _ (EInvalidate o)), firm_tock, firm_forget|]|done].
    intros w Hw. apply Hfm in Hw as [Hw|Hw]%elem_of_union; [by apply (fm_held _ _ _ Hf)|by apply Hv].
  - split; [|done]. apply firm_more; [|done]. by apply firm_meet, (firm_note _ _ (EInvalidate o)), firm_tock, firm_forget.
  - split; [|done]. apply firm_more; [|done]. by apply (firm_note _ _ (EInvalidate o)), firm_tock, firm_spoil, firm_forget.
  - split; [|done]. apply firm_more; [|done]. by apply (firm_note _ _ (EInvalidate o)), firm_tock, firm_spoil, firm_unknow, firm_forget.
  - split; [|done]. apply firm_more; [|done]. apply (firm_less _ U A); [done..|apply map_empty_subseteq|done].
  - split; [|done]. apply firm_more; [|done]. apply (firm_less _ U A); [done..|apply map_empty_subseteq|apply map_empty_subseteq].
  - split; [|done]. apply firm_more; [|done]. by apply firm_tock, firm_unknow, firm_forget.
  - split; [|done]. apply firm_more; [|done]. by apply firm_tock.
  - split; [|done]. by apply firm_more.
  - split; [|done]. by apply firm_more.
Qed.

Definition well (U : gset obj) (x : op) (A0 : ref) (z : outcome out) : Prop :=
  match z with
  | Done r s' => Inv s' ∧ stack s' = [] ∧ ∃ A', tcall x A0 (Returned r) A' ∧ shows s' A' ∧ firm (U ∪ mentions_out r) A' ∧ all_fair A'
  | Panic k s' => ∃ A', tcall x A0 (Panicked k) A' ∧ (k ≠ PkCounterpart → Inv (unwound s') ∧ shows s' A' ∧ firm U A' ∧ all_fair A')
  | NoFuel => True
  | Illegal => False
  end.

Lemma prepare_fair o A : all_fair A → all_fair (r_prepare o A).
Proof. unfold r_prepare. by destruct (decide _). Qed.
Lemma prepare_live o A : r_live (r_prepare o A) = r_live A.
Proof. unfold r_prepare. by destruct (decide _). Qed.

Lemma simple_well U x A A0 s n :
  Inv s → stack s = [] → shows s A → firm U A → all_fair A → may U x →
  (∀ h o, x ≠ OGet h o) → (∀ o f, x ≠ OGetMut o f) → (∀ d, x ≠ OAlloc d) → r_others (elements U) A0 A → kept_by A0 A →
  well U x A0 (step E n x s).
Proof.
  intros I Hst H Hf Hg Hm Hx1 Hx2 Hx3 R K. pose proof (simple_legal U x A s n I H Hf Hm Hx1 Hx2 Hx3) as Hl.
  assert (∀ o, o ∈ borrows x → o ∈ elements U) as Hb.
  { intros o Ho. apply elem_of_elements. clear Hl. destruct x; cbn in Ho, Hm; try (by apply elem_of_nil in Ho); apply elem_of_list_singleton in Ho as ->; naive_solver. }
  destruct (step E n x s) as [r s'|k s'| |] eqn:Hs; try done.
  - destruct (step_Inv E n x s r s' I Hst Hs) as [I' Hst']. do 2 (split; [done|]).
    destruct (call_sound E x A s n (Returned r) s' I Hst H Hs) as (A' & Hc & H'). exists A'.
    split; [exact (rcall_tcall _ _ _ _ _ _ Hb Hx1 R K Hc)|]. split; [by apply H'|]. exact (simple_firm U x s A _ _ I H Hf Hg Hm Hx1 Hx2 Hc).
  - destruct (call_sound E x A s n (Panicked k) s' I Hst H Hs) as (A' & Hc & H'). exists A'.
    split; [exact (rcall_tcall _ _ _ _ _ _ Hb Hx1 R K Hc)|]. intros Hk. split.
    { destruct (step_panic E n x s k s' I Hst Hs) as [[-> I']|[(-> & _ & -> & _)|[_ ->]]]; [done| |done]. by apply Inv_unwound, Inv_tock. }
    split; [apply H'; congruence|]. destruct (simple_firm U x s A _ _ I H Hf Hg Hm Hx1 Hx2 Hc) as [F2 G2]. split; [|done].
    cbn in F2. by rewrite (right_id_L ∅ (∪)) in F2.
Qed.

Lemma get_mut_o_sound U o f A A0 s n :
  Inv s → stack s = [] → shows s A → firm U A → all_fair A → may U (OGetMut o f) → r_others (elements U) A0 A →
  well U (OGetMut o f) A0 (get_mut_o E fields keep n U o f s).
Proof.
  intros I Hst H Hf Hg (HoU & Hkd & Hfm) R. unfold get_mut_o. rewrite Hkd.
  assert (r_others [o] A0 A) as R'.
  { eapply others_mono; [|exact R]. intros x ->%elem_of_list_singleton. by apply elem_of_elements. }
  assert (o ∈ r_live A) as Hl by (by apply (fm_held _ _ _ Hf)).
  destruct (firm_live_who s A o I H Hl) as (d & a & Hp). rewrite Hp.
  destruct (used_dec A o) as [(u & Hu & Hud)|Hno].
  { destruct (lookup_mut_panics E s A o d a u I H Hp Hu Hud) as (c & Hc). rewrite Hc. unfold op_get_mut. rewrite Hkd, Hp, Hc.
    exists A. split; [|done]. eapply tc_call; [done|done|exact R'|]. eapply rc_mut_used; [left; eauto|done|done|exact Hu|exact Hud]. }
  destruct (lookup_mut_shows E s A o d a I Hst H Hp Hno) as (c & Hlm & I1 & H1). rewrite Hlm.
  destruct (r_art (r_prepare o A) !! o) as [b|] eqn:Hb.
  { destruct (get_mut_at E s A o d a f I Hst H Hp Hkd Hno) as (s1 & _ & _ & _ & _ & X). rewrite Hb in X. destruct X as (s2 & Hs2 & H2).
    specialize (Hs2 n). cbn [step] in Hs2. rewrite Hs2. destruct (step_Inv E n (OGetMut o f) s _ _ I Hst Hs2) as [I2 Hst2].
    do 2 (split; [done|]). eexists. split; [eapply tc_call; [done|done|exact R'|by eapply rc_get_mut_hit]|]. split; [exact H2|]. split.
    - apply firm_tock, firm_tock. apply firm_more; [eapply firm_write; [by apply firm_prepare|reflexivity|done]|].
      intros w Hw. change (r_live (r_write o f (r_prepare o A))) with (r_live (r_prepare o A)). rewrite prepare_live.
      apply (fm_stored _ _ _ Hf). left. exists o, b. split; [by apply prepare_art|exact Hw].
    - exact (prepare_fair o A Hg). }
  set (s1 := tock (set_ch c s)) in *. assert (cached s1 o = None) as Hc by (rewrite <- (sh_art _ _ H1); exact Hb).
  pose proof (build_o_sound E fields keep n U o s1 d a _ I1 H1) as X. assert (stack s1 = []) as Hst1 by exact Hst. rewrite Hst1 in X.
  specialize (X ltac:(by apply firm_tock, firm_spoil, firm_prepare) (prepare_fair o A Hg) ltac:(intros ? ?%elem_of_nil; done)
    ltac:(exists o; split; [done|apply rtc_refl]) Hp Hc).
  destruct (build_o n U o s1) as [[e|e] s2|k s2| |] eqn:Hbd; try done.
  - destruct X as ([I2 _] & Hst2 & Hp2 & Hty & A' & Hr & H2 & Hf2 & Hg2). rewrite (Hty e eq_refl), N.eqb_refl. split.
    { apply Inv_set_ch; [done|done|by apply CInv_write_art, I2|]. intros x y ?. right; eauto. }
    split; [done|]. exists (r_write o f A'). split.
    { eapply tc_get_mut; [exact R'|done|exact Hl|exact Hno|reflexivity|exact Hb|]. apply tbuild_spoil in Hr. exact Hr. }
    split; [by apply (shows_write s2 A' o d a f)|]. split; [|done]. eapply (firm_write _ _ U); [exact Hf2|apply union_subseteq_l|exact Hfm].
  - destruct X as ([I2 _] & Hst2 & Hp2 & _ & A' & Hr & H2 & Hf2 & Hg2). do 2 (split; [done|]). exists A'. split; [|done].
    eapply tc_get_mut_err; [exact R'|done|exact Hl|exact Hno|reflexivity|exact Hb|]. apply tbuild_spoil in Hr. exact Hr.
  - destruct X as (-> & I2 & A' & Hr & H2 & Hf2 & Hg2). exists A'. split.
    + eapply tc_get_mut_panic; [exact R'|done|exact Hl|exact Hno|reflexivity|exact Hb|]. apply tbuild_spoil in Hr. exact Hr.
    + intros _. split; [by apply Inv_unwound|done].
Qed.

Lemma call_o_sound U x A A0 s n :
  Inv s → stack s = [] → shows s A → firm U A → all_fair A → may U x → r_others (elements U) A0 A → kept_by A0 A →
  well U x A0 (step_o n U x s).
Proof.
  intros I Hst H Hf Hg Hm R K.
  assert ((∀ h o, x ≠ OGet h o) → (∀ o f, x ≠ OGetMut o f) → (∀ d, x ≠ OAlloc d) → well U x A0 (step E n x s)) as Hsimple.
  { intros. by eapply simple_well. }
  destruct x as [d|o|h o|o f|h o|o f|o|o f|o|o|o| | | |o| ]; cbn [Owned.step_o]; try (by apply Hsimple).
  - pose proof (alloc_iff E s A d I H) as Ha. destruct (alloc E d s) as [[o s1]|] eqn:Hal; [|done].
    destruct Ha as (Hfr & -> & H1). destruct (alloc_Some _ _ _ _ _ Hal) as (_ & Hst1 & _).
    assert (rcall (e_ask E) (e_kind E) (OAlloc d) A (Returned (OutObj (r_nobj A))) (r_alloc d (e_ask E (r_tick A)) A)) as Hc by (by constructor).
    split; [eapply (prim_Inv E); [eapply pm_alloc; exact Hal|exact I]|]. split; [by rewrite <- Hst; subst s1|].
    eexists. split; [eapply rcall_tcall; [|done|exact R|exact K|exact Hc]; intros ? ?%elem_of_nil; done|]. split; [exact H1|].
    exact (simple_firm U (OAlloc d) s A _ _ I H Hf Hg Hm ltac:(done) ltac:(done) Hc).
  - destruct Hm as [Ho Hh]. assert (r_others [o] A0 A) as R'.
    { eapply others_mono; [|exact R]. intros x ->%elem_of_list_singleton. by apply elem_of_elements. }
    pose proof (get_o_sound E fields keep (build_o n) U h o s A (build_o_sound E fields keep n) I H Hf Hg) as X. rewrite Hst in X.
    specialize (X ltac:(intros ? ?%elem_of_nil; done) ltac:(exists o; split; [done|apply rtc_refl]) Hh).
    destruct (get_o E (build_o n U) h o s) as [r s2|k s2| |]; try done.
    + destruct X as ([I2 _] & Hst2 & A' & Hr & H2 & Hf2 & Hg2). do 2 (split; [done|]). exists A'. split; [by eapply tc_get|]. done.
    + destruct X as (-> & I2 & A' & Hr & H2 & Hf2 & Hg2). exists A'. split; [by eapply tc_get_panic|]. intros _. split; [by apply Inv_unwound|done].
  - by eapply get_mut_o_sound.
Qed.

(** ** Histories *)
Lemma fair_kept A A' : kept_by A A' → all_fair A → all_fair A'.
Proof. intros K H. unfold OwnedFacts.all_fair. rewrite (kb_who _ _ K). exact H. Qed.
Lemma shows_unwind s A : shows s A → shows (unwound s) A.
Proof. intros []. by split. Qed.

Lemma settled_hist U s A :
  Inv s → stack s = [] → shows s A → firm U A → all_fair A →
  ∃ s' A', settled_down U s = Some s' ∧ Inv s' ∧ stack s' = [] ∧ r_others (elements U) A A' ∧ kept_by A A' ∧ shows s' A' ∧ firm U A' ∧ all_fair A' ∧ tight U A'.
Proof.
  intros I Hst H Hf Hg. destruct (settled_ok E fields U s A [] I H Hst Hf) as (s' & A' & Hs & T & R & H' & Hf' & K & Ht); [intros ? ?%elem_of_nil; done|].
  exists s', A'. rewrite app_nil_r in R. split_and!; try done.
  - exact (prims_Inv E _ _ (tu_prims _ _ _ _ T) I).
  - by rewrite (tu_stack _ _ _ _ T).
  - by eapply fair_kept.
Qed.

Lemma hist_o U l s :
  oruns U l s →
  Inv s ∧ stack s = [] ∧ ∃ A0 A, truns (e_ask E) (e_kind E) l A0 ∧ r_others (elements U) A0 A ∧ kept_by A0 A ∧ shows s A ∧ firm U A ∧ all_fair A ∧ tight U A.
Proof.
  intros Hr. induction Hr as [|U U' l s s' Hr IH HU Hs|U l s n x r s1 s' Hr IH Hm Hs Hd|U l s n x k s1 s' Hr IH Hm Hs Hk Hd].
  - split; [exact Inv_init|]. split; [done|]. exists new_ref, new_ref.
    split; [constructor|]. split; [apply rtc_refl|]. split; [apply kept_refl|]. split; [exact shows_init|]. split.
    + split; [intros w Hw; by apply elem_of_empty in Hw| |intros u w Hu; by apply elem_of_empty in Hu].
      intros w [(x & b & Hx & _)|(x & b & Hx & _)]; cbn in Hx; by rewrite lookup_empty in Hx.
    + split; [intros u d a Hu; cbn in Hu; by rewrite lookup_empty in Hu|]. intros w Hw. by apply elem_of_empty in Hw.
  - destruct IH as (I & Hst & A0 & A & HA & R & K & H & Hf & Hg & Ht).
    destruct (settled_hist U' s A I Hst H (firm_sub _ _ _ _ Hf HU) Hg) as (s2 & A' & Hs2 & I2 & Hst2 & R2 & K2 & H2 & Hf2 & Hg2 & Ht2).
    rewrite Hs in Hs2. injection Hs2 as <-. do 2 (split; [done|]). exists A0, A'. split; [done|]. split.
    { etrans; [|exact R2]. eapply others_mono; [|exact R]. intros x. rewrite !elem_of_elements. apply HU. }
    split; [by eapply kept_trans|]. done.
  - destruct IH as (I & Hst & A0 & A & HA & R & K & H & Hf & Hg & Ht).
    pose proof (call_o_sound U x A A0 s n I Hst H Hf Hg Hm R K) as X. rewrite Hs in X. destruct X as (I1 & Hst1 & A1 & Hc & H1 & Hf1 & Hg1).
    destruct (settled_hist _ s1 A1 I1 Hst1 H1 Hf1 Hg1) as (s2 & A' & Hs2 & I2 & Hst2 & R2 & K2 & H2 & Hf2 & Hg2 & Ht2).
    rewrite Hd in Hs2. injection Hs2 as <-. do 2 (split; [done|]). exists A1, A'. split; [by eapply truns_call|]. done.
  - destruct IH as (I & Hst & A0 & A & HA & R & K & H & Hf & Hg & Ht).
    pose proof (call_o_sound U x A A0 s n I Hst H Hf Hg Hm R K) as X. rewrite Hs in X. destruct X as (A1 & Hc & X).
    assert (k ≠ PkCounterpart) as Hne by (by intros ->). destruct (X Hne) as (I1 & H1 & Hf1 & Hg1).
    destruct (settled_hist _ (unwound s1) A1 I1 eq_refl (shows_unwind _ _ H1) Hf1 Hg1) as (s2 & A' & Hs2 & I2 & Hst2 & R2 & K2 & H2 & Hf2 & Hg2 & Ht2).
    rewrite Hd in Hs2. injection Hs2 as <-. do 2 (split; [done|]). exists A1, A'. split; [eapply truns_call; [done|done|congruence]|]. done.
Qed.

(** What the user does next, and how it ends. *)
Lemma next_o U l s n x :
  oruns U l s → may U x →
  match step_o n U x s with
  | Done r s1 => ∃ s', settled_down (U ∪ mentions_out r) s1 = Some s'
  | Panic k s1 => k ≠ PkCounterpart → ∃ s', settled_down U (unwound s1) = Some s'
  | NoFuel => True
  | Illegal => False
  end.
Proof.
  intros Hr Hm. destruct (hist_o U l s Hr) as (I & Hst & A0 & A & HA & R & K & H & Hf & Hg & Ht).
  pose proof (call_o_sound U x A A0 s n I Hst H Hf Hg Hm R K) as X. destruct (step_o n U x s) as [r s1|k s1| |]; try done.
  - destruct X as (I1 & Hst1 & A1 & Hc & H1 & Hf1 & Hg1).
    destruct (settled_hist _ s1 A1 I1 Hst1 H1 Hf1 Hg1) as (s2 & A' & Hs2 & _). eauto.
  - intros Hne. destruct X as (A1 & Hc & X). destruct (X Hne) as (I1 & H1 & Hf1 & Hg1).
    destruct (settled_hist _ (unwound s1) A1 I1 eq_refl (shows_unwind _ _ H1) Hf1 Hg1) as (s2 & A' & Hs2 & _). eauto.
Qed.
End OwnedCalls.
