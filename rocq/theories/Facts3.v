(** More lemmas behind Props2.v. *)
From Verif Require Export Facts2.
From stdpp Require Import relations.

Section Facts3.
Context (E : env).
Notation prim := (prim E).
Notation prims := (rtc prim).

Lemma cached_state s o b : Inv s → cached s o = Some b → ∃ v, state_of s o = Some v.
Proof.
  intros I Hc. assert (knows s o) as (d & a & Ho & Hk) by (destruct (decide (knows s o)); [done|by rewrite cached_unknown in Hc]).
  rewrite (cached_at s o d a Ho Hk) in Hc. rewrite (state_at s o d a Ho Hk).
  destruct (artifacts (ch s) !! a) eqn:He; [|done].
  destruct (ci_art_dyn _ _ (i_c _ I) a) as [v ->]; eauto.
Qed.

(** ** C15 *)
Lemma get_error n h o s e s' :
  Inv s → stack s = [] → step E n (OGet h o) s = Done (OutRes (RvErr e)) s' →
  cached s o = None ∧ (∃ t, trace s' = EFailed o e :: t) ∧ calls s o < calls s' o ∧
  (reent s' = false → cached s' o = None) ∧ live s' o.
Proof.
  intros I Hst Hs. assert (live s' o) as Hlive.
  { cbn [step] in Hs. unfold get, get_with in Hs.
    destruct (promise o s) as [[d a]|] eqn:Hp; [|done]. destruct (how_legal E h); [|done].
    rewrite (lookup_art_ok _ o s d a I Hp) in Hs.
    destruct (artifacts (ch s) !! a) as [x|] eqn:Hae; [by destruct h|].
    destruct (build E n o s) as [r s1|k s1| |] eqn:Hb; [|done..].
    destruct (build_alive E n o s d a r s1 I Hp Hae Hb) as [[Hl _]%promise_Some _].
    destruct r; [destruct (_ =? _)%N; [by destruct h|done]|]. by injection Hs as _ <-. }
  cbn [step] in Hs. unfold get, get_with in Hs.
  destruct (promise o s) as [[d a]|] eqn:Hp; [|done]. destruct (how_legal E h); [|done].
  rewrite (lookup_art_ok _ o s d a I Hp) in Hs.
  rewrite (live_cached s o d a I Hp).
  destruct (artifacts (ch s) !! a) as [x|] eqn:Hae; [by destruct h|].
  destruct (build E n o s) as [r s1|k s1| |] eqn:Hb; [|done..].
  destruct (build_shape E n o s d a r s1 I Hp Hae Hb) as (s2 & P & Hst2 & Hlt & Hc).
  destruct Hc as [(b & -> & _)|(e' & -> & Heq)]; [destruct (_ =? _)%N; [by destruct h|done]|].
  injection Hs as -> <-. split_and!; [done|by rewrite Heq; eexists|by rewrite Heq| |done].
  intros Hre. rewrite Heq in Hre |- *. cbn in Hre.
  assert (cached s2 o = None) as <-; [|done].
  pose proof (prims_nr E s s2 I P (nr_empty _ Hst)) as [_ Hnr]; [done|]. apply Hnr. rewrite Hst2. left.
Qed.

(** ** C20, C21 *)
Lemma state_step n x o s s' :
  Inv s → stack s = [] → state_keeps o s x → goes (step E n x s) s' → calls s' o = calls s o →
  state_of s' o = state_of s o ∨ (state_of s o = None ∧ state_of s' o = initial s' o).
Proof.
  intros I Hst Hk Hg Hc. pose proof (step_effect E n x s s' I Hst Hg) as He.
  assert (o ∉ stack s) as Hns by (rewrite Hst; set_solver).
  destruct x as [d|w|h w|w f|h w|w f|w|w f|w|w|w| | | |w| ]; cbn [effect_of state_keeps] in *;
    try (exact (proj1 (prims_state_cases E s s' o I He Hns Hc))); try (subst; by left).
  - destruct He as (_ & _ & [[_ Hw]|(s1 & s2 & I1 & Hst1 & Ha & _ & _ & Hf & Hp & Hw)]).
    + left. apply (wr_state _ _ _ _ Hw).
    + assert (state_of s1 o = state_of s o) as Hs1.
      { destruct Hf as [[_ Hf]|[_ Hf]]; apply (fg_state_kept _ _ _ _ Hf); tauto. }
      assert (state_of s' o = state_of s2 o ∧ calls s' o = calls s2 o ∧ objs s' = objs s2) as (Hs2 & Hc2 & Ho2).
      { destruct Hw as [->|[Ha2 Hw]]; [done|].
        split_and!; [apply (wr_state _ _ _ _ Hw)|apply (wr_calls _ _ _ _ Hw)|apply (wr_objs _ _ _ _ Hw)]. }
      pose proof (adds_nil_calls _ _ o Ha) as Hc1.
      destruct (prims_state_cases E s1 s2 o I1 Hp) as [H _]; [rewrite Hst1; set_solver|congruence|].
      unfold initial in *. rewrite Hs2, <- Hs1, Ho2. exact H.
  - destruct He as (_ & _ & _ & [[_ Hw]|[_ Hf]]); left; [apply (wr_state _ _ _ _ Hw)|].
    apply (fg_state_kept _ _ _ _ Hf). tauto.
  - destruct He as (_ & [->|(Hn & Hs & _)]); [by left|].
    destruct (decide (w = o)) as [->|Hne]; [|left; by apply (ss_others _ _ _ _ Hs)].
    right. split; [done|]. rewrite (ss_state _ _ _ _ Hs). unfold initial. by rewrite (ss_objs _ _ _ _ Hs).
  - destruct He as (_ & s1 & Hf & _ & Hs). left. rewrite (ss_others _ _ _ _ Hs) by done.
    apply (fg_state_kept _ _ _ _ Hf). tauto.
  - destruct He as (_ & Hf & _). left. apply (fg_state_kept _ _ _ _ Hf). tauto.
  - destruct He as (_ & Hf & _). left. apply (fg_state_kept _ _ _ _ Hf). done.
  - destruct He as (Hf & _). left. apply (fg_state_kept _ _ _ _ Hf). tauto.
  - destruct He as [(Hf & _)| ->]; left; [|done]. apply (fg_state_kept _ _ _ _ Hf).
    intros (_ & Hnl & Hnd). destruct Hk as [?|[u ?]]; [done|by eapply Hnd].
Qed.

Lemma calls_mono n x o s s' : Inv s → stack s = [] → goes (step E n x s) s' → calls s o ≤ calls s' o.
Proof.
  intros I Hst Hg. pose proof (step_effect E n x s s' I Hst Hg) as He.
  destruct x as [d|w|h w|w f|h w|w f|w|w f|w|w|w| | | |w| ]; cbn [effect_of state_keeps] in *;
    try (exact (prims_calls E s s' o He)); try (by subst).
  - destruct He as (_ & _ & [[Ha Hw]|(s1 & s2 & I1 & Hst1 & Ha & _ & _ & Hf & Hp & Hw)]).
    + by rewrite (adds_nil_calls _ _ _ Ha).
    + rewrite <- (adds_nil_calls _ _ _ Ha). transitivity (calls s2 o); [exact (prims_calls E s1 s2 o Hp)|].
      destruct Hw as [->|[Ha2 _]]; [done|]. by rewrite (adds_nil_calls _ _ _ Ha2).
  - destruct He as (_ & _ & Ha & _). by rewrite (adds_nil_calls _ _ _ Ha).
  - destruct He as (_ & [->|(_ & Hs & _)]); [done|]. by rewrite (ss_calls _ _ _ _ Hs).
  - destruct He as (_ & s1 & Hf & _ & Hs). by rewrite (ss_calls _ _ _ _ Hs), (fg_calls _ _ _ _ Hf).
  - destruct He as (_ & Hf & _). by rewrite (fg_calls _ _ _ _ Hf).
  - destruct He as (_ & Hf & _). by rewrite (fg_calls _ _ _ _ Hf).
  - destruct He as (Hf & _). by rewrite (fg_calls _ _ _ _ Hf).
  - destruct He as (Hf & _). by rewrite (fg_calls _ _ _ _ Hf).
  - destruct He as [(Hf & _)| ->]; [|done]. by rewrite (fg_calls _ _ _ _ Hf).
Qed.
Lemma objs_mono n x o y s s' :
  Inv s → stack s = [] → goes (step E n x s) s' → objs s !! o = Some y → objs s' !! o = Some y.
Proof.
  intros I Hst Hg Ho. pose proof (step_effect E n x s s' I Hst Hg) as He.
  assert (∀ s1 s2, Inv s1 → prims s1 s2 → objs s1 !! o = Some y → objs s2 !! o = Some y) as Hpr.
  { intros s1 s2 I1 Hp. apply (prims_objs E); [done|apply (i_wf _ I1)]. }
  destruct x as [d|w|h w|w f|h w|w f|w|w f|w|w|w| | | |w| ]; cbn [effect_of state_keeps] in *;
    try (by eapply Hpr); try (by subst).
  - destruct He as (_ & _ & [[Ha Hw]|(s1 & s2 & I1 & Hst1 & Ha & _ & _ & Hf & Hp & Hw)]).
    + by rewrite (wr_objs _ _ _ _ Hw).
    + assert (objs s2 !! o = Some y) as H2.
      { apply (Hpr s1 s2 I1 Hp). destruct Hf as [[_ Hf]|[_ Hf]]; by rewrite (fg_objs _ _ _ _ Hf). }
      destruct Hw as [->|[_ Hw]]; [done|]. by rewrite (wr_objs _ _ _ _ Hw).
  - destruct He as (_ & _ & _ & [[_ Hw]|[_ Hf]]); [by rewrite (wr_objs _ _ _ _ Hw)|by rewrite (fg_objs _ _ _ _ Hf)].
  - destruct He as (_ & [->|(_ & Hs & _)]); [done|]. by rewrite (ss_objs _ _ _ _ Hs).
  - destruct He as (_ & s1 & Hf & _ & Hs). by rewrite (ss_objs _ _ _ _ Hs), (fg_objs _ _ _ _ Hf).
  - destruct He as (_ & Hf & _). by rewrite (fg_objs _ _ _ _ Hf).
  - destruct He as (_ & Hf & _). by rewrite (fg_objs _ _ _ _ Hf).
  - destruct He as (Hf & _). by rewrite (fg_objs _ _ _ _ Hf).
  - destruct He as (Hf & _). by rewrite (fg_objs _ _ _ _ Hf).
  - destruct He as [(Hf & _)| ->]; [|done]. by rewrite (fg_objs _ _ _ _ Hf).
Qed.

Lemma unwound_obs s o : state_of (unwound s) o = state_of s o ∧ initial (unwound s) o = initial s o ∧
  calls (unwound s) o = calls s o ∧ cached (unwound s) o = cached s o.
Proof. done. Qed.

Lemma state_initial_mono n x o s s' v :
  Inv s → stack s = [] → goes (step E n x s) s' → state_of s o = Some v → initial s' o = initial s o.
Proof.
  intros I Hst Hg Hv. assert (knows s o) as (d & a & Ho & _) by (destruct (decide (knows s o)); [done|by rewrite state_unknown in Hv]).
  unfold initial. pose proof (objs_mono n x o _ s s' I Hst Hg Ho) as Ho'. unfold at_addr in *. by rewrite Ho, Ho'.
Qed.

Lemma state_runs o s l s' :
  Inv s → stack s = [] → runs E (state_keeps o) s l s' →
  calls s o ≤ calls s' o ∧
  (calls s' o = calls s o →
   state_of s' o = state_of s o ∨ (state_of s o = None ∧ state_of s' o = initial s' o)).
Proof.
  intros I Hst Hr.
  refine (runs_inv E (state_keeps o) (λ x, calls s o ≤ calls x o ∧ (calls x o = calls s o →
     state_of x o = state_of s o ∨ (state_of s o = None ∧ state_of x o = initial x o))) s l s' I Hst _ _ Hr).
  { auto. }
  intros n x s1 s2 I1 Hst1 [H1 H2] Hk Hg. pose proof (calls_mono n x o s1 s2 I1 Hst1 Hg) as Hle.
  destruct (unwound_obs s2 o) as (-> & -> & -> & _). split; [lia|]. intros Hc.
  destruct H2 as [H2|[H2a H2b]]; [lia|..];
    (destruct (state_step n x o s1 s2 I1 Hst1 Hk Hg) as [H3|[H3 H4]]; [lia|..]).
  - left. congruence.
  - right. split; congruence.
  - destruct (state_of s1 o) as [v|] eqn:Hv.
    + right. split; [done|]. rewrite H3, H2b. symmetry. by eapply state_initial_mono.
    + left. congruence.
  - right. done.
Qed.

(** ** C38 *)
Lemma cached_step n x o s s' b' :
  Inv s → stack s = [] → goes (step E n x s) s' → calls s' o = calls s o → cached s' o = Some b' →
  ∃ b, cached s o = Some b ∧ bin_ptr b = bin_ptr b' ∧ (e_kind E = Shared → b = b') ∧ state_of s' o = state_of s o.
Proof.
  intros I Hst Hg Hc Hb'. pose proof (step_effect E n x s s' I Hst Hg) as He.
  assert (∀ s1 s2 b, Inv s1 → stack s1 = [] → prims s1 s2 → calls s2 o = calls s1 o → cached s2 o = Some b →
    cached s1 o = Some b ∧ state_of s2 o = state_of s1 o) as Hpr.
  { intros s1 s2 b I1 Hst1 Hp Hc1 Hb. assert (o ∉ stack s1) as Hns by (rewrite Hst1; set_solver).
    rewrite (prims_cached_back E s1 s2 o I1 Hp Hns Hc1) in Hb. split; [done|].
    destruct (cached_state s1 o b I1 Hb) as [v Hv].
    destruct (prims_state_cases E s1 s2 o I1 Hp Hns Hc1) as [[->|[? _]] _]; [done|congruence]. }
  assert (∀ F G s1 b, forgets s F G s1 → (∀ w, G w → F w) → cached s1 o = Some b →
    cached s o = Some b ∧ state_of s1 o = state_of s o) as Hfg.
  { intros F G s1 b Hf HGF Hb. assert (¬ F o) as Hn by (intros HF; rewrite (fg_gone _ _ _ _ Hf) in Hb; done).
    rewrite (fg_kept _ _ _ _ Hf) in Hb by done. split; [done|]. apply (fg_state_kept _ _ _ _ Hf). auto. }
  destruct x as [d|w|h w|w f|h w|w f|w|w f|w|w|w| | | |w| ]; cbn [effect_of] in *.
  - destruct (Hpr s s' b' I Hst He Hc Hb') as [? ?]. exists b'. done.
  - destruct (Hpr s s' b' I Hst He Hc Hb') as [? ?]. exists b'. done.
  - destruct (Hpr s s' b' I Hst He Hc Hb') as [? ?]. exists b'. done.
  - pose proof (mut_boxed E n (OGetMut w f) s s' w f (or_introl eq_refl) Hg) as Hk.
    destruct He as (_ & _ & [[Ha Hw]|(s1 & s2 & I1 & Hst1 & Ha & _ & Hc1 & Hf & Hp & Hw)]).
    + destruct (decide (o = w)) as [->|Hne].
      * rewrite (wr_cached _ _ _ _ Hw) in Hb'. destruct (cached s w) as [b|]; [|done]. injection Hb' as <-.
        exists b. split_and!; [done..|by rewrite Hk|apply (wr_state _ _ _ _ Hw)].
      * rewrite (wr_others _ _ _ _ Hw) in Hb' by done. exists b'. split_and!; [done..|apply (wr_state _ _ _ _ Hw)].
    + assert (calls s2 o = calls s1 o) as Hc2.
      { rewrite (adds_nil_calls _ _ _ Ha). destruct Hw as [->|[Ha2 _]]; [done|]. by rewrite <- (adds_nil_calls _ _ _ Ha2). }
      assert (∀ b, cached s2 o = Some b → state_of s' o = state_of s2 o →
        cached s o = Some b ∧ state_of s' o = state_of s o) as Hback.
      { intros b Hb Hss. destruct (Hpr s1 s2 b I1 Hst1 Hp Hc2 Hb) as [Hb1 Hs1].
        destruct Hf as [[_ Hf]|[_ Hf]]; destruct (Hfg _ _ s1 b Hf) as [? ?]; try done; split; congruence. }
      destruct Hw as [->|[Ha2 Hw]].
      * destruct (Hback b' Hb' eq_refl). exists b'. done.
      * destruct (decide (o = w)) as [->|Hne].
        -- rewrite (wr_cached _ _ _ _ Hw) in Hb'. destruct (cached s2 w) as [b|]; [|done]. injection Hb' as <-.
           destruct (Hback b eq_refl (wr_state _ _ _ _ Hw _)). exists b. split_and!; [done..|by rewrite Hk|done].
        -- rewrite (wr_others _ _ _ _ Hw) in Hb' by done. destruct (Hback b' Hb' (wr_state _ _ _ _ Hw _)). by exists b'.
  - subst. by exists b'.
  - pose proof (mut_boxed E n (OLookupMut w f) s s' w f (or_intror eq_refl) Hg) as Hk.
    destruct He as (_ & _ & Ha & [[_ Hw]|[_ Hf]]).
    + destruct (decide (o = w)) as [->|Hne].
      * rewrite (wr_cached _ _ _ _ Hw) in Hb'. destruct (cached s w) as [b|]; [|done]. injection Hb' as <-.
        exists b. split_and!; [done..|by rewrite Hk|apply (wr_state _ _ _ _ Hw)].
      * rewrite (wr_others _ _ _ _ Hw) in Hb' by done. exists b'. split_and!; [done..|apply (wr_state _ _ _ _ Hw)].
    + destruct (Hfg _ _ s' b' Hf) as [? ?]; [done..|]. by exists b'.
  - destruct He as (_ & [->|(Hn & Hs & _)]); [by exists b'|]. rewrite (ss_cached _ _ _ _ Hs) in Hb'.
    exists b'. split_and!; [done..|]. apply (ss_others _ _ _ _ Hs). intros ->.
    destruct (cached_state s w b' I Hb'). congruence.
  - destruct He as (_ & s1 & Hf & _ & Hs). rewrite (ss_cached _ _ _ _ Hs) in Hb'.
    destruct (Hfg _ _ s1 b' Hf) as [? Hs1]; [done..|]. exists b'. split_and!; [done..|].
    rewrite (ss_others _ _ _ _ Hs); [done|]. intros ->.
    rewrite (fg_gone _ _ _ _ Hf) in Hb'; [done|apply rtc_refl].
  - subst. by exists b'.
  - destruct He as (_ & Hf & _). destruct (Hfg _ _ s' b' Hf) as [? ?]; [done..|]. by exists b'.
  - destruct He as (_ & Hf & _). destruct (Hfg _ _ s' b' Hf) as [? ?]; [|done|]; [|by exists b'].
    intros ? <-. apply rtc_refl.
  - destruct He as (Hf & _). destruct (Hfg _ _ s' b' Hf) as [? ?]; [done..|]. by exists b'.
  - destruct He as (Hf & _). destruct (Hfg _ _ s' b' Hf) as [? ?]; [done..|]. by exists b'.
  - destruct He as [(Hf & _)| ->]; [|by exists b']. destruct (Hfg _ _ s' b' Hf) as [? ?]; [done..|]. by exists b'.
  - subst. by exists b'.
  - subst. by exists b'.
Qed.

Lemma cached_runs o s l s' :
  Inv s → stack s = [] → runs E any_op s l s' →
  calls s o ≤ calls s' o ∧
  (calls s' o = calls s o → ∀ b', cached s' o = Some b' →
   ∃ b, cached s o = Some b ∧ bin_ptr b = bin_ptr b' ∧ (e_kind E = Shared → b = b') ∧ state_of s' o = state_of s o).
Proof.
  intros I Hst Hr.
  refine (runs_inv E any_op (λ x, calls s o ≤ calls x o ∧ (calls x o = calls s o → ∀ b', cached x o = Some b' →
   ∃ b, cached s o = Some b ∧ bin_ptr b = bin_ptr b' ∧ (e_kind E = Shared → b = b') ∧ state_of x o = state_of s o)) s l s' I Hst _ _ Hr).
  { split; [done|]. intros _ b' Hb'. by exists b'. }
  intros n x s1 s2 I1 Hst1 [H1 H2] _ Hg. pose proof (calls_mono n x o s1 s2 I1 Hst1 Hg) as Hle.
  destruct (unwound_obs s2 o) as (-> & _ & -> & ->). split; [lia|]. intros Hc b' Hb'.
  destruct (cached_step n x o s1 s2 b' I1 Hst1 Hg) as (b1 & Hb1 & Hp1 & Hk1 & Hs1); [lia|done|].
  destruct (H2 ltac:(lia) b1 Hb1) as (b & Hb & Hp & Hk & Hs). exists b. split_and!; [done|congruence| |congruence].
  intros HS. rewrite (Hk HS). by apply Hk1.
Qed.

(** ** C26 *)
Lemma get_panic n h o s k s' l :
  Inv s → stack s = [] → step E n (OGet h o) s = Panic k s' → trace s' = l ++ trace s →
  k = PkUser ∧
  (∀ w b, cached s w = Some b → cached s' w = Some b ∧ calls s' w = calls s w ∧ w ∉ stack s') ∧
  (∀ w b, cached s' w = Some b → cached s w = Some b ∨ EBuilt w b ∈ l) ∧
  (reent s' = false → NoDup (stack s') ∧ ∀ w, w ∈ stack s' → cached s' w = None).
Proof.
  intros I Hst Hs Hl.
  destruct (step_panic E _ _ _ _ _ I Hst Hs) as [[-> _]|[(? & _)|[(? & ? & ? & ? & [?|?] & _) _]]]; [|done..].
  pose proof (step_effect E n (OGet h o) s s' I Hst) as Hp. cbn [effect_of] in Hp.
  assert (prims s s') as Hpr by (apply Hp; right; eauto). clear Hp.
  split_and!; [done|..].
  - intros w b Hb. assert (w ∉ stack s) as Hns by (rewrite Hst; set_solver).
    destruct (prims_cached E s s' w b I Hpr Hns Hb) as (? & ? & ?). done.
  - intros w b. revert l Hl. clear Hs.
    refine (prims_ind_inv E (λ x, ∀ l, trace x = l ++ trace s → cached x w = Some b → cached s w = Some b ∨ EBuilt w b ∈ l) s s' I _ _ Hpr).
    + auto.
    + intros s1 s2 I1 _ Hp1 IH Hp2 l Hl Hc. destruct (prims_trace E s s1 Hp1) as [l1 Hl1].
      destruct (prim_new E s1 s2 Hp2) as [l2 Hl2].
      assert (l = l2 ++ l1) as ->. { rewrite Hl2, Hl1, app_assoc in Hl. by apply app_inv_tail in Hl. }
      destruct (prim_cached_new E s1 s2 w b I1 Hp2 Hc) as [Hc1|[Ht _]].
      * destruct (IH l1 Hl1 Hc1) as [?|?]; [by left|right; set_solver].
      * right. rewrite Hl2 in Ht. apply (app_inv_tail (trace s1) l2 [EBuilt w b]) in Ht as ->. set_solver.
  - apply (prims_nr E s s' I Hpr). by apply nr_empty.
Qed.

(** ** Errors seen by builders *)
Lemma errors_adds s s' l : adds l s s' → (∀ u w r, EGot u w r ∉ l) → errors_logged s → errors_logged s'.
Proof.
  intros [Hl _] Hn H. revert s' Hl. induction l as [|e l IH]; intros s' Hl.
  - unfold errors_logged. rewrite Hl. apply H.
  - apply (errors_logged_cons e (St (ch s) (objs s) (alive s) (nobj s) (nbin s) (tick s) (stack s) (reent s) (l ++ trace s))); [|done|].
    + apply IH; [set_solver|done].
    + intros u w x ->. exfalso. eapply Hn. left.
Qed.
Lemma step_errors n x s s' : Inv s → stack s = [] → goes (step E n x s) s' → errors_logged s → errors_logged s'.
Proof.
  intros I Hst Hg H. pose proof (step_effect E n x s s' I Hst Hg) as He.
  destruct x as [d|w|h w|w f|h w|w f|w|w f|w|w|w| | | |w| ]; cbn [effect_of state_keeps] in *;
    try (exact (prims_errors E s s' He H)); try (by subst); try (by destruct_and?; eapply errors_adds; [done|set_solver|done]).
  - destruct He as (_ & _ & [[Ha Hw]|(s1 & s2 & I1 & Hst1 & Ha & _ & _ & Hf & Hp & Hw)]).
    + eapply errors_adds; [done|set_solver|done].
    + assert (errors_logged s2) as H2.
      { eapply (prims_errors E); [exact Hp|]. eapply errors_adds; [done|set_solver|done]. }
      destruct Hw as [->|[Ha2 _]]; [done|]. eapply errors_adds; [done|set_solver|done].
  - destruct He as (_ & [->|(_ & Hs & Ha)]); [done|]. eapply errors_adds; [done|set_solver|done].
  - destruct He as (_ & s1 & Hf & Ha & Hs). eapply errors_adds; [done|set_solver|done].
  - destruct He as [(_ & Ha)| ->]; [|done]. eapply errors_adds; [done|set_solver|done].
Qed.
Lemma reach_errors P s : reach_by E P s → errors_logged s.
Proof.
  intros [l Hr]. refine (runs_inv E P errors_logged init_st l s Inv_init eq_refl _ _ Hr).
  - intros l1 u w e l2 Heq. by destruct l1.
  - intros n x s1 s2 I1 Hst1 H1 _ Hg. exact (step_errors n x s1 s2 I1 Hst1 Hg H1).
Qed.

(** ** Fresh builders *)
Lemma alloc_fresh n d s r s' :
  Inv s → step E n (OAlloc d) s = Done r s' →
  ∃ o, r = OutObj o ∧ objs s !! o = None ∧ live s' o ∧ (∃ a, at_addr s' o d a) ∧
    ¬ knows s' o ∧ cached s' o = None ∧ state_of s' o = None ∧ (∀ w, ¬ depends s' o w ∧ ¬ depends s' w o) ∧
    ∀ w, w ≠ o → (live s' w ↔ live s w) ∧ (knows s' w ↔ knows s w) ∧ cached s' w = cached s w ∧
                  state_of s' w = state_of s w ∧ calls s' w = calls s w.
Proof.
  intros I Hs. cbn [step] in Hs. destruct (alloc E d s) as [[o s1]|] eqn:Ha; [|done]. injection Hs as <- <-.
  apply alloc_Some in Ha as (-> & -> & H1 & H2). exists (nobj s).
  assert (objs s !! nobj s = None) as Hfr.
  { destruct (objs s !! nobj s) eqn:Hx; [|done]. apply (i_num _ I) in Hx. lia. }
  set (s' := St _ _ _ _ _ _ _ _ _).
  assert (¬ knows s' (nobj s)) as Hnk.
  { intros (d' & a' & Ho & Hk). unfold at_addr in Ho. cbn in *. rewrite lookup_insert in Ho. injection Ho as <- <-. congruence. }
  split_and!; try done.
  - apply elem_of_union_l. by apply elem_of_singleton.
  - exists (e_ask E (tick s)). unfold at_addr. cbn. by rewrite lookup_insert.
  - by apply cached_unknown.
  - by apply state_unknown.
  - intros w. split; intros [? ?]%depends_knows; done.
  - intros w Hne. unfold live, knows, cached, state_of, at_addr. cbn. rewrite lookup_insert_ne by done.
    split_and!; try done. set_solver.
Qed.

(** ** Types *)
Lemma types_ok s o d a e :
  Inv s → at_addr s o d a → known (ch s) !! a = Some o →
  (artifacts (ch s) !! a = Some e → ar_ty e = bd_aty d).
Proof. intros I Ho Hk He. by eapply (ci_art_ty _ _ (i_c _ I)). Qed.
End Facts3.
