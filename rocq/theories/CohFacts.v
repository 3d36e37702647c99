(** Coherence: an artifact was built from the artifacts still cached. *)
From Verif Require Export Facts3.
From stdpp Require Import relations.

Section CohFacts.
Context (E : env).
Notation prim := (prim E).
Notation prims := (rtc prim).

(** [l] contains no call of [u]. *)
Definition since (u : obj) (l : list event) : Prop := count (is_call u) l = 0.

Definition coh_at (s : st) (u w : obj) (rv : rval) : Prop :=
  depends s u w ∧ ((∃ e, rv = RvErr e) ∨ ∃ h b, cached s w = Some b ∧ rv = conv h b).

(** What [u] was told in its current or last build is still so. *)
Definition coh (s : st) : Prop :=
  ∀ u w rv l1 l2, is_Some (cached s u) ∨ u ∈ stack s →
    trace s = l1 ++ EGot u w rv :: l2 → since u l1 → coh_at s u w rv.

Lemma since_cons u e l : since u (e :: l) → since u l ∧ is_call u e = false.
Proof.
  unfold since, count. rewrite filter_cons. destruct (decide (is_call u e = true)) as [H|H]; [done|].
  intros ?. split; [done|]. by destruct (is_call u e).
Qed.

(** A step that logs [l], keeps what is cached and recorded. *)
Lemma coh_mono s s' l :
  coh s → trace s' = l ++ trace s →
  (∀ u, is_Some (cached s' u) ∨ u ∈ stack s' → since u l → is_Some (cached s u) ∨ u ∈ stack s) →
  (∀ u w, depends s u w → (is_Some (cached s' u) ∨ u ∈ stack s') → depends s' u w) →
  (∀ u w b, depends s u w → (is_Some (cached s' u) ∨ u ∈ stack s') → cached s w = Some b → cached s' w = Some b) →
  (∀ u w rv l1 l2, l = l1 ++ EGot u w rv :: l2 → coh_at s' u w rv) →
  coh s'.
Proof.
  intros H Ht Hu Hd Hc Hl u w rv l1 l2 Hp Heq Hs. rewrite Ht in Heq.
  apply app_eq_app in Heq as (l3 & [[-> Heq]|[-> Heq]]).
  - destruct l3 as [|x l3]; [|injection Heq as <- Heq; by eapply Hl].
    cbn in Heq. rewrite app_nil_r in *.
    destruct (H u w rv [] l2) as [H1 H2]; [by apply Hu|done|done|].
    split; [by apply Hd|]. destruct H2 as [H2|(h & b & H2 & ->)]; [by left|right]. exists h, b. split; [|done]. by eapply Hc.
  - assert (since u l ∧ since u l3) as [Hs1 Hs2].
    { unfold since in *. rewrite count_app in Hs. lia. }
    destruct (H u w rv l3 l2) as [H1 H2]; [by apply Hu|done|done|].
    split; [by apply Hd|]. destruct H2 as [H2|(h & b & H2 & ->)]; [by left|right]. exists h, b. split; [|done]. by eapply Hc.
Qed.

Lemma prim_coh s s' : Inv s → nr s → prim s s' → reent s' = false → coh s → coh s'.
Proof.
  intros I Hnr Hp Hre H. assert (reent s = false) as Hre0 by (by eapply prim_reent).
  destruct (Hnr Hre0) as [_ Hno]. destruct (prim_new E s s' Hp) as [l Hl].
  eapply (coh_mono s s' l); [done|done|..].
  - intros u [[b Hb]|Hin] Hs.
    + destruct (prim_cached_new E s s' u b I Hp Hb) as [?|[_ ?]]; [left; eauto|by right].
    + right. destruct Hp; try exact Hin.
      * cbn in Hl, Hin. apply app_one in Hl as ->. apply elem_of_cons in Hin as [->|Hin]; [|done].
        exfalso. apply since_cons in Hs as [_ Hs]. cbn in Hs. by rewrite N.eqb_refl in Hs.
      * by apply alloc_Some in H0 as (-> & -> & _).
      * by apply drop_Some in H0 as (_ & _ & ->).
      * cbn in Hin. rewrite H0. by right.
      * cbn in Hin. rewrite H0. by right.
  - intros u w Hd _. apply (prim_depends E s s' l u w I Hp Hl). by left.
  - intros u w b _ _ Hb. destruct (decide (w ∈ stack s)) as [Hin|Hin]; [by rewrite (Hno w Hin) in Hb|].
    by destruct (prim_cached E s s' w b I Hp Hin Hb).
  - intros u w rv l1 l2 Heq. subst l.
    destruct Hp; cbn in Hl;
      try (apply app_inv_tail_nil in Hl; by destruct l1);
      try (apply app_one in Hl; destruct l1 as [|? [|??]]; by simplify_eq/=).
    + apply app_one in Hl. destruct l1 as [|? [|??]]; simplify_eq/=.
      match goal with H : stack s = ?u :: _ |- _ => rename u into v; rename H into Hstk end.
      destruct H4 as (du & ua & X & Hu & HX & HinX).
      destruct (i_stack _ I v) as (_ & du' & ua' & Hu' & Hku & _); [rewrite Hstk; left|].
      assert (ua' = ua) as -> by congruence.
      destruct H3 as [w' Hkw]. match type of H1 with promise ?x s = _ => 
        assert (w' = x) as -> by (exact (Inv_known_is s x d wa w' I H1 Hkw)) end.
      apply promise_Some in H1 as [_ Hw].
      split; [exists du, ua, d, wa, X; done|].
      destruct H2 as [(e & He & ->)|(e & t & -> & Ht)]; [right|left; eauto].
      exists h, (ar_bin e). split; [|done]. erewrite cached_at; cbn; [|done..]. by rewrite He.
    + apply alloc_Some in H0 as (-> & -> & _). cbn in Hl. apply app_inv_tail_nil in Hl. by destruct l1.
    + apply drop_Some in H0 as (_ & _ & ->). cbn in Hl. apply app_inv_tail_nil in Hl. by destruct l1.
Qed.

Lemma prims_coh s s' : Inv s → nr s → prims s s' → reent s' = false → coh s → coh s'.
Proof.
  intros I Hnr Hp Hre Hc.
  assert (nr s' ∧ (reent s' = false → coh s')) as [_ ?]; [|auto].
  refine (prims_ind_inv E (λ x, nr x ∧ (reent x = false → coh x)) s s' I _ _ Hp); [done|].
  intros s1 s2 I1 _ _ [H1 H2] H. split; [exact (prim_nr E s1 s2 I1 H H1)|]. intros Hr.
  assert (reent s1 = false) as Hr1 by (by eapply prim_reent).
  exact (prim_coh s1 s2 I1 H1 H Hr (H2 Hr1)).
Qed.

Lemma forgets_coh (F G : obj → Prop) l s s' :
  (∀ u w, F w → depends s u w → F u) →
  forgets s F G s' → adds l s s' → (∀ u w rv, EGot u w rv ∉ l) → coh s → coh (unwound s').
Proof.
  intros Hcl Hf [Hl _] Hn Hc.
  assert (∀ u, is_Some (cached s' u) ∨ u ∈ [] → ¬ F u ∧ is_Some (cached s u)) as Hu.
  { intros u [[b Hb]|Hin]; [|by apply elem_of_nil in Hin].
    assert (¬ F u) as Hn' by (intros HF; rewrite (fg_gone _ _ _ _ Hf) in Hb; done).
    rewrite (fg_kept _ _ _ _ Hf) in Hb by done. eauto. }
  eapply (coh_mono s (unwound s') l); [done|done|..].
  - intros u Hu' _. left. by apply Hu.
  - intros u w Hd [Hu' _]%Hu. apply (fg_depends _ _ _ _ Hf). split_and!; [done..|]. eauto.
  - intros u w b Hd [Hu' _]%Hu Hb. change (cached s' w = Some b). rewrite (fg_kept _ _ _ _ Hf); [done|]. eauto.
  - intros u w rv l1 l2 ->. exfalso. eapply Hn. apply elem_of_app. right. left.
Qed.

Lemma sets_coh s o v l s' :
  sets_state s o v s' → trace s' = l ++ trace s → (∀ u w rv, EGot u w rv ∉ l) → coh s → coh (unwound s').
Proof.
  intros Hs Hl Hn Hc. eapply (coh_mono s (unwound s') l); [done|done|..].
  - intros u [Hu|Hu] _; [|by apply elem_of_nil in Hu]. left. change (is_Some (cached s' u)) in Hu.
    by rewrite (ss_cached _ _ _ _ Hs) in Hu.
  - intros u w Hd _. by apply (ss_depends _ _ _ _ Hs).
  - intros u w b _ _ Hb. change (cached s' w = Some b). by rewrite (ss_cached _ _ _ _ Hs).
  - intros u w rv l1 l2 ->. exfalso. eapply Hn. apply elem_of_app. right. left.
Qed.

Lemma writes_coh s o f s' :
  writes s o f s' → adds [] s s' →
  (∀ u rv l1 l2, is_Some (cached s u) → trace s = l1 ++ EGot u o rv :: l2 → since u l1 → ∃ e, rv = RvErr e) →
  coh s → coh (unwound s').
Proof.
  intros Hw [Hl _] Hno Hc u w rv l1 l2 Hp Heq Hs. cbn in Hl, Heq. rewrite Hl in Heq.
  assert (is_Some (cached s u)) as Hcu.
  { destruct Hp as [Hp|Hp]; [|by apply elem_of_nil in Hp]. change (is_Some (cached s' u)) in Hp.
    destruct (decide (u = o)) as [->|Hne]; [|by rewrite (wr_others _ _ _ _ Hw) in Hp].
    rewrite (wr_cached _ _ _ _ Hw) in Hp. by apply fmap_is_Some in Hp. }
  destruct (Hc u w rv l1 l2 (or_introl Hcu) Heq Hs) as [H1 H2].
  split; [by apply (wr_depends _ _ _ _ Hw)|].
  destruct H2 as [?|(h & b & Hb & ->)]; [by left|]. destruct (decide (w = o)) as [->|Hne].
  - left. eauto.
  - right. exists h, b. split; [|done]. change (cached s' w = Some b). by rewrite (wr_others _ _ _ _ Hw).
Qed.

(** More about [get_mut]: who may have seen the artifact. *)
Lemma get_mut_more n o f s s' :
  Inv s → stack s = [] → goes (step E n (OGetMut o f) s) s' →
  (adds [] s s' ∧ writes s o f s' ∧ ∀ u, ¬ depends s u o) ∨
  ∃ s1 s2, Inv s1 ∧ stack s1 = [] ∧ adds [] s s1 ∧
    ((¬ depends s o o ∧ same s s1) ∨ (depends s o o ∧ forgets s (eq o) (λ _, False) s1)) ∧
    prims s1 s2 ∧ (s' = s2 ∨ (adds [] s2 s' ∧ writes s2 o f s' ∧
      ∃ sx b, prims s1 sx ∧ stack sx = [o] ∧ prim sx s2 ∧ trace s2 = EBuilt o b :: trace sx)).
Proof.
  intros I Hst Hg. pose proof (step_effect E n (OGetMut o f) s s' I Hst Hg) as He.
  cbn [effect_of] in He. destruct He as (Hl & Hno & _).
  assert (e_kind E = Boxed) as Hk by (by eapply (mut_boxed E n (OGetMut o f)); [left|]).
  destruct (live_promise s o I Hl) as (d & a & Hp).
  destruct (op_get_mut_effect E n o f s I Hst Hl Hk) as (H1 & H2 & H3).
  assert (depends s o o ∨ ¬ depends s o o) as Hdec.
  { pose proof (self_dependent s o d a I Hp). destruct (decide (dep_rel (ch s) a a)); tauto. }
  assert (cached s o = None ∨ depends s o o ∨ (∃ b, cached s o = Some b ∧ ∀ u, ¬ depends s u o)) as Hcase.
  { destruct (cached s o) as [b|]; [|auto]. right. destruct Hdec; [auto|]. right. exists b. split; [done|].
    intros u Hu. assert (u = o) as -> by auto. done. }
  assert ((∃ b, cached s o = Some b ∧ ∀ u, ¬ depends s u o) ∨ (cached s o = None ∨ depends s o o)) as [(b & Hb & Hnd)|Hor] by tauto.
  { left. destruct (H2 b Hnd Hb) as (s1 & Heq & Hw & Ht). unfold goes in Hg. rewrite Heq in Hg.
    destruct Hg as [[r [= _ <-]]|(? & ? & ?)]; [|done]. done. }
  right. destruct (H3 Hno Hor) as (s1 & I1 & Hst1 & Htr & Hal & Hc1 & Hm).
  assert (cached s1 o = None) as Hn1.
  { destruct Hc1 as [[Hd Hs]|[Hd Hf]].
    - rewrite (fg_kept _ _ _ _ Hs) by tauto. tauto.
    - by apply (fg_gone _ _ _ _ Hf). }
  assert (∀ s2, (∃ r, get E n HRef o s1 = r ∧ ends r s2) → prims s1 s2) as Hpr.
  { intros s2 (r & <- & He). by eapply get_prims; [apply (i_wf _ I1)|]. }
  unfold goes in Hg. cbn [step] in Hm, Hg. destruct (get E n HRef o s1) as [r s2|k s2| |] eqn:Hq;
    [| |rewrite Hm in Hg; gd..].
  - exists s1, s2. do 3 (split; [done|]). split; [done|]. split; [apply Hpr; eexists; split; [done|left; eauto]|].
    destruct r as [b|v|e].
    + left. rewrite Hm in Hg. by gd.
    + destruct Hm as (s3 & Heq & Hw & Ht). rewrite Heq in Hg.
      destruct Hg as [[r [= _ <-]]|(? & ? & ?)]; [|done]. right. split; [done|]. split; [done|].
      unfold get, get_with in Hq. destruct (promise o s1) as [[d1 a1]|] eqn:Hp1; [|done].
      destruct (how_legal E HRef); [|done]. rewrite (lookup_art_ok _ o s1 d1 a1 I1 Hp1) in Hq.
      rewrite (live_cached s1 o d1 a1 I1 Hp1) in Hn1.
      assert (artifacts (ch s1) !! a1 = None) as Ha1 by (by destruct (artifacts (ch s1) !! a1)).
      rewrite Ha1 in Hq. destruct (build E n o s1) as [[e|e] s4|k s4| |] eqn:Hb; try done.
      destruct (ar_ty e =? bd_aty d1)%N; [|done]. injection Hq as _ ->.
      destruct (build_shape E n o s1 d1 a1 _ s2 I1 Hp1 Ha1 Hb) as (sx & P & Hstx & _ & [(b & _ & ->)|(? & ? & _)]); [|done].
      rewrite Hst1 in Hstx. exists sx, b. split_and!; [done|done| |done].
      rewrite Hst1. eapply (pm_ok E sx o d1 a1 []); [done|].
      apply promise_Some in Hp1 as [_ Ho1]. exact (prims_at E s1 sx o d1 a1 I1 P Ho1).
    + left. rewrite Hm in Hg. by gd.
  - exists s1, s2. do 3 (split; [done|]). split; [done|]. split; [apply Hpr; eexists; split; [done|right; eauto]|].
    left. rewrite Hm in Hg. by gd.
Qed.

Lemma coh_unwound s : coh s → coh (unwound s).
Proof.
  intros H u w rv l1 l2 [Hu|Hu] Heq Hs; [|by apply elem_of_nil in Hu].
  exact (H u w rv l1 l2 (or_introl Hu) Heq Hs).
Qed.

Lemma same_closed (s : st) : ∀ u w, (λ _ : obj, False) w → depends s u w → (λ _ : obj, False) u.
Proof. done. Qed.

Lemma step_coh n x s s' :
  Inv s → stack s = [] → goes (step E n x s) s' → reent s' = false → coh s → coh (unwound s').
Proof.
  intros I Hst Hg Hre Hc.
  pose proof (step_effect E n x s s' I Hst Hg) as He. pose proof (nr_empty s Hst) as Hnr.
  assert (∀ (F G : obj → Prop) l, (∀ u w, F w → depends s u w → F u) →
    forgets s F G s' → adds l s s' → (∀ u w rv, EGot u w rv ∉ l) → coh (unwound s')) as Hfg.
  { intros F G l H1 H2 H3 H4. eapply forgets_coh; [exact H1|done..]. }
  assert (∀ o, ∀ u w, affected s o w → depends s u w → affected s o u) as Hcl.
  { intros o u w Ha Hd. by eapply rtc_r. }
  destruct x as [d|o|h o|o f|h o|o f|o|o f|o|o|o| | | |o| ]; cbn [effect_of] in He;
    try (by eapply coh_unwound, prims_coh); try (by subst; apply coh_unwound).
  - clear He. pose proof (step_effect E n (OGetMut o f) s s' I Hst Hg) as (_ & Hno & _).
    destruct (get_mut_more n o f s s' I Hst Hg) as [(Ha & Hw & Hnd)|(s1 & s2 & I1 & Hst1 & Ha1 & Hs1 & Hp & Hend)].
    + eapply writes_coh; [done..| |done]. intros u rv l1 l2 Hu Heq Hs. exfalso. apply (Hnd u).
      by destruct (Hc u o rv l1 l2 (or_introl Hu) Heq Hs).
    + assert (coh s1) as Hc1.
      { assert (unwound s1 = s1) as <- by (destruct s1; cbn in *; by subst).
        destruct Hs1 as [[_ Hf]|[_ Hf]]; (eapply forgets_coh; [|done..|set_solver|done]); [done|].
        intros u w <- Hd. symmetry. by apply Hno. }
      destruct Hend as [->|(Ha2 & Hw & sx & b & Hpx & Hstx & Hlast & Htx)].
      { apply coh_unwound. exact (prims_coh s1 s2 I1 (nr_empty s1 Hst1) Hp Hre Hc1). }
      assert (reent s2 = false) as Hre2 by (destruct Ha2 as [_ Ha2]; congruence).
      assert (coh s2) as Hc2 by exact (prims_coh s1 s2 I1 (nr_empty s1 Hst1) Hp Hre2 Hc1).
      eapply writes_coh; [done..| |done]. intros u rv l1 l2 Hu Heq Hs.
      assert (reent sx = false) as Hrx by (by eapply prim_reent).
      assert (Inv sx) as Ix by (by eapply prims_Inv).
      assert (nr sx) as Hnx by (eapply prims_nr; [exact I1|exact Hpx|by apply nr_empty]).
      assert (coh sx) as Hcx by exact (prims_coh s1 sx I1 (nr_empty s1 Hst1) Hpx Hrx Hc1).
      destruct (Hnx Hrx) as [_ Hnone].
      assert (is_Some (cached sx u) ∨ u ∈ stack sx) as Hux.
      { destruct Hu as [bu Hu]. destruct (prim_cached_new E sx s2 u bu Ix Hlast Hu) as [?|[_ ?]]; [left; eauto|by right]. }
      rewrite Htx in Heq. destruct l1 as [|y l1]; [done|]. injection Heq as <- Heq. apply since_cons in Hs as [Hs _].
      destruct (Hcx u o rv l1 l2 Hux Heq Hs) as [_ [?|(h & b' & Hb' & _)]]; [done|].
      rewrite Hnone in Hb'; [done|]. rewrite Hstx. left.
  - destruct He as (_ & Hno & Ha & [[Hd Hw]|[_ Hf]]).
    + eapply writes_coh; [done..| |done]. intros u rv l1 l2 Hu Heq Hs. exfalso. apply Hd.
      destruct (Hc u o rv l1 l2 (or_introl Hu) Heq Hs) as [Hdu _]. by rewrite <- (Hno u Hdu) at 1.
    + eapply Hfg; [|done..|set_solver]. intros u w <- Hdu. symmetry. by apply Hno.
  - destruct He as (_ & [->|(_ & Hs & Ha)]); [by apply coh_unwound|]. eapply sets_coh; [done|apply Ha|set_solver|done].
  - destruct He as (_ & s1 & Hf & Ha & Hs).
    eapply (coh_mono s (unwound s') [EInvalidate o]); [done|apply Ha|..].
    + intros u [Hu|Hu] _; [|by apply elem_of_nil in Hu]. left. change (is_Some (cached s' u)) in Hu.
      rewrite (ss_cached _ _ _ _ Hs) in Hu. destruct Hu as [b Hb].
      assert (¬ affected s o u) as Hn' by (intros HF; rewrite (fg_gone _ _ _ _ Hf) in Hb; done).
      rewrite (fg_kept _ _ _ _ Hf) in Hb by done. eauto.
    + intros u w Hd [Hu|Hu]; [|by apply elem_of_nil in Hu]. apply (ss_depends _ _ _ _ Hs).
      change (is_Some (cached s' u)) in Hu. rewrite (ss_cached _ _ _ _ Hs) in Hu. destruct Hu as [b Hb].
      assert (¬ affected s o u) as Hn' by (intros HF; rewrite (fg_gone _ _ _ _ Hf) in Hb; done).
      apply (fg_depends _ _ _ _ Hf). split_and!; [done..|]. eauto.
    + intros u w b' Hd [Hu|Hu] Hb'; [|by apply elem_of_nil in Hu]. change (cached s' w = Some b').
      change (is_Some (cached s' u)) in Hu. rewrite (ss_cached _ _ _ _ Hs) in Hu |- *. destruct Hu as [b Hb].
      assert (¬ affected s o u) as Hn' by (intros HF; rewrite (fg_gone _ _ _ _ Hf) in Hb; done).
      rewrite (fg_kept _ _ _ _ Hf); [done|]. eauto.
    + intros u w rv l1 l2 Heq. destruct l1 as [|? [|??]]; by simplify_eq/=.
  - destruct He as (_ & Hf & Ha). eapply Hfg; [apply Hcl|done..|]. set_solver.
  - destruct He as (_ & Hf & Ha). eapply Hfg; [apply Hcl|done..|]. set_solver.
  - destruct He as (Hf & Ha). eapply Hfg; [|done..|]; [done|set_solver].
  - destruct He as (Hf & Ha). eapply Hfg; [|done..|]; [done|set_solver].
  - destruct He as [(Hf & Ha)| -> ]; [|by apply coh_unwound]. eapply Hfg; [|done..|]; [|set_solver].
    intros u w (_ & _ & Hn) Hd. by apply Hn in Hd.
Qed.

Lemma reach_coh s : reachable E s → reent s = false → coh s.
Proof.
  intros [l Hr]. refine (runs_inv E any_op (λ x, reent x = false → coh x) init_st l s Inv_init eq_refl _ _ Hr).
  { intros _ u w rv l1 l2 _ Heq. by destruct l1. }
  intros n x s1 s2 I1 Hst1 H1 _ Hg Hre. change (reent s2 = false) in Hre.
  assert (reent s1 = false) as Hr1 by (by eapply goes_reent).
  exact (step_coh n x s1 s2 I1 Hst1 Hg Hre (H1 Hr1)).
Qed.
End CohFacts.

(** ** The log of one call: first what the builders do, then at most
    invalidations and clearings. *)
Section LogStep.
Context (E : env).
Notation prims := (rtc (prim E)).

Lemma step_trace n x s s' :
  Inv s → stack s = [] → goes (step E n x s) s' →
  ∃ s1 s2 l, Inv s1 ∧ stack s1 = [] ∧ trace s1 = trace s ∧ prims s1 s2 ∧ trace s' = l ++ trace s2 ∧
    ∀ e, e ∈ l → e = EClear ∨ ∃ o, e = EInvalidate o.
Proof.
  intros I Hst Hg. pose proof (step_effect E n x s s' I Hst Hg) as He.
  assert (∀ l, trace s' = l ++ trace s → (∀ e, e ∈ l → e = EClear ∨ ∃ o, e = EInvalidate o) →
    ∃ s1 s2 l, Inv s1 ∧ stack s1 = [] ∧ trace s1 = trace s ∧ prims s1 s2 ∧ trace s' = l ++ trace s2 ∧
    ∀ e, e ∈ l → e = EClear ∨ ∃ o, e = EInvalidate o) as Hq.
  { intros l Hl Hall. exists s, s, l. by split_and!; try apply rtc_refl. }
  assert (prims s s' → ∃ s1 s2 l, Inv s1 ∧ stack s1 = [] ∧ trace s1 = trace s ∧ prims s1 s2 ∧ trace s' = l ++ trace s2 ∧
    ∀ e, e ∈ l → e = EClear ∨ ∃ o, e = EInvalidate o) as Hp.
  { intros H. exists s, s', []. split_and!; try done. set_solver. }
  destruct x as [d|o|h o|o f|h o|o f|o|o f|o|o|o| | | |o| ]; cbn [effect_of] in He; try (by auto);
    try (subst; apply (Hq []); [done|set_solver]).
  - destruct (get_mut_more E n o f s s' I Hst Hg) as [(Ha & Hw & Hnd)|(s1 & s2 & I1 & Hst1 & Ha1 & Hs1 & Hps & Hend)].
    + apply (Hq []); [apply Ha|set_solver].
    + exists s1, s2, []. split_and!; [done..|apply Ha1|done| |set_solver].
      destruct Hend as [->|(Ha2 & _)]; [done|apply Ha2].
  - destruct He as (_ & Hno & Ha & _). apply (Hq []); [apply Ha|set_solver].
  - destruct He as (_ & [->|(_ & Hs & Ha)]); apply (Hq []); [done|set_solver|apply Ha|set_solver].
  - destruct He as (_ & s1 & Hf & Ha & Hs). apply (Hq [EInvalidate o]); [apply Ha|set_solver].
  - destruct He as (_ & Hf & Ha). apply (Hq [EInvalidate o]); [apply Ha|set_solver].
  - destruct He as (_ & Hf & Ha). apply (Hq [EInvalidate o]); [apply Ha|set_solver].
  - destruct He as (Hf & Ha). apply (Hq []); [apply Ha|set_solver].
  - destruct He as (Hf & Ha). apply (Hq [EClear]); [apply Ha|set_solver].
  - destruct He as [(Hf & Ha)| ->]; apply (Hq []); [apply Ha|set_solver|done|set_solver].
Qed.

(** A builder is only built, or being built, after it was called. *)
Definition called (s : st) : Prop :=
  (∀ o, o ∈ stack s → ECall o ∈ trace s) ∧
  (∀ l1 o b l2, trace s = l1 ++ EBuilt o b :: l2 → ECall o ∈ l2).
Lemma called_log e s s' :
  called s → trace s' = e :: trace s → (∀ o, o ∈ stack s' → o ∈ stack s ∨ e = ECall o) →
  (∀ o b, e = EBuilt o b → o ∈ stack s) → called s'.
Proof.
  intros [H1 H2] Ht Hs He. split; rewrite Ht.
  - intros o [Ho| ->]%Hs; [right; auto|left].
  - intros l1 o b l2 Heq. destruct l1 as [|y l1]; injection Heq as -> Heq.
    + subst l2. eapply H1, He. done.
    + by eapply H2.
Qed.
Lemma prim_called s s' : prim E s s' → called s → called s'.
Proof.
  intros Hp Hc. destruct Hp; try exact Hc; try (by eapply called_log; [exact Hc|done|auto|]).
  - eapply called_log; [exact Hc|done| |done]. intros o' [->|?]%elem_of_cons; auto.
  - apply alloc_Some in H as (-> & -> & _). exact Hc.
  - apply drop_Some in H as (_ & _ & ->). exact Hc.
  - eapply called_log; [exact Hc|done| |].
    + intros o Ho. left. rewrite H. by right.
    + intros o b' [= -> ->]. rewrite H. left.
  - eapply called_log; [exact Hc|done| |done]. intros o Ho. left. rewrite H. by right.
Qed.
Lemma reach_called s : reachable E s → called s.
Proof.
  intros [l Hr]. refine (runs_inv E any_op called init_st l s Inv_init eq_refl _ _ Hr).
  { split; [set_solver|]. intros l1 o b l2 Heq. by destruct l1. }
  intros n x s1 s2 I1 Hst1 H1 _ Hg.
  destruct (step_trace n x s1 s2 I1 Hst1 Hg) as (t1 & t2 & l' & _ & Hst & Ht & Hp & Ht2 & Hl').
  assert (called t2) as [_ H2].
  { assert (called t1) as Hc1 by (split; rewrite ?Hst, ?Ht; [set_solver|apply H1]).
    clear -Hp Hc1. induction Hp; eauto using prim_called. }
  split; [cbn; set_solver|]. change (trace (unwound s2)) with (trace s2). rewrite Ht2. clear -H2 Hl'.
  induction l' as [|e l' IH]; [exact H2|]. intros [|y l1] o b l2 Heq.
  - injection Heq as -> _. exfalso. destruct (Hl' (EBuilt o b)) as [?|[? ?]]; [left|done..].
  - injection Heq as <- Heq. eapply (IH ltac:(set_solver)), Heq.
Qed.

(** Splitting at the newest call. *)
Lemma split_call u l : ECall u ∈ l → ∃ l1 l2, l = l1 ++ ECall u :: l2 ∧ count (is_call u) l1 = 0.
Proof.
  induction l as [|e l IH]; [by intros ?%elem_of_nil|]. intros Hin.
  destruct (is_call u e) eqn:He.
  - destruct e; try done. cbn in He. apply N.eqb_eq in He as ->. by exists [], l.
  - apply elem_of_cons in Hin as [<-|Hin]; [cbn in He; by rewrite N.eqb_refl in He|].
    destruct (IH Hin) as (l1 & l2 & -> & Hc). exists (e :: l1), l2. split; [done|].
    unfold count in *. rewrite filter_cons. destruct (decide _) as [H|]; [by rewrite He in H|done].
Qed.
End LogStep.
