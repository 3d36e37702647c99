(** Lemmas behind Props16.v: doctors that panic. *)
From Verif Require Export Watched BombFacts.
From stdpp Require Import relations.

Section WatchFacts.
Context (J : list event → bool) (E : env).
Notation prim := (prim E).
Notation prims := (rtc prim).

(** The doctor panicked in a build. *)
Definition cut (s s' : st) : Prop :=
  prims s s' ∧
  ((∃ u w t, trace s' = EResolve u w :: t ∧ J (trace s') = true ∧ length (trace s) ≤ length t) ∨
   (∃ u b S, stack s' = u :: S ∧ J (EBuilt u b :: trace s') = true)).
Definition as_is {A} (s : st) (x y : outcome A) : Prop := x = y ∨ ∃ s', x = Panic PkUser s' ∧ cut s s'.
Definition bld_d (bd bl : obj → st → outcome bres) : Prop :=
  ∀ o s d a, promise o s = Some (d, a) → artifacts (ch s) !! a = None → objs_wf s → as_is s (bd o s) (bl o s).

Lemma cut_l s s1 s' : prims s s1 → cut s1 s' → cut s s'.
Proof.
  intros H [H1 H2]. split; [by etrans|]. destruct H2 as [(u & w & t & Ht & Hj & Hl)|?]; [left|by right].
  exists u, w, t. split_and!; [done..|]. destruct (prims_trace E s s1 H) as [l Hl1]. rewrite Hl1, app_length in Hl. lia.
Qed.

Lemma get_with_d bd bl h o s : bld_d bd bl → objs_wf s → as_is s (get_with E bd h o s) (get_with E bl h o s).
Proof.
  intros Hb Hwf. unfold get_with. destruct (promise o s) as [[d a]|] eqn:Hp; [|by left].
  destruct (how_legal E h); [|by left]. unfold lookup_art. destruct (artifacts (ch s) !! a) as [e|] eqn:He.
  - left. destruct (e_dbg E && _); [done|]. by destruct (ar_ty e =? bd_aty d)%N.
  - destruct (Hb o s d a Hp He Hwf) as [->|(s' & -> & Hc)]; [by left|]. right. eauto.
Qed.

Lemma resolve_d_ok bd bl u du ua h w s S :
  bld_ok E bl → bld_d bd bl → objs_wf s → stack s = u :: S → objs s !! u = Some (du, ua) →
  as_is s (resolve_d J E bd u ua h w s) (resolve_with E bl u ua h w s).
Proof.
  intros Hok Hb Hwf Hst Hu. unfold resolve_d, resolve_with.
  destruct (promise w s) as [[d wa]|] eqn:Hp; [|by left].
  assert (prim s (set_ch (make_known wa w (ch s)) s)) as Hk by (eapply pm_know; eauto).
  unfold track_dependency. destruct (e_dbg E && _); [by left|].
  set (c' := set_dependencies _ _).
  set (s1 := log (EResolve u w) (set_ch c' s)).
  assert (prims s s1) as Hs1.
  { eapply rtc_l; [exact Hk|]. apply rtc_once.
    eapply (pm_edge E (set_ch (make_known wa w (ch s)) s)); try done. apply make_known_known. }
  cbv zeta. destruct (jinx J (EResolve u w) (set_ch c' s)) eqn:Hj.
  { right. exists s1. split; [done|]. split; [exact Hs1|]. left. exists u, w, (trace s). split_and!; [done..|]. cbn. lia. }
  destruct (get_with_d bd bl h w s1 Hb Hwf) as [->|(s' & -> & Hc)]; [by left|].
  right. exists s'. split; [done|]. by eapply cut_l.
Qed.

Lemma exec_d_ok bd bl u du ua S :
  bld_ok E bl → bld_d bd bl → ∀ p s, objs_wf s → stack s = u :: S → objs s !! u = Some (du, ua) →
  as_is s (exec_d J E bd u ua (bd_sty du) p s) (exec E bl u ua (bd_sty du) p s).
Proof.
  intros Hok Hb p.
  induction p as [r| |h w k IH|k IH|v p IH|k IH|v k IH|d k IH|w p IH]; intros s Hwf Hst Hu; cbn [exec exec_d].
  - by left.
  - by left.
  - destruct (resolve_d_ok bd bl u du ua h w s S Hok Hb Hwf Hst Hu) as [->|(s' & -> & Hc)]; [|right; eauto].
    destruct (resolve_with_prims E bl u du ua h w s S Hok Hwf Hst Hu) as [R1 R2].
    destruct (resolve_with E bl u ua h w s) as [r s1|pk s1| |] eqn:Hr; [|by left..].
    pose proof (R2 _ _ eq_refl) as Hst1.
    assert (prims s s1) as H01 by (apply R1; left; eauto).
    destruct (IH r s1) as [->|(s' & -> & Hc)]; [by eapply prims_objs_wf|congruence|by eapply prims_objs|by left|].
    right. exists s'. split; [done|]. by eapply cut_l.
  - destruct (my_state _ _ _ _) as [pk|v]; [by left|]. by apply IH.
  - destruct (my_state _ _ _ _) as [pk|v'] eqn:Hm; [by left|].
    set (s1 := set_ch _ s).
    assert (prim s s1) as H01.
    { eapply pm_set; eauto. unfold my_state in Hm. destruct (_ && _); [done|].
      destruct (dyn_states (ch s) !! ua); [eauto|done]. }
    destruct (IH s1) as [->|(s' & -> & Hc)]; [done..|by left|].
    right. exists s'. split; [done|]. eapply cut_l; [|done]. by apply rtc_once.
  - destruct (IH (e_ask E (tick s)) (tock s)) as [->|(s' & -> & Hc)]; [done..|by left|].
    right. exists s'. split; [done|]. eapply cut_l; [|done]. apply rtc_once, pm_tick.
  - destruct (IH (Bin (nbin s) v) (set_nbin (N.succ (nbin s)) s)) as [->|(s' & -> & Hc)]; [done..|by left|].
    right. exists s'. split; [done|]. eapply cut_l; [|done]. apply rtc_once, pm_newbin.
  - destruct (alloc E d s) as [[o s1]|] eqn:Ha; [|by left].
    assert (prim s s1) as H01 by (eapply pm_alloc; eauto).
    apply alloc_Some in Ha as Ha'. destruct Ha' as (_ & Hs1 & _).
    assert (stack s1 = stack s) as Hst1 by (by rewrite Hs1).
    destruct (IH o s1) as [->|(s' & -> & Hc)]; [by eapply prim_objs_wf|congruence|by eapply prim_objs|by left|].
    right. exists s'. split; [done|]. eapply cut_l; [|done]. by apply rtc_once.
  - destruct (drop_obj w s) as [s1|] eqn:Ha; [|by left].
    assert (prim s s1) as H01 by (eapply pm_drop; eauto).
    apply drop_Some in Ha as Ha'. destruct Ha' as (_ & _ & Hs1).
    assert (stack s1 = stack s) as Hst1 by (by rewrite Hs1).
    destruct (IH s1) as [->|(s' & -> & Hc)]; [by eapply prim_objs_wf|congruence|by eapply prim_objs|by left|].
    right. exists s'. split; [done|]. eapply cut_l; [|done]. by apply rtc_once.
Qed.

Lemma build_d_ok fuel : bld_d (build_d J E fuel) (build E fuel).
Proof.
  induction fuel as [|fuel IH]; intros o s d a Hp Hna Hwf; cbn [build build_d]; [by left|].
  rewrite Hp. destruct d as [aty sty init body].
  destruct (e_dbg E && _); [by left|].
  destruct (ensure_dyn_state a o sty init (make_known a o (ch s))) as [c2 r] eqn:He.
  destruct (ensure_prims E o s (BDef aty sty init body) a c2 r Hp He) as (P1 & Pa & Pk & Pd).
  destruct r as [k|v]; [by left|].
  apply promise_Some in Hp as Hp'. destruct Hp' as [Hal Ho]. cbv zeta.
  set (s1 := log _ _).
  assert (prims s s1) as P01.
  { eapply rtc_r; [exact P1|]. eapply (pm_push E (set_ch c2 s)); eauto.
    - cbn. congruence. }
  assert (objs_wf s1) as Hwf1 by (by eapply prims_objs_wf).
  destruct (exec_d_ok (build_d J E fuel) (build E fuel) o (BDef aty sty init body) a (stack s)
    (build_bld_ok E fuel) IH body s1 Hwf1 eq_refl Ho) as [Heq|(s' & Heq & Hc)]; cbn [bd_sty] in Heq; rewrite Heq.
  2: { right. exists s'. split; [done|]. by eapply cut_l. }
  destruct (exec_prims E (build E fuel) o (BDef aty sty init body) a (stack s) (build_bld_ok E fuel) body s1 Hwf1 eq_refl Ho) as [X1 X2].
  cbn [bd_sty] in X1, X2.
  destruct (exec E (build E fuel) o a sty body s1) as [[b|e] s2|k s2| |] eqn:Hx; try (by left).
  destruct (jinx J (EBuilt o b) s2) eqn:Hj; [|by left].
  right. exists s2. split; [done|]. split.
  - etrans; [exact P01|]. apply X1. left; eauto.
  - right. exists o, b, (stack s). split; [|done]. by rewrite (X2 _ _ eq_refl).
Qed.

(** ** Calls *)
Lemma step_d_cases n x s :
  objs_wf s →
  step_d J E n x s = step E n x s ∨
  ∃ s', step_d J E n x s = Panic PkUser s' ∧
    match x with
    | OGet h o => cut s s'
    | OGetMut o f => ∃ s1, step E n (OLookupMut o f) s = Done (OutOpt None) s1 ∧ cut s1 s'
    | ODynStateMut o f => step E n (OInvalidate o) s = Done OutUnit s' ∧ J (EInvalidate o :: trace s) = true
    | OInvalidate o | OPurge o => step E n x s = Done OutUnit s' ∧ J (EInvalidate o :: trace s) = true
    | OClearAll => step E n x s = Done OutUnit s' ∧ J (EClear :: trace s) = true
    | _ => False
    end.
Proof.
  intros Hwf.
  destruct x as [d|o|h o|o f|h o|o f|o|o f|o|o|o| | | |o| ]; cbn [step_d]; try (by left).
  - destruct (get_with_d (build_d J E n) (build E n) h o s (build_d_ok n) Hwf) as [->|(s' & -> & Hc)]; [by left|].
    right. eauto.
  - unfold get_mut_d. cbn [step]. unfold op_get_mut, op_lookup_mut.
    destruct (e_kind E) eqn:Hk; [by left|]. destruct (promise o s) as [[d a]|] eqn:Hp; [|by left].
    destruct (lookup_mut (e_dbg E) (prio E s) a (bd_aty d) (ch s)) as [[c|k c|] [k'| |b]] eqn:Hl;
      try (by left).
    assert (artifacts c !! a = None) as Hna.
    { unfold lookup_mut in Hl. destruct (invalidate_dependents _ _ _ _) as [c1|? ?|]; [|done..].
      destruct (_ && _); [done|]. destruct (artifacts c1 !! a) as [e|] eqn:He; [by destruct (_ =? _)%N|]. congruence. }
    destruct (build_d_ok n o (tock (set_ch c s)) d a Hp Hna Hwf) as [->|(s' & -> & Hc)]; [by left|].
    right. exists s'. split; [done|]. eauto.
  - destruct (promise o s) as [[d a]|] eqn:Hp; [|left; cbn; by rewrite Hp].
    cbn [step]. rewrite Hp. destruct (invalidate_by_id _ _ _ _) as [c|k c|]; [|by left..].
    cbv zeta. destruct (jinx J (EInvalidate o) s) eqn:Hj; [|by left]. right. eexists. split; [done|]. done.
  - unfold ends_told. destruct (step E n (OInvalidate o) s) as [r s'|k s'| |] eqn:Hs; [|by left..].
    destruct (jinx J (EInvalidate o) s) eqn:Hj; [|by left]. right. exists s'. split; [done|]. split; [|done].
    revert Hs. cbn [step]. destruct (promise o s) as [[d a]|]; [|done].
    destruct (invalidate_by_id _ _ _ _) as [c|k c|]; cbn [lift]; congruence.
  - unfold ends_told. destruct (step E n (OPurge o) s) as [r s'|k s'| |] eqn:Hs; [|by left..].
    destruct (jinx J (EInvalidate o) s) eqn:Hj; [|by left]. right. exists s'. split; [done|]. split; [|done].
    revert Hs. cbn [step]. destruct (promise o s) as [[d a]|]; [|done].
    destruct (purge _ _ _ _) as [c|k c|]; cbn [lift]; congruence.
  - unfold ends_told. cbn [step]. destruct (jinx J EClear s) eqn:Hj; [|by left]. right. eauto.
Qed.

Lemma step_d_done n x s r s' : objs_wf s → step_d J E n x s = Done r s' → step E n x s = Done r s'.
Proof. intros Hwf H. destruct (step_d_cases n x s Hwf) as [Heq|(? & Heq & _)]; congruence. Qed.

Lemma step_d_none n x s : (∀ l, J l = false) → objs_wf s → step_d J E n x s = step E n x s.
Proof.
  intros HJ Hwf. destruct (step_d_cases n x s Hwf) as [Heq|(s' & _ & Hx)]; [done|exfalso].
  assert (∀ s, cut s s' → False) as Hcut.
  { intros s0 [_ [(? & ? & ? & _ & H & _)|(? & ? & ? & _ & H)]]; by rewrite HJ in H. }
  destruct x; try done; try (by destruct Hx as [_ Hx]; rewrite HJ in Hx); try (by eapply Hcut).
  destruct Hx as (s1 & _ & Hc). by eapply Hcut.
Qed.

(** What a doctor's panic leaves. *)
Record broken_off (s s' : st) : Prop := {
  bo_Inv : Inv s';
  bo_built : all_built E s → all_built E s';
  bo_coh : (reent s = false → coh s) → reent s' = false → coh s';
}.
Lemma cut_broken s s' : Inv s → stack s = [] → cut s s' → broken_off s s'.
Proof.
  intros I Hst [Hp _]. assert (Inv s') as I' by (by eapply prims_Inv). split; [done|..].
  - intros Hb. exact (prims_all_built E s s' I Hp Hb).
  - intros Hc Hre. assert (reent s = false) as Hr by (by eapply prims_reent).
    exact (prims_coh E s s' I (nr_empty s Hst) Hp Hre (Hc Hr)).
Qed.
End WatchFacts.

Section Watched.
Context (E : env).

Lemma done_keeps n x s r s' :
  Inv s → stack s = [] → all_built E s → (reent s = false → coh s) → step E n x s = Done r s' →
  Inv s' ∧ stack s' = [] ∧ all_built E s' ∧ (reent s' = false → coh s').
Proof.
  intros I Hst Hb Hc Hs.
  destruct (step_Inv E n x s r s' I Hst Hs) as [I' Hst']. assert (goes (step E n x s) s') as Hg by (left; eauto).
  split_and!; [done..|exact (step_all_built E n x s s' I Hst Hg Hb)|].
  intros Hre. assert (reent s = false) as Hr by (exact (goes_reent E n x s s' I Hst Hg Hre)).
  pose proof (step_coh E n x s s' I Hst Hg Hre (Hc Hr)) as H.
  assert (unwound s' = s') as Heq by (destruct s'; cbn in *; by subst). by rewrite Heq in H.
Qed.

Lemma all_built_unwound s : all_built E s → all_built E (unwound s).
Proof. intros H o b Hb. exact (H o b Hb). Qed.

Lemma watched_Inv s : watched E s → Inv s ∧ stack s = [] ∧ all_built E s ∧ (reent s = false → coh s).
Proof.
  induction 1 as [|s J n x r s' _ (I & Hst & Hb & Hc) Hs|s J n x k s' _ (I & Hst & Hb & Hc) Hs Hk|s da' dd' n s' _ (I & Hst & Hb & Hc) Hs].
  - apply (sturdy_Inv E). constructor.
  - apply step_d_done in Hs; [|by apply i_wf]. by eapply done_keeps.
  - destruct (step_d_cases J E n x s (i_wf _ I)) as [Heq|(s1 & Heq & Hx)].
    + rewrite Hs in Heq. symmetry in Heq. assert (goes (step E n x s) s') as Hg by (right; eauto).
      assert (Inv (unwound s')) as I'.
      { destruct (step_panic E n x s k s' I Hst Heq) as [[_ ?]|[(_ & _ & -> & _)|[_ ->]]]; [done| |done].
        assert (unwound (tock s) = tock s) as -> by (destruct s; cbn in *; by subst). by apply Inv_tock. }
      split_and!; [done..|exact (step_all_built E n x s s' I Hst Hg Hb)|].
      intros Hre. change (reent s' = false) in Hre.
      assert (reent s = false) as Hr by (exact (goes_reent E n x s s' I Hst Hg Hre)).
      exact (step_coh E n x s s' I Hst Hg Hre (Hc Hr)).
    + rewrite Hs in Heq. injection Heq as -> <-.
      assert (∀ y s0, cut J E s0 s' → step E n y s = Done (OutOpt None) s0 → Inv (unwound s') ∧ stack (unwound s') = [] ∧ all_built E (unwound s') ∧ (reent (unwound s') = false → coh (unwound s'))) as Hcut.
      { intros y s0 Hc0 Hs0. destruct (done_keeps n y s _ s0 I Hst Hb Hc Hs0) as (I0 & Hst0 & Hb0 & Hco0).
        destruct (cut_broken J E s0 s' I0 Hst0 Hc0) as [I' Hb' Hco'].
        split_and!; [by apply Inv_unwound|done|by apply all_built_unwound, Hb'|]. intros Hre. by apply coh_unwound, Hco'. }
      assert (∀ y r, step E n y s = Done r s' → Inv (unwound s') ∧ stack (unwound s') = [] ∧ all_built E (unwound s') ∧ (reent (unwound s') = false → coh (unwound s'))) as Hdone.
      { intros y r Hy. destruct (done_keeps n y s _ s' I Hst Hb Hc Hy) as (I' & Hst' & Hb' & Hco').
        assert (unwound s' = s') as -> by (destruct s'; cbn in *; by subst). done. }
      destruct x as [d|o|h o|o f|h o|o f|o|o f|o|o|o| | | |o| ]; try done.
      * destruct (cut_broken J E s s' I Hst Hx) as [I' Hb' Hco'].
        split_and!; [by apply Inv_unwound|done|by apply all_built_unwound, Hb'|]. intros Hre. by apply coh_unwound, Hco'.
      * destruct Hx as (s1 & Hs1 & Hc1). by eapply Hcut.
      * destruct Hx as [Hx _]. by eapply Hdone.
      * destruct Hx as [Hx _]. by eapply Hdone.
      * destruct Hx as [Hx _]. by eapply Hdone.
      * destruct Hx as [Hx _]. by eapply Hdone.
  - exact (gc_broken_keeps E da' dd' s n s' I Hst Hb Hc Hs).
Qed.
End Watched.

(** ** What a [get] that is broken off leaves *)
Section Leaves.
Context (J : list event → bool) (E : env).
Definition prims_of : st → st → Prop := rtc (prim E).

Lemma prims_leaves s s' l :
  Inv s → stack s = [] → prims_of s s' → trace s' = l ++ trace s →
  (∀ w b, cached s w = Some b → cached s' w = Some b ∧ calls s' w = calls s w) ∧
  (∀ w b, cached s' w = Some b → cached s w = Some b ∨ EBuilt w b ∈ l) ∧
  (∀ u w, depends s' u w ↔ depends s u w ∨ EResolve u w ∈ l) ∧
  (∀ w, calls s' w = calls s w → cached s' w = cached s w) ∧
  (∀ w v, state_of s w = Some v → calls s' w = calls s w → state_of s' w = Some v).
Proof.
  intros I Hst Hp Hl. assert (∀ w, w ∉ stack s) as Hns by (intros w; rewrite Hst; apply not_elem_of_nil).
  split_and!.
  - intros w b Hw. destruct (prims_cached E s s' w b I Hp (Hns w) Hw) as (? & _ & ?). done.
  - intros w b. revert l Hl. refine (prims_ind_inv E (λ x, ∀ l, trace x = l ++ trace s → cached x w = Some b → cached s w = Some b ∨ EBuilt w b ∈ l) s s' I _ _ Hp).
    + auto.
    + intros s1 s2 I1 I2 H1 IH H2 l Hl Hw. destruct (prims_trace E s s1 H1) as [l1 Hl1].
      destruct (prim_trace E s1 s2 H2) as [l2 Hl2]. rewrite Hl1, app_assoc in Hl2. rewrite Hl2 in Hl. apply app_inv_tail in Hl as <-.
      destruct (prim_cached_new E s1 s2 w b I1 H2 Hw) as [Hw1|[Ht _]].
      * destruct (IH l1 Hl1 Hw1) as [?|?]; [by left|right]. apply elem_of_app. by right.
      * right. rewrite Ht, Hl1 in Hl2. change (?x :: l1 ++ ?y) with ((x :: l1) ++ y) in Hl2.
        apply app_inv_tail in Hl2 as <-. left.
  - intros u w. exact (prims_depends E s s' l u w I Hp Hl).
  - intros w Hc. exact (prims_cached_back E s s' w I Hp (Hns w) Hc).
  - intros w v Hv Hc. destruct (prims_state_cases E s s' w I Hp (Hns w) Hc) as [[Heq|[Hn _]] _]; congruence.
Qed.

Lemma get_d_prims n h o s s' :
  Inv s → stack s = [] → step_d J E n (OGet h o) s = Panic PkUser s' → prims_of s s'.
Proof.
  intros I Hst Hs. destruct (step_d_cases J E n (OGet h o) s (i_wf _ I)) as [Heq|(s1 & Heq & [Hp _])].
  - rewrite Hs in Heq. symmetry in Heq. cbn [step] in Heq.
    destruct (get E n h o s) as [? ?|k s1| |] eqn:Hg; try done. injection Heq as -> ->.
    eapply get_prims; [by apply i_wf|]. right; eauto.
  - rewrite Hs in Heq. injection Heq as <-. exact Hp.
Qed.
Lemma get_mut_d_prims n o f s s' :
  Inv s → stack s = [] → step_d J E n (OGetMut o f) s = Panic PkUser s' →
  ∃ s1, step E n (OLookupMut o f) s = Done (OutOpt None) s1 ∧ prims_of s1 s'.
Proof.
  intros I Hst Hs. destruct (step_d_cases J E n (OGetMut o f) s (i_wf _ I)) as [Heq|(s1 & Heq & s0 & Hs0 & [Hp _])].
  - rewrite Hs in Heq. symmetry in Heq. revert Heq. cbn [step]. unfold op_get_mut, op_lookup_mut.
    destruct (e_kind E) eqn:Hkd; [done|]. destruct (promise o s) as [[d a]|] eqn:Hp; [|done].
    destruct (lookup_mut_ok (e_dbg E) (prio E s) o s d a I Hp) as [L1 L2].
    destruct (other_dependent_dec (ch s) a) as [Hod|Hself]; [by destruct (L1 Hod) as [c ->]|].
    destruct (L2 Hself) as (c & Hr & Ic & Hk & ->).
    assert (Inv (tock (set_ch c s))) as I1.
    { apply Inv_tock, Inv_set_ch; [done..|]. intros x y. rewrite Hk. right; eauto. }
    destruct (artifacts c !! a) as [e|] eqn:He.
    + destruct (lookup_mut_ok (e_dbg E) (prio E (tock (set_ch c s))) o (tock (set_ch c s)) d a I1 Hp) as [L1' L2'].
      cbv zeta. destruct (other_dependent_dec (ch (tock (set_ch c s))) a) as [Hod|Hself'].
      * destruct (L1' Hod) as [c' ->]. done.
      * destruct (L2' Hself') as (c' & _ & _ & _ & ->). by destruct (artifacts c' !! a).
    + intros Heq. eexists. split; [done|].
      destruct (build_bld_ok E n o (tock (set_ch c s)) d a Hp He (i_wf _ I1)) as [B1 _]. apply B1.
      destruct (build E n o (tock (set_ch c s))) as [[e|e] s1|k1 s1| |] eqn:Hb; try done.
      * destruct (_ =? _)%N; [done|]. congruence.
      * injection Heq as -> ->. right; eauto.
  - rewrite Hs in Heq. injection Heq as <-. eauto.
Qed.

Lemma get_d_where n h o s s' :
  Inv s → stack s = [] → step_d J E n (OGet h o) s = Panic PkUser s' →
  step E n (OGet h o) s = Panic PkUser s' ∨
  (∃ u w t, trace s' = EResolve u w :: t ∧ J (trace s') = true ∧ depends s' u w) ∨
  (∃ u b, J (EBuilt u b :: trace s') = true ∧ calls s u < calls s' u ∧ (reent s' = false → cached s' u = None)).
Proof.
  intros I Hst Hs. destruct (step_d_cases J E n (OGet h o) s (i_wf _ I)) as [Heq|(s1 & Heq & [Hp Hc])]; [left; congruence|].
  right. rewrite Hs in Heq. injection Heq as <-. destruct (prims_trace E s s' Hp) as [l Hl].
  destruct Hc as [(u & w & t & Ht & Hj & Hle)|(u & b & S & Hst' & Hj)].
  - left. exists u, w, t. split_and!; [done..|]. 
    apply (prims_depends E s s' l u w I Hp Hl). right. destruct l as [|e l].
    + cbn in Hl. rewrite <- Hl, Ht in Hle. cbn in Hle. lia.
    + rewrite Ht in Hl. injection Hl as <- _. left.
  - right. exists u, b. split_and!; [done| |].
    + destruct (decide (calls s' u = calls s u)) as [He|].
      * destruct (prims_state_cases E s s' u I Hp ltac:(rewrite Hst; apply not_elem_of_nil) He) as [_ Hn].
        rewrite Hst' in Hn. exfalso. apply Hn. left.
      * pose proof (prims_calls E s s' u Hp). lia.
    + intros Hre. apply (prims_nr E s s' I Hp (nr_empty s Hst) Hre). rewrite Hst'. left.
Qed.
End Leaves.
