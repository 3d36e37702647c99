(** Running builders as a machine with an explicit stack of programs: for each
    builder being built, what is left to do.  A refinement of [prim] (Prims.v)
    that knows which program does a transition. *)
From Verif Require Export DepFacts Facts3.
From stdpp Require Import relations.

Section Machine.
Context (E : env).
Local Notation prim := (Prims.prim E).
Local Notation prims := (rtc prim).

(** [o] may be built now: it was asked for by the user, or is being resolved. *)
Definition callable (o : obj) (fs : list prog) : Prop :=
  match fs with [] => True | p :: _ => ∃ h k, p = PResolve h o k end.
(** Where a panic can come from: the program on top panics, or the
    [init_dyn_state] of the builder it resolves. *)
Definition stuck (fs : list prog) : Prop :=
  match fs with [] => True | p :: _ => p = PPanic ∨ ∃ h w k, p = PResolve h w k end.

Inductive mstep : list prog * st → list prog * st → Prop :=
| ms_know fs s o d a : promise o s = Some (d, a) → mstep (fs, s) (fs, set_ch (make_known a o (ch s)) s)
| ms_dyn fs s o d a v : promise o s = Some (d, a) → is_Some (known (ch s) !! a) →
    dyn_states (ch s) !! a = None → bd_init d = Some v →
    mstep (fs, s) (fs, set_ch (set_dyn_states <[a := Dst (bd_sty d) v]> (ch s)) s)
| ms_push fs s o d a : callable o fs → promise o s = Some (d, a) → is_Some (known (ch s) !! a) →
    is_Some (dyn_states (ch s) !! a) → artifacts (ch s) !! a = None →
    mstep (fs, s) (bd_body d :: fs,
      log (ECall o) (set_reent (reent s || bool_decide (o ∈ stack s)) (set_stack (o :: stack s) s)))
| ms_edge fs s u du ua S h w k d wa : stack s = u :: S → objs s !! u = Some (du, ua) →
    promise w s = Some (d, wa) → is_Some (known (ch s) !! wa) →
    mstep (PResolve h w k :: fs, s) (PResolve h w k :: fs, log (EResolve u w) (set_ch (add_edge ua wa (ch s)) s))
| ms_got fs s u S h w k d wa rv : stack s = u :: S → promise w s = Some (d, wa) →
    (∃ e, artifacts (ch s) !! wa = Some e ∧ rv = conv h (ar_bin e)) ∨
    (∃ e t, rv = RvErr e ∧ trace s = EFailed w e :: t) →
    is_Some (known (ch s) !! wa) →
    (∃ du ua X, objs s !! u = Some (du, ua) ∧ dependents (ch s) !! wa = Some X ∧ ua ∈ X) →
    mstep (PResolve h w k :: fs, s) (k rv :: fs, log (EGot u w rv) s)
| ms_state fs s u du ua S k v : stack s = u :: S → objs s !! u = Some (du, ua) →
    dyn_states (ch s) !! ua = Some v → mstep (PState k :: fs, s) (k (ds_val v) :: fs, s)
| ms_set fs s u du ua S v p : stack s = u :: S → objs s !! u = Some (du, ua) →
    is_Some (dyn_states (ch s) !! ua) →
    mstep (PSetState v p :: fs, s) (p :: fs, set_ch (set_dyn_states <[ua := Dst (bd_sty du) v]> (ch s)) s)
| ms_tick fs s k : mstep (PAsk k :: fs, s) (k (e_ask E (tick s)) :: fs, tock s)
| ms_newbin fs s v k : mstep (PNewBin v k :: fs, s) (k (Bin (nbin s) v) :: fs, set_nbin (N.succ (nbin s)) s)
| ms_alloc fs s d o k s' : alloc E d s = Some (o, s') → mstep (PNew d k :: fs, s) (k o :: fs, s')
| ms_drop fs s w p s' : drop_obj w s = Some s' → mstep (PDrop w p :: fs, s) (p :: fs, s')
| ms_ok fs s u d ua S b : stack s = u :: S → objs s !! u = Some (d, ua) →
    mstep (PRet (Ok b) :: fs, s)
      (fs, set_stack S (log (EBuilt u b) (set_ch (set_artifacts <[ua := Art (bd_aty d) b]> (ch s)) s)))
| ms_fail fs s u S e : stack s = u :: S → mstep (PRet (Err e) :: fs, s) (fs, set_stack S (log (EFailed u e) s)).
Notation msteps := (rtc mstep).

Lemma mstep_prims fs s fs' s' : mstep (fs, s) (fs', s') → prims s s'.
Proof.
  intros H. inversion H; subst; try (by apply rtc_refl); apply rtc_once;
    [by eapply pm_know|by eapply pm_dyn|by eapply pm_push|by eapply pm_edge|by eapply pm_got|by eapply pm_set|
     apply pm_tick|apply pm_newbin|by eapply pm_alloc|by eapply pm_drop|by eapply pm_ok|by eapply pm_fail].
Qed.
Lemma msteps_prims c c' : msteps c c' → prims c.2 c'.2.
Proof.
  induction 1 as [[fs s]|[fs s] [fs1 s1] [fs2 s2] H1 H2 IH]; [apply rtc_refl|]. cbn in *.
  eapply rtc_transitive; [by eapply mstep_prims|done].
Qed.

(** One program for each builder being built. *)
Lemma msteps_length c c' : msteps c c' → length (stack c.2) = length c.1 → length (stack c'.2) = length c'.1.
Proof.
  induction 1 as [c|[fs s] [fs' s'] c'' Hm _ IH]; [done|]. intros Hl. apply IH. clear IH. cbn in *.
  inversion Hm; subst; cbn in *; try done; try congruence;
    try match goal with H : stack s = _ |- _ => rewrite H in Hl; cbn in Hl; lia end.
  - match goal with H : alloc _ _ _ = _ |- _ => by apply alloc_Some in H as (_ & -> & _) end.
  - match goal with H : drop_obj _ _ = _ |- _ => by apply drop_Some in H as (_ & _ & ->) end.
Qed.

(** Induction over machine runs from states that satisfy the invariant. *)
Lemma msteps_ind_inv (P : list prog → st → Prop) fs s fs' s' :
  Inv s → (∀ f1 s1 f2 s2, Inv s1 → mstep (f1, s1) (f2, s2) → P f1 s1 → P f2 s2) →
  msteps (fs, s) (fs', s') → P fs s → P fs' s'.
Proof.
  intros I Hs Hm. remember (fs, s) as c eqn:Hc. remember (fs', s') as c' eqn:Hc'. revert fs s Hc I fs' s' Hc'.
  induction Hm as [c|c [f1 s1] c'' H1 H2 IH]; intros fs s -> I fs' s' Hc' HP.
  - by simplify_eq.
  - eapply (IH f1 s1 eq_refl); [|done|].
    + eapply prims_Inv; [by eapply mstep_prims|done].
    + by eapply Hs.
Qed.

(** Runs that keep the lowest [n] frames. *)
Definition mstepk (n : nat) (c c' : list prog * st) : Prop := mstep c c' ∧ n ≤ length c.1.
Notation mstepsk n := (rtc (mstepk n)).
Lemma mstepsk_msteps n c c' : mstepsk n c c' → msteps c c'.
Proof. apply rtc_subrel. by intros ?? []. Qed.
Lemma mstepsk_S n c c' : mstepsk (S n) c c' → mstepsk n c c'.
Proof. apply rtc_subrel. intros ?? []. split; [done|lia]. Qed.
Lemma mstepsk_ind_inv n (P : list prog → st → Prop) fs s fs' s' :
  Inv s → (∀ f1 s1 f2 s2, Inv s1 → Inv s2 → n ≤ length f1 → mstep (f1, s1) (f2, s2) → P f1 s1 → P f2 s2) →
  mstepsk n (fs, s) (fs', s') → P fs s → P fs' s'.
Proof.
  intros I Hs Hm. remember (fs, s) as c eqn:Hc. remember (fs', s') as c' eqn:Hc'. revert fs s Hc I fs' s' Hc'.
  induction Hm as [c|c [f1 s1] c'' [H1 Hl] H2 IH]; intros fs s -> I fs' s' Hc' HP.
  - by simplify_eq.
  - assert (Inv s1) as I1 by (eapply prims_Inv; [by eapply mstep_prims|done]).
    eapply (IH f1 s1 eq_refl); [done|done|]. exact (Hs fs s f1 s1 I I1 Hl H1 HP).
Qed.

(** ** Builds are machine runs *)
Definition stuckk (n : nat) (fs : list prog) : Prop := stuck fs ∧ n ≤ length fs.
Definition bld_ms (bld : obj → st → outcome bres) : Prop :=
  ∀ o s d a fs, callable o fs → promise o s = Some (d, a) → artifacts (ch s) !! a = None → objs_wf s →
    (∀ r s', bld o s = Done r s' → mstepsk (length fs) (fs, s) (fs, s')) ∧
    (∀ s', bld o s = Panic PkUser s' → ∃ fs', mstepsk (length fs) (fs, s) (fs', s') ∧ stuckk (length fs) fs').

Lemma get_with_ms bld h o s fs :
  bld_ms bld → objs_wf s → callable o fs →
  (∀ r s', get_with E bld h o s = Done r s' → mstepsk (length fs) (fs, s) (fs, s')) ∧
  (∀ s', get_with E bld h o s = Panic PkUser s' → ∃ fs', mstepsk (length fs) (fs, s) (fs', s') ∧ stuckk (length fs) fs').
Proof.
  intros Hb Hwf Hc. unfold get_with. destruct (promise o s) as [[d a]|] eqn:Hp; [|by split].
  destruct (how_legal E h); [|by split].
  unfold lookup_art. destruct (artifacts (ch s) !! a) as [e|] eqn:He.
  - assert (mstepsk (length fs) (fs, s) (fs, s)) by apply rtc_refl.
    destruct (e_dbg E && _); [split; naive_solver|]. destruct (ar_ty e =? bd_aty d)%N; split; naive_solver.
  - destruct (Hb o s d a fs Hc Hp He Hwf) as [B1 B2].
    destruct (bld o s) as [[e|e] s1|k s1| |]; try (by split).
    + pose proof (B1 _ _ eq_refl). destruct (ar_ty e =? bd_aty d)%N; split; naive_solver.
    + pose proof (B1 _ _ eq_refl). split; naive_solver.
    + split; [done|]. intros s' [= -> <-]. by apply B2.
Qed.

Lemma exec_ms bld u du ua S fs :
  bld_ok E bld → bld_ms bld → ∀ p s, objs_wf s → stack s = u :: S → objs s !! u = Some (du, ua) →
  (∀ r s', exec E bld u ua (bd_sty du) p s = Done r s' → mstepsk (Datatypes.S (length fs)) (p :: fs, s) (PRet r :: fs, s')) ∧
  (∀ s', exec E bld u ua (bd_sty du) p s = Panic PkUser s' → ∃ fs', mstepsk (Datatypes.S (length fs)) (p :: fs, s) (fs', s') ∧ stuckk (Datatypes.S (length fs)) fs').
Proof.
  intros Hok Hb p.
  induction p as [r| |h w k IH|k IH|v p IH|k IH|v k IH|d k IH|w p IH]; intros s Hwf Hst Hu; cbn [exec].
  - split; [|done]. intros r' s' [= <- <-]. apply rtc_refl.
  - split; [done|]. intros s' [= <-]. eexists. split; [apply rtc_refl|]. split; [by left|done].
  - unfold resolve_with. destruct (promise w s) as [[d wa]|] eqn:Hp; [|by split].
    set (sk := set_ch (make_known wa w (ch s)) s).
    assert (mstepk (Datatypes.S (length fs)) (PResolve h w k :: fs, s) (PResolve h w k :: fs, sk)) as M1 by (split; [by eapply ms_know|done]).
    unfold track_dependency. destruct (e_dbg E && _); [by split|].
    set (s1 := log (EResolve u w) (set_ch (add_edge ua wa (make_known wa w (ch s))) s)).
    change (log (EResolve u w) _) with s1.
    assert (mstepk (Datatypes.S (length fs)) (PResolve h w k :: fs, sk) (PResolve h w k :: fs, s1)) as M2.
    { split; [|done]. eapply (ms_edge fs sk); try done. apply make_known_known. }
    assert (mstepsk (Datatypes.S (length fs)) (PResolve h w k :: fs, s) (PResolve h w k :: fs, s1)) as M01
      by (eapply rtc_l; [exact M1|by apply rtc_once]).
    pose proof (msteps_prims _ _ (mstepsk_msteps _ _ _ M01)) as P01. cbn in P01.
    pose proof (prims_objs_wf E _ _ P01 Hwf) as Hwf1.
    destruct (get_with_ms bld h w s1 (PResolve h w k :: fs) Hb Hwf1) as [G1 G2]; [by eexists _, _|].
    destruct (get_with_prims E bld h w s1 Hok Hwf1) as [Q1 Q2].
    destruct (get_with E bld h w s1) as [rv s2|pk s2| |] eqn:Hgw; [| |by split|by split].
    + pose proof (G1 _ _ eq_refl) as M12. destruct (Q2 _ _ eq_refl) as (Hst2 & d' & a' & Hp2 & Hrv).
      assert (prims s1 s2) as P12 by (apply Q1; left; eauto).
      apply promise_Some in Hp as Hp'. destruct Hp' as [_ Hw].
      assert (objs s2 !! w = Some (d, wa)) as Hw2.
      { eapply (prims_objs E s1 s2); [exact P12|exact Hwf1|exact Hw]. }
      apply promise_Some in Hp2 as Hp2'. destruct Hp2' as [_ Hw2'].
      assert (d' = d ∧ a' = wa) as [-> ->] by (split; congruence).
      assert (objs s2 !! u = Some (du, ua)) as Hu2.
      { eapply (prims_objs E s1 s2); [exact P12|exact Hwf1|exact Hu]. }
      assert (mstepk (Datatypes.S (length fs)) (PResolve h w k :: fs, s2) (k rv :: fs, log (EGot u w rv) s2)) as M23.
      { split; [|done]. eapply ms_got; [by rewrite Hst2|exact Hp2|exact Hrv| |].
        - assert (∀ x y, prims x y → is_Some (known (ch x) !! wa) → is_Some (known (ch y) !! wa)) as Hkn.
          { induction 1; eauto using prim_known_some. }
          eapply Hkn; [exact P12|]. cbn. apply make_known_known.
        - assert (edge s2 ua wa) as (X & HX & Hin).
          { eapply (prims_edge E); [exact P12|]. unfold edge. cbn. unfold insert_in. rewrite lookup_insert.
            eexists. split; [done|]. set_solver. }
          by exists du, ua, X. }
      assert (mstepsk (Datatypes.S (length fs)) (PResolve h w k :: fs, s) (k rv :: fs, log (EGot u w rv) s2)) as M03.
      { eapply rtc_transitive; [exact M01|]. eapply rtc_r; [exact M12|exact M23]. }
      destruct (IH rv (log (EGot u w rv) s2)) as [X1 X2].
      * exact (prims_objs_wf E _ _ (msteps_prims _ _ (mstepsk_msteps _ _ _ M03)) Hwf).
      * cbn. by rewrite Hst2.
      * exact Hu2.
      * split; [intros r s' H; eapply rtc_transitive; [exact M03|by apply X1]|].
        intros s' H. destruct (X2 _ H) as (fs' & ? & ?). exists fs'. split; [|done]. eapply rtc_transitive; [exact M03|done].
    + split; [done|]. intros s' [= -> <-]. destruct (G2 _ eq_refl) as (fs' & M12 & ?).
      exists fs'. split; [|done]. eapply rtc_transitive; [exact M01|exact M12].
  - destruct (my_state _ _ _ _) as [pk|v] eqn:Hm.
    + split; [done|]. intros s' [= -> <-]. by apply my_state_calm in Hm.
    + assert (mstepk (Datatypes.S (length fs)) (PState k :: fs, s) (k v :: fs, s)) as M1.
      { split; [|done]. unfold my_state in Hm. destruct (_ && _); [done|].
        destruct (dyn_states (ch s) !! ua) as [e|] eqn:He; [|done].
        destruct (_ =? _)%N; [|done]. injection Hm as <-. by eapply ms_state. }
      destruct (IH v s Hwf Hst Hu) as [X1 X2]. split; [intros r s' H; eapply rtc_l; [exact M1|by apply X1]|].
      intros s' H. destruct (X2 _ H) as (fs' & ? & ?). exists fs'. split; [|done]. eapply rtc_l; [exact M1|done].
  - destruct (my_state _ _ _ _) as [pk|v'] eqn:Hm.
    + split; [done|]. intros s' [= -> <-]. by apply my_state_calm in Hm.
    + set (s1 := set_ch _ s).
      assert (mstepk (Datatypes.S (length fs)) (PSetState v p :: fs, s) (p :: fs, s1)) as M1.
      { split; [|done]. eapply ms_set; try done. unfold my_state in Hm. destruct (_ && _); [done|].
        destruct (dyn_states (ch s) !! ua); [eauto|done]. }
      destruct (IH s1 Hwf Hst Hu) as [X1 X2]. split; [intros r s' H; eapply rtc_l; [exact M1|by apply X1]|].
      intros s' H. destruct (X2 _ H) as (fs' & ? & ?). exists fs'. split; [|done]. eapply rtc_l; [exact M1|done].
  - destruct (IH (e_ask E (tick s)) (tock s) Hwf Hst Hu) as [X1 X2].
    split; [intros r s' H; eapply rtc_l; [split; [apply ms_tick|done]|by apply X1]|].
    intros s' H. destruct (X2 _ H) as (fs' & ? & ?). exists fs'. split; [|done]. eapply rtc_l; [split; [apply ms_tick|done]|done].
  - destruct (IH (Bin (nbin s) v) (set_nbin (N.succ (nbin s)) s) Hwf Hst Hu) as [X1 X2].
    split; [intros r s' H; eapply rtc_l; [split; [apply ms_newbin|done]|by apply X1]|].
    intros s' H. destruct (X2 _ H) as (fs' & ? & ?). exists fs'. split; [|done]. eapply rtc_l; [split; [apply ms_newbin|done]|done].
  - destruct (alloc E d s) as [[o s1]|] eqn:Ha; [|by split].
    assert (mstepk (Datatypes.S (length fs)) (PNew d k :: fs, s) (k o :: fs, s1)) as M1 by (split; [by apply ms_alloc|done]).
    assert (prim s s1) as P1 by (by eapply pm_alloc).
    destruct (IH o s1) as [X1 X2].
    + by eapply prim_objs_wf.
    + by apply alloc_Some in Ha as (_ & -> & _).
    + by eapply prim_objs.
    + split; [intros r s' H; eapply rtc_l; [exact M1|by apply X1]|].
      intros s' H. destruct (X2 _ H) as (fs' & ? & ?). exists fs'. split; [|done]. eapply rtc_l; [exact M1|done].
  - destruct (drop_obj w s) as [s1|] eqn:Ha; [|by split].
    assert (mstepk (Datatypes.S (length fs)) (PDrop w p :: fs, s) (p :: fs, s1)) as M1 by (split; [by apply ms_drop|done]).
    assert (prim s s1) as P1 by (by eapply pm_drop).
    destruct (IH s1) as [X1 X2].
    + by eapply prim_objs_wf.
    + by apply drop_Some in Ha as (_ & _ & ->).
    + by eapply prim_objs.
    + split; [intros r s' H; eapply rtc_l; [exact M1|by apply X1]|].
      intros s' H. destruct (X2 _ H) as (fs' & ? & ?). exists fs'. split; [|done]. eapply rtc_l; [exact M1|done].
Qed.

Lemma ensure_ms o s d a c2 r fs :
  promise o s = Some (d, a) →
  ensure_dyn_state a o (bd_sty d) (bd_init d) (make_known a o (ch s)) = (c2, r) →
  mstepsk (length fs) (fs, s) (fs, set_ch c2 s).
Proof.
  intros Hp. unfold ensure_dyn_state. rewrite make_known_idem.
  assert (mstepk (length fs) (fs, s) (fs, set_ch (make_known a o (ch s)) s)) as Hk by (split; [eapply ms_know; eauto|done]).
  pose proof (make_known_known a o (ch s)) as Hkn.
  destruct (make_known_fields a o (ch s)) as (Ha & Hs & _).
  destruct (dyn_states (make_known a o (ch s)) !! a) as [v|] eqn:Hv.
  - destruct (_ =? _)%N; intros [= <- <-]; by apply rtc_once.
  - destruct (bd_init d) as [v|] eqn:Hi; intros [= <- <-]; [|by apply rtc_once].
    eapply rtc_l; [exact Hk|]. apply rtc_once. split; [|done]. eapply (ms_dyn fs (set_ch (make_known a o (ch s)) s)); eauto.
Qed.

Lemma build_ms fuel : bld_ms (build E fuel).
Proof.
  induction fuel as [|fuel IH]; intros o s d a fs Hcl Hp Hna Hwf; cbn [build]; [by split|].
  rewrite Hp. destruct d as [aty sty init body].
  destruct (e_dbg E && _); [by split|].
  destruct (ensure_dyn_state a o sty init (make_known a o (ch s))) as [c2 r] eqn:He.
  destruct (ensure_prims E o s (BDef aty sty init body) a c2 r Hp He) as (P1 & Pa & Pk & Pd).
  pose proof (ensure_ms o s (BDef aty sty init body) a c2 r fs Hp He) as M1.
  destruct r as [k|v].
  { split; [done|]. intros s' [= -> <-]. exists fs. split; [done|]. split; [|done].
    destruct fs as [|p fs]; [done|]. destruct Hcl as (h & k & ->). right. eauto. }
  apply promise_Some in Hp as Hp'. destruct Hp' as [Hal Ho].
  set (s1 := log _ _).
  assert (mstepsk (length fs) (fs, s) (body :: fs, s1)) as M01.
  { eapply rtc_r; [exact M1|]. split; [|done]. apply (ms_push fs (set_ch c2 s) o (BDef aty sty init body) a); try done. cbn. congruence. }
  pose proof (prims_objs_wf E _ _ (msteps_prims _ _ (mstepsk_msteps _ _ _ M01)) Hwf) as Hwf1. cbn [snd] in Hwf1.
  destruct (exec_ms (build E fuel) o (BDef aty sty init body) a (stack s) fs (build_bld_ok E fuel) IH body s1) as [X1 X2]; try done.
  destruct (exec_prims E (build E fuel) o (BDef aty sty init body) a (stack s) (build_bld_ok E fuel) body s1) as [Y1 Y2]; try done.
  cbn [bd_sty] in X1, X2, Y1, Y2.
  destruct (exec E (build E fuel) o a sty body s1) as [[b|e] s2|k s2| |] eqn:Hx; try (by split).
  - assert (mstepsk (length fs) (fs, s) (PRet (Ok b) :: fs, s2)) as M02 by (eapply rtc_transitive; [exact M01|by apply mstepsk_S, X1]).
    pose proof (Y2 _ _ eq_refl) as Hst2. cbn in Hst2.
    cbn [artifacts set_artifacts]. rewrite lookup_insert. split; [|done]. intros r s' [= <- <-].
    eapply rtc_r; [exact M02|]. split; [|cbn; lia]. eapply (ms_ok fs s2 o (BDef aty sty init body) a (stack s) b); [done|].
    exact (prims_objs E _ _ _ _ (msteps_prims _ _ (mstepsk_msteps _ _ _ M02)) Hwf Ho).
  - assert (mstepsk (length fs) (fs, s) (PRet (Err e) :: fs, s2)) as M02 by (eapply rtc_transitive; [exact M01|by apply mstepsk_S, X1]).
    pose proof (Y2 _ _ eq_refl) as Hst2. cbn in Hst2. split; [|done]. intros r s' [= <- <-].
    eapply rtc_r; [exact M02|]. split; [|cbn; lia]. by eapply ms_fail.
  - split; [done|]. intros s' [= -> <-]. destruct (X2 _ eq_refl) as (fs' & M12 & Hstk & Hln). exists fs'.
    split; [|split; [done|lia]]. eapply rtc_transitive; [exact M01|by apply mstepsk_S].
Qed.

Lemma get_ms fuel h o s s' :
  Inv s →
  (∀ r, get E fuel h o s = Done r s' → msteps ([], s) ([], s')) ∧
  (∀ k, get E fuel h o s = Panic k s' → ∃ fs', msteps ([], s) (fs', s') ∧ stuck fs').
Proof.
  intros I. destruct (get_with_ms (build E fuel) h o s [] (build_ms fuel) (i_wf _ I)) as [G1 G2]; [done|].
  split; [intros r H; exact (mstepsk_msteps _ _ _ (G1 r s' H))|]. intros k H.
  pose proof (get_user E fuel h o s I k s' H) as ->. destruct (G2 s' H) as (fs' & M & ? & _). exists fs'. split; [by eapply mstepsk_msteps|done].
Qed.

(** ** Steps *)
Lemma step_ms n x s s' :
  Inv s → stack s = [] → goes (step E n x s) s' →
  match x with
  | OGet h o => ∃ fs', msteps ([], s) (fs', s') ∧ stuck fs'
  | OGetMut o f => (adds [] s s' ∧ writes s o f s' ∧ stack s' = []) ∨
      ∃ s1 s2 fs', Inv s1 ∧ stack s1 = [] ∧ adds [] s s1 ∧ cached s1 o = None ∧
         (same s s1 ∨ forgets s (eq o) (λ _, False) s1) ∧
         msteps ([], s1) (fs', s2) ∧ stuck fs' ∧ (s' = s2 ∨ (fs' = [] ∧ adds [] s2 s' ∧ writes s2 o f s' ∧ stack s' = []))
  | _ => True
  end.
Proof.
  intros I Hst Hg.
  assert (∀ r, step E n x s = Done r s' → stack s' = []) as Hend by (intros r Hr; by apply (step_Inv E n x s r s' I Hst Hr)).
  destruct x as [d|o|h o|o f|h o|o f|o|o f|o|o|o| | | |o| ]; try done; unfold goes in Hg.
  - cbn [step] in Hg. destruct (get_ms n h o s s' I) as [G1 G2].
    destruct (get E n h o s) as [r s1|k s1| |] eqn:Hq; [| |by gd..].
    + exists []. split; [|done]. apply (G1 r). by gd.
    + apply (G2 k). by gd.
  - destruct (e_kind E) eqn:Hk; [cbn [step] in Hg; unfold op_get_mut in Hg; rewrite Hk in Hg; by gd|].
    destruct (promise o s) as [[d a]|] eqn:Hp;
      [|cbn [step] in Hg; unfold op_get_mut in Hg; rewrite Hk, Hp in Hg; by gd].
    apply promise_live in Hp as Hl.
    destruct (op_get_mut_effect E n o f s I Hst Hl Hk) as (H1 & H2 & H3).
    assert (∀ u, depends s u o → u = o) as Hno.
    { intros u Hu. destruct (decide (u = o)) as [|Hne]; [done|].
      destruct H1 as [s1 Heq]; [by exists u|]. rewrite Heq in Hg. by gd. }
    assert (depends s o o ∨ ¬ depends s o o) as Hdec.
    { pose proof (self_dependent s o d a I Hp). destruct (decide (dep_rel (ch s) a a)); tauto. }
    assert (cached s o = None ∨ depends s o o ∨ (∃ b, cached s o = Some b ∧ ∀ u, ¬ depends s u o)) as Hcase.
    { destruct (cached s o) as [b|]; [|auto]. right. destruct Hdec; [auto|]. right. exists b. split; [done|].
      intros u Hu. assert (u = o) as -> by auto. done. }
    assert ((∃ b, cached s o = Some b ∧ ∀ u, ¬ depends s u o) ∨ (cached s o = None ∨ depends s o o))
      as [(b & Hb & Hnd)|Hor] by tauto.
    { left. destruct (H2 b Hnd Hb) as (s1 & Heq & Hw & Ht). rewrite Heq in Hg.
      destruct Hg as [[r [= _ <-]]|(? & ? & ?)]; [|done]. eauto. }
    right. destruct (H3 Hno Hor) as (s1 & I1 & Hst1 & Htr & Hal & Hc1 & Hm).
    assert (cached s1 o = None) as Hn1.
    { destruct Hc1 as [[Hd Hs]|[Hd Hf]].
      - rewrite (fg_kept _ _ _ _ Hs) by tauto. tauto.
      - by apply (fg_gone _ _ _ _ Hf). }
    assert (same s s1 ∨ forgets s (eq o) (λ _, False) s1) as Hsf by tauto.
    cbn [step] in Hm, Hg. pose proof (λ s2, get_ms n HRef o s1 s2 I1) as Hms.
    
    destruct (get E n HRef o s1) as [r s2|k s2| |] eqn:Hq; [| |rewrite Hm in Hg; gd..].
    + pose proof (proj1 (Hms s2) _ eq_refl) as M. exists s1, s2, []. do 7 (split; [done|]).
      destruct r as [b|v|e].
      * left. rewrite Hm in Hg. by gd.
      * destruct Hm as (s3 & Heq & Hw & Ht). rewrite Heq in Hg.
        destruct Hg as [[r [= _ <-]]|(? & ? & ?)]; [|done]. right. eauto.
      * left. rewrite Hm in Hg. by gd.
    + destruct (proj2 (Hms s2) _ eq_refl) as (fs' & M & Hstk). exists s1, s2, fs'. do 7 (split; [done|]).
      left. rewrite Hm in Hg. by gd.
Qed.

(** ** Invariants by machine steps *)
Definition runless (x : op) : Prop := match x with OGet _ _ | OGetMut _ _ => False | _ => True end.
Lemma mach_reach (P : st → op → Prop) (K : list prog → st → Prop) s0 l s :
  Inv s0 → stack s0 = [] → K [] s0 →
  (∀ fs s fs' s', Inv s → Inv s' → mstep (fs, s) (fs', s') → K fs s → K fs' s') →
  (∀ fs s, K fs s → stuck fs → K [] (unwound s)) →
  (∀ n x s s', Inv s → stack s = [] → P s x → runless x → goes (step E n x s) s' → K [] s → K [] (unwound s')) →
  (∀ s o f s', Inv s → Inv s' → stack s = [] → stack s' = [] → adds [] s s' → same s s' ∨ forgets s (eq o) (λ _, False) s' → P s (OGetMut o f) → K [] s → K [] s') →
  (∀ s0 s o f s', Inv s → stack s = [] → stack s' = [] → P s0 (OGetMut o f) → adds [] s s' → writes s o f s' → K [] s → K [] s') →
  runs E P s0 l s → K [] s.
Proof.
  intros I0 Hst0 K0 Hm Hu Hr Hf Hw.
  apply (runs_inv E P (K []) s0 l s I0 Hst0 K0).
  intros n x s1 s' I Hst HK HP Hg.
  assert (∀ t fs fs' t', Inv t → rtc mstep (fs, t) (fs', t') → K fs t → K fs' t') as Hms.
  { intros t fs fs' t' It M. refine (msteps_ind_inv K fs t fs' t' It _ M). intros f1 t1 f2 t2 I1 H1.
    apply Hm; [done| |done]. eapply prims_Inv; [by eapply mstep_prims|done]. }
  assert (∀ t fs fs' t', Inv t → rtc mstep (fs, t) (fs', t') → Inv t') as Hmi.
  { intros t fs fs' t' It M. eapply prims_Inv; [exact (msteps_prims _ _ M)|done]. }
  pose proof (step_ms n x s1 s' I Hst Hg) as He.
  destruct x as [d|o|h o|o f|h o|o f|o|o f|o|o|o| | | |o| ]; try (by eapply Hr).
  - destruct He as (fs' & M & Hstk). apply (Hu fs'); eauto.
  - destruct He as [(Ha & Hwr & Hst2)|(t1 & t2 & fs' & I1 & Hst1 & Ha & Hc & Hsf & M & Hstk & Hcase)].
    + apply (Hu []); [|done]. by eapply Hw.
    + assert (K fs' t2) as H2 by (eapply Hms; [exact I1|exact M|]; eapply Hf; [exact I|exact I1|done|exact Hst1|exact Ha|exact Hsf|exact HP|exact HK]).
      destruct Hcase as [->|(-> & Ha2 & Hwr & Hst2)]; [by eapply Hu|].
      apply (Hu []); [|done]. eapply Hw; [| |exact Hst2|exact HP|exact Ha2|exact Hwr|exact H2].
      { eapply Hmi; [exact I1|exact M]. }
      pose proof (msteps_length _ _ M) as Hlen. cbn in Hlen. rewrite Hst1 in Hlen. specialize (Hlen eq_refl). by destruct (stack t2).
Qed.
End Machine.
