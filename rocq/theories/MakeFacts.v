(** Builders that make builders: proofs. *)
From Verif Require Export MakeSpec EvalFacts Facts3.
From stdpp Require Import relations.

(** Evaluation that only follows recorded dependencies [D]. *)
Section MvD.
Context (D : obj → obj → Prop) (B : obj → option bdef) (σ : obj → option val) (par : obj → option obj).
Inductive mvD : obj → eres → Prop :=
| mvd_noinit o d : B o = Some d → σ o = None → mvD o EvPanic
| mvd_body o d v r : B o = Some d → σ o = Some v → mvD_body o v [] (bd_body d) r → mvD o r
with mvD_body : obj → val → list obj → prog → eres → Prop :=
| mbd_ret u v X r : mvD_body u v X (PRet r) (EvRet r)
| mbd_panic u v X : mvD_body u v X PPanic EvPanic
| mbd_resolve u v X h w k x r : D u w → mvD w (EvRet x) → mvD_body u v X (k (handed h x)) r → mvD_body u v X (PResolve h w k) r
| mbd_resolve_panic u v X h w k : D u w → mvD w EvPanic → mvD_body u v X (PResolve h w k) EvPanic
| mbd_state u v X k r : mvD_body u v X (k v) r → mvD_body u v X (PState k) r
| mbd_newbin u v X x k p r : mvD_body u v X (k (Bin p x)) r → mvD_body u v X (PNewBin x k) r
| mbd_new u v X d k o r : B o = Some d → par o = Some u → o ∉ X → mvD_body u v (o :: X) (k o) r → mvD_body u v X (PNew d k) r
| mbd_drop u v X w p r : mvD_body u v X p r → mvD_body u v X (PDrop w p) r.
Scheme mvD_mut := Induction for mvD Sort Prop with mvD_body_mut := Induction for mvD_body Sort Prop.
Combined Scheme mvD_both from mvD_mut, mvD_body_mut.

Lemma mvD_gives : (∀ o r, mvD o r → gives B σ par o r) ∧ (∀ u v X p r, mvD_body u v X p r → gives_body B σ par u v X p r).
Proof.
  apply (mvD_both (λ o r _, gives B σ par o r) (λ u v X p r _, gives_body B σ par u v X p r)); intros; try (by econstructor).
Qed.
End MvD.

(** Away from [F], which is closed under users. *)
Lemma mvD_change (D D' : obj → obj → Prop) B B' σ σ' par par' (F : obj → Prop) :
  (∀ u w, D u w → F w → F u) →
  (∀ u w, D u w → ¬ F u → D' u w) →
  (∀ o d, B o = Some d → B' o = Some d) →
  (∀ o d, ¬ F o → B o = Some d → σ' o = σ o) →
  (∀ o d, B o = Some d → par' o = par o) →
  (∀ o r, mvD D B σ par o r → ¬ F o → mvD D' B' σ' par' o r) ∧
  (∀ u v X p r, mvD_body D B σ par u v X p r → ¬ F u → mvD_body D' B' σ' par' u v X p r).
Proof.
  intros Hcl HD HB Hσ Hpar.
  apply (mvD_both D B σ par (λ o r _, ¬ F o → mvD D' B' σ' par' o r) (λ u v X p r _, ¬ F u → mvD_body D' B' σ' par' u v X p r));
    intros; try (by constructor; auto).
  - eapply mvd_noinit; [by eauto|]. by erewrite Hσ by eauto.
  - eapply mvd_body; [by eauto| |by auto]. by erewrite Hσ by eauto.
  - eapply mbd_resolve; eauto.
  - eapply mbd_resolve_panic; eauto.
  - eapply mbd_newbin; eauto.
  - eapply (mbd_new _ _ _ _ _ _ _ d k o); [by eauto| |done|auto]. by erewrite Hpar.
Qed.

Section MakeFacts.
Context (E : env).
Notation prim := (prim E).
Notation prims := (rtc prim).
Implicit Types par : obj → option obj.

Definition mv_at par (s : st) (o : obj) (r : eres) : Prop := mvD (depends s) (defs s) (config s) par o r.
Definition mvb_at par (s : st) (u : obj) (v : val) (X : list obj) (p : prog) (r : eres) : Prop :=
  mvD_body (depends s) (defs s) (config s) par u v X p r.
Definition makeinv par (s : st) : Prop :=
  (∀ o d a, objs s !! o = Some (d, a) → making (bd_body d)) ∧
  (∀ u b, cached s u = Some b → mv_at par s u (EvRet (Ok b))).

(** From [s] to [s'] builders have run. *)
Definition mgrow par par' (s s' : st) : Prop :=
  (∀ o x, objs s !! o = Some x → objs s' !! o = Some x) ∧
  (∀ o x, objs s !! o = Some x → config s' o = config s o) ∧
  (∀ u w, depends s u w → depends s' u w) ∧
  (∀ o x, objs s !! o = Some x → par' o = par o).
Lemma mgrow_refl par s : mgrow par par s s.
Proof. done. Qed.
Lemma mgrow_trans par par1 par2 s s1 s2 : mgrow par par1 s s1 → mgrow par1 par2 s1 s2 → mgrow par par2 s s2.
Proof.
  intros (A1 & A2 & A3 & A4) (B1 & B2 & B3 & B4). split_and!; [by eauto| |by auto|].
  - intros o x Ho. rewrite (B2 o x) by eauto. by eapply A2.
  - intros o x Ho. rewrite (B4 o x) by eauto. by eapply A4.
Qed.
Lemma pgrow_mgrow par s s' : pgrow s s' → mgrow par par s s'.
Proof. intros (A1 & A2 & A3). split_and!; [by rewrite A1|done..]. Qed.
Lemma defs_objs s o d : defs s o = Some d → ∃ a, objs s !! o = Some (d, a).
Proof. unfold defs. destruct (objs s !! o) as [[d' a]|]; [|done]. cbn. intros [= <-]. eauto. Qed.
Lemma objs_defs s o d a : objs s !! o = Some (d, a) → defs s o = Some d.
Proof. unfold defs. by intros ->. Qed.

Lemma mgrow_mvD par par' s s' : mgrow par par' s s' →
  (∀ o r, mv_at par s o r → mv_at par' s' o r) ∧
  (∀ u v X p r, mvb_at par s u v X p r → mvb_at par' s' u v X p r).
Proof.
  intros (A1 & A2 & A3 & A4).
  destruct (mvD_change (depends s) (depends s') (defs s) (defs s') (config s) (config s') par par' (λ _, False)) as [H1 H2];
    try done; eauto.
  { intros o d (a & Ho)%defs_objs. eapply objs_defs. eauto. }
  { intros o d _ (a & Ho)%defs_objs. eauto. }
  { intros o d (a & Ho)%defs_objs. eauto. }
  split; intros; [apply H1|apply H2]; try done; by intros [].
Qed.

Lemma mgrow_makeinv par par' s s' :
  mgrow par par' s s' → objs s' = objs s → (∀ o, cached s' o = cached s o) → makeinv par s → makeinv par' s'.
Proof.
  intros Hg Ho Hc [H1 H2]. split; [by rewrite Ho|].
  intros u b. rewrite Hc. intros Hb. by apply (mgrow_mvD par par' s s' Hg), H2.
Qed.

Lemma makeinv_ext par s s' :
  makeinv par s → objs s' = objs s → ch s' = ch s → makeinv par s' ∧ mgrow par par s s'.
Proof.
  intros HP Ho Hc.
  assert (mgrow par par s s') as Hg.
  { apply pgrow_mgrow. split_and!; [done| |].
    - intros o. apply config_ext; [done|]. unfold state_of. by rewrite Ho, Hc.
    - intros u w. unfold depends, at_addr. by rewrite Ho, Hc. }
  split; [|done]. eapply mgrow_makeinv; [exact Hg|done| |exact HP]. intros o. unfold cached. by rewrite Ho, Hc.
Qed.

(** A new builder. *)
Lemma alloc_grow par d s o s' q :
  Inv s → makeinv par s → making (bd_body d) → alloc E d s = Some (o, s') →
  let par' := (λ w, if decide (w = o) then q else par w) in
  makeinv par' s' ∧ mgrow par par' s s' ∧ objs s !! o = None ∧ defs s' o = Some d ∧ Inv s' ∧ stack s' = stack s.
Proof.
  intros I [H1 H2] Hm Ha par'.
  assert (prim s s') as Hp by (by eapply pm_alloc).
  assert (Inv s') as I' by (by eapply prim_Inv).
  apply alloc_Some in Ha as (-> & -> & _). set (s' := St _ _ _ _ _ _ _ _ _) in *.
  assert (objs s !! nobj s = None) as Hfr.
  { destruct (objs s !! nobj s) eqn:Hq; [|done]. apply (i_num _ I) in Hq. lia. }
  assert (mgrow par par' s s') as G.
  { split_and!.
    - intros o x Ho. cbn. rewrite lookup_insert_ne; [done|]. congruence.
    - intros o x Ho. assert (o ≠ nobj s) as Hne by congruence. unfold config, state_of, initial. cbn.
      by rewrite lookup_insert_ne.
    - intros u w Hd. apply (prims_dep_mono E s); [done|by apply rtc_once|done].
    - intros o x Ho. unfold par'. rewrite decide_False; [done|congruence]. }
  split_and!; [|done|done| |done|done].
  - split.
    + intros o' d' a'. cbn. intros [[<- [= <- <-]]|[_ ?]]%lookup_insert_Some; [done|]. by eapply H1.
    + intros u b Hb. rewrite (prim_cached_exact E s s' [] u I Hp eq_refl) in Hb. by apply (mgrow_mvD par par' s s' G), H2.
  - unfold defs. cbn. by rewrite lookup_insert.
Qed.

Definition make_out {A} par (s : st) (x : outcome A) (R : (obj → option obj) → A → st → Prop) (P : (obj → option obj) → st → Prop) : Prop :=
  (∀ a s', x = Done a s' → ∃ par', makeinv par' s' ∧ mgrow par par' s s' ∧ R par' a s') ∧
  (∀ k s', x = Panic k s' → ∃ par', makeinv par' s' ∧ mgrow par par' s s' ∧ P par' s').

Definition bld_make (bld : obj → st → outcome bres) : Prop :=
  ∀ par o s d a, Inv s → makeinv par s → promise o s = Some (d, a) → artifacts (ch s) !! a = None →
    make_out par s (bld o s) (λ par' r s', mv_at par' s' o (EvRet (res_of r))) (λ par' s', mv_at par' s' o EvPanic).

Lemma get_with_make bld par h o s :
  bld_user bld → bld_make bld → Inv s → makeinv par s →
  make_out par s (get_with E bld h o s)
    (λ par' rv s', ∃ x, mv_at par' s' o (EvRet x) ∧ rv = handed h x) (λ par' s', mv_at par' s' o EvPanic).
Proof.
  intros Hu Hb I HP. unfold get_with. destruct (promise o s) as [[d a]|] eqn:Hp; [|by split].
  destruct (how_legal E h); [|by split].
  rewrite (lookup_art_ok _ o s d a I Hp).
  destruct (artifacts (ch s) !! a) as [e|] eqn:He.
  - split; [|done]. intros r s' [= <- <-]. exists par. split_and!; [done|apply mgrow_refl|]. exists (Ok (ar_bin e)).
    split; [|done]. apply HP. by rewrite (live_cached s o d a I Hp), He.
  - destruct (Hb par o s d a I HP Hp He) as [H1 H2]. destruct (Hu o s d a I Hp He) as [U1 U2].
    destruct (bld o s) as [[e|e] s1|k s1| |]; [..|by split|by split].
    + rewrite (U2 _ _ eq_refl), N.eqb_refl. split; [|done]. intros r s' [= <- <-].
      destruct (H1 _ _ eq_refl) as (par' & ? & ? & ?). exists par'. split_and!; [done..|]. by exists (Ok (ar_bin e)).
    + split; [|done]. intros r s' [= <- <-]. destruct (H1 _ _ eq_refl) as (par' & ? & ? & ?). exists par'.
      split_and!; [done..|]. by exists (Err e).
    + split; [done|]. intros k' s' [= <- <-]. by apply (H2 _ _ eq_refl).
Qed.

Lemma exec_make bld u du ua S v :
  bld_ok E bld → bld_user bld → bld_make bld → ∀ p X par s, making p → Inv s → makeinv par s →
  stack s = u :: S → objs s !! u = Some (du, ua) → config s u = Some v →
  (∀ o, o ∈ X → is_Some (objs s !! o)) →
  make_out par s (exec E bld u ua (bd_sty du) p s)
    (λ par' r s', mvb_at par' s' u v X p (EvRet r)) (λ par' s', mvb_at par' s' u v X p EvPanic).
Proof.
  intros Hb Hbu Hbp p.
  induction p as [r| |h w k IH|k IH|v' p IH|k IH|v' k IH|d k IH|w p IH]; intros X par s Hpp I HP Hst Hu Hv HX; cbn [exec]; try done.
  - split; [|done]. intros r' s' [= <- <-]. exists par. split_and!; [done|apply mgrow_refl|constructor].
  - split; [done|]. intros k' s' [= <- <-]. exists par. split_and!; [done|apply mgrow_refl|constructor].
  - cbn in Hpp. unfold resolve_with. destruct (promise w s) as [[d wa]|] eqn:Hp; [|by split].
    unfold track_dependency.
    destruct (i_stack _ I u) as (_ & d' & a' & Hu' & Hku & Hdu); [rewrite Hst; left|].
    assert (a' = ua ∧ d' = du) as [-> ->] by (split; congruence).
    assert (prim s (set_ch (make_known wa w (ch s)) s)) as P1 by (eapply pm_know; eauto).
    pose proof (prim_Inv E _ _ P1 I) as I1.
    assert (known (make_known wa w (ch s)) !! ua = Some u) as Hku1 by (by apply make_known_mono).
    unfold is_known. rewrite (bool_decide_eq_true_2 (is_Some _)) by (rewrite Hku1; eauto).
    rewrite andb_false_r.
    set (s1 := log (EResolve u w) (set_ch (add_edge ua wa (make_known wa w (ch s))) s)).
    assert (prim (set_ch (make_known wa w (ch s)) s) s1) as P2.
    { eapply (pm_edge E (set_ch (make_known wa w (ch s)) s)); try done. apply make_known_known. }
    assert (prims s s1) as P01 by (eapply rtc_l; [exact P1|by apply rtc_once]).
    pose proof (prim_Inv E _ _ P2 I1) as I2.
    assert (depends s1 u w) as Hd1.
    { apply (prims_depends E s s1 [EResolve u w] u w I P01); [done|]. right. left. }
    assert (mgrow par par s s1) as G01.
    { apply pgrow_mgrow. split_and!; [done| |].
      - intros o. apply config_ext; [done|]. apply state_ext; [done..| |].
        + cbn. by destruct (make_known_fields wa w (ch s)) as (_ & -> & _).
        + intros a o' Hk. cbn. by apply make_known_mono.
      - intros u' w'. by apply (prims_dep_mono E). }
    assert (makeinv par s1) as HP1.
    { eapply mgrow_makeinv; [exact G01|done| |exact HP]. intros o.
      eapply (prims_cached_same E s s1 [EResolve u w]); [done..|]. set_solver. }
    pose proof (get_with_make bld par h w s1 Hbu Hbp I2 HP1) as [H1 H2].
    pose proof (get_with_prims E bld h w s1 Hb (i_wf _ I2)) as [Q1 Q2].
    change (log (EResolve u w) _) with s1.
    destruct (get_with E bld h w s1) as [rv s2|pk s2| |] eqn:Hgw; [..|by split|by split].
    + destruct (H1 _ _ eq_refl) as (par2 & HP2 & G12 & x & Hx & ->).
      assert (prims s1 s2) as P12 by (apply Q1; left; eauto).
      assert (Inv s2) as I2' by (by eapply prims_Inv).
      set (s3 := log (EGot u w (handed h x)) s2).
      destruct (makeinv_ext par2 s2 s3 HP2) as [HP3 G23]; [done..|].
      assert (mgrow par par2 s s3) as G03 by (eapply mgrow_trans; [exact G01|eapply mgrow_trans; [exact G12|exact G23]]).
      assert (Inv s3) as I3 by (by apply Inv_log).
      destruct (Q2 _ _ eq_refl) as [Hst2 _].
      destruct (IH (handed h x) X par2 s3) as [X1 X2]; try done.
      { cbn. by rewrite Hst2. } { by apply G03. }
      { destruct G03 as (_ & A2 & _). by rewrite (A2 u _ Hu). }
      { intros o [y Hy]%HX. exists y. by apply G03. }
      assert (∀ par' s', mgrow par2 par' s3 s' → depends s' u w ∧ mv_at par' s' w (EvRet x)) as Hlater.
      { intros par' s' G. split.
        - apply G, G23, G12, Hd1.
        - apply (mgrow_mvD par2 par' s3 s' G). apply (mgrow_mvD par2 par2 s2 s3 G23). exact Hx. }
      split.
      * intros r s' Hr. destruct (X1 r s' Hr) as (par' & Y1 & Y2 & Y3). destruct (Hlater par' s' Y2) as [Z1 Z2].
        exists par'. split_and!; [done|by eapply mgrow_trans|]. by eapply mbd_resolve.
      * intros r s' Hr. destruct (X2 r s' Hr) as (par' & Y1 & Y2 & Y3). destruct (Hlater par' s' Y2) as [Z1 Z2].
        exists par'. split_and!; [done|by eapply mgrow_trans|]. by eapply mbd_resolve.
    + destruct (H2 _ _ eq_refl) as (par2 & HP2 & G12 & Hx). split; [done|]. intros k' s' [= <- <-]. exists par2.
      split_and!; [done|by eapply mgrow_trans|]. eapply mbd_resolve_panic; [|exact Hx]. apply G12, Hd1.
  - cbn in Hpp. destruct (i_stack _ I u) as (_ & d' & a' & Hu' & Hku & [v' Hv']); [rewrite Hst; left|].
    assert (a' = ua ∧ d' = du) as [-> ->] by (split; congruence).
    unfold my_state, is_known. rewrite Hku, Hv'.
    rewrite (bool_decide_eq_true_2 (is_Some (Some u))) by eauto. rewrite !andb_false_r.
    rewrite (ci_dyn_ty _ _ (i_c _ I) ua v' u du Hv' Hku Hu), N.eqb_refl.
    assert (ds_val v' = v) as ->.
    { unfold config in Hv. rewrite (state_at s u du ua Hu Hku), Hv' in Hv. cbn in Hv. congruence. }
    destruct (IH v X par s) as [X1 X2]; try done. split.
    + intros r s' Hr. destruct (X1 r s' Hr) as (par' & Y1 & Y2 & Y3). exists par'. split_and!; [done..|]. by apply mbd_state.
    + intros r s' Hr. destruct (X2 r s' Hr) as (par' & Y1 & Y2 & Y3). exists par'. split_and!; [done..|]. by apply mbd_state.
  - cbn in Hpp. set (s1 := set_nbin _ s). destruct (makeinv_ext par s s1 HP) as [HP1 G01]; [done..|].
    assert (Inv s1) as I1 by (eapply prim_Inv; [apply (pm_newbin E)|done]).
    destruct (IH (Bin (nbin s) v') X par s1) as [X1 X2]; try done.
    split.
    + intros r s' Hr. destruct (X1 r s' Hr) as (par' & Y1 & Y2 & Y3). exists par'. split_and!; [done..|]. by eapply mbd_newbin.
    + intros r s' Hr. destruct (X2 r s' Hr) as (par' & Y1 & Y2 & Y3). exists par'. split_and!; [done..|]. by eapply mbd_newbin.
  - cbn [making] in Hpp. destruct Hpp as [Hmd Hpp].
    assert (making (bd_body d)) as Hmb by (by destruct d).
    destruct (alloc E d s) as [[o s1]|] eqn:Ha; [|by split].
    destruct (alloc_grow par d s o s1 (Some u) I HP Hmb Ha) as (HP1 & G01 & Hfr & Hdef & I1 & Hst1).
    set (par1 := λ w, if decide (w = o) then Some u else par w) in *.
    assert (par1 o = Some u) as Hpo by (unfold par1; by rewrite decide_True).
    assert (o ∉ X) as HoX by (intros Hin; destruct (HX o Hin); congruence).
    destruct (IH o (o :: X) par1 s1) as [X1 X2]; try done.
    { by rewrite Hst1. } { by apply G01. }
    { destruct G01 as (_ & A2 & _). by rewrite (A2 u _ Hu). }
    { intros w [->|Hw]%elem_of_cons.
      - apply defs_objs in Hdef as [a ->]. eauto.
      - destruct (HX w Hw) as [y Hy]. exists y. by apply G01. }
    assert (∀ par' s', mgrow par1 par' s1 s' → defs s' o = Some d ∧ par' o = Some u) as Hlater.
    { intros par' s' (A1 & _ & _ & A4). apply defs_objs in Hdef as [a Hoa]. split.
      - eapply objs_defs. by apply A1.
      - by rewrite (A4 o _ Hoa). }
    split.
    + intros r s' Hr. destruct (X1 r s' Hr) as (par' & Y1 & Y2 & Y3). destruct (Hlater par' s' Y2) as [Z1 Z2].
      exists par'. split_and!; [done|by eapply mgrow_trans|]. by eapply mbd_new.
    + intros r s' Hr. destruct (X2 r s' Hr) as (par' & Y1 & Y2 & Y3). destruct (Hlater par' s' Y2) as [Z1 Z2].
      exists par'. split_and!; [done|by eapply mgrow_trans|]. by eapply mbd_new.
  - cbn [making] in Hpp. destruct (drop_obj w s) as [s1|] eqn:Ha; [|by split].
    assert (Inv s1) as I1 by (eapply prim_Inv; [by eapply (pm_drop E)|done]).
    apply drop_Some in Ha as (_ & _ & ->). set (s1 := set_alive _ s) in *.
    destruct (makeinv_ext par s s1 HP) as [HP1 G01]; [done..|].
    destruct (IH X par s1) as [X1 X2]; try done.
    split.
    + intros r s' Hr. destruct (X1 r s' Hr) as (par' & Y1 & Y2 & Y3). exists par'. split_and!; [done..|]. by eapply mbd_drop.
    + intros r s' Hr. destruct (X2 r s' Hr) as (par' & Y1 & Y2 & Y3). exists par'. split_and!; [done..|]. by eapply mbd_drop.
Qed.

Lemma build_make n : bld_make (build E n).
Proof.
  induction n as [|n IH]; intros par o s d a I HP Hp Hn; [by split|]. cbn [build]. rewrite Hp.
  destruct d as [aty sty init body] eqn:Hd. unfold contains_artifact. rewrite Hn.
  rewrite (bool_decide_eq_false_2 (is_Some None)) by (intros [? ?]; done). rewrite andb_false_r.
  apply promise_Some in Hp as Hp'. destruct Hp' as [Hal Ho].
  set (sk := set_ch (make_known a o (ch s)) s).
  assert (prim s sk) as Pk by (eapply pm_know; eauto).
  assert (Inv sk) as Ik by (eapply prim_Inv; [exact Pk|done]).
  assert (pgrow s sk) as Gk.
  { split_and!; [done| |].
    - intros o'. apply config_ext; [done|]. apply state_ext; [done..| |].
      + cbn. by destruct (make_known_fields a o (ch s)) as (_ & -> & _).
      + intros a' o'' Hk. cbn. by apply make_known_mono.
    - intros u' w'. apply (prims_dep_mono E); [done|]. by apply rtc_once. }
  assert (makeinv par sk) as HPk.
  { eapply mgrow_makeinv; [by apply pgrow_mgrow|done| |exact HP]. intros o'.
    eapply (prims_cached_same E s sk []); [done|by apply rtc_once|done|set_solver]. }
  destruct (ensure_effect E o sk d a Ik) as (c2 & I2 & Hm); [by subst d|].
  assert (defs s o = Some d) as Hdef by (unfold defs; rewrite Ho; by subst d).
  assert (∀ v, sets_state sk o v (set_ch c2 sk) → v = config sk o → pgrow sk (set_ch c2 sk) ∧ makeinv par (set_ch c2 sk)) as Hss.
  { intros v Hs Hv. assert (pgrow sk (set_ch c2 sk)) as G.
    { split_and!; [done| |].
      - intros w. destruct (decide (w = o)) as [->|Hne].
        + unfold config at 1. rewrite (ss_state _ _ _ _ Hs), Hv. destruct (config sk o) eqn:Hc; [done|].
          unfold config in Hc. destruct (state_of sk o); [done|]. exact Hc.
        + apply config_ext; [done|]. by apply (ss_others _ _ _ _ Hs).
      - intros u w H. by apply (ss_depends _ _ _ _ Hs). }
    split; [done|]. eapply mgrow_makeinv; [by apply pgrow_mgrow|done| |exact HPk]. apply (ss_cached _ _ _ _ Hs). }
  assert (initial sk o = bd_init d) as Hini by (unfold initial; cbn; rewrite Ho; by subst d).
  subst d. cbn [bd_sty bd_init] in *. change (ch sk) with (make_known a o (ch s)) in Hm.
  assert ((∃ v, ensure_dyn_state a o sty init (make_known a o (ch s)) = (c2, inr v) ∧ config sk o = Some v ∧ sets_state sk o (Some v) (set_ch c2 sk)) ∨
    (ensure_dyn_state a o sty init (make_known a o (ch s)) = (c2, inl PkUser) ∧ config sk o = None ∧ sets_state sk o None (set_ch c2 sk))) as Hcase.
  { unfold config. rewrite Hini. destruct (state_of sk o) as [v|] eqn:Hst; [destruct Hm; eauto|].
    destruct init as [v|]; destruct Hm; eauto. }
  clear Hm. destruct Hcase as [(v & He & Hcfg & Hs)|(He & Hcfg & Hs)]; rewrite He.
  2: { destruct (Hss None Hs) as [G HP2]; [congruence|]. split; [done|]. intros k s' [= <- <-].
       assert (pgrow s (set_ch c2 s)) as G02 by (eapply pgrow_trans; [exact Gk|exact G]).
       exists par. split_and!; [exact HP2|by apply pgrow_mgrow|].
       eapply (mvd_noinit _ _ _ _ o (BDef aty sty init body)).
       - unfold defs. cbn. by rewrite Ho.
       - destruct G02 as (_ & -> & _). by destruct Gk as (_ & <- & _). }
  destruct (Hss (Some v) Hs) as [G HP2]; [congruence|].
  set (s1 := log _ _).
  destruct (makeinv_ext par (set_ch c2 sk) s1 HP2) as [HP1 G21]; [done..|].
  assert (mgrow par par s s1) as G01.
  { eapply mgrow_trans; [by apply pgrow_mgrow|eapply mgrow_trans; [by apply pgrow_mgrow|exact G21]]. }
  destruct (ensure_prims E o s (BDef aty sty init body) a c2 (inr v) Hp) as (E1 & Ea & Ek & Ed).
  { exact He. }
  assert (prims s s1) as P01.
  { eapply rtc_r; [exact E1|]. eapply (pm_push E (set_ch c2 s)); eauto. cbn. congruence. }
  assert (Inv s1) as I1 by (by eapply prims_Inv).
  assert (config s1 o = Some v) as Hc1.
  { destruct G01 as (_ & A2 & _). rewrite (A2 o _ Ho). by destruct Gk as (_ & <- & _). }
  assert (making body) as Hpp by (apply (proj1 HP o _ a Ho)).
  destruct (exec_make (build E n) o (BDef aty sty init body) a (stack s) v (build_bld_ok E n) (build_user E n) IH
    body [] par s1 Hpp I1 HP1 eq_refl Ho Hc1) as [X1 X2]; [by intros ? ?%elem_of_nil|].
  destruct (exec_prims E (build E n) o (BDef aty sty init body) a (stack s) (build_bld_ok E n) body s1) as [Y1 Y2];
    [exact (i_wf _ I1)|done..|].
  cbn [bd_sty] in *.
  assert (∀ par' s', mgrow par par' s s' → defs s' o = Some (BDef aty sty init body) ∧ config s' o = Some v) as Hfin0.
  { intros par' s' (A1 & A2 & _). split; [eapply objs_defs; by apply A1|]. rewrite (A2 o _ Ho). by destruct Gk as (_ & <- & _). }
  destruct (exec E (build E n) o a sty body s1) as [[b|e] s2|k s2| |] eqn:Hx; [..|by split|by split].
  - destruct (X1 _ _ eq_refl) as (par' & HP' & G12 & Hev).
    assert (prims s1 s2) as P12 by (apply Y1; left; eauto).
    assert (Inv s2) as I2' by (by eapply prims_Inv).
    cbn [artifacts set_artifacts]. rewrite lookup_insert. split; [|done]. intros r s' [= <- <-].
    set (s3 := set_stack _ _).
    assert (prim s2 s3) as P23.
    { assert (stack s2 = o :: stack s) as Hst2 by (by rewrite (Y2 _ _ eq_refl)).
      eapply (pm_ok E s2 o (BDef aty sty init body) a (stack s) b); [exact Hst2|].
      by apply G12. }
    assert (mgrow par' par' s2 s3) as G23.
    { apply pgrow_mgrow. split_and!; [done| |].
      - intros o'. by apply config_ext.
      - intros u w. apply (prims_dep_mono E); [done|]. by apply rtc_once. }
    assert (mgrow par par' s s3) as G03 by (eapply mgrow_trans; [exact G01|eapply mgrow_trans; [exact G12|exact G23]]).
    destruct (Hfin0 _ _ G03) as [Z1 Z2].
    assert (mv_at par' s3 o (EvRet (Ok b))) as Hfin.
    { eapply (mvd_body _ _ _ _ o (BDef aty sty init body) v); [done..|].
      by apply (mgrow_mvD par' par' s2 s3 G23). }
    exists par'. split_and!; [|done|exact Hfin]. split.
    + apply HP'.
    + intros u b' Hc. rewrite (prim_cached_exact E s2 s3 [EBuilt o b] u I2' P23 eq_refl) in Hc.
      destruct (decide (o = u)) as [->|Hne].
      * injection Hc as <-. exact Hfin.
      * apply (mgrow_mvD par' par' s2 s3 G23). by apply HP'.
  - destruct (X1 _ _ eq_refl) as (par' & HP' & G12 & Hev). split; [|done]. intros r s' [= <- <-].
    set (s3 := set_stack _ _). destruct (makeinv_ext par' s2 s3 HP') as [HP3 G23]; [done..|].
    assert (mgrow par par' s s3) as G03 by (eapply mgrow_trans; [exact G01|eapply mgrow_trans; [exact G12|exact G23]]).
    destruct (Hfin0 _ _ G03) as [Z1 Z2].
    exists par'. split_and!; [done..|]. eapply (mvd_body _ _ _ _ o (BDef aty sty init body) v); [done..|].
    by apply (mgrow_mvD par' par' s2 s3 G23).
  - destruct (X2 _ _ eq_refl) as (par' & HP' & G12 & Hev). split; [done|]. intros k' s' [= <- <-].
    assert (mgrow par par' s s2) as G02 by (eapply mgrow_trans; [exact G01|exact G12]).
    destruct (Hfin0 _ _ G02) as [Z1 Z2].
    exists par'. split_and!; [done..|]. by eapply (mvd_body _ _ _ _ o (BDef aty sty init body) v).
Qed.

Lemma get_make par n h o s :
  Inv s → makeinv par s →
  make_out par s (get E n h o s) (λ par' rv s', ∃ x, mv_at par' s' o (EvRet x) ∧ rv = handed h x) (λ par' s', mv_at par' s' o EvPanic).
Proof. intros I HP. apply get_with_make; [apply build_user|apply build_make|done|done]. Qed.

(** ** Histories *)
Lemma forgets_makeinv par s s' (F G : obj → Prop) :
  forgets s F G s' → (∀ u w, depends s u w → F w → F u) → (∀ o, G o → F o) → makeinv par s → makeinv par s'.
Proof.
  intros Hf Hcl HGF [H1 H2]. split; [rewrite (fg_objs _ _ _ _ Hf); exact H1|]. intros u b Hb.
  assert (¬ F u) as Hu by (intros HF; rewrite (fg_gone _ _ _ _ Hf) in Hb; done).
  rewrite (fg_kept _ _ _ _ Hf) in Hb by done.
  refine (proj1 (mvD_change (depends s) (depends s') (defs s) (defs s') (config s) (config s') par par F Hcl _ _ _ _) u _ (H2 u b Hb) Hu).
  - intros u' w' Hd Hn. apply (fg_depends _ _ _ _ Hf). split_and!; [done..|]. eauto.
  - intros o d. unfold defs. by rewrite (fg_objs _ _ _ _ Hf).
  - intros o d Hn _. apply config_ext; [apply (fg_objs _ _ _ _ Hf)|]. apply (fg_state_kept _ _ _ _ Hf). auto.
  - done.
Qed.

Lemma step_make par n x s s' :
  Inv s → stack s = [] → making_op s x → goes (step E n x s) s' → makeinv par s →
  ∃ par', makeinv par' (unwound s') ∧ (∀ o y, objs s !! o = Some y → par' o = par o) ∧
    (∀ d o, x = OAlloc d → step E n x s = Done (OutObj o) s' → par' o = None).
Proof.
  intros I Hst Hop Hg HP. pose proof (step_effect E n x s s' I Hst Hg) as He.
  assert (∀ par', makeinv par' s' → makeinv par' (unwound s')) as Hun by (intros par' H; by apply (makeinv_ext par' s')).
  assert ((∀ d, x ≠ OAlloc d) → makeinv par s' → ∃ par', makeinv par' (unwound s') ∧ (∀ o y, objs s !! o = Some y → par' o = par o) ∧
    (∀ d o, x = OAlloc d → step E n x s = Done (OutObj o) s' → par' o = None)) as Hsame.
  { intros Hx Hs. exists par. split_and!; [by apply Hun|done|]. intros d o ->. by edestruct Hx. }
  assert (∀ o, ∀ u w, depends s u w → affected s o w → affected s o u) as Hcl.
  { intros o u w Hd Ha. by eapply rtc_r. }
  destruct x as [d|o|h o|o f|h o|o f|o|o f|o|o|o| | | |o| ]; cbn [effect_of] in He; try (by subst);
    try (apply Hsame; [done|by subst]).
  - clear Hsame. unfold goes in Hg. cbn [step] in Hg |- *. destruct (alloc E d s) as [[o s1]|] eqn:Ha; [|by gd].
    destruct Hg as [[? [= _ <-]]|(? & ? & ?)]; [|done]. cbn in Hop.
    destruct (alloc_grow par d s o s1 None I HP) as (HP1 & G & _); [by destruct d|done|].
    eexists. split_and!; [apply Hun; exact HP1|apply G|]. intros d' o' _ [= <-]. cbn. by rewrite decide_True.
  - apply Hsame; [done|]. unfold goes in Hg. cbn [step] in Hg. destruct (drop_obj o s) as [s1|] eqn:Ha; [|by gd].
    destruct Hg as [[? [= _ <-]]|(? & ? & ?)]; [|done]. apply drop_Some in Ha as (_ & _ & ->). by apply (makeinv_ext par s).
  - clear He Hsame. pose proof (get_make par n h o s I HP) as [H1 H2]. unfold goes in Hg. cbn [step] in Hg.
    destruct (get E n h o s) as [rv s1|k s1| |]; [..|by gd|by gd].
    + destruct Hg as [[? [= _ <-]]|(? & ? & ?)]; [|done].
      destruct (H1 _ _ eq_refl) as (par2 & Y1 & Y2 & _). exists par2. split_and!; [exact (Hun par2 Y1)|apply Y2|done].
    + destruct Hg as [[? ?]|(? & [= _ <-] & ?)]; [done|].
      destruct (H2 _ _ eq_refl) as (par2 & Y1 & Y2 & _). exists par2. split_and!; [exact (Hun par2 Y1)|apply Y2|done].
  - apply Hsame; [done|]. destruct He as (Hl & [->|(Hnone & Hs & Ha)]); [done|].
    assert (pgrow s s') as G.
    { split_and!; [apply (ss_objs _ _ _ _ Hs)| |].
      - intros w. destruct (decide (w = o)) as [->|Hne].
        + unfold config. rewrite (ss_state _ _ _ _ Hs), Hnone. destruct (initial s o) eqn:Hi; [done|].
          unfold initial in *. by rewrite (ss_objs _ _ _ _ Hs).
        + apply config_ext; [apply (ss_objs _ _ _ _ Hs)|by apply (ss_others _ _ _ _ Hs)].
      - intros u w H. by apply (ss_depends _ _ _ _ Hs). }
    eapply mgrow_makeinv; [by apply pgrow_mgrow|apply (ss_objs _ _ _ _ Hs)|apply (ss_cached _ _ _ _ Hs)|done].
  - apply Hsame; [done|]. destruct He as (Hl & s1 & Hf & Ha & Hs). destruct HP as [H1 H2].
    assert (objs s' = objs s) as Ho by (rewrite (ss_objs _ _ _ _ Hs); apply (fg_objs _ _ _ _ Hf)).
    split; [by rewrite Ho|]. intros u b Hb. rewrite (ss_cached _ _ _ _ Hs) in Hb.
    assert (¬ affected s o u) as Hu by (intros HF; rewrite (fg_gone _ _ _ _ Hf) in Hb; done).
    rewrite (fg_kept _ _ _ _ Hf) in Hb by done.
    refine (proj1 (mvD_change (depends s) (depends s') (defs s) (defs s') (config s) (config s') par par (affected s o) (Hcl o) _ _ _ _) u _ (H2 u b Hb) Hu).
    + intros u' w' Hd Hn. apply (ss_depends _ _ _ _ Hs), (fg_depends _ _ _ _ Hf). split_and!; [done..|]. eauto.
    + intros o' d. unfold defs. by rewrite Ho.
    + intros o' d Hn _. apply config_ext; [done|]. rewrite (ss_others _ _ _ _ Hs), (fg_state_kept _ _ _ _ Hf); [done|tauto|].
      intros ->. apply Hn. apply rtc_refl.
    + done.
  - apply Hsame; [done|]. destruct He as (_ & Hf & _). eapply forgets_makeinv; [exact Hf|apply Hcl|done|done].
  - apply Hsame; [done|]. destruct He as (_ & Hf & _). eapply forgets_makeinv; [exact Hf|apply Hcl| |done]. intros ? <-. apply rtc_refl.
  - apply Hsame; [done|]. destruct He as (Hf & _). eapply forgets_makeinv; [exact Hf|done|done|done].
  - apply Hsame; [done|]. destruct He as (Hf & _). eapply forgets_makeinv; [exact Hf|done|done|done].
  - apply Hsame; [done|]. destruct He as [(Hf & _)| ->]; [|by apply (makeinv_ext par s)]. eapply forgets_makeinv; [exact Hf| |done|done].
    intros u w Hd (_ & _ & Hn). by apply Hn in Hd.
Qed.
End MakeFacts.

(** ** What is given is unique up to names *)
Scheme gives_mut := Induction for gives Sort Prop with gives_body_mut := Induction for gives_body Sort Prop.
Combined Scheme gives_both from gives_mut, gives_body_mut.

Lemma same_handed R h x x' : same_res R x x' → same_rval R (handed h x) (handed h x').
Proof.
  intros [b b' Hb|e e' He]; cbn; [|by constructor]. destruct h; cbn; by constructor.
Qed.

Lemma gives_same R B B' σ σ' par par' :
  correspond R B B' σ σ' par par' →
  (∀ o r, gives B σ par o r → ∀ o' r', R o o' → gives B' σ' par' o' r' → same_eres R r r') ∧
  (∀ u v X c r, gives_body B σ par u v X c r → ∀ u' v' X' c' r', R u u' → same_val R v v' → acts_as R c c' →
     gives_body B' σ' par' u' v' X' c' r' → same_eres R r r').
Proof.
  intros [HB Hs Hm].
  apply (gives_both B σ par (λ o r _, ∀ o' r', R o o' → gives B' σ' par' o' r' → same_eres R r r')
    (λ u v X c r _, ∀ u' v' X' c' r', R u u' → same_val R v v' → acts_as R c c' →
     gives_body B' σ' par' u' v' X' c' r' → same_eres R r r')).
  - intros o d Hd Hσ o' r' Ho H. inversion H as [? d' Hd' Hσ'|? d' v' ? Hd' Hσ' Hb]; subst; [constructor|].
    exfalso. specialize (Hs o o' Ho). rewrite Hσ, Hσ' in Hs. inversion Hs.
  - intros o d v r Hd Hσ _ IH o' r' Ho H. pose proof (Hs o o' Ho) as Hoo.
    inversion H as [? d' Hd' Hσ'|? d' v' ? Hd' Hσ' Hb]; subst; rewrite Hσ, Hσ' in Hoo; inversion Hoo; subst.
    eapply IH; [exact Ho|done| |exact Hb]. pose proof (HB o o' d d' Ho Hd Hd') as Hag. by inversion Hag.
  - intros u v X r u' v' X' c' r' Hu Hv Ha H. inversion Ha; subst. inversion H; subst. by constructor.
  - intros u v X u' v' X' c' r' Hu Hv Ha H. inversion Ha; subst. inversion H; subst. by constructor.
  - intros u v X h w k x r Hw IHw Hk IHk u' v' X' c' r' Hu Hv Ha H.
    inversion Ha as [| |? ? w' ? k' Hww Hkk| | | |]; subst.
    inversion H as [| |? ? ? ? ? ? x' ? Hw' Hk'|? ? ? ? ? ? Hw'| | | |]; subst.
    + eapply IHk; [exact Hu|exact Hv| |exact Hk']. apply Hkk, same_handed.
      pose proof (IHw _ _ Hww Hw') as Hr. by inversion Hr.
    + pose proof (IHw _ _ Hww Hw') as Hr. inversion Hr.
  - intros u v X h w k Hw IHw u' v' X' c' r' Hu Hv Ha H.
    inversion Ha as [| |? ? w' ? k' Hww Hkk| | | |]; subst.
    inversion H as [| |? ? ? ? ? ? x' ? Hw' Hk'|? ? ? ? ? ? Hw'| | | |]; subst; [|constructor].
    pose proof (IHw _ _ Hww Hw') as Hr. inversion Hr.
  - intros u v X k r Hk IHk u' v' X' c' r' Hu Hv Ha H. inversion Ha; subst. inversion H; subst. eapply IHk; eauto.
  - intros u v X x k p r Hk IHk u' v' X' c' r' Hu Hv Ha H. inversion Ha; subst. inversion H; subst. eapply IHk; eauto.
  - intros u v X d k o r Hd Hpo HX Hk IHk u' v' X' c' r' Hu Hv Ha H.
    inversion Ha as [| | | | |? d' ? k' Hdd Hkk|]; subst.
    inversion H as [| | | | | |? ? ? ? ? o' ? Hd' Hpo' HX' Hk'|]; subst.
    eapply IHk; [exact Hu|exact Hv| |exact Hk']. apply Hkk. by eapply (Hm u u' o o' d d').
  - intros u v X w p r Hk IHk u' v' X' c' r' Hu Hv Ha H. inversion Ha; subst. inversion H; subst. eapply IHk; eauto.
Qed.

(** ** Histories *)
Lemma runs_make E l s :
  runs E making_op init_st l s → ∃ par, makeinv par s ∧ ∀ o, users l o → par o = None ∧ is_Some (objs s !! o).
Proof.
  intros Hr. induction Hr as [|l s n x r s' Hr IH HP Hs|l s n x k s' Hr IH HP Hs Hk].
  - exists (λ _, None). split; [|by intros o (d & ?%elem_of_nil)]. split; [|by intros u b]. intros o d a. cbn. by rewrite lookup_empty.
  - destruct IH as (par & HI & Hu). destruct (runs_Inv E _ _ l s Hr Inv_init eq_refl) as [I Hst].
    assert (goes (step E n x s) s') as Hg by (left; eauto).
    destruct (step_make E par n x s s' I Hst HP Hg HI) as (par' & HI' & Hold & Hnew).
    destruct (step_Inv E n x s r s' I Hst Hs) as [_ Hst'].
    assert (unwound s' = s') as Hun by (destruct s'; cbn in *; by subst). rewrite Hun in HI'.
    exists par'. split; [done|]. intros o (d & [Heq|Hin]%elem_of_cons).
    + injection Heq as <- <-. split; [by eapply Hnew|]. cbn [step] in Hs. destruct (alloc E d s) as [[o1 s1]|] eqn:Ha; [|done].
      injection Hs as -> ->. apply alloc_Some in Ha as (-> & -> & _). cbn. rewrite lookup_insert. eauto.
    + destruct (Hu o) as [H1 [y H2]]; [by exists d|]. rewrite (Hold o y H2). split; [done|].
      exists y. by eapply (objs_mono E n x o y s).
  - destruct IH as (par & HI & Hu). destruct (runs_Inv E _ _ l s Hr Inv_init eq_refl) as [I Hst].
    assert (goes (step E n x s) s') as Hg by (right; eauto).
    destruct (step_make E par n x s s' I Hst HP Hg HI) as (par' & HI' & Hold & _).
    exists par'. split; [done|]. intros o (d & [Heq|Hin]%elem_of_cons); [done|].
    destruct (Hu o) as [H1 [y H2]]; [by exists d|]. rewrite (Hold o y H2). split; [done|].
    exists y. change (objs s' !! o = Some y). by eapply (objs_mono E n x o y s).
Qed.
