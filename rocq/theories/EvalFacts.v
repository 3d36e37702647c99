(** Cache transparency: proofs. *)
From Verif Require Export EvalSpec DepFacts.
From stdpp Require Import relations.

(** Evaluation that only follows recorded dependencies [D]. *)
Section EvD.
Context (D : obj → obj → Prop) (B : obj → option bdef) (σ : obj → option val).
Inductive evD : obj → eres → Prop :=
| evd_noinit o d : B o = Some d → σ o = None → evD o EvPanic
| evd_body o d v r : B o = Some d → σ o = Some v → evD_body o v (bd_body d) r → evD o r
with evD_body : obj → val → prog → eres → Prop :=
| ebd_ret u v r : evD_body u v (PRet r) (EvRet r)
| ebd_panic u v : evD_body u v PPanic EvPanic
| ebd_resolve u v h w k x r : D u w → evD w (EvRet x) → evD_body u v (k (handed h x)) r → evD_body u v (PResolve h w k) r
| ebd_resolve_panic u v h w k : D u w → evD w EvPanic → evD_body u v (PResolve h w k) EvPanic
| ebd_state u v k r : evD_body u v (k v) r → evD_body u v (PState k) r
| ebd_newbin u v x k p r : evD_body u v (k (Bin p x)) r → evD_body u v (PNewBin x k) r.
Scheme evD_mut := Induction for evD Sort Prop with evD_body_mut := Induction for evD_body Sort Prop.
Combined Scheme evD_both from evD_mut, evD_body_mut.

Lemma evD_evals : (∀ o r, evD o r → evals B σ o r) ∧ (∀ u v p r, evD_body u v p r → evals_body B σ v p r).
Proof.
  apply (evD_both (λ o r _, evals B σ o r) (λ u v p r _, evals_body B σ v p r)); intros; try (by econstructor).
Qed.
End EvD.
Scheme evals_mut := Induction for evals Sort Prop with evals_body_mut := Induction for evals_body Sort Prop.
Combined Scheme evals_both from evals_mut, evals_body_mut.

(** Away from [F], which is closed under users. *)
Lemma evD_change (D D' : obj → obj → Prop) B B' σ σ' (F : obj → Prop) :
  (∀ u w, D u w → F w → F u) →
  (∀ u w, D u w → ¬ F u → D' u w) →
  (∀ o d, ¬ F o → B o = Some d → B' o = Some d) →
  (∀ o d, ¬ F o → B o = Some d → σ' o = σ o) →
  (∀ o r, evD D B σ o r → ¬ F o → evD D' B' σ' o r) ∧
  (∀ u v p r, evD_body D B σ u v p r → ¬ F u → evD_body D' B' σ' u v p r).
Proof.
  intros Hcl HD HB Hσ.
  apply (evD_both D B σ (λ o r _, ¬ F o → evD D' B' σ' o r) (λ u v p r _, ¬ F u → evD_body D' B' σ' u v p r));
    intros; try (by constructor; auto).
  - eapply evd_noinit; [by eauto|]. by erewrite Hσ by eauto.
  - eapply evd_body; [by eauto| |by auto]. by erewrite Hσ by eauto.
  - eapply ebd_resolve; eauto.
  - eapply ebd_resolve_panic; eauto.
  - eapply ebd_newbin; eauto.
Qed.

Section EvalFacts.
Context (E : env).
Notation prim := (prim E).
Notation prims := (rtc prim).

Definition ok_art (s : st) (u : obj) (b : bin) : Prop := evD (depends s) (defs s) (config s) u (EvRet (Ok b)).
Definition pureinv (s : st) : Prop :=
  (∀ o d a, objs s !! o = Some (d, a) → pure_prog (bd_body d)) ∧
  (∀ u b, cached s u = Some b → ok_art s u b).

(** From [s] to [s'] builders have run. *)
Definition pgrow (s s' : st) : Prop :=
  objs s' = objs s ∧ (∀ o, config s' o = config s o) ∧ (∀ u w, depends s u w → depends s' u w).
Lemma pgrow_refl s : pgrow s s.
Proof. done. Qed.
Lemma pgrow_trans s s1 s2 : pgrow s s1 → pgrow s1 s2 → pgrow s s2.
Proof. intros (A1 & A2 & A3) (B1 & B2 & B3). split_and!; [congruence|congruence|auto]. Qed.

Lemma pgrow_evD s s' : pgrow s s' → 
  (∀ o r, evD (depends s) (defs s) (config s) o r → evD (depends s') (defs s') (config s') o r) ∧
  (∀ u v p r, evD_body (depends s) (defs s) (config s) u v p r → evD_body (depends s') (defs s') (config s') u v p r).
Proof.
  intros (A1 & A2 & A3).
  destruct (evD_change (depends s) (depends s') (defs s) (defs s') (config s) (config s') (λ _, False)) as [H1 H2];
    try done; eauto.
  { unfold defs. by rewrite A1. }
  split; intros; [apply H1|apply H2]; try done; by intros [].
Qed.

Lemma pgrow_pureinv s s' : pgrow s s' → (∀ o, cached s' o = cached s o) → pureinv s → pureinv s'.
Proof.
  intros Hg Hc [H1 H2]. split; [destruct Hg as (-> & _); done|].
  intros u b. rewrite Hc. intros Hb. by apply (pgrow_evD s s' Hg), H2.
Qed.

Lemma state_ext s s' o :
  Inv s → objs s' = objs s → dyn_states (ch s') = dyn_states (ch s) →
  (∀ a o, known (ch s) !! a = Some o → known (ch s') !! a = Some o) → state_of s' o = state_of s o.
Proof.
  intros I Ho Hd Hk. unfold state_of. rewrite Ho, Hd. destruct (objs s !! o) as [[d a]|]; [|done].
  destruct (decide (known (ch s') !! a = Some o)) as [H|H], (decide (known (ch s) !! a = Some o)) as [H'|H']; try done.
  - destruct (dyn_states (ch s) !! a) eqn:Hv; [|done]. exfalso.
    destruct (ci_dyn_known _ _ (i_c _ I) a) as [o' Hk']; [eauto|]. apply H'. rewrite Hk'. apply Hk in Hk'. congruence.
  - apply Hk in H'. done.
Qed.
Lemma config_ext s s' o : objs s' = objs s → state_of s' o = state_of s o → config s' o = config s o.
Proof. intros Ho Hs. unfold config, initial. by rewrite Ho, Hs. Qed.

(** The parts of a build. *)
Lemma prims_cached_same s s' l o :
  Inv s → prims s s' → trace s' = l ++ trace s → (∀ u b, EBuilt u b ∉ l) → cached s' o = cached s o.
Proof.
  intros I Hp. revert l. 
  refine (prims_ind_inv E (λ x, ∀ l, trace x = l ++ trace s → (∀ u b, EBuilt u b ∉ l) → cached x o = cached s o) s s' I _ _ Hp).
  - done.
  - intros s1 s2 I1 _ H01 IH H12 l Hl Hn. destruct (prims_trace E s s1 H01) as [l1 Hl1].
    destruct (prim_trace E s1 s2 H12) as [l2 Hl2].
    assert (l = l2 ++ l1) as ->. { rewrite Hl2, Hl1, app_assoc in Hl. by apply app_inv_tail in Hl. }
    rewrite (prim_cached_exact E s1 s2 l2 o I1 H12 Hl2). rewrite <- (IH l1 Hl1) by set_solver.
    destruct l2 as [|[]]; try done. exfalso. eapply (Hn u b). set_solver.
Qed.
Lemma prims_dep_mono s s' u w : Inv s → prims s s' → depends s u w → depends s' u w.
Proof.
  intros I Hp Hd. destruct (prims_trace E s s' Hp) as [l Hl]. apply (prims_depends E s s' l u w I Hp Hl). auto.
Qed.

Lemma pureinv_ext s s' :
  pureinv s → objs s' = objs s → ch s' = ch s → pureinv s' ∧ pgrow s s'.
Proof.
  intros HP Ho Hc.
  assert (pgrow s s') as Hg.
  { split_and!; [done| |].
    - intros o. apply config_ext; [done|]. unfold state_of. by rewrite Ho, Hc.
    - intros u w. unfold depends, at_addr. by rewrite Ho, Hc. }
  split; [|done]. eapply pgrow_pureinv; [exact Hg| |exact HP]. intros o. unfold cached. by rewrite Ho, Hc.
Qed.

Definition pure_out {A} (s : st) (x : outcome A) (R : A → st → Prop) (P : st → Prop) : Prop :=
  (∀ a s', x = Done a s' → pureinv s' ∧ pgrow s s' ∧ R a s') ∧
  (∀ k s', x = Panic k s' → pureinv s' ∧ pgrow s s' ∧ P s').
Definition ev_at (s : st) (o : obj) (r : eres) : Prop := evD (depends s) (defs s) (config s) o r.
Definition evb_at (s : st) (u : obj) (v : val) (p : prog) (r : eres) : Prop :=
  evD_body (depends s) (defs s) (config s) u v p r.
Definition res_of (r : bres) : result := match r with BOk e => Ok (ar_bin e) | BErr e => Err e end.

Definition bld_pure (bld : obj → st → outcome bres) : Prop :=
  ∀ o s d a, Inv s → pureinv s → promise o s = Some (d, a) → artifacts (ch s) !! a = None →
    pure_out s (bld o s) (λ r s', ev_at s' o (EvRet (res_of r))) (λ s', ev_at s' o EvPanic).

Lemma get_with_pure bld h o s :
  bld_user bld → bld_pure bld → Inv s → pureinv s →
  pure_out s (get_with E bld h o s)
    (λ rv s', ∃ x, ev_at s' o (EvRet x) ∧ rv = handed h x) (λ s', ev_at s' o EvPanic).
Proof.
  intros Hu Hb I HP. unfold get_with. destruct (promise o s) as [[d a]|] eqn:Hp; [|by split].
  destruct (how_legal E h); [|by split].
  rewrite (lookup_art_ok _ o s d a I Hp).
  destruct (artifacts (ch s) !! a) as [e|] eqn:He.
  - split; [|done]. intros r s' [= <- <-]. split_and!; [done|apply pgrow_refl|]. exists (Ok (ar_bin e)).
    split; [|done]. apply HP. by rewrite (live_cached s o d a I Hp), He.
  - destruct (Hb o s d a I HP Hp He) as [H1 H2]. destruct (Hu o s d a I Hp He) as [U1 U2].
    destruct (bld o s) as [[e|e] s1|k s1| |]; [..|by split|by split].
    + rewrite (U2 _ _ eq_refl), N.eqb_refl. split; [|done]. intros r s' [= <- <-].
      destruct (H1 _ _ eq_refl) as (? & ? & ?). split_and!; [done..|]. by exists (Ok (ar_bin e)).
    + split; [|done]. intros r s' [= <- <-]. destruct (H1 _ _ eq_refl) as (? & ? & ?). split_and!; [done..|]. by exists (Err e).
    + split; [done|]. intros k' s' [= <- <-]. by apply (H2 _ _ eq_refl).
Qed.

Lemma exec_pure bld u du ua S v :
  bld_ok E bld → bld_user bld → bld_pure bld → ∀ p s, pure_prog p → Inv s → pureinv s →
  stack s = u :: S → objs s !! u = Some (du, ua) → config s u = Some v →
  pure_out s (exec E bld u ua (bd_sty du) p s)
    (λ r s', evb_at s' u v p (EvRet r)) (λ s', evb_at s' u v p EvPanic).
Proof.
  intros Hb Hbu Hbp p.
  induction p as [r| |h w k IH|k IH|v' p IH|k IH|v' k IH|d k IH|w p IH]; intros s Hpp I HP Hst Hu Hv; cbn [exec]; try done.
  - split; [|done]. intros r' s' [= <- <-]. split_and!; [done|apply pgrow_refl|constructor].
  - split; [done|]. intros k' s' [= <- <-]. split_and!; [done|apply pgrow_refl|constructor].
  - cbn in Hpp. unfold resolve_with. destruct (promise w s) as [[d wa]|] eqn:Hp; [|by split].
    unfold track_dependency.
    destruct (i_stack _ I u) as (_ & d' & a' & Hu' & Hku & Hdu); [rewrite Hst; left|].
    assert (a' = ua ∧ d' = du) as [-> ->] by (split; congruence).
    assert (prim s (set_ch (make_known wa w (ch s)) s)) as P1 by (eapply pm_know; eauto).
    pose proof (prim_Inv E _ _ P1 I) as I1.
    assert (known (make_known wa w (ch s)) !! ua = Some u) as Hku1 by (by apply make_known_mono).
    unfold is_known. rewrite (bool_decide_eq_true_2 (is_Some _)) by (rewrite Hku1; eauto).
    rewrite andb_false_r.
    set (s1 := log (EResolve u w) (set_ch (add_edge ua wa (make_known wa w (ch s))) s)).
    assert (prim (set_ch (make_known wa w (ch s)) s) s1) as P2.
    { eapply (pm_edge E (set_ch (make_known wa w (ch s)) s)); try done. apply make_known_known. }
    assert (prims s s1) as P01 by (eapply rtc_l; [exact P1|by apply rtc_once]).
    pose proof (prim_Inv E _ _ P2 I1) as I2.
    assert (depends s1 u w) as Hd1.
    { apply (prims_depends E s s1 [EResolve u w] u w I P01); [done|]. right. left. }
    assert (pgrow s s1) as G01.
    { split_and!; [done| |].
      - intros o. apply config_ext; [done|]. apply state_ext; [done..| |].
        + cbn. by destruct (make_known_fields wa w (ch s)) as (_ & -> & _).
        + intros a o' Hk. cbn. by apply make_known_mono.
      - intros u' w'. by apply prims_dep_mono. }
    assert (pureinv s1) as HP1.
    { eapply pgrow_pureinv; [exact G01| |exact HP]. intros o.
      eapply (prims_cached_same s s1 [EResolve u w]); [done..|]. set_solver. }
    pose proof (get_with_pure bld h w s1 Hbu Hbp I2 HP1) as [H1 H2].
    pose proof (get_with_prims E bld h w s1 Hb (i_wf _ I2)) as [Q1 Q2].
    change (log (EResolve u w) _) with s1.
    destruct (get_with E bld h w s1) as [rv s2|pk s2| |] eqn:Hgw; [..|by split|by split].
    + destruct (H1 _ _ eq_refl) as (HP2 & G12 & x & Hx & ->).
      assert (prims s1 s2) as P12 by (apply Q1; left; eauto).
      assert (Inv s2) as I2' by (by eapply prims_Inv).
      set (s3 := log (EGot u w (handed h x)) s2).
      destruct (pureinv_ext s2 s3 HP2) as [HP3 G23]; [done..|].
      assert (pgrow s s3) as G03 by (eapply pgrow_trans; [exact G01|eapply pgrow_trans; [exact G12|exact G23]]).
      assert (Inv s3) as I3 by (by apply Inv_log).
      destruct (Q2 _ _ eq_refl) as [Hst2 _].
      destruct (IH (handed h x) s3) as [X1 X2]; try done.
      { cbn. by rewrite Hst2. } { destruct G03 as (-> & _). done. } { destruct G03 as (_ & -> & _). done. }
      assert (∀ s', pgrow s3 s' → depends s' u w ∧ ev_at s' w (EvRet x)) as Hlater.
      { intros s' G. split.
        - apply G, G23, G12, Hd1.
        - apply (pgrow_evD s3 s' G). apply (pgrow_evD s2 s3 G23). exact Hx. }
      split.
      * intros r s' Hr. destruct (X1 r s' Hr) as (Y1 & Y2 & Y3). destruct (Hlater s' Y2) as [Z1 Z2].
        split_and!; [done|by eapply pgrow_trans|]. by eapply ebd_resolve.
      * intros r s' Hr. destruct (X2 r s' Hr) as (Y1 & Y2 & Y3). destruct (Hlater s' Y2) as [Z1 Z2].
        split_and!; [done|by eapply pgrow_trans|]. by eapply ebd_resolve.
    + destruct (H2 _ _ eq_refl) as (HP2 & G12 & Hx). split; [done|]. intros k' s' [= <- <-].
      split_and!; [done|by eapply pgrow_trans|]. eapply ebd_resolve_panic; [|exact Hx]. apply G12, Hd1.
  - cbn in Hpp. destruct (i_stack _ I u) as (_ & d' & a' & Hu' & Hku & [v' Hv']); [rewrite Hst; left|].
    assert (a' = ua ∧ d' = du) as [-> ->] by (split; congruence).
    unfold my_state, is_known. rewrite Hku, Hv'.
    rewrite (bool_decide_eq_true_2 (is_Some (Some u))) by eauto. rewrite !andb_false_r.
    rewrite (ci_dyn_ty _ _ (i_c _ I) ua v' u du Hv' Hku Hu), N.eqb_refl.
    assert (ds_val v' = v) as ->.
    { unfold config in Hv. rewrite (state_at s u du ua Hu Hku), Hv' in Hv. cbn in Hv. congruence. }
    destruct (IH v s) as [X1 X2]; try done. split.
    + intros r s' Hr. destruct (X1 r s' Hr) as (Y1 & Y2 & Y3). split_and!; [done..|]. by apply ebd_state.
    + intros r s' Hr. destruct (X2 r s' Hr) as (Y1 & Y2 & Y3). split_and!; [done..|]. by apply ebd_state.
  - cbn in Hpp. set (s1 := set_nbin _ s). destruct (pureinv_ext s s1 HP) as [HP1 G01]; [done..|].
    assert (Inv s1) as I1 by (eapply prim_Inv; [apply (pm_newbin E)|done]).
    destruct (IH (Bin (nbin s) v') s1) as [X1 X2]; try done.
    split.
    + intros r s' Hr. destruct (X1 r s' Hr) as (Y1 & Y2 & Y3). split_and!; [done..|]. by eapply ebd_newbin.
    + intros r s' Hr. destruct (X2 r s' Hr) as (Y1 & Y2 & Y3). split_and!; [done..|]. by eapply ebd_newbin.
Qed.

Lemma build_pure n : bld_pure (build E n).
Proof.
  induction n as [|n IH]; intros o s d a I HP Hp Hn; [by split|]. cbn [build]. rewrite Hp.
  destruct d as [aty sty init body] eqn:Hd. unfold contains_artifact. rewrite Hn.
  rewrite (bool_decide_eq_false_2 (is_Some None)) by (intros [? ?]; done). rewrite andb_false_r.
  apply promise_Some in Hp as Hp'. destruct Hp' as [Hal Ho].
  set (sk := set_ch (make_known a o (ch s)) s).
  assert (prim s sk) as Pk by (eapply pm_know; eauto).
  assert (Inv sk) as Ik by (eapply prim_Inv; [exact Pk|done]).
  assert (pgrow s sk) as Gk.
  { split_and!; [done| |].
    - intros o'. apply config_ext; [done|]. apply state_ext; [done..| |].
      + cbn. by destruct (make_known_fields a o (ch s)) as (_ & -> & _).
      + intros a' o'' Hk. cbn. by apply make_known_mono.
    - intros u' w'. apply prims_dep_mono; [done|]. by apply rtc_once. }
  assert (pureinv sk) as HPk.
  { eapply pgrow_pureinv; [exact Gk| |exact HP]. intros o'.
    eapply (prims_cached_same s sk []); [done|by apply rtc_once|done|set_solver]. }
  destruct (ensure_effect E o sk d a Ik) as (c2 & I2 & Hm); [by subst d|].
  assert (defs s o = Some d) as Hdef by (unfold defs; rewrite Ho; by subst d).
  assert (∀ v, sets_state sk o v (set_ch c2 sk) → v = config sk o → pgrow sk (set_ch c2 sk) ∧ pureinv (set_ch c2 sk)) as Hss.
  { intros v Hs Hv. assert (pgrow sk (set_ch c2 sk)) as G.
    { split_and!; [done| |].
      - intros w. destruct (decide (w = o)) as [->|Hne].
        + unfold config at 1. rewrite (ss_state _ _ _ _ Hs), Hv. destruct (config sk o) eqn:Hc; [done|].
          unfold config in Hc. destruct (state_of sk o); [done|]. exact Hc.
        + apply config_ext; [done|]. by apply (ss_others _ _ _ _ Hs).
      - intros u w H. by apply (ss_depends _ _ _ _ Hs). }
    split; [done|]. eapply pgrow_pureinv; [exact G| |exact HPk]. apply (ss_cached _ _ _ _ Hs). }
  assert (initial sk o = bd_init d) as Hini by (unfold initial; cbn; rewrite Ho; by subst d).
  subst d. cbn [bd_sty bd_init] in *. change (ch sk) with (make_known a o (ch s)) in Hm.
  assert ((∃ v, ensure_dyn_state a o sty init (make_known a o (ch s)) = (c2, inr v) ∧ config sk o = Some v ∧ sets_state sk o (Some v) (set_ch c2 sk)) ∨
    (ensure_dyn_state a o sty init (make_known a o (ch s)) = (c2, inl PkUser) ∧ config sk o = None ∧ sets_state sk o None (set_ch c2 sk))) as Hcase.
  { unfold config. rewrite Hini. destruct (state_of sk o) as [v|] eqn:Hst; [destruct Hm; eauto|].
    destruct init as [v|]; destruct Hm; eauto. }
  clear Hm. destruct Hcase as [(v & He & Hcfg & Hs)|(He & Hcfg & Hs)]; rewrite He.
  2: { destruct (Hss None Hs) as [G HP2]; [congruence|]. split; [done|]. intros k s' [= <- <-].
       assert (pgrow s (set_ch c2 s)) as G02 by (eapply pgrow_trans; [exact Gk|exact G]).
       split_and!; [exact HP2|exact G02|].
       eapply (evd_noinit _ _ _ o (BDef aty sty init body)).
       - unfold defs. cbn. by rewrite Ho.
       - destruct G02 as (_ & -> & _). by destruct Gk as (_ & <- & _). }
  destruct (Hss (Some v) Hs) as [G HP2]; [congruence|].
  set (s1 := log _ _).
  destruct (pureinv_ext (set_ch c2 sk) s1 HP2) as [HP1 G21]; [done..|].
  assert (pgrow s s1) as G01 by (eapply pgrow_trans; [exact Gk|eapply pgrow_trans; [exact G|exact G21]]).
  destruct (ensure_prims E o s (BDef aty sty init body) a c2 (inr v) Hp) as (E1 & Ea & Ek & Ed).
  { exact He. }
  assert (prims s s1) as P01.
  { eapply rtc_r; [exact E1|]. eapply (pm_push E (set_ch c2 s)); eauto. cbn. congruence. }
  assert (Inv s1) as I1 by (by eapply prims_Inv).
  assert (config s1 o = Some v) as Hc1.
  { destruct G01 as (_ & -> & _). by destruct Gk as (_ & <- & _). }
  assert (pure_prog body) as Hpp by (apply (proj1 HP o _ a Ho)).
  destruct (exec_pure (build E n) o (BDef aty sty init body) a (stack s) v (build_bld_ok E n) (build_user E n) IH
    body s1 Hpp I1 HP1 eq_refl Ho Hc1) as [X1 X2].
  destruct (exec_prims E (build E n) o (BDef aty sty init body) a (stack s) (build_bld_ok E n) body s1) as [Y1 Y2];
    [exact (i_wf _ I1)|done..|].
  cbn [bd_sty] in *.
  assert (∀ s2, pgrow s s2 → evb_at s2 o v body = evb_at s2 o v body) as _ by done.
  destruct (exec E (build E n) o a sty body s1) as [[b|e] s2|k s2| |] eqn:Hx; [..|by split|by split].
  - destruct (X1 _ _ eq_refl) as (HP' & G12 & Hev).
    assert (prims s1 s2) as P12 by (apply Y1; left; eauto).
    assert (Inv s2) as I2' by (by eapply prims_Inv).
    cbn [artifacts set_artifacts]. rewrite lookup_insert. split; [|done]. intros r s' [= <- <-].
    set (s3 := set_stack _ _).
    assert (prim s2 s3) as P23.
    { assert (stack s2 = o :: stack s) as Hst2 by (by rewrite (Y2 _ _ eq_refl)).
      eapply (pm_ok E s2 o (BDef aty sty init body) a (stack s) b); [exact Hst2|].
      destruct G12 as (-> & _). exact Ho. }
    assert (pgrow s2 s3) as G23.
    { split_and!; [done| |].
      - intros o'. by apply config_ext.
      - intros u w. apply prims_dep_mono; [done|]. by apply rtc_once. }
    assert (pgrow s s3) as G03 by (eapply pgrow_trans; [exact G01|eapply pgrow_trans; [exact G12|exact G23]]).
    assert (ev_at s3 o (EvRet (Ok b))) as Hfin.
    { eapply (evd_body _ _ _ o (BDef aty sty init body) v).
      - unfold defs. destruct G03 as (-> & _). by rewrite Ho.
      - destruct G03 as (_ & -> & _). by destruct Gk as (_ & <- & _).
      - by apply (pgrow_evD s2 s3 G23). }
    split_and!; [|done|exact Hfin]. split.
    + destruct G03 as (-> & _). apply HP.
    + intros u b' Hc. rewrite (prim_cached_exact E s2 s3 [EBuilt o b] u I2' P23 eq_refl) in Hc.
      destruct (decide (o = u)) as [->|Hne].
      * injection Hc as <-. exact Hfin.
      * apply (pgrow_evD s2 s3 G23). by apply HP'.
  - destruct (X1 _ _ eq_refl) as (HP' & G12 & Hev). split; [|done]. intros r s' [= <- <-].
    set (s3 := set_stack _ _). destruct (pureinv_ext s2 s3 HP') as [HP3 G23]; [done..|].
    assert (pgrow s s3) as G03 by (eapply pgrow_trans; [exact G01|eapply pgrow_trans; [exact G12|exact G23]]).
    split_and!; [done..|]. eapply (evd_body _ _ _ o (BDef aty sty init body) v).
    + unfold defs. destruct G03 as (-> & _). by rewrite Ho.
    + destruct G03 as (_ & -> & _). by destruct Gk as (_ & <- & _).
    + by apply (pgrow_evD s2 s3 G23).
  - destruct (X2 _ _ eq_refl) as (HP' & G12 & Hev). split; [done|]. intros k' s' [= <- <-].
    assert (pgrow s s2) as G02 by (eapply pgrow_trans; [exact G01|exact G12]).
    split_and!; [done..|]. eapply (evd_body _ _ _ o (BDef aty sty init body) v); [| |exact Hev].
    + unfold defs. destruct G02 as (-> & _). by rewrite Ho.
    + destruct G02 as (_ & -> & _). by destruct Gk as (_ & <- & _).
Qed.

Lemma get_pure n h o s :
  Inv s → pureinv s →
  pure_out s (get E n h o s) (λ rv s', ∃ x, ev_at s' o (EvRet x) ∧ rv = handed h x) (λ s', ev_at s' o EvPanic).
Proof. intros I HP. apply get_with_pure; [apply build_user|apply build_pure|done|done]. Qed.

(** ** Histories *)
Lemma forgets_pureinv s s' (F G : obj → Prop) :
  forgets s F G s' → (∀ u w, depends s u w → F w → F u) → (∀ o, G o → F o) → pureinv s → pureinv s'.
Proof.
  intros Hf Hcl HGF [H1 H2]. split; [rewrite (fg_objs _ _ _ _ Hf); exact H1|]. intros u b Hb.
  assert (¬ F u) as Hu by (intros HF; rewrite (fg_gone _ _ _ _ Hf) in Hb; done).
  rewrite (fg_kept _ _ _ _ Hf) in Hb by done.
  refine (proj1 (evD_change (depends s) (depends s') (defs s) (defs s') (config s) (config s') F Hcl _ _ _) u _ (H2 u b Hb) Hu).
  - intros u' w' Hd Hn. apply (fg_depends _ _ _ _ Hf). split_and!; [done..|]. eauto.
  - intros o d _. unfold defs. by rewrite (fg_objs _ _ _ _ Hf).
  - intros o d Hn _. apply config_ext; [apply (fg_objs _ _ _ _ Hf)|]. apply (fg_state_kept _ _ _ _ Hf). auto.
Qed.

Lemma step_pure n x s s' :
  Inv s → stack s = [] → pure_op s x → goes (step E n x s) s' → pureinv s → pureinv (unwound s').
Proof.
  intros I Hst Hop Hg HP. pose proof (step_effect E n x s s' I Hst Hg) as He.
  assert (pureinv s' → pureinv (unwound s')) as Hun by (intros H; by apply (pureinv_ext s')).
  apply Hun. clear Hun.
  assert (∀ o, ∀ u w, depends s u w → affected s o w → affected s o u) as Hcl.
  { intros o u w Hd Ha. by eapply rtc_r. }
  destruct x as [d|o|h o|o f|h o|o f|o|o f|o|o|o| | | |o| ]; cbn [effect_of] in He; try (by subst).
  - unfold goes in Hg. cbn [step] in Hg. destruct (alloc E d s) as [[o s1]|] eqn:Ha; [|by gd].
    destruct Hg as [[? [= _ <-]]|(? & ? & ?)]; [|done]. cbn in Hop.
    assert (prim s s1) as Hp by (by eapply pm_alloc).
    apply alloc_Some in Ha as (-> & -> & _). set (s' := St _ _ _ _ _ _ _ _ _) in *. destruct HP as [H1 H2]. split.
    + intros o' d' a'. cbn. intros [[<- [= <- <-]]|[_ ?]]%lookup_insert_Some; [done|]. by eapply H1.
    + intros u b Hb.
      assert (objs s !! nobj s = None) as Hfr.
      { destruct (objs s !! nobj s) eqn:Hq; [|done]. apply (i_num _ I) in Hq. lia. }
      rewrite (prim_cached_exact E s s' [] u I Hp eq_refl) in Hb.
      refine (proj1 (evD_change (depends s) (depends s') (defs s) (defs s') (config s) (config s') (λ _, False) _ _ _ _) u _ (H2 u b Hb) _); try done.
      * intros u' w' Hd _. apply (prims_dep_mono s); [done|by apply rtc_once|done].
      * intros o' d' _. unfold defs. cbn. destruct (decide (o' = nobj s)) as [->|Hne]; [by rewrite Hfr|].
        by rewrite lookup_insert_ne.
      * intros o' d' _. unfold defs, config, state_of, initial. cbn.
        destruct (decide (o' = nobj s)) as [->|Hne]; [by rewrite Hfr|]. by rewrite lookup_insert_ne.
      * by intros [].
  - unfold goes in Hg. cbn [step] in Hg. destruct (drop_obj o s) as [s1|] eqn:Ha; [|by gd].
    destruct Hg as [[? [= _ <-]]|(? & ? & ?)]; [|done]. apply drop_Some in Ha as (_ & _ & ->). by apply (pureinv_ext s).
  - clear He. pose proof (get_pure n h o s I HP) as [H1 H2]. unfold goes in Hg. cbn [step] in Hg.
    destruct (get E n h o s) as [rv s1|k s1| |]; [..|by gd|by gd].
    + destruct Hg as [[? [= _ <-]]|(? & ? & ?)]; [|done]. by apply (H1 _ _ eq_refl).
    + destruct Hg as [[? ?]|(? & [= _ <-] & ?)]; [done|]. by apply (H2 _ _ eq_refl).
  - destruct He as (Hl & [->|(Hnone & Hs & Ha)]); [done|].
    assert (pgrow s s') as G.
    { split_and!; [apply (ss_objs _ _ _ _ Hs)| |].
      - intros w. destruct (decide (w = o)) as [->|Hne].
        + unfold config. rewrite (ss_state _ _ _ _ Hs), Hnone. destruct (initial s o) eqn:Hi; [done|].
          unfold initial in *. by rewrite (ss_objs _ _ _ _ Hs).
        + apply config_ext; [apply (ss_objs _ _ _ _ Hs)|by apply (ss_others _ _ _ _ Hs)].
      - intros u w H. by apply (ss_depends _ _ _ _ Hs). }
    eapply pgrow_pureinv; [exact G|apply (ss_cached _ _ _ _ Hs)|done].
  - destruct He as (Hl & s1 & Hf & Ha & Hs). destruct HP as [H1 H2].
    assert (objs s' = objs s) as Ho by (rewrite (ss_objs _ _ _ _ Hs); apply (fg_objs _ _ _ _ Hf)).
    split; [by rewrite Ho|]. intros u b Hb. rewrite (ss_cached _ _ _ _ Hs) in Hb.
    assert (¬ affected s o u) as Hu by (intros HF; rewrite (fg_gone _ _ _ _ Hf) in Hb; done).
    rewrite (fg_kept _ _ _ _ Hf) in Hb by done.
    refine (proj1 (evD_change (depends s) (depends s') (defs s) (defs s') (config s) (config s') (affected s o) (Hcl o) _ _ _) u _ (H2 u b Hb) Hu).
    + intros u' w' Hd Hn. apply (ss_depends _ _ _ _ Hs), (fg_depends _ _ _ _ Hf). split_and!; [done..|]. eauto.
    + intros o' d _. unfold defs. by rewrite Ho.
    + intros o' d Hn _. apply config_ext; [done|]. rewrite (ss_others _ _ _ _ Hs), (fg_state_kept _ _ _ _ Hf); [done|tauto|].
      intros ->. apply Hn. apply rtc_refl.
  - destruct He as (_ & Hf & _). eapply forgets_pureinv; [exact Hf|apply Hcl|done|done].
  - destruct He as (_ & Hf & _). eapply forgets_pureinv; [exact Hf|apply Hcl| |done]. intros ? <-. apply rtc_refl.
  - destruct He as (Hf & _). eapply forgets_pureinv; [exact Hf|done|done|done].
  - destruct He as (Hf & _). eapply forgets_pureinv; [exact Hf|done|done|done].
  - destruct He as [(Hf & _)| ->]; [|by apply (pureinv_ext s)]. eapply forgets_pureinv; [exact Hf| |done|done].
    intros u w Hd (_ & _ & Hn). by apply Hn in Hd.
Qed.

Lemma reach_pure s : reach_by E pure_op s → pureinv s.
Proof.
  intros [l Hr]. refine (runs_inv E pure_op pureinv init_st l s Inv_init eq_refl _ _ Hr).
  - split; [|by intros u b]. intros o d a. cbn. by rewrite lookup_empty.
  - intros n x s1 s2 I1 Hst1 H1 Hx Hg. exact (step_pure n x s1 s2 I1 Hst1 Hx Hg H1).
Qed.

(** All builders satisfy a property that all allocated ones do. *)
Lemma get_transparent n h o s :
  reach_by E pure_op s →
  (∀ r s', step E n (OGet h o) s = Done r s' →
     ∃ x, evals (defs s) (config s) o (EvRet x) ∧ r = OutRes (handed h x)) ∧
  (∀ k s', step E n (OGet h o) s = Panic k s' → evals (defs s) (config s) o EvPanic).
Proof.
  intros Hr. pose proof (reach_pure s Hr) as HP. apply reach_Inv in Hr as [I Hst].
  pose proof (get_pure n h o s I HP) as [H1 H2].
  assert (∀ s' r, pgrow s s' → ev_at s' o r → evals (defs s) (config s) o r) as Hback.
  { intros s' r (G1 & G2 & G3) Hev. 
    assert (evD (λ _ _, True) (defs s) (config s) o r) as Hd.
    { refine (proj1 (evD_change (depends s') (λ _ _, True) (defs s') (defs s) (config s') (config s) (λ _, False) _ _ _ _) o _ Hev _); try done.
      - intros o' d _. unfold defs. by rewrite G1.
      - by intros []. }
    by apply evD_evals in Hd. }
  cbn [step]. destruct (get E n h o s) as [rv s1|k s1| |]; [..|by split|by split].
  - split; [|done]. intros r s' [= <- <-]. destruct (H1 _ _ eq_refl) as (_ & G & x & Hx & ->). exists x. eauto.
  - split; [done|]. intros k' s' [= <- <-]. destruct (H2 _ _ eq_refl) as (_ & G & Hx). eauto.
Qed.
End EvalFacts.

(** ** The evaluator *)
Lemma eval_sound B σ n o p r p' : eval B σ n o p = Some (r, p') → evals B σ o r.
Proof.
  revert o p r p'. induction n as [|n IH]; intros o p r p'; [done|]. cbn [eval].
  destruct (B o) as [d|] eqn:Hd; [|done]. destruct (σ o) as [v|] eqn:Hv.
  - intros Hb. eapply ev_body; [done..|]. clear Hd. revert p r p' Hb. generalize (bd_body d). intros c.
    induction c as [r0| |h w k IHk|k IHk|v' c IHk|k IHk|v' k IHk|d' k IHk|w c IHk]; intros p r p'; cbn [eval_body]; try done.
    + intros [= <- <-]. constructor.
    + intros [= <- <-]. constructor.
    + destruct (eval B σ n w p) as [[[x|] p1]|] eqn:Hw; [| |done].
      * intros Hk. eapply eb_resolve; [by eapply IH|by eapply IHk].
      * intros [= <- <-]. eapply eb_resolve_panic. by eapply IH.
    + intros Hk. eapply eb_state, IHk, Hk.
    + intros Hk. eapply eb_newbin, IHk, Hk.
  - intros [= <- <-]. by eapply ev_noinit.
Qed.

(** ** Up to addresses, evaluation is deterministic *)
Lemma strip_handed h x x' : strip_res x = strip_res x' → strip_rval (handed h x) = strip_rval (handed h x').
Proof.
  destruct x as [b|e], x' as [b'|e']; cbn; unfold strip_bin; intros H; simplify_eq/=.
  - destruct h; cbn; unfold strip_bin; cbn; congruence.
  - congruence.
Qed.

Lemma evals_det B σ :
  (∀ o d, B o = Some d → oblivious (bd_body d)) →
  (∀ o r, evals B σ o r → ∀ r', evals B σ o r' → strip_eres r = strip_eres r') ∧
  (∀ v c r, evals_body B σ v c r → ∀ c' r', alike c c' → evals_body B σ v c' r' → strip_eres r = strip_eres r').
Proof.
  intros HB.
  apply (evals_both B σ (λ o r _, ∀ r', evals B σ o r' → strip_eres r = strip_eres r')
    (λ v c r _, ∀ c' r', alike c c' → evals_body B σ v c' r' → strip_eres r = strip_eres r')).
  - intros o d Hd Hs r' H. inversion H; simplify_eq; done.
  - intros o d v r Hd Hs _ IH r' H. inversion H as [|? d' v' ? Hd' Hs' Hb]; simplify_eq. eapply IH; [|exact Hb]. by eapply HB.
  - intros v r c' r' Ha H. inversion Ha; simplify_eq. inversion H; simplify_eq. cbn. by f_equal.
  - intros v c' r' Ha H. inversion Ha; simplify_eq. by inversion H; simplify_eq.
  - intros v h w k x r Hw IHw Hk IHk c' r' Ha H. inversion Ha as [| |? ? ? k' Hkk| |]; simplify_eq.
    inversion H as [| |? ? ? ? x' ? Hw' Hk'|? ? ? ? Hw'| |]; simplify_eq.
    + eapply IHk; [|exact Hk']. apply Hkk, strip_handed. specialize (IHw _ Hw'). cbn in IHw. congruence.
    + specialize (IHw _ Hw'). done.
  - intros v h w k Hw IHw c' r' Ha H. inversion Ha as [| |? ? ? k' Hkk| |]; simplify_eq.
    inversion H as [| |? ? ? ? x' ? Hw' Hk'|? ? ? ? Hw'| |]; simplify_eq; [|done]. specialize (IHw _ Hw'). done.
  - intros v k r Hk IHk c' r' Ha H. inversion Ha; simplify_eq. inversion H; simplify_eq. eauto.
  - intros v x k p r Hk IHk c' r' Ha H. inversion Ha; simplify_eq. inversion H; simplify_eq. eauto.
Qed.
