(** A [get] has an answer whenever the evaluation from scratch has one. *)
From Verif Require Export EvalFacts RankFacts.
From stdpp Require Import relations.

Section Total.
Context (E : env) (B : obj → option bdef) (σ : obj → option val).
Context (HB : ∀ o d, B o = Some d → oblivious (bd_body d)).
Local Notation prim := (Prims.prim E).
Local Notation prims := (rtc prim).

Definition fits (s : st) : Prop := ∀ o, defs s o = B o ∧ config s o = σ o.
Lemma fits_grow s s' : fits s → pgrow s s' → fits s'.
Proof. intros Hf (G1 & G2 & _) o. unfold defs. rewrite G1, G2. apply Hf. Qed.
Lemma fits_eval s o r : fits s → ev_at s o r → evals B σ o r.
Proof.
  intros Hf Hev. assert (evD (λ _ _, True) B σ o r) as Hd; [|by apply evD_evals in Hd].
  refine (proj1 (evD_change (depends s) (λ _ _, True) (defs s) B (config s) σ (λ _, False) _ _ _ _) o _ Hev _); try done.
  - intros o' d _. by rewrite (proj1 (Hf o')).
  - intros o' d _ _. symmetry. apply Hf.
  - by intros [].
Qed.

Definition bld_total (n : nat) (bld : obj → st → outcome bres) : Prop :=
  ∀ o s d a p rp, Inv s → pureinv s → fits s → promise o s = Some (d, a) → artifacts (ch s) !! a = None →
    eval B σ n o p = Some rp → bld o s ≠ NoFuel.

Lemma get_with_total n bld h o s p rp :
  bld_total n bld → Inv s → pureinv s → fits s → eval B σ n o p = Some rp → get_with E bld h o s ≠ NoFuel.
Proof.
  intros Ht I HP Hf Hev. unfold get_with. destruct (promise o s) as [[d a]|] eqn:Hp; [|done].
  destruct (how_legal E h); [|done].
  rewrite (lookup_art_ok _ o s d a I Hp).
  destruct (artifacts (ch s) !! a) as [e|] eqn:He; [done|].
  pose proof (Ht o s d a p rp I HP Hf Hp He Hev) as H.
  destruct (bld o s) as [[e|e] s1|k s1| |]; try done. by destruct (_ =? _)%N.
Qed.

Lemma exec_total n bld u du ua S v :
  bld_ok E bld → bld_user bld → bld_pure bld → bld_total n bld → ∀ p s, pure_prog p → Inv s → pureinv s → fits s →
  stack s = u :: S → objs s !! u = Some (du, ua) → config s u = Some v →
  ∀ p' q rp, alike p p' → eval_body (eval B σ n) v p' q = Some rp →
  exec E bld u ua (bd_sty du) p s ≠ NoFuel.
Proof.
  intros Hb Hbu Hbp Hbt p.
  induction p as [r| |h w k IH|k IH|v' p IH|k IH|v' k IH|d k IH|w p IH];
    intros s Hpp I HP Hf Hst Hu Hv p' q rp Ha Hev; cbn [exec]; try done.
  - cbn in Hpp. inversion Ha as [| |? ? ? k' Hkk| |]; subst. cbn [eval_body] in Hev.
    destruct (eval B σ n w q) as [rq|] eqn:Hw; [|done].
    unfold resolve_with. destruct (promise w s) as [[d wa]|] eqn:Hp; [|done].
    unfold track_dependency.
    destruct (i_stack _ I u) as (_ & d' & a' & Hu' & Hku & Hdu); [rewrite Hst; left|].
    assert (a' = ua ∧ d' = du) as [-> ->] by (split; congruence).
    assert (prim s (set_ch (make_known wa w (ch s)) s)) as P1 by (eapply pm_know; eauto).
    pose proof (prim_Inv E _ _ P1 I) as I1.
    assert (known (make_known wa w (ch s)) !! ua = Some u) as Hku1 by (by apply make_known_mono).
    unfold is_known. rewrite (bool_decide_eq_true_2 (is_Some _)) by (rewrite Hku1; eauto).
    rewrite andb_false_r.
    set (s1 := log (EResolve u w) (set_ch (add_edge ua wa (make_known wa w (ch s))) s)).
    assert (prim (set_ch (make_known wa w (ch s)) s) s1) as P2.
    { eapply (pm_edge E (set_ch (make_known wa w (ch s)) s)); try done. apply make_known_known. }
    assert (prims s s1) as P01 by (eapply rtc_l; [exact P1|by apply rtc_once]).
    pose proof (prim_Inv E _ _ P2 I1) as I2.
    assert (pgrow s s1) as G01.
    { split_and!; [done| |].
      - intros o. apply config_ext; [done|]. apply state_ext; [done..| |].
        + cbn. by destruct (make_known_fields wa w (ch s)) as (_ & -> & _).
        + intros a o' Hk. cbn. by apply make_known_mono.
      - intros u' w'. by apply (prims_dep_mono E). }
    assert (pureinv s1) as HP1.
    { eapply pgrow_pureinv; [exact G01| |exact HP]. intros o.
      eapply (prims_cached_same E s s1 [EResolve u w]); [done..|]. set_solver. }
    pose proof (fits_grow _ _ Hf G01) as Hf1.
    pose proof (get_with_pure E bld h w s1 Hbu Hbp I2 HP1) as [H1 H2].
    pose proof (get_with_prims E bld h w s1 Hb (i_wf _ I2)) as [Q1 Q2].
    pose proof (get_with_total n bld h w s1 q rq Hbt I2 HP1 Hf1 Hw) as Hnf.
    change (log (EResolve u w) _) with s1.
    destruct (get_with E bld h w s1) as [rv s2|pk s2| |] eqn:Hgw; try done.
    destruct (H1 _ _ eq_refl) as (HP2 & G12 & x & Hx & ->).
    assert (prims s1 s2) as P12 by (apply Q1; left; eauto).
    assert (Inv s2) as I2' by (by eapply prims_Inv).
    set (s3 := log (EGot u w (handed h x)) s2).
    destruct (pureinv_ext s2 s3 HP2) as [HP3 G23]; [done..|].
    assert (pgrow s s3) as G03 by (eapply pgrow_trans; [exact G01|eapply pgrow_trans; [exact G12|exact G23]]).
    assert (Inv s3) as I3 by (by apply Inv_log).
    destruct (Q2 _ _ eq_refl) as [Hst2 _].
    pose proof (fits_grow _ _ Hf1 G12) as Hf2. pose proof (fits_grow _ _ Hf2 G23) as Hf3.
    pose proof (fits_eval s2 w _ Hf2 Hx) as Hx'. destruct rq as [y q'].
    pose proof (eval_sound B σ n w q y q' Hw) as Hy.
    pose proof (proj1 (evals_det B σ HB) w _ Hx' _ Hy) as Hxy.
    destruct y as [y|]; [|done]. cbn in Hxy. injection Hxy as Hxy.
    eapply (IH (handed h x) s3); try done.
    + cbn. by rewrite Hst2.
    + by destruct G03 as (-> & _).
    + by destruct G03 as (_ & -> & _).
    + apply Hkk. by apply strip_handed.
  - cbn in Hpp. destruct (i_stack _ I u) as (_ & d' & a' & Hu' & Hku & [v' Hv']); [rewrite Hst; left|].
    assert (a' = ua ∧ d' = du) as [-> ->] by (split; congruence).
    unfold my_state, is_known. rewrite Hku, Hv'.
    rewrite (bool_decide_eq_true_2 (is_Some (Some u))) by eauto. rewrite !andb_false_r.
    rewrite (ci_dyn_ty _ _ (i_c _ I) ua v' u du Hv' Hku Hu), N.eqb_refl.
    assert (ds_val v' = v) as ->.
    { unfold config in Hv. rewrite (state_at s u du ua Hu Hku), Hv' in Hv. cbn in Hv. congruence. }
    inversion Ha as [| | |? k' Hkk|]; subst. cbn [eval_body] in Hev. by eapply (IH v s).
  - cbn in Hpp. set (s1 := set_nbin _ s). destruct (pureinv_ext s s1 HP) as [HP1 G01]; [done..|].
    assert (Inv s1) as I1 by (eapply (prim_Inv E); [apply (pm_newbin E)|done]).
    inversion Ha as [| | | |? x' ? k' Hxx Hkk]; subst. cbn [eval_body] in Hev.
    eapply (IH (Bin (nbin s) v') s1); done.
Qed.

Lemma build_total n : bld_total n (build E n).
Proof.
  induction n as [|n IH]; intros o s d a p rp I HP Hf Hp Hn Hev; [done|]. cbn [build]. rewrite Hp.
  destruct d as [aty sty init body] eqn:Hd. unfold contains_artifact. rewrite Hn.
  rewrite (bool_decide_eq_false_2 (is_Some None)) by (intros [? ?]; done). rewrite andb_false_r.
  apply promise_Some in Hp as Hp'. destruct Hp' as [Hal Ho].
  set (sk := set_ch (make_known a o (ch s)) s).
  assert (prim s sk) as Pk by (eapply pm_know; eauto).
  assert (Inv sk) as Ik by (eapply (prim_Inv E); [exact Pk|done]).
  assert (pgrow s sk) as Gk.
  { split_and!; [done| |].
    - intros o'. apply config_ext; [done|]. apply state_ext; [done..| |].
      + cbn. by destruct (make_known_fields a o (ch s)) as (_ & -> & _).
      + intros a' o'' Hk. cbn. by apply make_known_mono.
    - intros u' w'. apply (prims_dep_mono E); [done|]. by apply rtc_once. }
  assert (pureinv sk) as HPk.
  { eapply pgrow_pureinv; [exact Gk| |exact HP]. intros o'.
    eapply (prims_cached_same E s sk []); [done|by apply rtc_once|done|set_solver]. }
  destruct (ensure_effect E o sk d a Ik) as (c2 & I2 & Hm); [by subst d|].
  assert (∀ v, sets_state sk o v (set_ch c2 sk) → v = config sk o → pgrow sk (set_ch c2 sk) ∧ pureinv (set_ch c2 sk)) as Hss.
  { intros v Hs Hv. assert (pgrow sk (set_ch c2 sk)) as G.
    { split_and!; [done| |].
      - intros w. destruct (decide (w = o)) as [->|Hne].
        + unfold config at 1. rewrite (ss_state _ _ _ _ Hs), Hv. destruct (config sk o) eqn:Hc; [done|].
          unfold config in Hc. destruct (state_of sk o); [done|]. exact Hc.
        + apply config_ext; [done|]. by apply (ss_others _ _ _ _ Hs).
      - intros u w H. by apply (ss_depends _ _ _ _ Hs). }
    split; [done|]. eapply pgrow_pureinv; [exact G| |exact HPk]. apply (ss_cached _ _ _ _ Hs). }
  assert (initial sk o = bd_init d) as Hini by (unfold initial; cbn; rewrite Ho; by subst d).
  subst d. cbn [bd_sty bd_init] in *. change (ch sk) with (make_known a o (ch s)) in Hm.
  assert ((∃ v, ensure_dyn_state a o sty init (make_known a o (ch s)) = (c2, inr v) ∧ config sk o = Some v ∧ sets_state sk o (Some v) (set_ch c2 sk)) ∨
    ∃ k, ensure_dyn_state a o sty init (make_known a o (ch s)) = (c2, inl k)) as Hcase.
  { unfold config. rewrite Hini. destruct (state_of sk o) as [v|] eqn:Hst; [destruct Hm; eauto|].
    destruct init as [v|]; destruct Hm; eauto. }
  clear Hm. destruct Hcase as [(v & He & Hcfg & Hs)|(k & He)]; rewrite He; [|done].
  destruct (Hss (Some v) Hs) as [G HP2]; [congruence|].
  set (s1 := log _ _).
  destruct (pureinv_ext (set_ch c2 sk) s1 HP2) as [HP1 G21]; [done..|].
  assert (pgrow s s1) as G01 by (eapply pgrow_trans; [exact Gk|eapply pgrow_trans; [exact G|exact G21]]).
  destruct (ensure_prims E o s (BDef aty sty init body) a c2 (inr v) Hp) as (E1 & Ea & Ek & Ed).
  { exact He. }
  assert (prims s s1) as P01.
  { eapply rtc_r; [exact E1|]. eapply (pm_push E (set_ch c2 s)); eauto. cbn. congruence. }
  assert (Inv s1) as I1 by (by eapply prims_Inv).
  assert (config s1 o = Some v) as Hc1.
  { destruct G01 as (_ & -> & _). by destruct Gk as (_ & <- & _). }
  assert (pure_prog body) as Hpp by (apply (proj1 HP o _ a Ho)).
  destruct (Hf o) as [Hdo Hco]. unfold defs in Hdo. rewrite Ho in Hdo. cbn in Hdo.
  assert (σ o = Some v) as Hso by (rewrite <- Hco; by destruct Gk as (_ & <- & _)).
  cbn [eval] in Hev. rewrite <- Hdo, Hso in Hev. cbn [bd_body] in Hev.
  assert (oblivious body) as Hob by (by apply (HB o (BDef aty sty init body))).
  pose proof (exec_total n (build E n) o (BDef aty sty init body) a (stack s) v (build_bld_ok E n) (build_user E n)
    (build_pure E n) IH body s1 Hpp I1 HP1 (fits_grow _ _ Hf G01) eq_refl Ho Hc1 body p rp Hob Hev) as Hx.
  cbn [bd_sty] in Hx.
  destruct (exec E (build E n) o a sty body s1) as [[b|e] s2|k s2| |]; try done.
  cbn [artifacts set_artifacts]. by rewrite lookup_insert.
Qed.
End Total.

(** ** Oblivious builders *)
Lemma pure_oblivious_pure E s : reach_by E pure_oblivious_op s → reach_by E pure_op s.
Proof.
  intros [l Hl]. exists l. eapply runs_mono; [|exact Hl]. intros s' [] H; try done. apply H.
Qed.

Lemma reach_oblivious E s : reach_by E pure_oblivious_op s → ∀ o d, defs s o = Some d → oblivious (bd_body d).
Proof.
  intros [l Hr].
  assert (pureinv s ∧ ∀ o d a, objs s !! o = Some (d, a) → oblivious (bd_body d)) as [_ H].
  { refine (runs_inv E pure_oblivious_op (λ s, pureinv s ∧ ∀ o d a, objs s !! o = Some (d, a) → oblivious (bd_body d))
      init_st l s Inv_init eq_refl _ _ Hr).
    - split; [split; [|by intros u b]|]; intros o d a; cbn; by rewrite lookup_empty.
    - intros n x s1 s2 I1 Hst1 [H1 H2] Hx Hg.
      assert (pure_op s1 x) as Hx' by (destruct x; try done; apply Hx).
      split; [exact (step_pure E n x s1 s2 I1 Hst1 Hx' Hg H1)|]. cbn [unwound objs set_stack].
      assert (buildless x → (∀ d, x ≠ OAlloc d) → ∀ o d a, objs s2 !! o = Some (d, a) → oblivious (bd_body d)) as Hsame.
      { intros Hb Hna. by destruct (step_objs E n x s1 s2 I1 Hst1 Hb Hna Hg) as [-> _]. }
      destruct x as [d|o|h o|o f|h o|o f|o|o f|o|o|o| | | |o| ]; try (by apply Hsame); try done.
      + unfold goes in Hg. cbn [step] in Hg. destruct (alloc E d s1) as [[o s3]|] eqn:Ha; [|by gd].
        destruct Hg as [[? [= _ <-]]|(? & ? & ?)]; [|done]. apply alloc_Some in Ha as (-> & -> & _).
        intros o' d' a'. cbn. intros [[<- [= <- <-]]|[_ ?]]%lookup_insert_Some; [apply Hx|]. by eapply H2.
      + pose proof (get_pure E n h o s1 I1 H1) as [X1 X2]. unfold goes in Hg. cbn [step] in Hg.
        destruct (get E n h o s1) as [rv s3|k s3| |]; [..|by gd|by gd].
        * destruct Hg as [[? [= _ <-]]|(? & ? & ?)]; [|done]. destruct (X1 _ _ eq_refl) as (_ & (-> & _) & _). exact H2.
        * destruct Hg as [[? ?]|(? & [= _ <-] & ?)]; [done|]. destruct (X2 _ _ eq_refl) as (_ & (-> & _) & _). exact H2. }
  intros o d. unfold defs. destruct (objs s !! o) as [[d' a]|] eqn:Ho; [|done]. cbn. intros [= ->]. by eapply H.
Qed.

(** The getter ends if the evaluation does. *)
Lemma get_total E n h o s p rp :
  reach_by E pure_oblivious_op s → eval (defs s) (config s) n o p = Some rp → step E n (OGet h o) s ≠ NoFuel.
Proof.
  intros Hr Hev. pose proof (reach_oblivious E s Hr) as Hob.
  apply pure_oblivious_pure in Hr. pose proof (reach_pure E s Hr) as HP. apply reach_Inv in Hr as [I Hst].
  pose proof (get_with_total E (defs s) (config s) n (build E n) h o s p rp (build_total E _ _ Hob n) I HP
    (λ o, conj eq_refl eq_refl) Hev) as H.
  cbn [step]. unfold get. by destruct (get_with E (build E n) h o s).
Qed.
